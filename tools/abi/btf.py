import struct,sys
def load(fn,en='<'):
    b=open(fn,'rb').read()
    mg,ver,fl,hl,to,tl,so,sl=struct.unpack(en+'HBBIIIII',b[:24])
    st=b[hl+so:hl+so+sl]
    def nm(o): return None if o==0 else st[o:st.index(0,o)].decode()
    p=hl+to; e=p+tl; ts=[]
    u=lambda n,p: struct.unpack(en+'%dI'%n,b[p:p+4*n])
    while p<e:
        n,info,sz=u(3,p); p+=12
        k=info>>24&31; v=info&0xffff; kf=info>>31
        r=[k,nm(n),v,kf,sz,info>>16&255]
        if k in(1,14,17): r.append(u(1,p)[0]); p+=4
        elif k==3: r.append(u(3,p)); p+=12
        elif k in(4,5):
            ms=[]
            for i in range(v):
                a,t,o=u(3,p); p+=12; ms.append((nm(a),t,o))
            r.append(ms)
        elif k==6:
            ms=[]
            for i in range(v):
                a,o=u(2,p); p+=8; ms.append((nm(a),o))
            r.append(ms)
        elif k==13:
            ms=[]
            for i in range(v):
                a,o=u(2,p); p+=8; ms.append((nm(a),o))
            r.append(ms)
        elif k==15:
            ms=[]
            for i in range(v): ms.append(u(3,p)); p+=12
            r.append(ms)
        elif k==19:
            ms=[]
            for i in range(v):
                a,o,h=u(3,p); p+=12; ms.append((nm(a),o,h))
            r.append(ms)
        ts.append(r)
    return (mg,ver,fl,hl,to,tl,so,sl,len(b)),ts,st
if __name__=='__main__':
    h,ts,st=load(sys.argv[1]); print(h); 
    for i,t in enumerate(ts): print(i+1,t)
    print(st)
