import random,subprocess,struct,sys,collections
from port import *
R=random.Random(int(sys.argv[1])); N=int(sys.argv[2])
NAMES=['','a','b','x','next','list_head','void','caf\xe9','t\t"','foo','é2']
def gen():
    big=R.random()<.3; e='>' if big else '<'
    strs=b'\0'; offs={}
    names=[n.encode('latin-1') for n in NAMES]
    for n in names:
        offs[n]=len(strs) if n else R.choice([0,0,0]); 
        if n: strs+=n+b'\0'
    def no(anon=.3):
        if R.random()<anon: return 0
        if R.random()<.02: return R.randrange(0,len(strs)+3)
        return offs[R.choice(names)]
    nt=R.randrange(0,9); w=lambda x: struct.pack(e+'I',x&0xffffffff)
    ty=b''
    tid=lambda: R.choice([R.randrange(0,nt+2)]*8+[0,1,1<<31])
    small=lambda: R.choice([0,1,2,3,4,4,8,8,16,1<<20,1<<31,(1<<32)-1])
    for i in range(nt):
        k=R.choice([1,1,2,3,3,4,4,4,4,5,5,6,7,8,8,9,10,11,12,13,14,15,16,17,18,19,R.choice([0,20,31])]) if R.random()<.5 else R.choice([1,2,3,3,4,4,4,5,8])
        kf=R.random()<.4; vl=R.randrange(0,4) if k in(4,5,6,13,15,19) else (R.choice([0,0,0,0,0,1,2]))
        info=(k<<24)|vl|(1<<31 if kf else 0)|R.choice([0,0,0,0xff0000,0x60000000])
        lk=k in(2,7,8,9,10,11,12,13,14,17,18)
        ty+=w(no(.5 if k in(2,3,9,10,11,13) else .25))+w(info)+w(tid() if lk else small())
        if k==1: ty+=w(R.getrandbits(32))
        elif k==3: ty+=w(tid())+w(tid())+w(small())
        elif k in(4,5):
            for _ in range(vl):
                raw=R.choice([0,8,16,64,R.randrange(0,200),0xfffffff8]) if not kf or R.random()<.5 else R.getrandbits(32)
                if not kf and R.random()<.9: raw&=~7
                ty+=w(no(.35))+w(tid())+w(raw)
        elif k==6:
            for _ in range(vl): ty+=w(no(.1))+w(R.getrandbits(32))
        elif k==19:
            for _ in range(vl): ty+=w(no(.1))+w(R.getrandbits(32))+w(R.getrandbits(32))
        elif k==13:
            for _ in range(vl): ty+=w(no())+w(tid())
        elif k==15:
            for _ in range(vl): ty+=w(tid())+w(small())+w(small())
        elif k in(14,17): ty+=w(R.choice([0,1,2,0xffffffff]))
    if R.random()<.15: ty=ty[:R.randrange(0,len(ty)+1)]
    if R.random()<.1: ty+=bytes(R.randrange(0,14))
    hl=24; to=0; tl=len(ty); so=tl; sl=len(strs)
    if R.random()<.1: sl-=R.randrange(0,3)
    if R.random()<.06: tl=R.choice([tl+R.randrange(0,20),max(0,tl-R.randrange(0,20)),0xffffffff,(1<<32)-24,(1<<32)-25])
    if R.random()<.04: so=R.choice([0xffffffff,so+5,(1<<32)-24,(1<<32)-30])
    if R.random()<.03: to=R.choice([4,0xfffffff0,(1<<32)-24-R.randrange(0,30)])
    if R.random()<.03: hl=R.choice([0,16,32,0xffffffff])
    hdr=(b'\x9f\xeb' if not big else b'\xeb\x9f')+bytes([R.choice([1,0,7]),R.choice([0,1])])+w(hl)+w(to)+w(tl)+w(so)+w(sl)
    img=hdr+ty+strs
    if R.random()<.05: img=img[:R.randrange(0,len(img)+1)]
    if R.random()<.1:
        i=R.randrange(0,len(img)+0 or 1); img=img[:i]+bytes([R.getrandbits(8)])+img[i+1:]
    return img,nt
def path():
    s=''
    for i in range(R.randrange(0,4)):
        if R.random()<.3: s+='[%s]'%R.choice(['0','1','2','03','7','4294967295','4294967296','18446744073709551616','','x','²','3'])
        else: s+=('.' if s and R.random()<.95 else '')+R.choice(['a','b','x','next','foo','list_head','é2','caf\xe9','cafÃ©','_z','1a','void','É','µ','ª','b²','a-'])
    if R.random()<.12: s+=R.choice(['.','[',']','..','[1','é',' '])
    return s
cases=[]
for _ in range(N):
    img,nt=gen(); bits=R.choice([64,64,32]); ch=R.random()<.5
    mode=R.choice(['file']*6+['lenient','fail:%d'%R.randrange(0,60)])
    qs=[]
    for t in list(range(0,nt+2)):
        qs+=[('S',t),('P',t),('N',t)]
        for _ in range(5): qs.append(('O',t,path()))
    for n in R.sample(NAMES,3): qs.append(('I',n))
    cases.append((bits,ch,img,mode,qs))
inp='\n'.join(line(*c) for c in cases)+'\n'
out=subprocess.run(['./model'],input=inp,capture_output=True,text=True)
ol=out.stdout.split('\n'); bad=0; st=collections.Counter()
for c,o in zip(cases,ol):
    p=case(*c)
    for x in p.split('\t'): st[' '.join(x.split()[:2]) if x.startswith('err') else x.split()[0] if x.split() and x.split()[0] in('ok','panic','diverge') else '..']+=1
    if p!=o:
        bad+=1
        if bad<4:
            print('DIFF',line(*c)[:600]); 
            for a,b,q in zip(p.split('\t'),o.split('\t'),['load','short','reqs']+c[4]):
                if a!=b: print('  ',q,'\n   port ',a[:300],'\n   model',b[:300])
            if len(p.split('\t'))!=len(o.split('\t')): print('  LEN',len(p.split('\t')),len(o.split('\t')))
print('cases',len(cases),'lines',len(ol)-1,'bad',bad,dict(st)); print(out.stderr[:300])
