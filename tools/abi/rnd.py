import random,subprocess,sys
from btf import load
mode=sys.argv[1]; N=int(sys.argv[2]); random.seed(int(sys.argv[3]))
ptr=8 if mode=='-m64' else 4
base={'char':(1,1),'short':(2,2),'int':(4,4),'long long':(8,8 if mode=='-m64' else 4),'unsigned':(4,4),'_Bool':(1,1),'double':(8,8 if mode=='-m64' else 4),'float':(4,4),'void *':(ptr,ptr),'long':(ptr,ptr)}
ints=['char','short','int','long long','unsigned','long','_Bool']
ru=lambda n,a:-(-n//a)*a
UA=False
def lay(un,pk,al,fs):
    pos=0;ms=[]
    for (n,(s,a),w,fa) in fs:
        mem=not(n is None and w is not None)
        aof=max(1 if pk else a,fa) if w is None else (1 if pk or (not mem and not UA) else a)
        if un: start=0
        elif w is None: start=ru(pos,8*aof)
        elif w==0: start=ru(pos,8*a)
        else: start=pos if pk or (pos%(8*a)+w+8*a-1)//(8*a)<=s//a else ru(pos,8*a)
        stop=start+(8*s if w is None else w)
        pos=max(pos,stop) if un else stop
        al=max(al,aof)
        if mem: ms.append((n,start,w or 0))
    return ms,ru((pos+7)//8,al),al
src=[];exp={}
known=[]
for k in range(N):
    un=random.random()<.2; pk=random.random()<.25; al=random.choice([1,1,1,1,2,4,8,16])
    fs=[];txt=[]
    for j in range(random.randint(1,7)):
        n='m%d'%j
        r=random.random()
        if r<.45:
            t=random.choice(ints); sa=base[t]; mx=1 if t=='_Bool' else 8*sa[0]
            if random.random()<.25:
                w=random.randint(0,mx); fs.append((None,sa,w,1)); txt.append('%s :%d;'%(t,w))
            else:
                w=random.randint(1,mx); fs.append((n,sa,w,1)); txt.append('%s %s:%d;'%(t,n,w))
        elif r<.85 or not known:
            t=random.choice(list(base)); fa=random.choice([1,1,1,1,2,4,8,16])
            sa=base[t]; c=random.choice([0,0,0,3])
            a=' __attribute__((aligned(%d)))'%fa if fa>1 else ''
            fs.append((n,(sa[0]*c,sa[1]) if c else sa,None,fa)); txt.append('%s %s%s%s;'%(t,n,'[%d]'%c if c else '',a))
        else:
            kk=random.choice(known); fs.append((n,exp[kk][1:],None,1)); txt.append('%s %s;'%(kk,n))
    at=[]
    if pk: at.append('packed')
    if al>1: at.append('aligned(%d)'%al)
    kw='union' if un else 'struct'
    nm='%s s%d'%(kw,k)
    src.append('%s { %s }%s; %s v%d;'%(nm,' '.join(txt),' __attribute__((%s))'%','.join(at) if at else '',nm,k))
    exp[nm]=lay(un,pk,al,fs); known.append(nm)
open('r.c','w').write('\n'.join(src))
subprocess.run(['gcc',mode,'-gbtf','-w','-c','r.c','-o','r.o'],check=True)
subprocess.run('objcopy -O binary --only-section=.BTF --set-section-flags .BTF=alloc r.o r.btf',shell=True,check=True)
h,ts,st=load('r.btf'); bad=0;seen=0
for t in ts:
    if t[0] in(4,5) and t[1]:
        nm=('struct ' if t[0]==4 else 'union ')+t[1]
        ms,s,a=exp[nm]; seen+=1
        got=[(n,(o&0xffffff) if t[3] else o,(o>>24) if t[3] else 0) for n,ty,o in t[6]]
        if got!=ms or s!=t[4]:
            line=[l for l in src if l.startswith(nm+" {")][0]
            import re
            if re.match(r"struct s\d+ \{ [\w ]+ :\d+;",line) and got[1:]==ms[1:] and s==t[4]: continue
            bad+=1
            if bad<4: print(nm,'exp',ms,s,'got',got,t[4]); print([l for l in src if l.startswith(nm+' ')])
print(mode,seen,'bad',bad)
