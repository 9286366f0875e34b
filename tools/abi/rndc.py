import random,subprocess,sys
from btf import load
mode=sys.argv[1]; N=int(sys.argv[2]); random.seed(int(sys.argv[3]))
ptr=8 if mode!='i386-linux-gnu' else 4
base={'char':(1,1),'short':(2,2),'int':(4,4),'long long':(8,8 if mode!='i386-linux-gnu' else 4),'unsigned':(4,4),'_Bool':(1,1),'double':(8,8 if mode!='i386-linux-gnu' else 4),'float':(4,4),'void *':(ptr,ptr),'long':(ptr,ptr)}
ints=['char','short','int','long long','unsigned','long','_Bool']
ru=lambda n,a:-(-n//a)*a
UA=mode=='aarch64-linux-gnu'
def lay(un,pk,al,fs):
    pos=0;ms=[]
    for (n,(s,a),w,fa) in fs:
        mem=not(n is None and w is not None)
        aof=max(1 if pk else a,fa) if w is None else (1 if pk or (not mem and not UA) else a)
        if un: start=0
        elif w is None: start=ru(pos,8*aof)
        elif w==0: start=ru(pos,8*a)
        else: start=pos if pk or (pos%(8*a)+w+8*a-1)//(8*a)<=s//a else ru(pos,8*a)
        stop=start+(8*s if w is None else w)
        pos=max(pos,stop) if un else stop
        al=max(al,aof)
        if mem: ms.append((n,start,w or 0))
    return ms,ru((pos+7)//8,al),al
src=[];exp={}
known=[]
for k in range(N):
    un=random.random()<.2; pk=random.random()<.25; al=random.choice([1,1,1,1,2,4,8,16])
    fs=[];txt=[]
    for j in range(random.randint(1,7)):
        n='m%d'%j
        r=random.random()
        if r<.45:
            t=random.choice(ints); sa=base[t]; mx=1 if t=='_Bool' else 8*sa[0]
            if random.random()<.25:
                w=random.randint(0,mx); fs.append((None,sa,w,1)); txt.append('%s :%d;'%(t,w))
            else:
                w=random.randint(1,mx); fs.append((n,sa,w,1)); txt.append('%s %s:%d;'%(t,n,w))
        elif r<.85 or not known:
            t=random.choice(list(base)); fa=random.choice([1,1,1,1,2,4,8,16])
            sa=base[t]; c=random.choice([0,0,0,3])
            a=' __attribute__((aligned(%d)))'%fa if fa>1 else ''
            fs.append((n,(sa[0]*c,sa[1]) if c else sa,None,fa)); txt.append('%s %s%s%s;'%(t,n,'[%d]'%c if c else '',a))
        else:
            kk=random.choice(known); fs.append((n,exp[kk][1:],None,1)); txt.append('%s %s;'%(kk,n))
    at=[]
    if pk: at.append('packed')
    if al>1: at.append('aligned(%d)'%al)
    kw='union' if un else 'struct'
    nm='%s s%d'%(kw,k)
    src.append('%s { %s }%s; %s v%d;'%(nm,' '.join(txt),' __attribute__((%s))'%','.join(at) if at else '',nm,k))
    exp[nm]=lay(un,pk,al,fs); known.append(nm)
open('r.c','w').write('\n'.join(src))

import re
C='/app/lean4-4.33.0/build/release/stage1/bin/clang'
out=subprocess.run([C,'--target='+mode,'-w','-Xclang','-fdump-record-layouts','-S','-o','/dev/null','r.c'],stdout=subprocess.PIPE,text=True).stdout
bad=seen=0
for blk in out.split('*** Dumping AST Record Layout')[1:]:
    lines=blk.strip().split('\n'); nm=lines[0].split('|')[1].strip()
    if nm not in exp: continue
    seen+=1
    got=[]
    for l in lines[1:]:
        if '|' not in l: break
        a,b=l.split('|',1)
        if not re.match(r'   \w',b): continue
        a=a.strip(); f=b.strip().split(' ')[-1]
        m=re.match(r'(\d+):(\d+)-(\d+)$',a)
        if m:
            if not re.match(r'm\d+$',f): continue
            got.append((f,8*int(m[1])+int(m[2]),int(m[3])-int(m[2])+1))
        elif re.match(r'\d+$',a): 
            if re.match(r'm\d+$',f): got.append((f,8*int(a),0))
    if got==[] and False: pass
    sz=int(re.search(r'sizeof=(\d+)',blk)[1]); al=int(re.search(r'align=(\d+)',blk)[1])
    ms,s_,a_=exp[nm]
    if got!=ms or sz!=s_ or al!=a_:
        bad+=1
        if bad<4: print(nm,'exp',exp[nm],'got',got,sz,al); print([l for l in src if l.startswith(nm+' {')][0]); 
print(mode,seen,'bad',bad)
