from btf import load
import sys; sys.setrecursionlimit(100000)
h,ts,st=load('vm.btf')
from functools import lru_cache
T=lambda i: ts[i-1]
@lru_cache(None)
def SA(i):
    if i==0: return None
    t=T(i);k=t[0]
    if k==1: s=t[4]; return (s,s)
    if k==16: return (t[4],t[4])
    if k in(6,19): return (t[4],t[4])
    if k==2: return (8,8)
    if k==3:
        r=SA(t[6][0]); return None if r is None else (r[0]*t[6][2],r[1])
    if k in(8,9,10,11,18,14): return SA(t[4])
    if k in(4,5):
        r=lay(t,False); 
        al=1 if r is None else r[2]
        # the real size; alignment guess = al if matches
        if r is not None and r[1]==t[4] and r[0]: return (t[4],al)
        r=lay(t,True)
        if r is not None and r[1]==t[4] and r[0]: return (t[4],1)
        # aligned attr guess: largest power of two dividing size
        return (t[4],al)
    return None
ru=lambda n,a:-(-n//a)*a
def lay(t,pk):
    pos=0;al=1;ok=True
    for (n,ty,o) in t[6]:
        w=(o>>24) if t[3] else 0; off=(o&0xffffff) if t[3] else o
        r=SA(ty)
        if r is None: return None
        s,a=r
        if t[0]==5: start=0
        elif w==0:
            start=ru(pos,8*(1 if pk else a))
        else:
            start = pos if pk or (pos%(8*a)+w+8*a-1)//(8*a)<=s//a else ru(pos,8*a)
        if start!=off: ok=False; start=off
        stop=start+(w or 8*s)
        pos=max(pos,stop) if t[0]==5 else stop
        al=max(al,1 if pk else a)
    return ok,ru((pos+7)//8,al),al
tot=good=0;bf=bfg=0;bad=[]
for i,t in enumerate(ts):
    if t[0] in(4,5):
        tot+=1
        r=lay(t,False); r2=lay(t,True)
        g=(r and r[0] and r[1]==t[4]) or (r2 and r2[0] and r2[1]==t[4])
        good+=bool(g)
        if t[3]: bf+=1; bfg+=bool(g)
        if not g: bad.append((i+1,t[1],t[3]))
print(tot,good,'with bitfields',bf,bfg)
for b in bad[:12]: print(b, lay(T(b[0]),False), T(b[0])[4], T(b[0])[6][:6])
print([b for b in bad if b[2]][:20])
