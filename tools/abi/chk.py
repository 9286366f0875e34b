from btf import load
import collections
h,ts,st=load('vm.btf'); print(h,len(ts))
K=collections.Counter(t[0] for t in ts); print(K)
print('reserved info bits', collections.Counter(t[5] for t in ts))
names=collections.defaultdict(list)
for i,t in enumerate(ts):
    if t[1] is not None and t[0] not in(2,3,9,10,11,13): names[t[1]].append(i+1)
print('list_head',names['list_head'])
dup={n:l for n,l in names.items() if len(l)>1}; print('dup names',len(dup), list(dup.items())[:5])
print('void named', names.get('void'))
print('nonascii', sum(any(ord(c)>127 for c in n) for n in names))
# fwd nonzero
print('fwd nonzero',sum(1 for t in ts if t[0]==7 and t[4]!=0))
# tags: who refers to tag
tags={i+1 for i,t in enumerate(ts) if t[0]==18}
def refs(t):
    k=t[0]
    if k in (8,9,10,11,18,14): return [t[4]]
    if k==3: return [t[6][0]]
    if k in(4,5): return [m[1] for m in t[6]]
    return []
bad=[(i+1,t[0]) for i,t in enumerate(ts) if t[0]!=18 and any(r in tags for r in refs(t))]
print('tags',len(tags),'bad refs',len(bad),bad[:5])
ptr=[(i+1) for i,t in enumerate(ts) if t[0]==2 and t[4] in tags]; print('ptr to tag',len(ptr))
# unaligned without kflag, unnamed bitfields, anonymous bits
ub=0; anonbits=0; zero=0
for t in ts:
    if t[0] in(4,5):
        for (n,ty,o) in t[6]:
            if t[3]:
                if n is None and (o>>24 or o%8): anonbits+=1
            elif o%8: ub+=1
print('unaligned',ub,'anon bits',anonbits)
# enum kflag
print('enum64',K[19],'decltag',K[17])
# array vlen
print('array vlen',collections.Counter(t[2] for t in ts if t[0]==3))
print('last type kind', ts[-1][:3])
# multi-level
