# line-by-line port of /repo/src (read as text) for differential testing of the Coq model
import sys
sys.setrecursionlimit(20000)
class E(Exception):
    def __init__(s,k,m): s.k=k; s.m=m
class P(Exception): pass
class Div(Exception): pass
U32=(1<<32)-1
def cadd(a,b,err):
    if a+b>U32: raise err
    return a+b
class B:
    def __init__(s,bits,checks): s.bits=bits; s.checks=checks
    def uadd(s,a,b): return s.wrap(a+b,s.bits)
    def umul(s,a,b): return s.wrap(a*b,s.bits)
    def wrap(s,v,bits):
        if v<(1<<bits): return v
        if s.checks: raise P()
        return v%(1<<bits)
class Reader:
    def __init__(s,b,rd): s.b=b; s.rd=rd; s.offset=0; s.big=False; s.reqs=[]
    def read(s,n):
        s.reqs.append((s.offset,n))
        d=s.rd(len(s.reqs)-1,s.offset,n)   # raises E or returns <= n bytes (buffer was zeroed)
        buf=(d+b'\0'*n)[:n]
        s.offset=s.b.uadd(s.offset,n)
        return buf
    def u8(s): return s.read(1)[0]
    def num(s,n): return int.from_bytes(s.read(n),'big' if s.big else 'little')
    def u16(s): return s.num(2)
    def u32(s): return s.num(4)
    def u64(s): return s.num(8)
    def i32(s):
        v=s.u32(); return v-(1<<32) if v>>31 else v
    def i64(s):
        v=s.u64(); return v-(1<<64) if v>>63 else v
class FH: pass
def file_header(r):
    r.offset=0
    m=r.u16()
    if m==0xEB9F: r.big=False
    elif m==0x9FEB: r.big=True
    else: raise E('InvalidMagic','Invalid magic number: 0x%04X'%m)
    h=FH(); h.version=r.u8(); h.flags=r.u8(); h.hdr_len=r.u32(); h.type_off=r.u32(); h.type_len=r.u32(); h.str_off=r.u32(); h.str_len=r.u32()
    return h
KINDS=['','Int','Ptr','Array','Struct','Union','Enum','Fwd','Typedef','Volatile','Const','Restrict','Func','FuncProto','Var','DataSec','Float','DeclTag','TypeTag','Enum64']
class H: pass
def header(r,fh):
    start=cadd(fh.hdr_len,fh.type_off,E('InvalidTypeSectionOffset','Type section start offset overflow'))
    end=cadd(start,fh.type_len,E('InvalidTypeSectionOffset','Type section end offset overflow'))
    if r.b.uadd(r.offset,12)>end: raise E('InvalidTypeSectionOffset','Invalid type section offset')
    h=H(); h.name_offset=r.u32(); f=r.u32(); h.vlen=f&0xffff
    k=(f&0x1F000000)>>24
    if not 1<=k<=19: raise E('InvalidBTFKind','Invalid BTF kind value: 0x%04X'%k)
    h.kind=KINDS[k]; h.kind_flag=(f&0x80000000)!=0; h.sot=r.u32()
    return h
def parse_string(r,fh,so):
    start=cadd(fh.hdr_len,fh.str_off,E('InvalidStringOffset','String section start offset overflow'))
    end=cadd(start,fh.str_len,E('InvalidStringOffset','String section end offset overflow'))
    so=cadd(start,so,E('InvalidStringOffset','String offset overflow'))
    if so>=end: raise E('InvalidStringOffset','Invalid string offset 0x%08X'%so)
    orig=r.offset; r.offset=so; out=''
    while True:
        if r.b.uadd(r.offset,1)>end: raise E('InvalidString','String at offset 0x%08X is not correctly null terminated'%so)
        c=r.u8()
        if c==0: break
        out+=chr(c)
    r.offset=orig
    return out
def hname(r,fh,h): return parse_string(r,fh,h.name_offset) if h.name_offset!=0 else None
class T: pass
ITEM={'Array':12,'Struct':12,'Union':12,'Enum':8,'Enum64':12,'FuncProto':8,'DataSec':12}
def parse_type(r,fh,h):
    k=h.kind
    if k in ITEM: req=h.vlen*ITEM[k]
    elif k in('Int','Var','DeclTag'): req=4
    else: req=0
    if req>0:
        s=fh.hdr_len+fh.type_off; e=s+fh.type_len
        if r.offset<s: raise E('InvalidTypeSectionOffset','Invalid type section offset')
        if r.b.uadd(r.offset,req)>e: raise E('InvalidTypeSectionOffset','Invalid type section offset')
    t=T(); t.h=h; t.k=k; d={}
    if k=='Int':
        x=r.u32(); enc=(x&0x0F000000)>>24; off=(x&0xff0000)>>16; bits=x&0xff
        d['name']=hname(r,fh,h); d['size']=h.sot; d['signed']=bool(enc&1); d['char']=bool(enc&2); d['boolean']=bool(enc&4); d['offset']=off; d['bits']=bits
    elif k in('Ptr','Const','Volatile','Restrict'): d['tid']=h.sot
    elif k=='Array': d['element_tid']=r.u32(); d['index_tid']=r.u32(); d['element_count']=r.u32()
    elif k in('Struct','Union'):
        ml=[]
        for _ in range(h.vlen):
            no=r.u32(); tid=r.u32(); raw=r.u32()
            nm=parse_string(r,fh,no) if no!=0 else None
            if not h.kind_flag:
                if raw%8==0: o=('ByteOffset',raw//8)
                else: raise E('InvalidOffset','Unaligned bit offset for struct/union member with kind_flag=false')
            else:
                bo=raw&0xffffff; bs=(raw>>24)&0xff
                o=('ByteOffset',bo//8) if bs==0 and bo%8==0 else ('BitOffsetAndSize',bo,bs)
            ml.append(('Member',[('name_offset',no),('name',nm),('tid',tid),('offset',o)]))
        d['name']=hname(r,fh,h); d['size']=h.sot; d['member_list']=ml
    elif k in('Enum','Enum64'):
        vl=[]; w='32' if k=='Enum' else '64'
        for _ in range(h.vlen):
            no=r.u32(); nm=parse_string(r,fh,no)
            if h.kind_flag: v=('Signed',r.i32() if w=='32' else r.i64())
            else: v=('Unsigned',r.u32() if w=='32' else r.u64())
            vl.append(('NamedValue'+w,[('name',('str',nm)),('value',v)]))
        d['name']=hname(r,fh,h); d['size']=h.sot; d['named_value_list']=vl; d['signed']=h.kind_flag
    elif k=='FuncProto':
        pl=[]
        for _ in range(h.vlen):
            no=r.u32(); tid=r.u32(); nm=parse_string(r,fh,no) if no!=0 else None
            pl.append(('Parameter',[('name_offset',no),('name',nm),('tid',tid)]))
        d['parameter_list']=pl; d['return_tid']=h.sot
    elif k=='DataSec':
        vl=[]
        for _ in range(h.vlen): vl.append(('Variable',[('var_decl_id',r.u32()),('offset',r.u32()),('var_size',r.u32())]))
        d['name']=hname(r,fh,h); d['size']=h.sot; d['variable_list']=vl
    elif k=='Var':
        l=r.u32(); d['name']=hname(r,fh,h); d['tid']=h.sot; d['linkage']=l; d['linkage_type']=('unit','Static' if l==0 else 'Global')
    elif k=='DeclTag':
        c=r.u32(); d['name']=hname(r,fh,h); d['tid']=h.sot; d['component_index']=c
    elif k=='Float': d['name']=hname(r,fh,h); d['size']=h.sot
    elif k=='Func': d['name']=hname(r,fh,h); d['prototype_tid']=h.sot
    else: d['name']=hname(r,fh,h); d['tid']=h.sot   # Typedef Fwd TypeTag
    t.d=d
    return t
# --- Debug
def esc(s):
    o='"'
    for c in s:
        n=ord(c)
        if c=='\0': o+='\\0'
        elif c=='\t': o+='\\t'
        elif c=='\r': o+='\\r'
        elif c=='\n': o+='\\n'
        elif c in '"\\': o+='\\'+c
        elif n<0x20 or 0x7f<=n<=0xa0 or n==0xad: o+='\\u{%x}'%n
        else: o+=c
    return o+'"'
def dbg(v):
    if v is None: return 'None'
    if isinstance(v,str): return 'Some(%s)'%esc(v)
    if v is True: return 'true'
    if v is False: return 'false'
    if isinstance(v,int): return str(v)
    if isinstance(v,list): return '['+', '.join(dbg(x) for x in v)+']'
    if v[0]=='str': return esc(v[1])
    if v[0]=='unit': return v[1]
    if len(v)==2 and isinstance(v[1],list): return v[0]+' { '+', '.join('%s: %s'%(a,dbg(b)) for a,b in v[1])+' }'
    return v[0]+'('+', '.join(dbg(x) for x in v[1:])+')'
def dbg_type(t):
    if t.k=='Void': return 'Void'
    h=t.h
    hd='Header { kind: %s, name_offset: %d, vlen: %d, kind_flag: %s, size_or_type: %d }'%(h.kind,h.name_offset,h.vlen,dbg(h.kind_flag),h.sot)
    return '%s(%s { type_header: %s, data: Data { %s } })'%(t.k,t.k,hd,', '.join('%s: %s'%(a,dbg(b)) for a,b in t.d.items()))
class TI:
    def __init__(s,b): s.b=b; s.types={}; s.n2i={}; s.i2n={}
def load(b,r):
    fh=file_header(r)
    start=cadd(fh.hdr_len,fh.type_off,E('InvalidTypeSectionOffset','Type section start offset overflow'))
    end=start+fh.type_len
    if end>=(1<<b.bits): raise E('InvalidTypeSectionOffset','Type section end offset overflow')
    r.offset=start; tid=1; ti=TI(b)
    while r.offset<end:
        h=header(r,fh); t=parse_type(r,fh,h)
        nm=t.d.get('name')
        if nm is not None: ti.n2i[nm]=tid; ti.i2n[tid]=nm
        ti.types[tid]=t; tid+=1
        if len(ti.types)>2000: raise Div()
    return ti
VOID=T(); VOID.k='Void'; VOID.d={}
def from_id(ti,t): return VOID if t==0 else ti.types.get(t)
def id_of(ti,n): return 0 if n=='void' else ti.n2i.get(n)
def name_of(ti,t): return 'void' if t==0 else ti.i2n.get(t)
def pointee(ti,t,depth=0):
    if depth>3000: raise Div()
    v=from_id(ti,t)
    if v is None: raise E('InvalidTypeID','Invalid type id')
    if v.k in('Typedef','Const','Volatile','Restrict'): return pointee(ti,v.d['tid'],depth+1)
    if v.k=='Ptr': return v.d['tid']
    raise E('InvalidTypeID','Type is not a pointer')
def size_of(ti,t,depth=0):
    if depth>3000: raise Div()
    v=from_id(ti,t)
    if v is None: raise E('InvalidTypeID','Invalid type id')
    if v.k=='Ptr':
        l=id_of(ti,'list_head')
        if l is None: raise E('InvalidTypeID','The `struct list_head` type, used to extract the pointer size, was not found')
        w=from_id(ti,l)
        if w is None: raise E('InvalidTypeID','The extracted `struct list_head` type ID, used to extract the pointer size, was invalid')
        if w.k!='Struct': raise E('InvalidTypeID','The extracted `struct list_head` type ID, used to extract the pointer size, is not a struct type')
        return w.d['size']//2
    if v.k=='Array':
        s=size_of(ti,v.d['element_tid'],depth+1); return ti.b.umul(s,v.d['element_count'])
    if v.k in('Float','Int','Enum','Enum64','Struct','Union','DataSec'): return v.d['size']
    if v.k in('Var','Typedef','Const','Volatile','Restrict','TypeTag'): return size_of(ti,v.d['tid'],depth+1)
    raise E('NotSized','Type %s has no size'%dbg_type(v))
def add_u32(o,n):
    if o[0]=='ByteOffset': return ('ByteOffset',cadd(o[1],n,E('InvalidOffset','Byte offset addition overflow')))
    raise E('UnexpectedBitfield','Attempted to add a byte offset to a bitfield')
def add_off(a,b):
    if a[0]=='ByteOffset' and b[0]=='ByteOffset': return ('ByteOffset',cadd(a[1],b[1],E('InvalidOffset','Byte offset addition overflow')))
    if a[0]=='ByteOffset':
        if a[1]*8>U32: raise E('InvalidOffset','Bit offset multiplication overflow')
        return ('BitOffsetAndSize',cadd(a[1]*8,b[1],E('InvalidOffset','Bit offset addition overflow')),b[2])
    raise E('UnexpectedBitfield','Attempted to add a byte offset to a bitfield')
class It:
    def __init__(s,path,b): s.path=path; s.bytes=path.encode(); s.pos=0; s.st='Start'; s.b=b
    def clone(s):
        x=It(s.path,s.b); x.pos=s.pos; x.st=s.st; return x
    def err(s,m): s.st='Error'; raise E('InvalidTypePath',m)
    def bad(s): s.err('Invalid character at index %d'%s.pos)
    def slice(s,a,b):
        x=s.bytes[a:b]
        for i in (a,b):
            if i<len(s.bytes) and (s.bytes[i]&0xC0)==0x80: raise P()
        return x.decode()
    def next(s):
        if s.st in('Done','Error'): return None
        if s.pos>=len(s.bytes): s.st='Done'; return None
        if s.st=='Start':
            c=chr(s.bytes[s.pos])
            if c=='[': s.pos+=1; s.st='InsideIndex'; return s.index()
            if c.isalpha() or c=='_': s.st='InsideName'; return s.name()
            s.bad()
        if s.st=='InsideName': return s.name()
        if s.st=='InsideIndex': return s.index()
        if s.st=='AfterIndex':
            c=chr(s.bytes[s.pos])
            if c=='[': s.pos+=1; s.st='InsideIndex'; return s.index()
            if c=='.': s.pos+=1; s.st='ExpectingName'; return s.next()
            s.bad()
        if s.st=='ExpectingName':
            c=chr(s.bytes[s.pos])
            if c.isalpha() or c=='_': s.st='InsideName'; return s.name()
            s.bad()
    def name(s):
        st=s.pos
        while s.pos<len(s.bytes):
            c=chr(s.bytes[s.pos])
            if c.isalpha() or rust_numeric(c) or c=='_': s.pos+=1
            elif c in '[.': break
            else: s.bad()
        n=s.slice(st,s.pos)
        if s.pos>=len(s.bytes): s.st='Done'
        else:
            c=chr(s.bytes[s.pos])
            if c=='[': s.pos+=1; s.st='InsideIndex'
            elif c=='.': s.pos+=1; s.st='ExpectingName'
        return ('N',n)
    def index(s):
        st=s.pos
        while s.pos<len(s.bytes):
            c=chr(s.bytes[s.pos])
            if rust_numeric(c): s.pos+=1
            elif c==']': break
            else: s.bad()
        if s.pos>=len(s.bytes) or chr(s.bytes[s.pos])!=']': s.err('Unclosed index bracket')
        x=s.slice(st,s.pos)
        if x=='': s.err('Empty index')
        v=0; d=None
        for c in x:
            if not('0'<=c<='9'): d='InvalidDigit'; break
            v=v*10+int(c)
            if v>=(1<<s.b.bits): d='PosOverflow'; break
        if d: s.err('Invalid index value: ParseIntError { kind: %s }'%d)
        s.pos+=1; s.st='AfterIndex'
        return ('I',v)
import unicodedata
def rust_numeric(c): return unicodedata.category(c) in('Nd','Nl','No')
def offset_of(ti,off,tid,it,depth=0):
    if depth>300: raise Div()
    while True:
        anon=it.clone(); c=it.next()
        if c is None: return tid,off
        n=0
        while True:
            v=from_id(ti,tid)
            if v is None: raise E('InvalidTypeID','Invalid type id')
            if v.k in('Fwd','Typedef','Const','Volatile','Restrict'): tid=v.d['tid']
            else: break
            n+=1
            if n>5000: raise Div()
        if v.k=='Void': raise E('InvalidTypePath',"The void type can't be dereferenced with a path")
        if c[0]=='I':
            if v.k=='Array':
                if c[1]>=v.d['element_count']: raise E('InvalidTypePath','Index %d is out of bounds for array of size %d'%(c[1],v.d['element_count']))
                e=v.d['element_tid']; z=size_of(ti,e); x=c[1]*z
                if x>=1<<32: raise E('InvalidTypePath','Array element offset overflow')
                off=add_u32(off,x); tid=e
            elif v.k=='Ptr': raise E('InvalidTypePath','Type is a ptr, and dereferencing it would require a read operation')
            else: raise E('InvalidTypePath','Type is not indexable')
        else:
            if v.k not in('Struct','Union'): raise E('InvalidTypePath','Type is not a struct or union')
            ml=[dict(m[1]) for m in v.d['member_list']]
            for m in ml:
                if m['name'] is not None: continue
                o=add_off(m['offset'],off)
                try: return offset_of(ti,o,m['tid'],anon.clone(),depth+1)
                except E: continue
            for m in ml:
                if m['name']==c[1]: tid=m['tid']; off=add_off(off,m['offset']); break
            else: raise E('InvalidTypePath',"Member '%s' not found"%c[1])
def run(f,g):
    try: return 'ok '+g(f())
    except E as e: return 'err %s %s'%(e.k,e.m.encode().hex() if e.m is not None else '-')
    except P: return 'panic'
    except Div: return 'diverge'
def case(bits,checks,img,mode,qs):
    b=B(bits,checks)
    def honest(i,o,n):
        if o+n>len(img): raise E('IOError',None)
        return img[o:o+n]
    if mode=='file': rd=honest
    elif mode=='lenient': rd=lambda i,o,n: img[o:o+n]
    else:
        k=int(mode.split(':')[1])
        def rd(i,o,n):
            if i==k: raise E('EOF',None)
            return honest(i,o,n)
    r=Reader(b,rd); box=[]
    def f():
        ti=load(b,r); box.append(ti); return ti
    res=run(f,lambda ti:('{'+', '.join('%d: %s'%(i,dbg_type(t)) for i,t in sorted(ti.types.items()))+'}').encode().hex())
    short='ok ' if res.startswith('ok') else ' '.join(res.split()[:2]) if res.startswith('err') else res
    out=[res,short,' '.join('%d+%d'%x for x in r.reqs)]
    if box and qs:
        ti=box[0]
        offs=lambda o:('B%d'%o[1] if o[0]=='ByteOffset' else 'b%d,%d'%o[1:])
        for q in qs:
            if q[0]=='S': out.append(run(lambda:size_of(ti,q[1]),str))
            elif q[0]=='P': out.append(run(lambda:pointee(ti,q[1]),str))
            elif q[0]=='N': n=name_of(ti,q[1]); out.append('-' if n is None else n.encode().hex())
            elif q[0]=='I': n=id_of(ti,q[1]); out.append('-' if n is None else str(n))
            else: out.append(run(lambda:offset_of(ti,('ByteOffset',0),q[1],It(q[2],b)),lambda r:'%d %s'%(r[0],offs(r[1]))))
    return '\t'.join(out)
def line(bits,checks,img,mode,qs):
    def enc(q):
        if q[0]=='I': return 'I,'+q[1].encode().hex()
        if q[0]=='O': return 'O,%d,%s'%(q[1],q[2].encode().hex())
        return '%s,%d'%q
    return '\t'.join([str(bits),'1' if checks else '0',img.hex(),mode,';'.join(enc(q) for q in qs)])
