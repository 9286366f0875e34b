#!/usr/bin/env python3
"""Writes rocq/theories/RepoTests.v: the unit tests of /repo as Examples about the model.
The byte images and the table of get_test_type_info are read from the Rust sources;
the assertions are transcribed here by hand."""
import re
SRC = '/repo/src/'
def tests(path):
    """name -> (line, body)"""
    t = open(SRC + path).read()
    out = {}
    for m in re.finditer(r'#\[test\]\s*\n\s*fn (\w+)\(\) \{\n(.*?)\n    \}\n', t, re.S):
        out[m.group(1)] = (t.count('\n', 0, m.start(1)) + 1, m.group(2))
    return out
def image(body):
    m = re.search(r'ReadableBuffer::new\(&\[(.*?)\]\)', body, re.S)
    txt = re.sub(r'//[^\n]*', '', m.group(1))
    return [int(x, 16) for x in re.findall(r'0x([0-9A-Fa-f]{2})', txt)]
def coq(bs): return '[' + '; '.join('x%02x' % b for b in bs) + ']'
out = []
seen = set()
def example(path, name, stmt, img=True, proof='vm_compute. repeat split.'):
    line, body = TESTS[path][name]
    seen.add((path, name))
    ident = path.split('/')[-1][:-3] + '_' + name
    out.append(f'(** src/{path}:{line} *)')
    if img: 
        out.append(f'Definition {ident}_image : list byte :=\n  {coq(image(body))}.')
    out.append(f'Example {ident} : {stmt.replace("IMG", ident + "_image")}.\nProof. {proof} Qed.')
FILES = ['btf/typedef.rs','btf/enum.rs','btf/func.rs','btf/restrict.rs','btf/type_tag.rs','btf/ptr.rs','btf/float.rs','btf/decl_tag.rs',
  'btf/array.rs','btf/volatile.rs','btf/header.rs','btf/var.rs','btf/const.rs','btf/type_information.rs','btf/int.rs','btf/func_proto.rs',
  'btf/file_header.rs','btf/string.rs','btf/struct_union.rs','btf/fwd.rs','btf/kind.rs','btf/data_sec.rs','btf/enum64.rs','btf/offset.rs',
  'utils/readable_buffer.rs','utils/reader.rs']
TESTS = {f: tests(f) for f in FILES}
def one(cons, conds): return 'match record IMG with Ok (%s h d) => %s | _ => False end' % (cons, ' /\\ '.join(conds))
# --- records
example('btf/typedef.rs','test_typedef', one('TTypedef',['nl_name d = nm "void*"','nl_tid d = 0']))
def en(cons, size, flag, val): return one(cons, [f'enum_size d = {size}', f'enum_signed d = {flag}', f'h_kind_flag h = {flag}', 'enum_name d = nm "State"',
   f'named_value_list d = [{{| nv_name := s "Paused"; nv_value := {val} |}}; {{| nv_name := s "Running"; nv_value := {val} |}}]'])
example('btf/enum.rs','test_unsigned_enum', en('TEnum',4,'false','Unsigned 254'))
example('btf/enum.rs','test_signed_enum', en('TEnum',4,'true','Signed 254'))
example('btf/enum64.rs','test_unsigned_enum64', en('TEnum64',8,'false','Unsigned 254'))
example('btf/enum64.rs','test_signed_enum64', en('TEnum64',8,'true','Signed 254'))
example('btf/func.rs','test_fwd', one('TFunc',['nl_name d = nm "exit"','nl_tid d = 3']))
example('btf/fwd.rs','test_fwd', one('TFwd',['nl_name d = nm "exit"']))
example('btf/type_tag.rs','test_type_tag', one('TTypeTag',['nl_name d = nm "int"','nl_tid d = 3']))
example('btf/float.rs','test_float', one('TFloat',['float_name d = nm "float"']))
for f,n,c in [('restrict','test_restrict','TRestrict'),('ptr','test_ptr','TPtr'),('volatile','test_volatile','TVolatile'),('const','test_const','TConst')]:
    example(f'btf/{f}.rs', n, one(c,['link_tid d = %s' % re.search(r'assert_eq!\(\*\w+\.tid\(\), (\d+)\)', TESTS[f'btf/{f}.rs'][n][1]).group(1)]))
example('btf/decl_tag.rs','test_decl_tag', one('TDeclTag',['component_index d = 16','dt_name d = nm "decl_tag"']))
example('btf/array.rs','test_array', one('TArray',['element_tid d = 5','index_tid d = 6','element_count d = 7']))
example('btf/var.rs','test_var', one('TVar',['var_name d = nm "static_var"','var_tid d = 5','var_linkage_type d = LinkGlobal','linkage d = 1']))
for n,nm,size,sg,bo,ch,off,bits in [('test_int_no_encoding_options','unsigned int',4,'false','false','false',8,16),('test_int_with_char_encoding_option','char',1,'false','false','true',0,8),
   ('test_int_with_signed_encoding_option','int',1,'true','false','false',0,8),('test_int_with_bool_encoding_option','bool',1,'false','true','false',0,8)]:
    example('btf/int.rs', n, one('TInt',[f'int_name d = nm "{nm}"',f'int_size d = {size}',f'int_signed d = {sg}',f'int_boolean d = {bo}',f'int_char d = {ch}',f'int_offset d = {off}',f'int_bits d = {bits}']))
example('btf/func_proto.rs','test_func_proto', one('TFuncProto',['return_tid d = 5','map (fun p => (p_tid p, p_name p)) (parameter_list d) = [(2, nm "param1"); (3, nm "param2")]']))
example('btf/data_sec.rs','test_data_sec', one('TDataSec',['ds_name d = nm "var_name"','ds_size d = 4','map (fun v => (var_decl_id v, v_offset v, var_size v)) (variable_list d) = [(5, 4, 8); (5, 8, 8)]']))
def st(flag, o2): return one('TStruct',['struct_size d = 2',f'h_kind_flag h = {flag}',f'map (fun m => (m_tid m, m_offset m, m_name m)) (member_list d) = [(2, ByteOffset 1, nm "value1"); (3, {o2}, nm "value2")]'])
example('btf/struct_union.rs','test_standard_struct_union', st('false','ByteOffset 1'))
example('btf/struct_union.rs','test_bitfield_struct_union', st('true','BitOffsetAndSize 10 11'))
# --- headers, strings
hd='fst ((fh <- file_header_new (buf IMG) ;; header_new (buf IMG) fh) reader_new)'
example('btf/header.rs','test_type_header', hd+' =\n  Ok {| h_kind := KInt; h_name_offset := 1; h_vlen := 255; h_kind_flag := true; h_size_or_type := 3 |}')
example('btf/header.rs','test_type_section_start_overflow', hd+' = Err InvalidTypeSectionOffset')
example('btf/header.rs','test_type_section_end_overflow', hd+' = Err InvalidTypeSectionOffset')
for n,e in [('test_little_endian_btf_header','Little'),('test_big_endian_btf_header','Big')]:
    example('btf/file_header.rs', n, f'match file_header_new (buf IMG) reader_new with\n  | (Ok fh, r) => r_end r = {e} /\\ fh = {{| version := 1; flags := 2; hdr_len := 3; type_off := 4; type_len := 5; str_off := 6; str_len := 7 |}}\n  | _ => False end')
example('btf/string.rs','test_parse_string','fst ((fh <- file_header_new (buf IMG) ;; a <- parse_string (buf IMG) fh 0 ;; b <- parse_string (buf IMG) fh 1 ;;\n  c <- parse_string (buf IMG) fh 6 ;; d <- attempt (parse_string (buf IMG) fh 11) ;; ret (a, b, c, d)) reader_new) =\n  Ok ([], s "ABCD", s "EFGH", None)')
for n,o in [('test_string_section_start_overflow','0'),('test_string_section_end_overflow','0'),('test_string_offset_overflow','0x80000000')]:
    example('btf/string.rs', n, f'fst ((fh <- file_header_new (buf IMG) ;; parse_string (buf IMG) fh {o}) reader_new) = Err InvalidStringOffset')
example('btf/kind.rs','test_type_kind','map (fun i => match kind_new i with Err _ => true | _ => false end) (map N.of_nat (seq 0 21)) =\n  map (fun i => (i =? 0) || (i =? 20)) (map N.of_nat (seq 0 21))', img=False)
# --- offsets
M='0xFFFFFFFF'
example('btf/offset.rs','test_u32_addition','offset_add_u32 (ByteOffset 0) 1 = Ok (ByteOffset 1) /\\ fails (offset_add_u32 (BitOffsetAndSize 0 0) 1) = true', img=False)
example('btf/offset.rs','test_offset_addition','offset_add (ByteOffset 0) (ByteOffset 1) = Ok (ByteOffset 1) /\\ offset_add (ByteOffset 0) (BitOffsetAndSize 1 1) = Ok (BitOffsetAndSize 1 1) /\\\n  fails (offset_add (BitOffsetAndSize 0 0) (ByteOffset 1)) = true /\\ fails (offset_add (BitOffsetAndSize 0 0) (BitOffsetAndSize 1 1)) = true', img=False)
example('btf/offset.rs','test_u32_addition_overflow',f'offset_add_u32 (ByteOffset {M}) 1 = Err InvalidOffset /\\ offset_add_u32 (ByteOffset ({M} - 1)) 2 = Err InvalidOffset /\\\n  offset_add_u32 (ByteOffset {M}) 0 = Ok (ByteOffset {M})', img=False)
example('btf/offset.rs','test_byte_offset_addition_overflow',f'offset_add (ByteOffset {M}) (ByteOffset 1) = Err InvalidOffset /\\ offset_add (ByteOffset 0x80000000) (ByteOffset 0x80000000) = Err InvalidOffset /\\\n  offset_add (ByteOffset 0x7FFFFFFF) (ByteOffset 0x7FFFFFFF) = Ok (ByteOffset 0xFFFFFFFE)', img=False)
example('btf/offset.rs','test_bit_offset_multiplication_overflow',f'offset_add (ByteOffset 0x20000000) (BitOffsetAndSize 0 1) = Err InvalidOffset /\\ offset_add (ByteOffset ({M} / 8 + 1)) (BitOffsetAndSize 0 1) = Err InvalidOffset /\\\n  fails (offset_add (ByteOffset 0x1FFFFFFF) (BitOffsetAndSize 0 1)) = false', img=False)
example('btf/offset.rs','test_bit_offset_addition_overflow',f'offset_add (ByteOffset 0x1FFFFFFF) (BitOffsetAndSize {M} 1) = Err InvalidOffset /\\ offset_add (ByteOffset 1) (BitOffsetAndSize 7 1) = Ok (BitOffsetAndSize 15 1)', img=False)
# --- buffers and readers
ABCD='[x41; x42; x43; x44]'
example('utils/readable_buffer.rs','test_buffer_offset_overflow','readable_buffer (repeat x00 100) [] (2 ^ 64 - 1 - 50) 100 = Fails InvalidOffset', img=False)
example('utils/readable_buffer.rs','test_valid_read_at_boundary',f'readable_buffer {ABCD} [] 0 4 = Bytes {ABCD} /\\ readable_buffer {ABCD} [] 3 1 = Bytes [x44]', img=False)
example('utils/readable_buffer.rs','test_eof_error',f'readable_buffer {ABCD} [] 4 1 = Fails EOF', img=False)
example('utils/readable_buffer.rs','test_invalid_offset_beyond_buffer',f'readable_buffer {ABCD} [] 3 2 = Fails InvalidOffset', img=False)
F='[xf8; xf9; xfa; xfb; xfc; xfd; xfe; xff]'
def rd(img, e, m, v): return f'fst ((set_endianness {e} ;;; set_offset 0 ;;; {m} (buf {img})) reader_new) = Ok {v}'
example('utils/reader.rs','signed_values',' /\\\n  '.join(rd(F,e,m,f'({v})%Z') for e,m,v in [('Little','read_i8',-8),('Little','read_i16',-1544),('Little','read_i32',-67438088),('Little','read_i64',-283686952306184),
  ('Big','read_i8',-8),('Big','read_i16',-1799),('Big','read_i32',-117835013),('Big','read_i64',-506097522914230529)]), img=False)
G='[x01; x02; x03; x04; x05; x06; x07; x08]'
example('utils/reader.rs','endianness',' /\\\n  '.join(rd(G,e,m,v) for e,m,v in [('Little','read_u8','x01'),('Little','read_u16','0x0201'),('Little','read_u32','0x04030201'),('Little','read_u64','0x0807060504030201'),
  ('Big','read_u8','x01'),('Big','read_u16','0x0102'),('Big','read_u32','0x01020304'),('Big','read_u64','0x0102030405060708')]), img=False)
def er(img, m, k): return f'(let (a, r) := {m} (buf {img}) reader_new in a = Err {k} /\\ r_off r = 0)'
example('utils/reader.rs','eof',' /\\\n  '.join(er('[]',m,'EOF') for m in ['read_u8','read_u16','read_u32','read_u64','read_i8','read_i16','read_i32','read_i64']), img=False)
example('utils/reader.rs','invalid_offset',' /\\\n  '.join(er('[x01]',m,'InvalidOffset') for m in ['read_u16','read_u32','read_u64','read_i16','read_i32','read_i64']), img=False)
def inc(m, n): return f'(let (a, r) := {m} reader_new in fails a = false /\\ r_off r = {n})'
example('utils/reader.rs','offset_increment',' /\\\n  '.join([inc(f'{m} (buf {G})',n) for m,n in [('read_u8',1),('read_u16',2),('read_u32',4),('read_u64',8),('read_i8',1),('read_i16',2),('read_i32',4),('read_i64',8)]]+[inc(f'read (buf {G}) 1',1)]), img=False)
# --- paths
I='Index %d'; Nm='Name (s "%s")'
oks=[('',[]),('[1]',[I%1]),('[1][2]',[I%1,I%2]),('test',[Nm%'test']),('array[10]',[Nm%'array',I%10]),('array[10].array2[11]',[Nm%'array',I%10,Nm%'array2',I%11]),('_test',[Nm%'_test']),('test_field',[Nm%'test_field'])]
bad=['.value','.[10]','[value',']value','1','array[10]value','array[]','[]']
body=TESTS['btf/type_information.rs']['test_path_component_iter'][1]
assert re.findall(r'collect_path_components\("([^"]*)"\)\.is_err',body)==bad and re.findall(r'collect_path_components\("([^"]*)"\)\.unwrap',body)==[p for p,_ in oks]
example('btf/type_information.rs','test_path_component_iter',' /\\\n  '.join([f'components (s "{p}") = Some [{"; ".join(l)}]' for p,l in oks]+[f'components (s "{p}") = None' for p in bad]), img=False)
# --- the table of get_test_type_info
src=open(SRC+'btf/type_information.rs').read()
tbl=src[src.index('fn get_test_type_info'):src.index('fn test_size_of')]
tbl=re.sub(r'//[^\n]*','',tbl)
def parse(txt):
    """a tiny reader of Rust constructor expressions: nested lists of tokens"""
    toks=re.findall(r'"[^"]*"|\w+(?:::\w+)*!?|[(){}\[\],:]',txt); pos=0
    def expr():
        nonlocal pos
        t=toks[pos]; pos+=1
        if t in('vec!',): 
            assert toks[pos]=='['; pos+=1; return ('vec',args(']'))
        if pos<len(toks) and toks[pos]=='(': pos+=1; return (t,args(')'))
        if pos<len(toks) and toks[pos]=='{':
            pos+=1; a={}
            while toks[pos]!='}':
                k=toks[pos]; assert toks[pos+1]==':'; pos+=2; a[k]=expr()
                if toks[pos]==',': pos+=1
            pos+=1; return (t,a)
        return t
    def args(close):
        nonlocal pos
        r=[]
        while toks[pos]!=close:
            r.append(expr())
            if toks[pos]==',': pos+=1
        pos+=1; return r
    return expr()
def string(e): 
    assert e[0]=='String::from'; return 's '+e[1][0]
def opt(e):
    return 'None' if e=='None' else 'Some (%s)'%string(e[1][0])
def num(e): return str(int(e,0))
def off(e):
    assert e[0]=='Offset::ByteOffset'; return '(ByteOffset %s)'%num(e[1][0])
def header(e):
    assert e[0]=='Header::create'; k,n,v,f,z=e[1]
    return '(mk_header K%s %s %s %s %s)'%(k.split('::')[1],num(n),num(v),f,num(z))
def member(e):
    assert e[0]=='StructMember::create'; n,nm,t,o=e[1]
    return '{| m_name_offset := %s; m_name := %s; m_tid := %s; m_offset := %s |}'%(num(n),opt(nm),num(t),off(o))
def value(e):
    n,v=e[1]['name'],e[1]['value']; c=v[0].split('::')[1]
    return '{| nv_name := %s; nv_value := %s %s |}'%(string(n),c,num(v[1][0]))
def vec(e,f): assert e[0]=='vec'; return '['+'; '.join(f(x) for x in e[1])+']'
def var(e): return '{| var_decl_id := %s; v_offset := %s; var_size := %s |}'%tuple(num(e[1][k]) for k in('var_decl_id','offset','var_size'))
def variant(e):
    k=e[0].split('::')[1]; c,a=e[1][0]; assert c==k+'::create',(c,k)
    h=header(a[0]); a=a[1:]
    if k=='Int': d='{| int_name := %s; int_size := %s; int_signed := %s; int_char := %s; int_boolean := %s; int_offset := %s; int_bits := %s |}'%((opt(a[0]),num(a[1]))+tuple(a[2:5])+(num(a[5]),num(a[6])))
    elif k in('Ptr','Const','Volatile','Restrict'): d='{| link_tid := %s |}'%num(a[0])
    elif k=='Typedef': d='{| nl_name := %s; nl_tid := %s |}'%(opt(a[1]),num(a[0]))
    elif k in('Fwd','Func','TypeTag'): d='{| nl_name := %s; nl_tid := %s |}'%(opt(a[0]),num(a[1]))
    elif k=='Array': d='{| element_tid := %s; index_tid := %s; element_count := %s |}'%tuple(map(num,a))
    elif k in('Struct','Union'): d='{| struct_name := %s; struct_size := %s; member_list :=\n      %s |}'%(opt(a[0]),num(a[1]),vec(a[2],member))
    elif k in('Enum','Enum64'): d='{| enum_name := %s; enum_size := %s; named_value_list := %s; enum_signed := %s |}'%(opt(a[0]),num(a[1]),vec(a[2],value),a[3])
    elif k=='FuncProto': assert a[1]==('vec',[]); d='{| parameter_list := []; return_tid := %s |}'%num(a[0])
    elif k=='Var': d='{| var_name := %s; var_tid := %s; linkage := %s; var_linkage_type := Link%s |}'%(opt(a[0]),num(a[1]),num(a[2]),a[3].split('::')[1])
    elif k=='DataSec': d='{| ds_name := %s; ds_size := %s; variable_list := %s |}'%(opt(a[0]),num(a[1]),vec(a[2],var))
    elif k=='Float': d='{| float_name := %s; float_size := %s |}'%(opt(a[0]),num(a[1]))
    elif k=='DeclTag': d='{| dt_name := %s; dt_tid := %s; component_index := %s |}'%(opt(a[0]),num(a[1]),num(a[2]))
    else: raise Exception(k)
    return 'T%s %s %s'%(k,h,d)
def balanced(t,i):
    d=0; q=False
    for j in range(i,len(t)):
        if t[j]=='"': q=not q
        if q: continue
        if t[j]=='(': d+=1
        if t[j]==')':
            d-=1
            if d==0: return t[i+1:j]
def inserts(txt,field):
    r=[]
    for m in re.finditer(r'\.'+field+r'\s*\.insert\(',txt):
        e=parse('f('+balanced(txt,m.end()-1)+')'); assert len(e[1])==2,e; r.append(e[1])
    return r
types=inserts(tbl,'id_to_type_map'); n2i=inserts(tbl,'name_to_id_map'); i2n=inserts(tbl,'id_to_name_map')
line=src.count('\n',0,src.index('fn get_test_type_info'))+1
out.append(f'(** src/btf/type_information.rs:{line}, [get_test_type_info] *)')
out.append('Definition test_types : list (N * type_variant) :=\n  ['+';\n   '.join('(%s, %s)'%(num(k),variant(v)) for k,v in types)+'].')
out.append('Definition test_type_info : type_information := {|\n  id_to_type_map := inserted N.compare test_types;\n  name_to_id_map := inserted str_compare ['+'; '.join('(%s, %s)'%(string(k),num(v)) for k,v in n2i)+'];\n  id_to_name_map := inserted N.compare ['+'; '.join('(%s, %s)'%(num(k),string(v)) for k,v in i2n)+'] |}.')
T='btf/type_information.rs'
b=TESTS[T]['test_size_of'][1]
sizes=re.findall(r'assert_eq!\(type_info\.size_of\((\d+)\)\.unwrap\(\), (\d+)\)',b); ns=re.findall(r'assert!\(type_info\.size_of\((\d+)\)\.unwrap_err\(\)\.kind\(\) == BTFErrorKind::(\w+)\)',b); nms=re.findall(r'assert_eq!\(type_info\.name_of\((\d+)\)\.unwrap\(\), "(\w+)"\)',b)
assert len(sizes)+len(ns)+len(nms)==b.count('assert')
example(T,'test_size_of',' /\\\n  '.join([f'size_of (build64 true) test_type_info {t} = Ok {v}' for t,v in sizes]+[f'size_of (build64 true) test_type_info {t} = Err {k}' for t,k in ns]+[f'name_of test_type_info {t} = Some (s "{v}")' for t,v in nms]),img=False)
example(T,'pointee_tid','pointee_tid test_type_info 2 = Ok 6',img=False)
b=re.sub(r'\s+','',TESTS[T]['test_offset_of'][1])
errs=re.findall(r'assert_eq!\(type_info\.offset_of\((\d+),"([^"]*)"\)\.unwrap_err\(\)\.kind\(\),BTFErrorKind::(\w+),?\)',b)
oks=re.findall(r'assert_eq!\(type_info\.offset_of\((\d+),"([^"]*)"\)\.unwrap\(\),\((\d+),Offset::ByteOffset\((\d+)\)\),?\)',b)
loop=[('int_value',1,16*8),('ptr_value',2,20*8),('anon_struct_value1',1,0),('anon_struct_value2',1,4*8),('anon_union_value1',1,8*8),('anon_union_value2',2,8*8)]
assert len(errs)+len(oks)+len(loop)+2==b.count('assert'),(len(errs),len(oks),b.count('assert'))
O='offset_of_uncached 20 (build64 true) test_type_info'
nod=[0,1,2,8,9,10,19,15,16,17,18,20,21]
st=[f'{O} {t} (s "{p}") = Err InvalidTypePath' for t in nod for p in('test','[0]')]
st+=[f'{O} {t} (s "{p}") = Err {k}' for t,p,k in errs]+[f'{O} {t} (s "{p}") = Ok ({u}, ByteOffset {o})' for t,p,u,o in oks]
st+=[f'{O} {t} (s "{p}") = Ok ({u}, ByteOffset {o})' for t in(6,11,12,13,14) for p,u,o in loop]
example(T,'test_offset_of',' /\\\n  '.join(st),img=False)
for n in('test_type_section_offset_overflow','test_type_section_end_overflow'):
    example(T,n,'type_information_new (buf IMG) = Err InvalidTypeSectionOffset')
body=TESTS[T]['test_array_element_offset_overflow'][1]; extra=inserts(re.sub(r'//[^\n]*','',body),'id_to_type_map')
out.append('Definition overflow_type_info : type_information := {|\n  id_to_type_map := inserted N.compare (test_types ++ ['+'; '.join('(%s, %s)'%(num(k),variant(v)) for k,v in extra)+']);\n  name_to_id_map := name_to_id_map test_type_info; id_to_name_map := id_to_name_map test_type_info |}.')
O=O.replace('test_type_info','overflow_type_info')
example(T,'test_array_element_offset_overflow',f'{O} 201 (s "[20]") = Err InvalidTypePath /\\ fails ({O} 201 (s "[0]")) = false',img=False)
missing=[(f,n) for f in TESTS for n in TESTS[f] if (f,n) not in seen]
assert not missing, missing
total=len(seen)
import subprocess
n=int(subprocess.run("grep -rc '#\\[test\\]' /repo/src | awk -F: '{s+=$2} END {print s}'",shell=True,stdout=subprocess.PIPE,text=True).stdout)
assert n==total,(n,total)
pre=f'''(** * RepoTests: the {total} unit tests of /repo, as Examples about the model (the
    model against the project's own expectations; no property rests on them).
    Written by tools/repo_tests.py, which reads the byte images and the table
    of [get_test_type_info] from the Rust sources. *)
From Coq Require Import Strings.String.
From Coq Require Import List NArith ZArith Bool.
From Verif Require Import Cache Spec LoadProps Witness Sample.
Import ListNotations.
Open Scope N_scope.

(** src/utils/readable_buffer.rs under a 64-bit build with overflow checks (as [cargo test] has them) *)
Definition buf (img : list byte) : env := {{| cfg := build64 true; rd := readable_buffer img |}}.
(** [FileHeader::new], [Header::new], then the record's own [new] *)
Definition record (img : list byte) : outcome error_kind type_variant :=
  fst ((fh <- file_header_new (buf img) ;; h <- header_new (buf img) fh ;; parse_type (h_kind h) (buf img) fh h) reader_new).
(** [is_err] *)
Definition fails {{E A}} (o : outcome E A) : bool := match o with Err _ => true | _ => false end.
(** a call whose error is looked at and not passed on *)
Definition attempt {{A}} (m : M A) : M (option A) := fun r =>
  match m r with (Ok a, r') => (Ok (Some a), r') | (Err _, r') => (Ok None, r') | (Panic p, r') => (Panic p, r') | (Diverge, r') => (Diverge, r') end.
(** [collect_path_components] *)
Fixpoint collect (fuel : nat) (path : str) (it : piter) : option (list component) :=
  match fuel with
  | O => None
  | S f => match next (build64 true) path it with
           | (Ok None, _) => Some []
           | (Ok (Some x), it') => match collect f path it' with Some l => Some (x :: l) | None => None end
           | _ => None
           end
  end.
Definition components (path : str) : option (list component) := collect 20 path piter_new.
(** [Header::create] *)
Definition mk_header (k : kind) (n v : N) (f : bool) (z : N) : header :=
  {{| h_kind := k; h_name_offset := n; h_vlen := v; h_kind_flag := f; h_size_or_type := z |}}.
(** [insert] one after the other *)
Definition inserted {{K V}} (cmp : K -> K -> comparison) (l : list (K * V)) : list (K * V) :=
  fold_left (fun m kv => bt_insert cmp (fst kv) (snd kv) m) l [].

'''
open('/verif/rocq/theories/RepoTests.v','w').write(pre+'\n'.join(out)+'\n')
print(total,'tests')
