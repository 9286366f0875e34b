#!/usr/bin/env python3
"""Regenerates MANIFEST.json from the theorem names in rocq/theories (Theorem Cxx_...) and the notes below."""
import json, re, glob, collections
NOTES = {
'C85': 'Refuted: a bitfield in the old encoding (no kind flag) makes the load fail. Proved part: every other file the kernel accepts is loaded with the kernel\'s ids, and such a file always fails with InvalidOffset. kernel_checked states necessary conditions of acceptance, from kernel/bpf/btf.c; the kernel itself is not modelled.',
'C86': 'kernel_resolved states necessary conditions of acceptance, from kernel/bpf/btf.c; the kernel itself is not modelled.',
'C02': 'Refuted: 24 bytes make a 32-bit debug build panic. Proved part: when no section ends in the last MiB below 4 GiB the 32-bit build equals the 64-bit build (result and requests); with overflow checks it always does, or panics; for files shorter than 4 GiB - 1 MiB (whatever the header says) it panics exactly if the type section starts in the last 12 bytes below 4 GiB and ends below 4 GiB. All builds accept the same files of at most 4 GiB - 1 MiB, with the same tables. And exactly, for files of any length and header: with overflow checks it panics for the files of reaches_4G (NarrowSpec.v) and no others; for all others every 32-bit build does what every 64-bit build does.',
'C03': 'Both directions, for every image. The right-hand side includes the array-tail tolerance (C15) as describes_but_tail.',
'C05': '64-bit enumerators are excluded: they are C06.',
'C06': 'Refuted for big-endian files (the two words of a value are exchanged). Proved part: what is loaded in either order.',
'C12': 'Refuted: UTF-8 bytes are decoded as Latin-1. Proved part: a name is returned as stored exactly when it is ASCII.',
'C14': 'Refuted: an array header at the end of the type section makes the loader read 12 bytes past it. Proved part: that is the only way out of the sections.',
'C15': 'Refuted for arrays with vlen 0. Proved part: all other kinds, and arrays up to 12*vlen.',
'C17': 'The first sentence is proved; "bytes outside the three ranges" is refuted by the array tail (C14) and proved otherwise.',
'C26': 'Refuted: one trailing "." or "[" and leading zeros are accepted. Proved part: the accepted language exactly, and the errors for everything else.',
'C29': 'Refuted: unchecked multiplication. Proved part: exact or panic with overflow checks, exact modulo 2^64 without, exact when the size is positive and fits; with overflow checks it panics exactly if a product that enters into the size does not fit, without it returns exactly the size modulo 2^64 (2^32).',
'C30': 'Refuted: self-referential typedefs and anonymous members. Proved part: an endless chain of links is the only reason, and only one that the path gets to; offset_of does not return exactly if the search of C70 is not over after any number of steps, that is (C72), if it comes back to a question it had asked.',
'C32': 'Without overflow checks the element sizes are those size_of reports (C29).',
'C33': 'Side conditions are those forced by C29, C30, C39 and 32-bit offsets; C33_exact_along_path needs them only at the places the path gets to.',
'C37': 'Refuted: the empty path succeeds for unknown ids. Proved part: everything else.',
'C59': 'Refuted: a 4 GiB file on which it never returns, and 24 bytes with another error. Proved part: no panic; equal to the 64-bit build when no section ends in the last MiB; for files shorter than 4 GiB - 1 MiB it returns and accepts the same files with the same tables (only the error can differ, in the case above); for files of any length it returns the result of the 64-bit build unless the file is one of reaches_4G (NarrowSpec.v). On 32-bit release builds the model cuts loops after as many rounds as the section has bytes; the refutation holds for every number of rounds.',
'C60': 'The one exception stated in the theorem is the array tail of C14; 64-bit enumerators are related by exchanging halves (C06).',
'C61': 'Spec: LoadMessageSpec.v (broken_says). C61_message_iff is for served files on 64-bit targets, C61_any_width also for 32-bit ones when no section ends in the last MiB below 4 GiB; C61_kind_of_message and C61_readable_error hold for every Readable and target.',
'C62': 'Counts calls of the three functions that call themselves; the others add a constant. C62_reached: the bounds are attained. Example C62_cycle: with an anonymous cycle offset_of may return and still nest deeper than there are types.',
'C63': 'The escapes follow str::fmt for characters up to U+00FF, which are all that names can contain (C11). Example C63_met: a file whose name tries to colour the terminal and to forge a line.',
'C64': 'The layout hypotheses (consistent, unambiguous, members_apart) are about the file; all three are checked for the sample file, where a union shows that the condition on where the paths part is needed.',
'C65': 'C65_never_misread covers files that grow while they are read. A file whose tail was preallocated with zeros is not cut off in this sense.',
'C66': 'C66_no_limit is a statement about the code as it is (an unbounded cache keyed by the text of the path), not a defect of the answers.',
'C67': 'Counts entries and bytes of text, not allocator overhead. C67_bounded_memory covers every file, C67_order_reached the family of files that reach the order.',
'C68': 'The text of the panic message, not the prefix written by the panic hook; the texts of I/O errors are parameters. C68_cause_readable assumes that the text of a failed open does not look like an error of the library.',
'C69': 'The exception (a type section that ends inside its last array, C14) is part of the statement and shown to be real by C69_met.',
'C70': 'Element sizes are what size_of returns (C28, C29), so wrapped sizes of release builds are included. Caching: C40, C41, C45.',
'C71': 'Results are compared by value and error kind (messages show the type, so they do show its name). C48 is the same for type ids.',
'C72': 'The stack is unbounded in the model; on a real machine a call that does not return by recursion ends in a stack overflow (C62 counts nested calls).',
'C74': 'That the longer path stays inside is stated for tables that name members unambiguously; C74_elsewhere shows why.',
'C77': 'Refuted: offset_of and pointee_tid do not see through type tags (size_of does). Proved part: exactly what each query does on a tag, for every table; and that following the tags by hand gives the answers of C for every legal program.',
'C79': 'Refuted: the size of a pointer is taken from a type called list_head. Proved part, for every lawful program without list_head: exactly which queries are answered, and that the answers are those of C; for every lawful program, whatever its list_head: exactly the sizes and places that follow from the size btfparse takes for pointers (completeness of places: when they lie below 512 MiB), and that all other sizes are those of C.',
'C76': 'The ABI part (layout rules of GCC and Clang; pointer size, alignments and unnamed bitfields by machine) is a specification of what compilers do, not derived from anything in the repository (compared with compilers: tools/abi). Attributes on bitfields are not in the language; a flexible array member is an array with 0 elements; types are under 512 MiB (bit offsets are 32-bit numbers), structs with bitfields under 2 MiB (24-bit offsets in the format).',
'C75': 'Kinds of errors; messages name types and are not compared. What is looked at is an upper bound: a search that has found its member looks at fewer.',
'C73': 'A read that fails ends the load with its error (C16). On 32-bit targets: the _any_width theorems, for builds with overflow checks and loads that do not panic (C02).',
'C53': 'Refuted twice: structs with two anonymous members of one type double the work at each level (C53_exponential_refuted), ambiguous names at each component of the path (C53_ambiguous_refuted: one fixed file of 93 bytes). Proved part: the bound, when no struct gets to another in two ways through anonymous members, names are unambiguous and chains end: in files where each anonymous member has a type of its own, in deduplicated ones, and in every BTF file of a C program; size_of always.',
'C39': 'Refuted: an unnamed bitfield makes every lookup by name fail. Proved part: true when anonymous members start at whole bytes.',
}
th = collections.OrderedDict()
for f in sorted(glob.glob('/verif/rocq/theories/*.v')):
    for m in re.finditer(r'^Theorem (C\d\d)_(\w+)', open(f).read(), re.M):
        th.setdefault(m.group(1), []).append(m.group(0).split()[1])
ids = [json.loads(l)['id'] for l in open('/verif/properties.jsonl')]
assert set(th) == set(ids), set(th) ^ set(ids)
claims = []
for i in ids:
    partial = any(t.endswith('_refuted') or t.endswith('_partial') for t in th[i])
    claims.append({'property': i, 'status': 'partial' if partial else 'proved', 'theorems': th[i], 'note': NOTES.get(i, '')})
json.dump({'claims': claims}, open('/verif/MANIFEST.json', 'w'), indent=1, ensure_ascii=False)
print(sum(c['status']=='proved' for c in claims), 'proved,', sum(c['status']=='partial' for c in claims), 'partial,', sum(len(v) for v in th.values()), 'theorems')
