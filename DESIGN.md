# Formal model of btfparse in Rocq/Coq 8.16

The code is never run here; the tie to it is the line citations in the model files. `/repo` is read as text.
Build: `cd rocq && coq_makefile -f _CoqProject -o Makefile && make -j4` (about ten minutes). `tools/manifest.py` regenerates MANIFEST.json.

## Layout (`rocq/theories`)

**Model** (definitions only, each with the `/repo` lines it models):

| file | models |
|---|---|
| `Base.v` | error kinds, outcomes (`Ok`/`Err`/`Panic`/`Diverge`), fixed-width arithmetic in debug and release builds, `String` as UTF-8 bytes, `BTreeMap`, bounded loops |
| `Reader.v` | `Readable` (an arbitrary function of the request history), `Reader` with its request trace, integer decoding, `ReadableBuffer`, the examples' `ReadableFile` |
| `Pread.v` | `read_exact_at` of the standard library, which the examples' `ReadableFile` calls, over system calls that deliver less than asked, are interrupted or fail |
| `Format.v` | `FileHeader`, `Kind`, `Header`, `parse_string`, the 19 record parsers, `define_type!`, the dispatcher |
| `TypeInfo.v` | `TypeInformation::new`, `get`, `id_of`, `from_id`, `name_of`, `pointee_tid`, `size_of`, `Offset` addition, path iterator, `offset_of_uncached` |
| `Copies.v` | the queries again, adding up the sizes of the types they copy |
| `Trace.v` | the queries again, listing the ids they look up |
| `Cost.v` | `offset_of` and `size_of` again, counting the type lookups (same control flow; proved to give the same results) |
| `Depth.v` | the queries again, counting how many calls are active at once (same control flow; proved to give the same results) |
| `Debug.v` | the `{:?}` text of types and of the type table (derived `Debug` through the builders of `core::fmt`, `str`'s escapes for characters up to U+00FF) |
| `Pretty.v` | the `{:#?}` text of the same: derived `Debug` through the builders and `PadAdapter` |
| `Message.v` | the queries and the path iterator again, with the messages of their errors (same control flow; proved to give the same results) |
| `LoadMessage.v` | the loader again, with the messages of its errors (same control flow; proved to give the same results) |
| `Tools.v` | the `main` functions of the three examples: arguments, opening, unwrapping, the printed answers as text |
| `Failure.v` | the same with the messages of their panics; `Debug` of `Error` |
| `Cache.v` | `offset_of` under the `caching` feature: any number of threads, each critical section one step |
| `Locks.v` | the same with acquiring, using and releasing the `RwLock` as separate steps |

**Specification** (what a reader has to trust besides the theorem statements):

| file | content |
|---|---|
| `Spec.v` | what a BTF image says, from the kernel's BTF documentation: words, strings, records, sections, defects |
| `BrokenSpec.v` | what is wrong with an image that is refused, and with which error |
| `NarrowSpec.v` | files that make a 32-bit build compute an address of 4 GiB or more |
| `OutcomeSpec.v` | where a path gets to, why it goes no further, and what can go wrong along it |
| `MessageSpec.v` | when each message of an error is true |
| `MirrorSpec.v` | a file in the other byte order; tables that agree up to 64-bit enumerator values |
| `ToolsSpec.v` | what the command line tools are asked, and the text of their answers |
| `FailureSpec.v` | why a tool can fail, and the text that tells each cause |
| `RelocateSpec.v` | two files with the same sections at different places |
| `SearchSpec.v` | offset_of as a search that takes the first match; searches without end |
| `CSpec.v` | C declarations, their layout by the System V ABI, what a designator designates, the rules of C; how a declaration is described in BTF |
| `LookSpec.v` | what a query wants to know of a type, and which types it looks at |
| `BlindSpec.v` | what of a type the queries look at; renaming members and types |
| `LoopSpec.v` | coming back: cycles of links, and questions of the search that need themselves |
| `FetchSpec.v` | requests in order, consecutive requests, what the answers tell, Readables fixed outside a range |
| `CostSpec.v` | tables in which looking for a member is cheap |
| `MergeSpec.v` | merging equal declarations |
| `CopySpec.v` | the size of a type |
| `KernelSpec.v` | what the Linux kernel checks before it accepts a BTF file: metadata, names, resolved types, sizes |
| `EvolveSpec.v` | fields of a struct, through anonymous members; a new table that has all that an old one has |
| `TraceSpec.v` | what a list of lookups means |
| `PrettySpec.v` | lines, levels of indentation, how values stand in them |
| `LoadMessageSpec.v` | what each message of a failed load says about the file |
| `DepthSpec.v` | what contains what |
| `DisjointSpec.v` | The bits that a place takes up, structs whose members are apart, where two paths part |
| `MemorySpec.v` | the names and items a table holds, the number of requests a table takes to load |
| `DebugSpec.v` | Rust string literals, visible characters, the values that a type's text has to show |
| `Encode.v` | abstract declarations and their encoding as a file (round trip) |
| `PathSpec.v` | the path language: grammar, printing, iterating |
| `QuerySpec.v` | sizes, links, "the path leads from t to u at o", well-behaved tables |
| `PreadSpec.v` | an operating system that keeps the bytes of a file, is interrupted, fails |
| `WalkSpec.v` | objects in memory, member access, dereference and container_of, in C and by queries |

They use the model's data types (`type_variant`, `offset`, `component`, `error_kind`, ...) and, for tables, its lookups `from_id`/`id_of`
(themselves characterised by C07-C10), but none of the functions being specified.

**Properties**: `PropLoad.v` (C01-C07), `PropLoad2.v` (C08-C23, C42, C44), `PropPath.v` (C24-C27), `PropQuery.v` (C28-C31),
`PropOffset.v` (C32-C39, C43), `PropCache.v` (C40, C41, C45), `PropMore.v` (C46, C47), `PropSame.v` (C48, C49), `PropWork.v` (C50), `PropError.v` (C51), `PropOutcome.v` (C52, and C30, C33 along the path), `PropCost.v` (C53), `PropTools.v` (C54), `PropClosed.v` (C55, C56), `PropMessage.v` (C57, C58), `PropRelease.v` (C59), `PropNarrow.v` (C02, C59 exactly), `PropMirror.v` (C60), `PropLoadMessage.v` (C61), `PropDepth.v` (C62), `PropDebug.v` (C63), `PropDisjoint.v` (C64), `PropTruncate.v` (C65), `PropGrowth.v` (C66), `PropMemory.v` (C67, and C50 exactly), `PropFailure.v` (C68), `PropRelocate.v` (C69), `PropSearch.v` (C70, and C30 exactly), `PropBlind.v` (C71), `PropLoop.v` (C72, and C30 by loops), `PropFetch.v` (C73), `PropPrefix.v` (C74), `PropLook.v` (C75), `PropC.v` (C76), `PropTag.v` (C77), `PropProgram.v` (C78), `PropPointer.v` (C79), `PropCheap.v` (C53 for C programs), `PropMerge.v` (C80), `PropCopy.v` (C81), `PropPretty.v` (C82), `PropTrace.v` (C83), `PropWidth.v` (C84), `PropKernel.v` (C85, C86), `PropEvolve.v` (C87), `PropPread.v` (C88), `PropWalk.v` (C89), `PropWidths.v`, `PropWidths2.v`, `PropWidths3.v`, `PropWidths4.v`, `PropWidths5.v`, `PropWidths6.v` (C03-C16, C18-C23, C42, C44, C47-C51, C54, C60, C61, C63, C67-C69, C71, C73, C80-C82 on 32-bit builds), `PropBuilds.v` (C17, C47, C65, C88 in every build), `PropWrap.v` (C29 exactly) and those named in the table below. Theorem `Cxx_...` belongs to property
Cxx; each has `Print Assumptions` below it and an Example `Cxx_met` showing that a concrete case meets its hypotheses. Most Examples use
`Sample.v` (and, for C76, `RealFile.v`: GCC's output): a 781-byte file with all nineteen kinds, duplicate names, nested anonymous members, bitfields and arrays.

**The model against the project's tests**: `RepoTests.v` states all 56 unit tests of /repo as Examples about the model, and all hold. `tools/repo_tests.py` writes it; byte images
and the table of `get_test_type_info` are read from the Rust sources, so they are not transcribed by hand. No property rests on it: it is evidence that the model is the code.

**The model against an independent port**: `tools/difftest/run.sh SEED CASES` extracts the model to OCaml and compares it, on random (valid, damaged, ambiguous, cyclic) files, Readables, builds,
paths and names, with `port.py`, a line-by-line Python port of /repo/src: result, kind and message of the load, {:?} text of the table, sequence of Readable calls, and every query with its message.
5,000 files and some 60,000 queries: no difference. Not part of the build, and no property rests on it.

**Proofs**: the remaining files, one per topic (`Safety` no panic/termination, `Exact` loader = specification, `Errors` which error,
`EncodeProof` round trip, `Path*` parser, `Chains`/`Sizes`/`Follow`/`Offsets*`/`OffsetOf*`/`Move`/`Compose` queries, `Local`/`Transport` requests, `CacheProps`/`Locks*`, `Checker`
boolean tests that establish the well-behavedness of a concrete table, `Witness` raw images for refutations).

## Modelling decisions

* `Result` stays data; a panic and non-termination are explicit outcomes. Arithmetic is written at its real width; `+`/`*`
  panic or wrap on overflow according to the build profile, `checked_*` return `None`.
* usize is 64 bits unless a statement says otherwise (`build` carries the width).
* An error is its `ErrorKind`, except in `Message.v` (queries), `LoadMessage.v` (loader) and `Failure.v` (tools), which have the messages too. An error of the `Readable` is its kind everywhere.
* A `Readable` may answer anything, depending on all previous requests; theorems about file contents assume `serves rd img` (an
  unchanging image), which is proved of `ReadableBuffer` and of the examples' `ReadableFile`. A Readable that itself panics or never returns is outside the model.
* Recursion over type ids carries fuel; running out is the outcome `Diverge`. For chains of links (`size_of`, `pointee_tid`,
  resolving) it is proved that this happens exactly when the real recursion never ends; for `offset_of` results are stated by
  `offset_of_returns` (some fuel is enough) and `offset_of_never_returns` (none is). Finite stack size and memory exhaustion are not modelled.
* `BTreeMap` is a key-ordered association list; `HashMap` an association list whose order is not observed.
* `char::is_alphabetic`/`is_numeric` on Latin-1, `str::parse::<usize>`, `str` slicing, `from_le_bytes` and `RwLock` are
  modelled from the standard library's documentation; so are the builders of `core::fmt` and the characters `str`'s `Debug` escapes (up to U+00FF).

## Not modelled

`Clone`/`PartialEq` derives, `Debug` of file paths, what the panic hook writes around a message, the texts of I/O errors (parameters of C68), arguments that are not Unicode, output errors, allocation failure, the size of a stack frame and stack exhaustion (a chain of links of any finite length counts as terminating; C62 counts the nested calls), allocator overhead
(C66 and C67 count entries and bytes of text) and time, weak memory effects below `RwLock`'s guarantees.

## Trusted base

* Coq 8.16.1's kernel (including `vm_compute`, used for concrete images and finite sweeps over bytes).
* Axioms: every property theorem prints "Closed under the global context". `vcheck` (coqchk) lists seven names from
  `Coq.ssr.ssrunder.Under_rel`, a sealed module of the standard library that is loaded with `lia`/`Zify`'s ssreflect dependencies;
  no theorem uses them. No axioms of ours, no functors, no `Admitted`.
* The reading of `/repo` expressed in the model files, and the specification files above.

## Findings (the properties whose full statement the code violates)

| property | what happens | witness |
|---|---|---|
| C02 | on 32-bit targets `reader.offset() + 12` (header.rs:52), `offset + required` (define_type.rs:74) and `offset + 1` (string.rs) overflow for sections ending within a few bytes of 4 GiB: panic in debug, wrap in release | `panic_32`, 24 bytes |
| C59 | the same sums wrap in 32-bit release builds: a file of 4 GiB whose type section ends at 2^32-1 is read round and round for ever (memory runs out first), and a 24-byte file gets another error | `giant`, `wrapping` |
| C06 | Enum64 values are read as one u64, but BTF stores low word then high word: in big-endian files the words are exchanged | `enum64_big` |
| C12 | string bytes are pushed as `u8 as char` (Latin-1), so UTF-8 names come out as mojibake and cannot be found by `id_of` | `utf8_file` |
| C14, C15, C17 | array records: the section check uses vlen*12, and vlen is 0, so up to 12 bytes past the type section are read and accepted | `array_file` |
| C26 | a trailing "." or "name[" and leading zeros in indices are accepted | four literals |
| C29 | `element_size * element_count` is unchecked: panic in debug; wrapped size, and hence wrong `offset_of`, in release | `overflow_file` |
| C30 | typedef cycles: endless recursion/loop in `size_of`, `pointee_tid`, `offset_of`; a struct with an anonymous member of its own type: endless recursion in `offset_of` | `cycle_file` |
| C37 | `offset_of(unknown id, "")` succeeds | sample file |
| C53 | each anonymous member is searched again wherever it occurs, so structs with two anonymous members of the previous struct make a failing lookup exponential: 37 + 36*n bytes, 2^(n+1) - 1 type lookups | `doubling` |
| C53 | a name that can be looked for in two ways is looked for in both: in one fixed file of 93 bytes and two structs a path of 2k + 1 bytes takes 2^(k+2) - 2 type lookups before it fails | `forking` |
| C39 | an unnamed bitfield member makes every lookup by name in its struct fail with UnexpectedBitfield | `unnamed_bits_file` |
| C77 | for a pointer to `__rcu`/`__user`/`__percpu` data pointee_tid gives the type tag; offset_of on it fails with InvalidTypePath and a second pointee_tid with InvalidTypeID, though size_of sees through it | `kernel`, ids 17 and 24 |
| C79 | the size of a pointer is half that of any type called list_head: without one, pointers and arrays of pointers have no size and cannot be indexed (InvalidTypeID); with another one, sizes and offsets are wrong | `nodes`, `own_list` |
| C85 | one bitfield as compilers described them before the kind flag (Linux 4.20, pahole before 1.13) - a bit offset that is no multiple of eight in a struct without kind flag, which the kernel still accepts - makes the whole file unloadable (InvalidOffset) | `old_fields` |

Also observed: all named kinds share one name table, so a later typedef, function or variable called `list_head` makes
`size_of(pointer)` fail (C28's `pointer_sized`); an unaligned member without kind flag fails the whole load (C21); overflow of an anonymous
member's offset aborts the lookup instead of trying the other members (C33's last condition); names are read again for every reference,
one byte per request, so an 838-byte file causes 20562 requests (C50, `heavy`);
whatever goes wrong inside an anonymous member (say NotSized) is reported as InvalidTypePath unless another member matches (C52's `no_member`);
the message "Expected name after '.'" (type_information.rs:231) is never given, because a trailing dot ends the iteration before it; the index in
"Invalid character at index k" counts bytes, and may point inside a character (C58).

## Properties

How each is proved. "Refuted + partial": the full statement is false of the code; a witness is proved, and the strongest true part.

| id | status | approach |
|---|---|---|
| C01 | proved | invariant over the loader for an arbitrary Readable; both profiles give the same result |
| C02 | refuted + partial | 32-bit run simulates the 64-bit run when no section ends in the last MiB; for files below 4 GiB - 1 MiB, every answered request ends inside the file, so only the end of the first record can overflow (`Small32.v`); exactly, for all files: both builds run in step, the parsers proved to agree unless the narrow one panics, which it does exactly if the place it is at satisfies a condition on the image (`Narrow.v`, `PropNarrow.v`) |
| C03 | proved | loader equals the relational specification `file_describes`, both directions |
| C04 | proved | encoder, list induction; reserved bits, version and flags arbitrary |
| C05 | proved | both encodings load to the same views |
| C06 | refuted + partial | exact result in both orders |
| C07-C10 | proved | invariants of the three maps over the insertion history |
| C11, C13 | proved | string specification `raw_string`/`latin1`; first defect decides the error |
| C12 | refuted + partial | returned as stored iff ASCII |
| C14, C15 | refuted + partial | trace invariant; first-failure theorem |
| C16 | proved | trace invariant: a failed request is the last one and its error the result |
| C17 | proved + refuted corollary | determinism in the answers; locality in the sections up to the array tail |
| C18-C20 | proved | first-request theorem, info word decoding, header arithmetic |
| C21-C23 | proved | bit-level lemmas about shifts and masks |
| C24 | proved | arithmetic |
| C25, C27 | proved | abstraction of the iterator to a grammar; totality by position |
| C26 | refuted + partial | accepted language characterised exactly; canonical form up to zeros and one trailing character |
| C28, C31 | proved | relational size/pointee semantics, both directions |
| C29, C30 | refuted + partial | overflow and endless chains are the only reasons |
| C32, C33 | proved | `leads` relation: soundness for all tables, completeness for well-behaved ones |
| C34 | proved | one unfolding per link |
| C35 | proved | induction over `leads` in consistent tables |
| C36 | proved | error of each refused component, after any followable prefix |
| C37 | refuted + partial | |
| C38 | proved | simulation of the two runs shifted by i*size |
| C39 | refuted + partial | |
| C40, C41 | proved | invariant over all schedules of both thread models |
| C42 | proved | loader determinism on a common prefix |
| C43 | proved | profile simulation |
| C44 | proved | width invariant of every parser |
| C45 | proved | lock invariant, progress for every reader/writer priority, a decreasing measure, fair rounds |
| C46 | proved | splitting and joining derivations of `leads`; text level: `join` of accepted paths |
| C47 | proved | from C16/C17 by a hybrid Readable that answers like one up to the request in question |
| C48 | proved | induction on the rounds of each query, the two tables in step |
| C49 | proved | what a table shows determines it (C08-C10), C48 with the identity, C44 to re-encode, C04/C05 to reload |
| C50 | proved | potential: an answered 4-byte read inside the type section earns s, a name costs at most 2s, the three words of a record header pay for its name |
| C51 | proved | error-tracking triples (`explains`: every error of a parser run is the last request's, or a defect in the specification) beside the exact ones; converse from the per-defect lemmas, and `same_image` (C47) for "no request outside" |
| C52 | proved | induction on the fuel of the search, with the places it gets to (`gets`) and the reason it stops there (`blocked`); endless chains by the pigeonhole argument of C30, now started at a place the search got to |
| C53 | refuted + partial | family of files with exponential lookups (induction on n, C04 to load them); upper bound: the anonymous members met while looking for one name form a tree whose edges are distinct (unique parents, no cycles), and only one of its nodes goes on with the rest of the path; types may be shared (deduplicated files) if from no struct one gets into another in two ways, which names that are unambiguous exclude if each anonymous struct has a named member; every file of a lawful C program is so |
| C54 | proved | the tools as functions of arguments and file contents; composition of C03, C09, C28/C29, C32/C33 (tables that answer `from_id` and `id_of` alike satisfy the same specification); printed numbers are read back by splitting at digits from both ends |
| C55 | proved | all links and members lead to mentioned ids; induction on chains and on `gets`; C52's explanation of errors |
| C56 | proved | offset_of is a function of the parser's script (components and end) |
| C57 | proved | erasure of the messages gives C28-C33's functions; induction on the fuel with the places the search gets to, as in C52 |
| C58 | proved | an automaton for beginnings of paths; every byte the iterator has passed keeps it alive, the refused one kills it |
| C59 | refuted + partial | an image given by its words, invariant of the endless loop for any bound; no panic by a compositional predicate over the parsers; short files by cases on that first sum (`Small32.v`); all files outside `reaches_4G` from C02 (`PropNarrow.v`) |
| C60 | proved | relational triples over the two readers (same offset, opposite orders); the loop invariant says the tables agree until an array crosses the end of the section; queries by induction on fuel |
| C61 | proved | erasure of the messages gives C51's loader; triples "an error is the one of `broken_says`" over the parsers, uniqueness by the first-item argument of C51; completeness from uniqueness and C51's completeness |
| C62 | proved | the queries again with the nesting of their calls; every nested call is one step of a walk along links, and a walk longer than the table enters a cycle |
| C63 | proved | printers compose: each text ends where it ends, because numbers and words are followed by punctuation and quoted text has no bare quote; a decoder for string literals inverts the escapes; every character of the text is checked visible, names by cases on the byte |
| C64 | proved | induction on where the paths part; a path stays inside the member or element it enters (C35), which is the one the name accounts for |
| C65 | proved | up to the first request answered differently the two loads agree (C47's lemma on the next request), and a failed request ends the load (C16); a record that was read lies inside the image |
| C66 | proved | entries are answers (C41) and every answered call left one; a step of a call whose question is known adds no key; `tasks[0]`, `tasks[00]`, ... give the witness for unbounded growth |
| C67 | proved | each record of the specification has room for what it holds, inside the section and inside the image; sums over the records (`records_at`); the family `crowded n m` is described by n typedefs and loads by C03. C50_exact counts the requests of every parser on success (`Count.v`) |
| C68 | proved | the tools with messages (`Failure.v`) erase to those of C54; why they can fail (`FailureSpec.v`: `cause`) is stated by the specifications of C51/C57/C61; the case analysis on opening, looking up and querying gives existence and uniqueness; the text of an error is read back by decoding the quoted message behind the kind |
| C69 | proved | every part of the file specification (`Spec.v`, `BrokenSpec.v`) is transported from one layout to the other: a word, string, record or defect inside a section is the same bytes elsewhere; with the exact characterisations of loading (C03) and of failing (C51) this gives the same result, `cut_array` being the only record that reads beyond its section; two cut files that load differently show the exception is needed |
| C70 | proved | the search is an inductive relation on places, types and components (`SearchSpec.v`: `finds`), without fuel, iterator or cache; induction on the fuel gives one direction, induction on the derivation (with a common fuel for the failing anonymous members) the other; `busy n` is the same for a search that is not over |
| C71 | proved | `BlindSpec.v` says which parts of a type count (`shape_of`) and what renaming is; simulation between the two tables by induction on the fuel, for chains, sizes and the walk over the components; for loaded files from the exact meaning of name_of and id_of |
| C72 | proved | `LoopSpec.v`: which questions the search asks to answer another, and what coming back is. Pigeonhole: places below 4 GiB, bit sizes and types of the table and rests of the path are finitely many, so a search with more nested steps than that has asked a question twice; round a loop the components stay and offsets add up to 0 |
| C73 | proved | `FetchSpec.v`: the requests longer than a byte, in order; consecutive; what answers tell about bytes. Every parser's words start at the reader's position and end at its new one, names move it nowhere; a file is put together from the answers, and C17 does the rest. Names changing meanwhile: counterexample |
| C74 | proved | For the search of C70: as long as looking for `cs` has no answer, looking for `cs ++ cs'` gives the same (induction on the steps). A text that goes on with `.` or `[` begins with the components of the path (`PrefixFacts.v`). Inside and behind a bitfield: C32 and uniqueness of where a path leads; ambiguous table: counterexample |
| C75 | proved | `LookSpec.v`: what each query wants to know of a type (`view_*`), and which types it looks at (inductive, over the links of QuerySpec.v). Step by step the two tables give the same next step; steps that are enough for both tables are enough |
| C76 | proved | `CSpec.v` says nothing of btfparse; `describe` maps a C declaration to a BTF declaration (Encode.v), and `compiled` holds of every file that describes (Spec.v) these declarations, whatever its string table, byte order, flags and way to write enumerators. The file loads (C05, C13), the table describes the program, and has all the properties that C28-C33 and C64 ask for: acyclic (rank), consistent and non-overlapping (layout lemmas, for any pointer size and alignment, packed or not), unambiguous, small sizes; `leads` and `designates` coincide. 32-bit builds load the same files with the same tables (`loadable`, C02_same_accepted_partial). Pointer sizes come from struct list_head, which the program is required to have, once, if it has pointers. `C76_has_file`: every lawful program has a file. `RealFile.v`: two files written by GCC 12.2 (64 and 32 bits) are such files of the C source shown there. The layout rules were compared with GCC, Clang and a kernel's BTF: tools/abi. All kinds of BTF are in the language; type tags only where compilers put them, on what a pointer points to |
| C77 | refuted + partial | In `CSpec.v` the meaning of designators has a switch for type tags; C is with the switch on. `C77_tags_refuted`: a legal program with `task_t __rcu *` where pointee_tid gives the tag and offset_of on it fails for a path C accepts. `C77_tag_partial`, for every table: size_of sees through a tag, offset_of and pointee_tid always refuse. `C77_untagged_partial`: in the file of a legal program, following the tags first gives exactly the C answers (from C76, by induction on the rank of the type) |
| C78 | proved | C76 with the tools (Tools.v, C54), and with the concurrent cache (Locks.v, C40, C45); the Example runs the tools and two threads on GCC's file |
| C79 | refuted + partial | The rules of C in `CSpec.v` are `lawful`; `legal` adds the kernel's list_head. `C79_pointers_refuted`: struct node without list_head, where `slots[1]` is refused, and a program with its own list_head, where pointers have 4 bytes instead of 8 and `slots[1]` is at 4 instead of 8. The partial theorems say, for every lawful program without list_head, exactly which queries are answered, and that the answers are those of C; `of_pointers` and `reaches` are in `CSpec.v`. By the same induction as C76: btfparse's sizes are those of C wherever the size of a pointer does not enter. Names and pointees do not need list_head: C76_by_name, C76_pointee and C76_has_file hold for lawful programs. For every lawful program, whatever it calls list_head (`Taken.v`): btfparse takes pointers to be half the last struct of that name (`pointer_taken`), sizes and places are exactly those that follow from it (`taken_size`, `reaches` with these sizes), and queries are answered; on 32-bit builds if these sizes fit, and the places if they lie below 512 MiB |
| C80 | proved | `MergeSpec.v`: declarations and the ids that stand for them; a merge is a (non-injective) renumbering in the sense of C48 that keeps names; that merging what says the same yields one is proved by following each kept declaration to its new place |
| C81 | proved | `Copies.v`: the queries once more, adding up the size of the types that [from_id] copies; the sum is bounded by w times the count of `Cost.v` by induction along the run (same results: C81_same); the largest type from C67. |
| C82 | proved | `Pretty.v`: derived `Debug` as a tree of builder calls, printed in one line (equal to Debug.v, C82_same_tree) or through nested `PadAdapter`s; texts without line breaks make the adapters indent whole lines, so the text is the lines of the tree (`rows`); a line's indentation and its last characters tell what it opens or closes, so the lines determine the tree; C63 does the rest |
| C83 | proved | `Trace.v`: the queries with the list of ids given to [from_id]; counts and copies are homomorphic images of the list, by induction along the run; agreement of two tables on the list keeps every step's result (fuel differs with the table: a chain that ends does so with any sufficient fuel); each entry is the id asked about, list_head, or mentioned by an earlier entry, by induction with the set of earlier entries. |
| C84 | proved | Both widths are one parameter of the model (`usize_bits`). Sizes: the characterisation of size_of by has_size, whose bound only grows. Paths: the two parsers differ only in `parse_usize`, so the scripts are equal or part at an index above the narrower maximum (`script_wider`). Walk: equal step by step for equal scripts (`follow_wider`); behind the too-big index the wider walk can only fail, as no array has that many elements, and by induction on the fuel its errors, skipped by the probing of anonymous members in both builds alike, map to errors of the narrower walk (`follow_loses`, in `WidthFacts.v`). Files: with C02_same_accepted_partial. |
| C85 | partial | `kernel_checked`: the checks of kernel/bpf/btf.c that matter (a file the kernel accepts meets them). By C51 a refused file is broken; case by case the kernel's check excludes the defect, except one; C14: no request goes past the end. Then exactly when it loads, and with which ids; the full statement is refuted (`C85_refuted`). |
| C86 | proved | `kernel_resolved`: what btf_resolve establishes. No link chain is endless (the ranks of the kernel's containment, void and forwards below); array sizes below 2^32 bound the crate's sizes for any list_head (by induction along the size, at most 2^31 times the kernel's) and are the kernel's when list_head has its pointers' size; then C28, C30, C31, C35, C52. Also here: `KernelTypes.v`, `KernelCheck2.v`. |
| C87 | proved | `evolved old new R`: wherever R relates two types, the new one has each field (at any depth of anonymous members) and the elements of the old one. A path that leads somewhere in the old table is split at its components (`leads_split`), each step is repeated in the new table and they are put together again (`leads_app`); C32 and C33 tie this to offset_of. Dropped fields: C52, every other reason excluded in an orderly table. `C87_kernel`: tables the kernel resolved (C86) are orderly. |
| C88 | proved | `Pread.v` models `read_exact_at` of the standard library as a loop over calls of an arbitrary function of the history; `keeps` (PreadSpec.v) says that what is delivered are bytes of the file. By induction on the rounds each request gets the bytes of the file, or an error that only a failing call or the end of the file explains; with C47 (same bytes, same result) and C65 (a failing source is never misread) the load follows. Termination by induction on the missing bytes, and on the interruptions that are left. |
| C89 | proved | `WalkSpec.v`: the operations in C (`c_does`, over `designates` and `c_is` of CSpec.v) and with the API (`does`), memory an arbitrary function. Each operation of one side is matched by one of the other (C76, C77_untagged), keeping the address equal and the types equal up to tags; then induction over the sequence, both ways. |
