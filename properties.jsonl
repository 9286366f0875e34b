{"id": "C01", "title": "Loading never panics on 64-bit targets", "statement": "TypeInformation::new, given any Readable whatsoever (including one that lies, fails, or answers the same request differently each time), returns Ok or Err; it never panics (no arithmetic overflow, no out-of-range index, no bad slice) and it always terminates. Hence debug and release builds return the same result.", "quantifier": "every Readable behaviour (any answer to any read request, depending on the whole request history), both build profiles, 64-bit usize", "why_tests_cant": "the space of files and of Readable implementations is unbounded; a test samples a few images", "anchors": ["src/btf/type_information.rs::TypeInformation::new", "src/btf/header.rs::Header::new", "src/btf/define_type.rs::define_type", "src/btf/string.rs::parse_string", "src/utils/reader.rs::Reader::read"]}
{"id": "C02", "title": "Loading never panics on 32-bit targets", "statement": "The same guarantee as C01 on a target whose usize has 32 bits: no file makes TypeInformation::new panic.", "quantifier": "every image, 32-bit usize, overflow checks on", "why_tests_cant": "needs the one file whose section ends within 12 bytes of 4 GiB, on a 32-bit target", "anchors": ["src/btf/header.rs::Header::new", "src/utils/reader.rs::Reader::read", "src/btf/type_information.rs::TypeInformation::new"]}
{"id": "C03", "title": "Loader recognises exactly the files that describe the returned types", "statement": "For an in-memory or file image, TypeInformation::new returns Ok with the types t1..tn exactly when the image has a BTF magic, complete header, and a type section that is the concatenation of the records of t1..tn, with every name a NUL-terminated string of the string section; every field of every returned type is the value stored in the image, up to the tolerance for arrays at the end of the type section described in C15.", "quantifier": "every image of every length, both endiannesses, any number and mix of the 19 kinds, any vlen", "why_tests_cant": "the equivalence has to hold for every byte string, accepted or rejected", "anchors": ["src/btf/type_information.rs::TypeInformation::new", "src/btf/file_header.rs::FileHeader::new", "src/btf/header.rs::Header::new", "src/btf/define_type.rs"]}
{"id": "C04", "title": "Encode/parse round trip", "statement": "Writing any list of well-formed type declarations in the BTF file format (kernel documentation layout), little endian, and loading the result gives back exactly those declarations, in order, with type ids 1..n, names, sizes, members, enumerators, parameters and flags intact.", "quantifier": "every list of well-formed declarations of any length and any of the 19 kinds", "why_tests_cant": "unbounded lists of declarations; tests load one record at a time", "anchors": ["src/btf/type_information.rs::TypeInformation::new", "src/btf/struct_union.rs::Data::new", "src/btf/enum.rs::Data::new", "src/btf/func_proto.rs::Data::new", "src/btf/data_sec.rs::Data::new"]}
{"id": "C05", "title": "Endianness independence", "statement": "The big-endian and the little-endian encoding of the same declarations load to the same types.", "quantifier": "every list of well-formed declarations without 64-bit enumerators (those are C06)", "why_tests_cant": "must hold for all declarations; a test compares one literal", "anchors": ["src/btf/file_header.rs::FileHeader::detect_endianness", "src/utils/reader.rs::Reader"]}
{"id": "C06", "title": "64-bit enumerators in big-endian files", "statement": "An enumerator of an Enum64 is stored as a low 32-bit word followed by a high 32-bit word (BTF documentation); the loaded value is low + 2^32*high in both endiannesses.", "quantifier": "every 64-bit value, both endiannesses", "why_tests_cant": "tests only use little-endian images, where the defect cannot appear", "anchors": ["src/btf/enum64.rs::Data::new", "src/utils/reader.rs::Reader::u64"]}
{"id": "C07", "title": "Type ids are consecutive from 1 in file order", "statement": "After a successful load, get() holds exactly the keys 1..n in increasing order, where n is the number of records in the type section, and get()[i] is the i-th record; from_id agrees with get() for every non-zero id, from_id(0) is Void, and unknown ids give None.", "quantifier": "every successful load, every u32 id", "why_tests_cant": "any number of types; every id", "anchors": ["src/btf/type_information.rs::TypeInformation::new", "src/btf/type_information.rs::TypeInformation::from_id", "src/btf/type_information.rs::TypeInformation::get"]}
{"id": "C08", "title": "Names and ids agree", "statement": "If id_of(n) is Some(t) then name_of(t) is Some(n); if name_of(t) is Some(n) and n is not \"void\" then id_of(n) is Some(t') for some t' >= t carrying the same name; id_of(\"void\") is always 0 and name_of(0) always \"void\".", "quantifier": "every successful load, every name and every id", "why_tests_cant": "relates three maps built incrementally over an arbitrary file", "anchors": ["src/btf/type_information.rs::TypeInformation::id_of", "src/btf/type_information.rs::TypeInformation::name_of", "src/btf/type_information.rs::get_type_enum_value_name"]}
{"id": "C09", "title": "Duplicate names resolve to the last definition", "statement": "id_of(n), for n other than \"void\", is the greatest id whose type is named n, over all named kinds together, and None when no type is named n; unnamed kinds (pointers, qualifiers, arrays, prototypes) and types with name offset 0 never appear.", "quantifier": "every successful load, every name", "why_tests_cant": "history property of an insertion sequence of any length", "anchors": ["src/btf/type_information.rs::TypeInformation::new", "src/btf/type_information.rs::TypeInformation::id_of", "src/btf/type_information.rs::get_type_enum_value_name"]}
{"id": "C10", "title": "name_of is the name stored in the record", "statement": "For every id t in 1..n, name_of(t) is the name of the type from_id(t) when that kind carries a name and its name offset is non-zero, and None otherwise.", "quantifier": "every successful load, every id", "why_tests_cant": "all kinds, all files", "anchors": ["src/btf/type_information.rs::TypeInformation::name_of", "src/btf/type_information.rs::get_type_enum_value_name"]}
{"id": "C11", "title": "String decoding", "statement": "A name loaded from name offset k is the Latin-1 decoding of the bytes from string-section offset k up to (not including) the first zero byte, all of which lie inside the string section; it is valid UTF-8, has no NUL character, and is byte-identical to the stored bytes when these are ASCII.", "quantifier": "every image, every string offset, every string length", "why_tests_cant": "all byte sequences and positions, including strings ending exactly at the section end", "anchors": ["src/btf/string.rs::parse_string"]}
{"id": "C12", "title": "Non-ASCII names survive loading", "statement": "A name stored as UTF-8 bytes in the string section is returned as that same UTF-8 string.", "quantifier": "every UTF-8 name", "why_tests_cant": "tests use only ASCII names", "anchors": ["src/btf/string.rs::parse_string"]}
{"id": "C13", "title": "Bad string references are rejected", "statement": "A non-zero name offset at or past the end of the string section, or whose string has no terminating zero inside the section, or a string section whose bounds overflow 32 bits, makes the load fail with InvalidStringOffset / InvalidString; no bytes outside the section ever end up in a name.", "quantifier": "every image and every string offset", "why_tests_cant": "boundary conditions over all section sizes and offsets", "anchors": ["src/btf/string.rs::parse_string"]}
{"id": "C14", "title": "Reads stay inside the header, type and string sections", "statement": "Every read request issued by TypeInformation::new lies in the 24 header bytes, inside the type section, or inside the string section.", "quantifier": "every Readable behaviour, every prefix of the load", "why_tests_cant": "requires inspecting the full request trace of every load", "anchors": ["src/utils/reader.rs::Reader::read", "src/btf/array.rs::Data::size", "src/btf/define_type.rs", "src/btf/string.rs::parse_string"]}
{"id": "C15", "title": "A record that does not fit the type section is rejected", "statement": "If a record's header or the extra data its kind requires would extend past the end of the type section, the load fails with InvalidTypeSectionOffset.", "quantifier": "every image, every kind, every vlen", "why_tests_cant": "all truncation points of all files", "anchors": ["src/btf/header.rs::Header::new", "src/btf/define_type.rs", "src/btf/array.rs::Data::size"]}
{"id": "C16", "title": "Read failures are reported unchanged", "statement": "If a read request fails, TypeInformation::new stops at once, issues no further request, and returns that request's error; and if it returns Ok no request failed.", "quantifier": "every Readable behaviour, every failing request", "why_tests_cant": "every position of the failing read in every load", "anchors": ["src/utils/reader.rs::Reader::read", "src/btf/type_information.rs::TypeInformation::new"]}
{"id": "C17", "title": "Bytes outside the consulted ranges do not matter", "statement": "If two Readables answer identically all the requests a load makes on the first, the load on the second gives the same result; in particular bytes outside the header, the type section and the string section never influence the result.", "quantifier": "every pair of Readables / images", "why_tests_cant": "quantifies over pairs of unbounded images", "anchors": ["src/btf/type_information.rs::TypeInformation::new", "src/btf/string.rs::parse_string"]}
{"id": "C18", "title": "Magic and endianness detection", "statement": "The load reads the first two bytes first; 9F EB selects little endian, EB 9F big endian, anything else fails with InvalidMagic without any further read; all later integers use the selected order.", "quantifier": "every first two bytes, every Readable", "why_tests_cant": "all 65536 magics and any continuation", "anchors": ["src/btf/file_header.rs::FileHeader::detect_endianness"]}
{"id": "C19", "title": "Unknown kinds are rejected", "statement": "A record whose kind field is 0 or above 19 makes the load fail with InvalidBTFKind; no accepted record has such a kind; bits 16-23 and 29-30 of the info word are ignored.", "quantifier": "every info word", "why_tests_cant": "all 2^32 info words at every record position", "anchors": ["src/btf/kind.rs::Kind::new", "src/btf/header.rs::Header::new"]}
{"id": "C20", "title": "Section arithmetic overflow is reported, not wrapped", "statement": "If hdr_len + type_off exceeds 32 bits the load fails with InvalidTypeSectionOffset; likewise if a non-empty type section's end exceeds 32 bits; an empty type section loads to an empty map without touching the string section.", "quantifier": "every header", "why_tests_cant": "all six header words", "anchors": ["src/btf/type_information.rs::TypeInformation::new", "src/btf/header.rs::Header::new"]}
{"id": "C21", "title": "Member offset decoding", "statement": "A member stored with raw offset word w decodes, when the struct's kind flag is clear, to byte offset w/8 if 8 divides w and otherwise fails the load with InvalidOffset; when it is set, to byte offset (w mod 2^24)/8 if w < 2^24 and 8 divides it, else to the bit offset w mod 2^24 with bit size w / 2^24.", "quantifier": "every 32-bit word, both kind flags, every member of every struct and union", "why_tests_cant": "2^33 cases", "anchors": ["src/btf/struct_union.rs::Data::new"]}
{"id": "C22", "title": "Integer encoding decoding", "statement": "An Int's extra word w yields signed/char/boolean as bits 24/25/26, offset as bits 16-23 and bits as bits 0-7, and its size is the header size word.", "quantifier": "every 32-bit word", "why_tests_cant": "2^32 cases", "anchors": ["src/btf/int.rs::Data::new"]}
{"id": "C23", "title": "Enumerator signedness", "statement": "Enumerators of an Enum are read as two's complement i32 exactly when the kind flag is set and as u32 otherwise; re-encoding the returned value modulo 2^32 gives the stored word, so distinct words give distinct values.", "quantifier": "every word, both flags (and i64/u64 for Enum64)", "why_tests_cant": "all 32- and 64-bit words", "anchors": ["src/btf/enum.rs::Data::new", "src/btf/enum64.rs::Data::new", "src/utils/reader.rs::Reader::i32"]}
{"id": "C24", "title": "Offset addition is exact or refused", "statement": "Offset + Offset and Offset + u32 return the exact sum (bytes + bytes, or 8*bytes + bits) when it fits 32 bits, InvalidOffset when it does not, UnexpectedBitfield when the left operand is a bitfield; never a wrapped value. ByteOffset(0) is a left identity and, when no error occurs, addition is associative.", "quantifier": "all Offset values", "why_tests_cant": "2^64 operand pairs", "anchors": ["src/btf/offset.rs::Add"]}
{"id": "C25", "title": "Path strings denote their component sequence", "statement": "Printing any sequence of components (identifier names separated by '.', indices in brackets) and parsing it back yields the same sequence, for indices up to usize::MAX.", "quantifier": "every component list of any length", "why_tests_cant": "unbounded paths", "anchors": ["src/btf/type_information.rs::TypePathComponentIter"]}
{"id": "C26", "title": "Malformed paths are rejected", "statement": "A path string is accepted only if it is the printed form of some component sequence; otherwise offset_of on it fails with InvalidTypePath once the malformed part is reached.", "quantifier": "every path string", "why_tests_cant": "all strings; the accepted malformed ones are not in the tests", "anchors": ["src/btf/type_information.rs::TypePathComponentIter::next", "src/btf/type_information.rs::TypePathComponentIter::parse_name", "src/btf/type_information.rs::TypePathComponentIter::parse_index"]}
{"id": "C27", "title": "Path parsing never panics and always ends", "statement": "Iterating over any UTF-8 path yields finitely many items, never panics (string slices always fall on character boundaries), and yields nothing after the end or after an error.", "quantifier": "every UTF-8 string", "why_tests_cant": "all strings including multi-byte characters whose bytes look like Latin-1 letters or digits", "anchors": ["src/btf/type_information.rs::TypePathComponentIter::next", "src/btf/type_information.rs::TypePathComponentIter::parse_name", "src/btf/type_information.rs::TypePathComponentIter::parse_index"]}
{"id": "C28", "title": "size_of computes the size of the type", "statement": "size_of(t) is: the stored size for int, float, enum, enum64, struct, union and data section; element count times element size for arrays; the size of the referenced type for typedef, const, volatile, restrict, type tag and var; half of struct list_head for pointers; NotSized for void, fwd, func, prototype and decl tag; InvalidTypeID for unknown ids - whenever every intermediate product fits usize.", "quantifier": "every type table, every id, any nesting depth", "why_tests_cant": "unbounded chains and nesting", "anchors": ["src/btf/type_information.rs::TypeInformation::size_of"]}
{"id": "C29", "title": "size_of never returns a wrapped size", "statement": "size_of never panics and never returns a value different from the mathematical size.", "quantifier": "every loadable file, every id, both profiles", "why_tests_cant": "needs nested arrays whose product exceeds 2^64", "anchors": ["src/btf/type_information.rs::TypeInformation::size_of"]}
{"id": "C30", "title": "size_of, pointee_tid and offset_of terminate", "statement": "Each query returns after finitely many steps on every loaded file.", "quantifier": "every loadable file, every id and path", "why_tests_cant": "non-termination on self-referential typedefs cannot be observed by a finite test", "anchors": ["src/btf/type_information.rs::TypeInformation::size_of", "src/btf/type_information.rs::TypeInformation::pointee_tid", "src/btf/type_information.rs::TypeInformation::offset_of_impl"]}
{"id": "C31", "title": "pointee_tid finds the pointed-to type through qualifiers", "statement": "pointee_tid(t) is Ok(u) exactly when t leads through typedef/const/volatile/restrict links to a pointer to u; otherwise (when the chain ends) the error is InvalidTypeID.", "quantifier": "every type table and id, chains of any length", "why_tests_cant": "unbounded chains", "anchors": ["src/btf/type_information.rs::TypeInformation::pointee_tid"]}
{"id": "C32", "title": "offset_of is sound", "statement": "If offset_of(t, path) returns Ok((u, o)) then the path really leads from t to u: following members (through anonymous struct/union members), array elements with in-range indices, and typedef/qualifier/forward links; and o is the sum of the member offsets and index*element size along it, expressed in bytes, or in bits with the bit size of the final bitfield.", "quantifier": "every type table, id and path for which no array size overflows usize (C29) or the build checks overflow", "why_tests_cant": "unbounded nesting, every path, every table including inconsistent ones", "anchors": ["src/btf/type_information.rs::TypeInformation::offset_of", "src/btf/type_information.rs::TypeInformation::offset_of_impl"]}
{"id": "C33", "title": "offset_of is complete", "statement": "If a syntactically valid path leads from t to some place (in the sense of C32) whose offsets fit 32 bits, and member names are unambiguous, offset_of(t, path) succeeds with that place.", "quantifier": "every type table, id and path without endless link chains (C30), overflowing sizes (C29), anonymous bitfields (C39), and with all places met on the way below 4 GiB", "why_tests_cant": "must hold for every structure layout", "anchors": ["src/btf/type_information.rs::TypeInformation::offset_of_impl"]}
{"id": "C34", "title": "offset_of is transparent to typedefs and qualifiers", "statement": "For a non-empty path, offset_of(t, path) with t a typedef, const, volatile, restrict or fwd of u equals offset_of(u, path); size_of through typedef/const/volatile/restrict/type tag/var equals size_of the target; pointee_tid likewise for typedef and qualifiers.", "quantifier": "every type table, id and path", "why_tests_cant": "any chain, any path", "anchors": ["src/btf/type_information.rs::TypeInformation::offset_of_impl", "src/btf/type_information.rs::TypeInformation::size_of", "src/btf/type_information.rs::TypeInformation::pointee_tid"]}
{"id": "C35", "title": "Offsets stay inside the containing type", "statement": "When every struct and union of the table contains its members (member offset + member size <= size), a successful offset_of(t, path) = (u, ByteOffset o) satisfies o + size_of(u) <= size_of(t), and (u, BitOffsetAndSize(b, s)) satisfies b + s <= 8*size_of(t).", "quantifier": "every consistent type table, id and path", "why_tests_cant": "all layouts and all paths", "anchors": ["src/btf/type_information.rs::TypeInformation::offset_of", "src/btf/type_information.rs::TypeInformation::size_of"]}
{"id": "C36", "title": "Out-of-range indices and non-indexable types are refused", "statement": "A path component [i] on an array of n elements with i >= n, on a pointer, or on any other non-array type fails with InvalidTypePath; a name component on anything but a struct or union, or naming no member, fails with InvalidTypePath; any non-empty path on void fails with InvalidTypePath, and on an unknown id with InvalidTypeID.", "quantifier": "every type table, id and component, reached by a path prefix that offset_of can follow", "why_tests_cant": "all kinds and indices", "anchors": ["src/btf/type_information.rs::TypeInformation::offset_of_impl"]}
{"id": "C37", "title": "The empty path and unknown ids", "statement": "offset_of(t, \"\") returns (t, ByteOffset 0) when t is a known id and fails with InvalidTypeID otherwise.", "quantifier": "every type table and every u32 id", "why_tests_cant": "all ids; tests never use the empty path", "anchors": ["src/btf/type_information.rs::TypeInformation::offset_of_impl"]}
{"id": "C38", "title": "Array indexing is linear", "statement": "For an array of element type e with size s, offset_of(t, \"[i]\" ++ rest) is i*s plus offset_of(e, rest), failing with InvalidTypePath when i*s does not fit 32 bits.", "quantifier": "every array, index and continuation, as long as the places met on the way stay below the 32-bit limit and no bitfield has a struct or array type", "why_tests_cant": "all indices and sizes", "anchors": ["src/btf/type_information.rs::TypeInformation::offset_of_impl"]}
{"id": "C39", "title": "An anonymous member does not hide named members", "statement": "If a struct has a direct member named x (and no anonymous member leads to x), offset_of(struct, \"x\") returns that member, whatever other members the struct has.", "quantifier": "every struct", "why_tests_cant": "needs a struct mixing unnamed bitfields and named members", "anchors": ["src/btf/type_information.rs::TypeInformation::offset_of_impl"]}
{"id": "C40", "title": "Caching does not change results", "statement": "With the caching feature, every offset_of call returns what the uncached computation returns, whatever calls were made before, by any number of threads in any interleaving, and even after the cache lock is poisoned.", "quantifier": "every schedule of every set of concurrent calls", "why_tests_cant": "all interleavings and histories", "anchors": ["src/btf/type_information.rs::TypeInformation::offset_of"]}
{"id": "C41", "title": "Errors are never cached and cached entries are exact", "statement": "The cache only ever holds (id, path) -> result pairs whose result is the uncached Ok result and which some call asked for; entries never change or disappear; no step of a call that fails changes the cache; a completed successful call on an unpoisoned lock leaves its entry in the cache.", "quantifier": "every schedule", "why_tests_cant": "all histories", "anchors": ["src/btf/type_information.rs::TypeInformation::offset_of"]}
{"id": "C42", "title": "Appending types preserves earlier ids", "statement": "If the records of file B start with the records of file A (same strings), every id of A denotes the same type in B, and id_of changes only for names (re)defined by the added records.", "quantifier": "every pair of files", "why_tests_cant": "pairs of unbounded files", "anchors": ["src/btf/type_information.rs::TypeInformation::new"]}
{"id": "C43", "title": "Query results do not depend on the build profile", "statement": "offset_of, size_of and pointee_tid give the same result in debug and release builds unless an array size product overflows usize.", "quantifier": "every type table, id and path", "why_tests_cant": "all inputs, two profiles", "anchors": ["src/btf/type_information.rs::TypeInformation::size_of", "src/btf/type_information.rs::TypeInformation::offset_of_impl"]}
{"id": "C44", "title": "Loaded values respect their widths", "statement": "In every loaded type all ids, sizes, counts and offsets fit u32, vlen fits 16 bits, member lists have exactly vlen entries, byte offsets are below 2^29, and bit offsets below 2^24 with bit sizes below 256.", "quantifier": "every successful load", "why_tests_cant": "all files", "anchors": ["src/btf/header.rs::Header::new", "src/btf/struct_union.rs::Data::new", "src/btf/enum.rs::Data::new"]}
{"id": "C45", "title": "Concurrent offset_of calls never deadlock", "statement": "With the caching feature, a call that writes the cache has it to itself; no call holds the cache lock while it waits for it or while it computes an offset; whenever some call has not returned, some thread can proceed; and under every fair schedule all calls return, after at most seven steps each, given that their computations end. A poisoned lock changes none of this, nor does it matter whether the lock prefers readers or writers.", "quantifier": "every schedule of every set of concurrent calls, poisoning at any moment", "why_tests_cant": "all interleavings; a deadlock may need one particular schedule", "anchors": ["src/btf/type_information.rs::TypeInformation::offset_of"]}
{"id": "C46", "title": "Paths compose", "statement": "If offset_of(t, p) is (u, ByteOffset a), then offset_of(t, p continued by q) succeeds exactly when offset_of(u, q) does (and the sum fits 32 bits), with the same type and a added to the offset; so a program may look up a prefix once and continue from there.", "quantifier": "every table without endless chains, overflowing sizes, unnamed bitfields and ambiguous names; every id and every two paths", "why_tests_cant": "all tables, paths and places where a path can be split", "anchors": ["src/btf/type_information.rs::TypeInformation::offset_of", "src/btf/type_information.rs::TypeInformation::offset_of_impl", "src/btf/type_information.rs::TypePathComponentIter"]}
{"id": "C47", "title": "The result does not depend on how the bytes are delivered", "statement": "Loading the same bytes through any two Readables makes the same requests and gives the same result, or both loads fail at the same request past the end of the bytes, each with its own Readable's error. For any Readables whatever, the next request is determined by the answers to the earlier ones.", "quantifier": "every image and every two Readables serving it; every two Readables", "why_tests_cant": "all images and all Readable implementations", "anchors": ["src/btf/readable.rs::Readable", "src/utils/reader.rs::Reader", "src/btf/type_information.rs::TypeInformation::new"]}
{"id": "C48", "title": "Answers do not depend on how types are numbered", "statement": "If the types of one table appear in another under different ids (with any type, every type it mentions), then size_of gives the same result, pointee_tid and offset_of the same result with the ids translated, the same errors, and the same offsets; in particular appending types to a file changes no answer about the types that were there, as long as no new struct list_head (from which the pointer size is derived) is added.", "quantifier": "every two tables, every renumbering, every type, every path", "why_tests_cant": "all tables and all renumberings, including non-injective ones", "anchors": ["src/btf/type_information.rs::TypeInformation::size_of", "src/btf/type_information.rs::TypeInformation::pointee_tid", "src/btf/type_information.rs::TypeInformation::offset_of"]}
{"id": "C49", "title": "A loaded table can be written back", "statement": "Two loaded tables whose get() shows the same declarations answer every query (from_id, name_of, id_of, size_of, pointee_tid, offset_of) alike. Hence what was loaded from any Readable, written out again as the format documentation says (ASCII names, under 4 GiB, no 64-bit enumerators if big-endian), loads, and answers every query as the original did.", "quantifier": "every Readable that loads; every way of filling the version, flags and reserved bits; both byte orders", "why_tests_cant": "all files and all queries", "anchors": ["src/btf/type_information.rs::TypeInformation::new", "src/btf/type_information.rs::TypeInformation::get", "src/btf/type_information.rs::TypeInformation::from_id"]}
{"id": "C50", "title": "Loading does a bounded amount of work", "statement": "Loading L bytes, whatever they are and whatever lengths the header announces, makes at most 9 + L*(L+2)/8 requests to the Readable; if the header announces t bytes of types and s bytes of strings, at most 9 + (t+12)*(s+2)/8. A Readable that answers at will is asked at most 8 times, or for the header and then at most 1 + (t+12)*(s+2)/8 times for the lengths t and s it gave. A load that succeeds makes exactly 8 requests for the header, 3 for each record, 1 for each field behind it, and for each name one for each character and one for the zero byte. The quadratic order is reached: a file of 26 + 12n + m bytes (n typedefs that share one name of m bytes) takes 8 + n(m+4) requests, for all n and m.", "quantifier": "every image and every Readable", "why_tests_cant": "all images, including hostile ones with overlapping sections and shared names", "anchors": ["src/btf/type_information.rs::TypeInformation::new", "src/btf/header.rs::Header::new", "src/btf/string.rs", "src/utils/reader.rs::Reader"]}
{"id": "C51", "title": "Every failed load is explained by the file", "statement": "When loading an image fails with error x, either the bytes of the image are wrong in the way x names (first two bytes are not the magic: InvalidMagic; the type section starts or ends past 4 GiB, or after well-formed records comes a record whose header or data does not fit the section: InvalidTypeSectionOffset; or whose kind is unknown: InvalidBTFKind; or whose name, member, enumerator or parameter name is outside the string section or unterminated, or a member offset unaligned: the corresponding error), or x is the Readable's own error for a request past the end of the image, which was the last request. Conversely an image with such a defect is refused with that error by every Readable that serves it, without any request outside the image; the defect's error is unique, and an accepted image has none.", "quantifier": "every image and every Readable that serves it", "why_tests_cant": "all malformed images and all ways of serving them; the converse is over all defects", "anchors": ["src/btf/type_information.rs::TypeInformation::new", "src/btf/file_header.rs::FileHeader::new", "src/btf/header.rs::Header::new", "src/btf/string.rs", "src/btf/error.rs"]}
{"id": "C52", "title": "Every result of offset_of is explained by the path and the table", "statement": "Read the path text as components, possibly followed by something malformed. From the start, one gets along by taking components and by entering anonymous members. If offset_of(t, path) succeeds, this gets to the place and type it returns with nothing left and no malformed rest. If it fails with x, this gets to a place where the rest of the path fails for the reason x names: malformed text, no such element, not an array, no such member in it or in any anonymous member, too far (InvalidTypePath); a type not in the table (InvalidTypeID); an element type without size (NotSized); a place beyond 4 GiB (InvalidOffset); going on inside a bitfield, or next to an unnamed one (UnexpectedBitfield). No other kind of error is returned. If it panics, this gets to an array whose element size exceeds usize; if it does not return, to the start of an endless chain of links.", "quantifier": "every type table, type id and path text; builds with overflow checks, and others where sizes fit", "why_tests_cant": "all tables and all path texts, including malformed ones and hostile tables; the explanation of an error inside nested anonymous members is inductive", "anchors": ["src/btf/type_information.rs::TypeInformation::offset_of", "src/btf/type_information.rs::TypeInformation::offset_of_impl", "src/btf/type_information.rs::TypePathComponentIter", "src/btf/error.rs"]}
{"id": "C53", "title": "Queries do a bounded amount of work", "statement": "The number of type lookups a query makes is bounded by a polynomial in the number of types, of anonymous members and of path components: size_of makes at most n + 2, offset_of with k components at most k*((n+1)*(a+2)+1), whether it succeeds or not.", "quantifier": "every loaded table, id and path", "why_tests_cant": "all tables, including hostile ones; exponential behaviour shows only on inputs built for it", "anchors": ["src/btf/type_information.rs::TypeInformation::offset_of", "src/btf/type_information.rs::TypeInformation::offset_of_impl", "src/btf/type_information.rs::TypeInformation::size_of"]}
{"id": "C54", "title": "The command line tools print right answers or none", "statement": "get-type-size prints 'Type n has ID i and requires z bytes in total' whenever the file is a BTF file in which n means type i (the last type of that name, 0 for void) and i has the size z, and prints such a line only then (without overflow checks z is exact modulo 2^64); it fails to end only on an endless chain of types. get-type-offset prints 'n => p: (u, o)' only when the path p leads from n to type u at o (with the element sizes size_of reports, which are exact unless they overflow), prints it, given time, whenever nothing on the way prevents it, and ends on tables without endless chains. dump-btf shows exactly the types of the file, numbered from 1. Otherwise nothing but the 'Opening' line is printed and the tool does not return normally; with another number of arguments usage is printed and no file is opened. The printed answers determine the numbers.", "quantifier": "every file system contents, argument list and 64-bit build", "why_tests_cant": "all files, names and paths; the claim composes loading, name lookup, sizes, offsets and decimal printing", "anchors": ["examples/dump-btf.rs::main", "examples/get-type-offset.rs::main", "examples/get-type-size.rs::main"]}
{"id": "C55", "title": "Tables without dangling ids stay inside themselves", "statement": "If every id mentioned by a type of the table is in the table, then every type id returned by pointee_tid or offset_of for a type of the table is in the table too, so that queries can be chained; and size_of and offset_of report InvalidTypeID only when the size of a pointer is needed and the table has no struct list_head.", "quantifier": "every such table, type id of it and path", "why_tests_cant": "all tables, ids and paths; follows from an invariant along every chain of links and every path", "anchors": ["src/btf/type_information.rs::TypeInformation::offset_of", "src/btf/type_information.rs::TypeInformation::pointee_tid", "src/btf/type_information.rs::TypeInformation::size_of"]}
{"id": "C56", "title": "The answer depends only on what the path text means", "statement": "Every path text consists of components, possibly followed by something malformed. Two texts with the same components, both or neither with a malformed rest, get the same result from offset_of on every table (the same value, error kind, panic, or no return), however they are written (leading zeros, trailing dot, what the malformed rest is).", "quantifier": "all tables, ids and pairs of texts", "why_tests_cant": "all pairs of texts and all tables", "anchors": ["src/btf/type_information.rs::TypeInformation::offset_of", "src/btf/type_information.rs::TypePathComponentIter"]}
{"id": "C57", "title": "Error messages are true", "statement": "The message of an error of pointee_tid, size_of or offset_of says what is the case. For pointee_tid and size_of each message is given exactly when it is true of the type at the end of the links (unknown id, not a pointer, struct list_head missing or not a struct, type without size). For offset_of there is a place that the path gets to where it is true: the index and the array size in 'Index i is out of bounds for array of size n' are those of the path and of the array there, the name in \"Member 'x' not found\" is the next component and no member there has it, and so on. Different messages have different texts, each message comes with its error kind, and a loaded table never leads to the message that the id of struct list_head is invalid.", "quantifier": "every table, type id, path, and build profile (without overflow checks: tables whose sizes fit)", "why_tests_cant": "all tables and paths; the message is about a place inside a search with backtracking", "anchors": ["src/btf/error.rs::Error", "src/btf/type_information.rs::OffsetError", "src/btf/type_information.rs::TypeInformation::offset_of", "src/btf/type_information.rs::TypeInformation::size_of", "src/btf/type_information.rs::TypeInformation::pointee_tid", "src/btf/offset.rs::Offset"]}
{"id": "C58", "title": "Error messages about the path point at what is wrong", "statement": "'Invalid character at index k' means that the first k bytes of the path are the beginning of some path and the first k+1 bytes are not (so k is unique). 'Unclosed index bracket' means that the text is a path followed by '[' and digits only; 'Empty index' that '[]' follows a path; 'Invalid index value: ... PosOverflow' that an index follows that does not fit usize. An index is never refused as not being a number.", "quantifier": "every table, type id and path text", "why_tests_cant": "all path texts, and all continuations of their beginnings", "anchors": ["src/btf/type_information.rs::TypePathComponentIter", "src/btf/type_information.rs::TypeInformation::offset_of"]}
{"id": "C59", "title": "32-bit release builds load like 64-bit builds", "statement": "On a 32-bit target without overflow checks, TypeInformation::new returns for every file, does not panic, and gives the result that a 64-bit build gives.", "quantifier": "every Readable and image, 32-bit usize, overflow checks off", "why_tests_cant": "needs files whose sections end within a few bytes of 4 GiB, and a loop that never ends", "anchors": ["src/btf/header.rs::Header::new", "src/utils/reader.rs::Reader::read", "src/btf/type_information.rs::TypeInformation::new"]}
{"id": "C60", "title": "A file and its byte-order mirror load alike, valid or not", "statement": "Take a little-endian file and write the words of its header and type section in the other byte order, leaving strings alone. Both files are refused with the same error, or both accepted: same ids, types, names, and the same answers to size_of, pointee_tid and offset_of. Only 64-bit enumerator values (C06: halves exchanged) and a last array whose data lies behind the type section (C14) may differ.", "quantifier": "every pair of mirrored files, well-formed or broken, 64-bit targets", "why_tests_cant": "all files, including every kind of damage; differences in one parser's handling of one byte order show only on particular records", "anchors": ["src/utils/reader.rs::Reader", "src/btf/file_header.rs::FileHeader::new", "src/btf/type_information.rs::TypeInformation::new"]}
{"id": "C61", "title": "The message of a failed load says truly what is wrong", "statement": "The message of the error returned by TypeInformation::new goes with its kind. If a Readable call failed, its own error comes back, unchanged, and that call was the last one; otherwise the message describes the first thing wrong with the file, and every broken file has exactly one such description: the two magic bytes read, as a little-endian number in four hexadecimal digits; the unknown kind value; the offset of the bad string, counted from the beginning of the file and written in eight hexadecimal digits; which section bound overflowed; or that a member is not byte-aligned. The message about an unexpected kind is never given.", "quantifier": "every Readable, every file, 64-bit targets", "why_tests_cant": "all broken files: which of several messages with one kind is given, and which number is in it, depends on everything before the defect", "anchors": ["src/btf/error.rs::Error", "src/btf/file_header.rs::FileHeader::new", "src/btf/string.rs::parse_string", "src/btf/kind.rs::Kind", "src/btf/define_type.rs", "src/btf/type_information.rs::TypeInformation::new"]}
{"id": "C62", "title": "Calls nest no deeper than there are types", "statement": "While size_of or pointee_tid runs and returns, no more recursive calls are active at once than the table has types; the same holds for offset_of in tables where no type contains itself, whatever the path and whether or not it is found (if a type contains itself through a named member only: that many for each component of the path). A chain of links without end makes size_of and pointee_tid nest without bound, so they exhaust the stack. The bounds are reached, by files of 12 (36) bytes per type.", "quantifier": "every table, type id, path text and build profile; every number of types", "why_tests_cant": "stack use on every table and path; exhaustion shows only on tables larger than any test's", "anchors": ["src/btf/type_information.rs::TypeInformation::size_of", "src/btf/type_information.rs::TypeInformation::pointee_tid", "src/btf/type_information.rs::TypeInformation::offset_of_impl"]}
{"id": "C63", "title": "The printed form of types is faithful and safe to print", "statement": "The {:?} text of a type and of the table returned by get() (what dump-btf prints, and what the message of NotSized contains) determines the type or table: two types, tables or files that print alike are equal and answer every query alike. The text begins with the kind of the type and shows, behind its label, every number, flag and name of it, and every member, parameter, section variable and enumerator; names are written as Rust string literals denoting them. Whatever bytes a file contains, the text is one line of visible characters: no name can add a line, a control character or an escape sequence.", "quantifier": "every type, table and file; every name; 64-bit targets", "why_tests_cant": "names are arbitrary bytes from the file; that no two tables print alike is a statement about all pairs", "anchors": ["examples/dump-btf.rs::main", "src/btf/define_type.rs::define_type", "src/btf/header.rs::Header", "src/btf/type_information.rs::TypeVariant", "src/btf/type_information.rs::TypeInformation::get", "src/btf/type_information.rs::TypeInformation::size_of", "src/btf/string.rs::parse_string"]}
{"id": "C64", "title": "Different fields do not overlap", "statement": "If the members of each struct are laid out apart, inside their struct, and no name is ambiguous, then two paths that lead from the same type into different elements of an array, or into different members of a struct (at any depth, through anonymous members and after any common prefix), are answered by offset_of with places that have no bit in common: the byte ranges offset .. offset + size_of, and the bit ranges of bitfields, are disjoint. Different elements of an array never overlap even if structs overlap in themselves. Paths that part in a union may overlap.", "quantifier": "every table with that layout, every pair of paths that part in a struct or array, every bit", "why_tests_cant": "a statement about all pairs of paths, of any length, into types nested to any depth", "anchors": ["src/btf/type_information.rs::TypeInformation::offset_of", "src/btf/type_information.rs::TypeInformation::size_of"]}
{"id": "C65", "title": "An incomplete file is never misread", "statement": "Wherever a file is cut off (a crash while it was being written, a partial download), loading it gives the result of the complete file, or fails because of a request past the cut; it never gives another table. The cut matters exactly if the complete load asks for bytes past it; a file cut inside its header or its type section never loads. The same holds for any Readable that fails some requests it should have answered, at any moment. Bytes after a complete file never matter.", "quantifier": "every file, every cut point, every Readable, every set of failing requests; 64-bit targets (failing requests: every build, also one that panics or wraps around)", "why_tests_cant": "every cut point of every file, and every schedule of failures", "anchors": ["src/btf/type_information.rs::TypeInformation::new", "src/btf/readable.rs::Readable", "src/utils/reader.rs::Reader::read"]}
{"id": "C66", "title": "The offset cache grows by one entry per different answered question", "statement": "With caching enabled, when all calls have returned and no lock was poisoned, the cache holds exactly one entry for each different pair of type id and path text asked about that was answered Ok; at every moment it has no more entries than different questions were asked; asking again what it knows changes nothing. Two spellings of one path are two questions, so nothing about the table bounds the cache: a loaded table and a type exist for which n calls naming the same place leave n entries, for every n.", "quantifier": "every table, every interleaving of calls by any number of threads, every lock policy, every n", "why_tests_cant": "every interleaving, and unbounded growth", "anchors": ["src/btf/type_information.rs::TypeInformation::offset_of", "src/btf/type_information.rs::TypeInformation::offset_cache"]}
{"id": "C67", "title": "A loaded table holds a bounded amount of data", "statement": "A table loaded from L bytes whose header announces t bytes of types and s bytes of strings has at most t/12 types, and 12 bytes for each type plus 8 for each member, enumerator, parameter and section variable are at most t and at most L; no name is longer than 2(s-1) or 2(L-1) bytes; all names together, each counted as often as it occurs, have at most t(s-1)/4 and at most L(L-1)/4 bytes of text; the two lookup tables hold at most two further copies of it. The quadratic order is reached: a file of 26 + 12n + m bytes gives a table with n*m bytes of names, for all n and m.", "quantifier": "every image, every Readable serving it, all n and m", "why_tests_cant": "all images, including hostile ones whose records share names; growth for all n and m", "anchors": ["src/btf/type_information.rs::TypeInformation::new", "src/btf/string.rs::parse_string", "src/btf/header.rs::Header::new"]}
{"id": "C68", "title": "When a tool fails, its panic message tells why", "statement": "{:?} of an Error shows its kind and its message, quoted, on one line, and different errors have different texts. dump-btf, get-type-size and get-type-offset panic exactly when there is a cause: the file cannot be opened, its bytes are wrong, it ends too early, no type has the name, the size or offset cannot be told, or (with overflow checks) an array size does not fit usize. There is never more than one cause, the panic message tells it - for an error with kind and message of C57/C61 - and no other cause has the same message. What the tools print and how they end is as in C54.", "quantifier": "every operating system behaviour (files, their contents, texts of I/O errors), every argument list, debug and release builds of 64-bit targets", "why_tests_cant": "all files, names and paths; exactness and uniqueness of the cause", "anchors": ["src/btf/error.rs::Error", "examples/dump-btf.rs", "examples/get-type-size.rs", "examples/get-type-offset.rs"]}
{"id": "C69", "title": "Where the sections lie in the file does not matter", "statement": "Two files with the same byte order, the same type section and the same string section (both ending below 4 GiB) load to the same table, or fail with the same error, wherever the sections lie, whatever header length the header states, and whatever else the file contains (version, flags, extra header bytes, gaps, a tail); sections may even overlap. The one exception, shown to be real, is a type section that ends inside the last array (the C14 defect): its words come from behind the section. A reader that returns short reads or errors of its own is covered for tables that load and for errors in the bytes.", "quantifier": "every pair of files, every position and length of the sections, both byte orders, every honest Readable, 64-bit builds", "why_tests_cant": "all pairs of layouts of all contents", "anchors": ["src/btf/file_header.rs::FileHeader::new", "src/btf/type_information.rs::TypeInformation::new", "src/btf/string.rs::parse_string"]}
{"id": "C70", "title": "offset_of takes the first match: anonymous members first, in order, then the named member", "statement": "For every table - ambiguous, cyclic or inconsistent as it may be - and every path text, offset_of returns exactly what this search finds: no component left gives the type and place (or the complaint about the rest of the text); otherwise typedefs, qualifiers and forwards are seen through; an index needs an array, an index below its element count, the size that size_of returns for the element, and a place below 4 GiB; a name is first looked for in each anonymous member in order (an inner failure of any kind means the next one is tried, a place that cannot be added ends the search with that error), and only then among the members of that name, the first of which is taken. Value, error kind and error message are all determined; there is at most one result; and offset_of does not return exactly if this search is not over after any number of nested steps.", "quantifier": "every table, every type id, every path text (valid UTF-8), debug and release builds of 32- and 64-bit targets", "why_tests_cant": "all tables including ambiguous and cyclic ones; exactness in both directions", "anchors": ["src/btf/type_information.rs::TypeInformation::offset_of", "src/btf/type_information.rs::TypeInformation::offset_of_impl", "src/btf/offset.rs::Offset::add"]}
{"id": "C71", "title": "Names are labels, and queries look only at sizes, links and members", "statement": "size_of, pointee_tid and offset_of depend only on the shape of each type: its stored size, the types it links to, an element count, and the name, type and place of each member. Two tables with the same shapes and the same pointer size answer alike for every type id: a struct may be replaced by a union, const by volatile or a typedef, an integer by a float of the same size; type names, enumerators, parameters, signedness, variables of a section, index types, function prototypes and reserved fields have no influence. If the members are renamed by any one-to-one function, the path whose names are renamed alike gives the same result (value, error kind, panic, or no return) as the old path gave: names are compared as a whole, case and all. If types are renamed by a one-to-one function that keeps void and list_head, name_of returns the new names and id_of of a new name is the id_of of the old one.", "quantifier": "every pair of tables related by renaming, every renaming function, every type id and path, all build profiles; for names every pair of loaded files", "why_tests_cant": "a statement about all pairs of tables and all renamings (non-interference)", "anchors": ["src/btf/type_information.rs::TypeInformation::size_of", "src/btf/type_information.rs::TypeInformation::pointee_tid", "src/btf/type_information.rs::TypeInformation::offset_of", "src/btf/type_information.rs::TypeInformation::id_of", "src/btf/type_information.rs::TypeInformation::name_of"]}
{"id": "C72", "title": "A query that does not return has come back to where it was", "statement": "size_of (pointee_tid) does not return exactly if following the links it follows from the type leads to some type that leads back to itself. offset_of does not return exactly if its search (C70) comes to a question - a place, a type, the components still to be found - where typedefs, qualifiers and forwards go round, or an element's size goes round, or the same question has to be answered first to answer it; the last only happens where anonymous members at offset 0 lead from a struct or union back to itself. Anything else - any nesting, any cycle through named members, elements, pointers, or anonymous members at a positive offset - comes to an end, and for every call it is decided after a finite number of steps whether it returns.", "quantifier": "every table, including cyclic and inconsistent ones, every type id, every path text, all build profiles", "why_tests_cant": "non-termination can never be observed by a test, and its absence for all tables only be proved", "anchors": ["src/btf/type_information.rs::TypeInformation::offset_of_impl", "src/btf/type_information.rs::TypeInformation::size_of", "src/btf/type_information.rs::TypeInformation::pointee_tid"]}
{"id": "C73", "title": "Record data is read once, so a file changing under the loader is never half believed", "statement": "Whatever the Readable answers, and however its answers change during the load, TypeInformation::new reads the header fields in order and then consecutive pieces of the file from the start of the type section; no byte is fetched twice as part of the records (unless the header puts the type section inside the header). If no two answers disagree about a byte and no read fails, the outcome is that of loading one file that does not change. In particular, if only the type section changes during a successful load, the result is that of one fixed file that equals the real one outside the type section. Names are read as often as they are mentioned, so they have to stay as they are for this.", "quantifier": "every Readable, including ones whose answers depend on the whole history of requests (files rewritten at any moment of the load), both byte orders, 64-bit targets", "why_tests_cant": "a test fixes one moment at which the file changes; the moments and the changes are unbounded", "anchors": ["src/btf/type_information.rs::TypeInformation::new", "src/utils/reader.rs::Reader::read", "src/btf/string.rs::parse_string", "src/btf/define_type.rs::define_type"]}
{"id": "C74", "title": "A path fails at its first failing component", "statement": "If offset_of fails, panics or never returns for a path, it does the same - with the same error message - for every path text that begins with the same components, whatever follows them, well-formed or not; so every beginning of an answered path is answered too. If the type table names members unambiguously, what the longer path leads to lies inside of what the shorter one leads to, at the sum of the offsets, and no path goes on behind a bitfield. In ambiguous tables (a name both in an anonymous member and directly) the longer path may be answered from another member than the shorter one.", "quantifier": "every table, including cyclic ones, every type id, every path and every continuation of its text, all build profiles", "why_tests_cant": "the continuations of a path are unbounded, and the backtracking search through anonymous members could in principle rescue a failed prefix in some table", "anchors": ["src/btf/type_information.rs::TypeInformation::offset_of_impl", "src/btf/type_information.rs::TypeInformation::offset_of", "src/btf/type_information.rs::TypePathComponentIter"]}
{"id": "C75", "title": "Queries look at nothing but what is on their way", "statement": "The answer of pointee_tid depends only on the types behind typedefs and qualifiers; that of size_of only on the types behind typedefs, qualifiers, type tags, variables and array elements, and of the struct list_head if it ends at a pointer; that of offset_of only on the types the path goes through, the anonymous members on the way, and the sizes of the elements of indexed arrays - and of each of them only on what is needed: size_of never looks at where a pointer points to nor at members, offset_of not at the sizes of what it goes through. Two tables, however different elsewhere, that agree there give the same answer, error or endless search. In particular replacing a type that is not on the way, redirecting pointers, or (for paths without an index) changing any size leaves offsets as they are.", "quantifier": "every two tables of any sizes, including cyclic ones, every type id, every path text, all build profiles", "why_tests_cant": "it speaks about all pairs of tables that agree on a part; a test compares two", "anchors": ["src/btf/type_information.rs::TypeInformation::offset_of_impl", "src/btf/type_information.rs::TypeInformation::size_of", "src/btf/type_information.rs::TypeInformation::pointee_tid"]}
{"id": "C76", "title": "btfparse agrees with the C compiler", "statement": "Take any C program without types that contain themselves - integers, floats, enums of any size, pointers, arrays, typedefs, const/volatile/restrict, type tags (__user, __rcu) on what pointers point to, incomplete types, function prototypes, functions, variables, sections, declaration tags, structs and unions nested at will, with anonymous members, named and unnamed bitfields, packed and aligned attributes - lay it out as GCC and Clang do for any machine (its pointer size, alignment of numbers and treatment of unnamed bitfields; padding; bitfields that start at once unless they would lie in more storage units than their type), and take any BTF file that describes it, in either byte order and with the strings stored anyhow. btfparse loads it; name_of gives each type its name, and id_of, for each name, the last type that has it; size_of gives sizeof, and an error exactly for the types that have none; pointee_tid gives what a pointer points to; offset_of, for every path text, returns a type and an offset exactly when the path is a designator that C accepts, and they are the object's type and place (both unless asked of a type tag itself: C77); every query is answered without panic or endless loop, on 32- and 64-bit builds. What is in different members of a struct does not overlap, and what is not a bitfield is aligned if nothing is packed. Every legal program has such a file.", "quantifier": "every machine, every legal C program of any size and nesting depth with types under 512 MiB, both byte orders, every reader that serves the file, every type, every path text, every build profile of 64 bits, or of 32 bits if the file is not over 4 GiB - 1 MiB (C02)", "why_tests_cant": "it relates all C programs, through layout, encoding, loading and queries; the repository's tests compare a handful of offsets in one file", "anchors": ["src/btf/type_information.rs::TypeInformation::new", "src/btf/type_information.rs::TypeInformation::offset_of", "src/btf/type_information.rs::TypeInformation::size_of", "src/btf/type_information.rs::TypeInformation::pointee_tid"]}
{"id": "C77", "title": "Type tags change nothing but the name", "statement": "A type tag (__user, __rcu, __percpu on what a pointer points to) is, in C, the same type as the one it tags. So a query on a tag should give what the same query on its target gives: size_of, offset_of for every path text, and pointee_tid. It does for size_of; offset_of refuses every non-empty path with InvalidTypePath and pointee_tid refuses with InvalidTypeID, also when the tag is behind typedefs and qualifiers. A caller who takes the tags off by hand gets what C says.", "quantifier": "every type table with a tag, every path text, every build profile; for the last sentence every legal C program and every reader that serves its file", "why_tests_cant": "the repository's tests have no tags; the claim ranges over all tables, all paths and all programs", "anchors": ["src/btf/type_information.rs::TypeInformation::size_of", "src/btf/type_information.rs::TypeInformation::offset_of", "src/btf/type_information.rs::TypeInformation::pointee_tid"]}
{"id": "C78", "title": "From the C program to the printed answer, and to every concurrent caller", "statement": "Take a legal C program (C76) and any BTF file of it. get-type-size prints sizeof of a type asked by a name that is declared once, and fails exactly for types without a size; get-type-offset, for every type but a type tag (C77) and every path text, prints the type and the place of the object that the designator designates, and fails exactly for what is no designator; dump-btf shows one type for each declaration, in order. Any number of threads that call offset_of on one shared object, in any interleaving, with a lock poisoned at any moment, under any lock policy, get exactly the answers of C, and all their calls return.", "quantifier": "every machine, legal program, file of it, type, name, path text, build profile as in C76, number of threads, interleaving, lock policy", "why_tests_cant": "it ranges over all programs, files, paths and schedules", "anchors": ["examples/get-type-size.rs::main", "examples/get-type-offset.rs::main", "examples/dump-btf.rs::main", "src/btf/type_information.rs::TypeInformation::offset_of"]}
{"id": "C79", "title": "C programs whose BTF has no kernel list_head", "statement": "For a lawful C program (C76) with pointers but without the kernel's struct list_head, size_of and offset_of still agree with the C compiler. (Not so: without a type called list_head pointers and arrays of pointers have no size, and an index into such an array is refused; with another list_head both are wrong.) What holds without list_head: every answer given is right, size_of answers exactly for the sized types that are not pointers or arrays of them, offset_of exactly for the designators that index no array of pointers, and every query is answered. Whatever its list_head looks like: the answers are those for pointers of half the size of the last struct of that name, and only pointers, arrays of pointers and places in such arrays are affected.", "quantifier": "every machine, lawful program, file of it, type, path text, build profile", "why_tests_cant": "it ranges over all programs, files and paths", "anchors": ["src/btf/type_information.rs::TypeInformation::size_of", "src/btf/type_information.rs::TypeInformation::offset_of"]}
{"id": "C80", "title": "Removing duplicate types changes no answer", "statement": "If one file has the types of another with equal declarations merged (as pahole does for every kernel: declarations that say the same once their ids are replaced by those that stand for them, also in circles), and everything called list_head became one type, then size_of gives the same result for the type that stands for t as for t, pointee_tid and offset_of the same with ids translated, the same errors, the same offsets; every type keeps its name, the same names are found, and a name whose bearers all became one type leads to that type. Merging declarations that say the same always gives such a file, and can be repeated.", "quantifier": "every two loaded files of which one is the other with equal declarations merged; every such merge; every id, name and path", "why_tests_cant": "all files and all ways to merge, including mutually recursive types and ids of nothing", "anchors": ["src/btf/type_information.rs::TypeInformation::size_of", "src/btf/type_information.rs::TypeInformation::pointee_tid", "src/btf/type_information.rs::TypeInformation::offset_of", "src/btf/type_information.rs::TypeInformation::id_of", "src/btf/type_information.rs::TypeInformation::name_of"]}
{"id": "C81", "title": "What a query copies is bounded", "statement": "Every type lookup copies the whole type with its members and names. If no type of the table is larger than w, size_of copies at most w for each type and w twice more, pointee_tid w for each type and w once more, offset_of w for each of the lookups of C53; for a C program of n declarations with a anonymous members (each with something named in it) and a path of k components at most w * k * ((n + 1) * (a + 2) + 1). Even the size of a struct, which is one field, costs a copy of all its members. The largest type of a loaded table has size at most type_len / 8 + type_len * (str_len - 1) / 4.", "quantifier": "every table, type, path and build; every loaded file", "why_tests_cant": "all tables and all paths, found or not", "anchors": ["src/btf/type_information.rs::TypeInformation::from_id", "src/btf/type_information.rs::TypeInformation::size_of", "src/btf/type_information.rs::TypeInformation::pointee_tid", "src/btf/type_information.rs::TypeInformation::offset_of"]}
{"id": "C82", "title": "The pretty printed form shows the same and keeps its layout", "statement": "The {:#?} text of a type and of the table returned by get() determines the type or table. Its first line is the kind of the type; every number, flag and name stands at its level of indentation behind its label, on a line of its own (a name or offset opened, indented further and closed), and so does every member, parameter, section variable and enumerator, its fields one level further in. How many lines a type takes depends on how many members it has and which have names, not on what the names are; the table is the texts of its types one level in, each behind its id. Whatever bytes a file contains, every line consists of visible characters: no name can add a line or break the layout.", "quantifier": "every type, table and file; every name", "why_tests_cant": "names are arbitrary bytes from the file and pass through nested adapters that look for line breaks", "anchors": ["src/btf/define_type.rs::define_type", "src/btf/header.rs::Header", "src/btf/type_information.rs::TypeVariant", "src/btf/type_information.rs::TypeInformation::get", "src/btf/struct_union.rs::Member"]}
{"id": "C83", "title": "The types a query looks up, and only these, decide its answer", "statement": "For every query (size_of, pointee_tid, offset_of) the list of its type lookups is complete: any table, of whatever size, that has the same types under these ids and the same id for list_head gives the same answer. And nothing is looked up out of the blue: every id in the list is the one asked about, that of list_head, or mentioned by a type looked up earlier. The counts of C53 and the copies of C81 are the length of this list and the sum of the sizes of its types. In a loaded table without dangling ids no lookup fails.", "quantifier": "every pair of tables, every type, path and build", "why_tests_cant": "all pairs of tables that agree on what was looked up", "anchors": ["src/btf/type_information.rs::TypeInformation::from_id", "src/btf/type_information.rs::TypeInformation::size_of", "src/btf/type_information.rs::TypeInformation::pointee_tid", "src/btf/type_information.rs::TypeInformation::offset_of_impl"]}
{"id": "C84", "title": "A 32-bit and a 64-bit program get the same answers", "statement": "The width of usize does not show in the queries. If every array's size fits into the narrower usize, size_of gives the same result in both builds, and offset_of the same result for every path that both read alike. Only a path with an index above the narrower usize is read differently (malformed there): neither build gives an answer then, and where the wider one gives an error the narrower gives the same one or InvalidTypePath. So a file of up to 4 GiB - 1 MiB that a 32-bit program loads gives a 64-bit program the same table and the same answers.", "quantifier": "every pair of builds, every table, file, type and path", "why_tests_cant": "all inputs on targets of two widths; CI runs on one", "anchors": ["src/btf/type_information.rs::TypeInformation::size_of", "src/btf/type_information.rs::TypeInformation::offset_of_impl", "src/btf/type_information.rs::TypePathIterator"]}
{"id": "C85", "title": "Every file the kernel accepts is loaded", "statement": "A BTF file that passes the Linux kernel's own checks (btf_check_all_metas: header, sections inside the file with the strings last and zero terminated, known kinds, records inside the type section one after the other, names inside the string section) is loaded, on 32-bit and on 64-bit targets, and its types get the kernel's ids. (Violated: a bitfield in the old encoding - a struct without kind flag and a bit offset that is no multiple of 8 - makes the load fail with InvalidOffset. Proved: this is the only obstacle, in both directions.)", "quantifier": "every file of any content that passes the kernel's checks, both byte orders, 32-bit and 64-bit builds of both profiles", "why_tests_cant": "all files the kernel accepts, from any compiler version", "anchors": ["src/btf/type_information.rs::TypeInformation::new", "src/btf/header.rs::Header::new", "src/btf/struct_union.rs", "src/btf/offset.rs"]}
{"id": "C86", "title": "Types the kernel has resolved can be queried without panic, wrap-around or hang", "statement": "In a table whose types the Linux kernel accepts (btf_resolve: no type contains itself, array sizes fit 32 bits, members lie in their struct) every query returns: size_of, pointee_tid and offset_of give a result or an error for every type and path, in debug and release builds of 64 bits and, when list_head gives the size of the kernel's pointers, of 32 bits. size_of gives exactly the kernel's sizes then, and what offset_of finds lies inside the type asked about (members of integers of whole bytes and enums of up to 4 bytes).", "quantifier": "every loaded table that meets the kernel's checks, every type, path and build", "why_tests_cant": "all tables, and termination and overflow for each type and path", "anchors": ["src/btf/type_information.rs::TypeInformation::size_of", "src/btf/type_information.rs::TypeInformation::pointee_tid", "src/btf/type_information.rs::TypeInformation::offset_of"]}
{"id": "C87", "title": "A path survives the changes of the next kernel", "statement": "What a program asks of one kernel's BTF it can ask of another's. If every struct, union and array on the way still has, in the new table, the members and elements it had - members may be added, moved, reordered, put into or taken out of anonymous structs, become bitfields (if there is nothing in them), change to types that again have all that the old ones have, and arrays may grow - then every path that offset_of answered on the old table is answered on the new one, with the type and the place that the member has there. If the new type has no such member any more, the answer is InvalidTypePath, and never a wrong place. The new table is expected to be orderly, which tables the kernel has resolved are, if its anonymous members start at whole bytes and its names are unambiguous.", "quantifier": "every pair of tables related in this way, every type, path and build", "why_tests_cant": "all kernels and all changes between them", "anchors": ["src/btf/type_information.rs::TypeInformation::offset_of", "src/btf/type_information.rs::TypeInformation::offset_of_impl"]}
{"id": "C88", "title": "However the operating system delivers a file, it is loaded the same", "statement": "Loading a file with the ReadableFile of the examples does not depend on how the operating system serves the system calls behind it. If the file does not change, a call may deliver any number of the bytes asked for (at least one), in whatever pieces, and may be interrupted by signals any number of times: the loaded table, or the error, is the same as if every request were served in one piece. If calls may also fail, at any moment, the result is the same or IOError, never a table of other contents; the tools of the examples then print what they print for a file read in one piece, or panic and print no answer. Each request returns if the signals stop some time; it never returns if one call is interrupted for ever.", "quantifier": "every operating system behaviour (dependent on the whole history), every file, every build", "why_tests_cant": "all schedules of short reads, signals and failures", "anchors": ["examples/get-type-offset.rs::ReadableFile", "examples/dump-btf.rs::ReadableFile", "examples/get-type-size.rs::ReadableFile", "src/btf/readable.rs::Readable", "src/utils/reader.rs::Reader"]}
{"id": "C89", "title": "Following pointers through memory as C does", "statement": "A program that reads another program's memory combines the queries: offset_of for member accesses, pointee_tid and a memory read for dereferences, offset_of again for container_of. Take a legal C program (C76) and any BTF file of it, any contents of memory, any object, and any sequence of these operations. If the caller takes type tags off before asking (C77 tells why: asked of the tag, offset_of and pointee_tid refuse), then it comes to an object exactly when the C expression does, at the same address (or bits), of the same type up to tags. It comes to one object at most; every query on the way is answered without panic or endless loop, and taking tags off ends. In every table, container_of leads back from a member to the object it is a member of.", "quantifier": "every machine, legal program, file of it, memory, start object, sequence of operations with any path texts, build profile as in C76; for the last sentence every table", "why_tests_cant": "all programs, memories and expressions of any length", "anchors": ["src/btf/type_information.rs::TypeInformation::offset_of", "src/btf/type_information.rs::TypeInformation::pointee_tid", "src/btf/type_information.rs::TypeInformation::from_id"]}
