{
 "claims": [
  {
   "property": "C01",
   "status": "proved",
   "theorems": [
    "C01_load_never_panics",
    "C01_debug_release_agree"
   ],
   "note": ""
  },
  {
   "property": "C02",
   "status": "partial",
   "theorems": [
    "C02_load_never_panics_32_refuted",
    "C02_load_32_partial",
    "C02_checked_32_partial",
    "C02_panics_iff_partial",
    "C02_otherwise_same_partial",
    "C02_small_files_partial",
    "C02_small_files_panic_partial",
    "C02_same_accepted_partial"
   ],
   "note": "Refuted: 24 bytes make a 32-bit debug build panic. Proved part: when no section ends in the last MiB below 4 GiB the 32-bit build equals the 64-bit build (result and requests); with overflow checks it always does, or panics; for files shorter than 4 GiB - 1 MiB (whatever the header says) it panics exactly if the type section starts in the last 12 bytes below 4 GiB and ends below 4 GiB. All builds accept the same files of at most 4 GiB - 1 MiB, with the same tables. And exactly, for files of any length and header: with overflow checks it panics for the files of reaches_4G (NarrowSpec.v) and no others; for all others every 32-bit build does what every 64-bit build does."
  },
  {
   "property": "C03",
   "status": "proved",
   "theorems": [
    "C03_loader_exact",
    "C03_buffers_and_files",
    "C03_any_width"
   ],
   "note": "Both directions, for every image. The right-hand side includes the array-tail tolerance (C15) as describes_but_tail."
  },
  {
   "property": "C04",
   "status": "proved",
   "theorems": [
    "C04_round_trip",
    "C04_round_trip_any_width"
   ],
   "note": ""
  },
  {
   "property": "C05",
   "status": "proved",
   "theorems": [
    "C05_endianness_independent",
    "C05_endianness_independent_any_width"
   ],
   "note": "64-bit enumerators are excluded: they are C06."
  },
  {
   "property": "C06",
   "status": "partial",
   "theorems": [
    "C06_enum64_big_refuted",
    "C06_enum64_partial",
    "C06_enum64_any_width_partial"
   ],
   "note": "Refuted for big-endian files (the two words of a value are exchanged). Proved part: what is loaded in either order."
  },
  {
   "property": "C07",
   "status": "proved",
   "theorems": [
    "C07_ids_consecutive",
    "C07_any_width"
   ],
   "note": ""
  },
  {
   "property": "C08",
   "status": "proved",
   "theorems": [
    "C08_names_ids_agree",
    "C08_any_width"
   ],
   "note": ""
  },
  {
   "property": "C09",
   "status": "proved",
   "theorems": [
    "C09_last_definition_wins",
    "C09_unnamed",
    "C09_any_width"
   ],
   "note": ""
  },
  {
   "property": "C10",
   "status": "proved",
   "theorems": [
    "C10_name_of_record",
    "C10_named_iff",
    "C10_any_width"
   ],
   "note": ""
  },
  {
   "property": "C11",
   "status": "proved",
   "theorems": [
    "C11_string_decoding",
    "C11_any_width"
   ],
   "note": ""
  },
  {
   "property": "C12",
   "status": "partial",
   "theorems": [
    "C12_non_ascii_refuted",
    "C12_names_partial",
    "C12_any_width_partial"
   ],
   "note": "Refuted: UTF-8 bytes are decoded as Latin-1. Proved part: a name is returned as stored exactly when it is ASCII."
  },
  {
   "property": "C13",
   "status": "proved",
   "theorems": [
    "C13_bad_reference_fails",
    "C13_loaded_no_bad",
    "C13_any_width"
   ],
   "note": ""
  },
  {
   "property": "C14",
   "status": "partial",
   "theorems": [
    "C14_reads_in_sections_refuted",
    "C14_reads_in_sections_partial",
    "C14_any_width_partial"
   ],
   "note": "Refuted: an array header at the end of the type section makes the loader read 12 bytes past it. Proved part: that is the only way out of the sections."
  },
  {
   "property": "C15",
   "status": "partial",
   "theorems": [
    "C15_too_long_refuted",
    "C15_too_long_partial",
    "C15_any_width_partial"
   ],
   "note": "Refuted for arrays with vlen 0. Proved part: all other kinds, and arrays up to 12*vlen."
  },
  {
   "property": "C16",
   "status": "proved",
   "theorems": [
    "C16_failures_reported",
    "C16_requests_honest",
    "C16_any_width"
   ],
   "note": ""
  },
  {
   "property": "C17",
   "status": "partial",
   "theorems": [
    "C17_any_build",
    "C17_consulted_only",
    "C17_outside_sections_refuted",
    "C17_sections_partial"
   ],
   "note": "The first sentence is proved; \"bytes outside the three ranges\" is refuted by the array tail (C14) and proved otherwise."
  },
  {
   "property": "C18",
   "status": "proved",
   "theorems": [
    "C18_magic_first",
    "C18_order",
    "C18_any_width"
   ],
   "note": ""
  },
  {
   "property": "C19",
   "status": "proved",
   "theorems": [
    "C19_unknown_kind",
    "C19_info_word",
    "C19_reserved_ignored",
    "C19_any_width"
   ],
   "note": ""
  },
  {
   "property": "C20",
   "status": "proved",
   "theorems": [
    "C20_section_bounds",
    "C20_any_width"
   ],
   "note": ""
  },
  {
   "property": "C21",
   "status": "proved",
   "theorems": [
    "C21_member_offsets",
    "C21_unaligned_fails",
    "C21_any_width"
   ],
   "note": ""
  },
  {
   "property": "C22",
   "status": "proved",
   "theorems": [
    "C22_int_encoding",
    "C22_any_width"
   ],
   "note": ""
  },
  {
   "property": "C23",
   "status": "proved",
   "theorems": [
    "C23_enumerators",
    "C23_injective",
    "C23_any_width"
   ],
   "note": ""
  },
  {
   "property": "C24",
   "status": "proved",
   "theorems": [
    "C24_add_exact",
    "C24_add_number",
    "C24_add_bitfield",
    "C24_add_algebra"
   ],
   "note": ""
  },
  {
   "property": "C25",
   "status": "proved",
   "theorems": [
    "C25_print_parse",
    "C25_print_injective"
   ],
   "note": ""
  },
  {
   "property": "C26",
   "status": "partial",
   "theorems": [
    "C26_malformed_accepted_refuted",
    "C26_accepted_partial",
    "C26_printed_partial",
    "C26_malformed_partial",
    "C26_malformed_later_partial"
   ],
   "note": "Refuted: one trailing \".\" or \"[\" and leading zeros are accepted. Proved part: the accepted language exactly, and the errors for everything else."
  },
  {
   "property": "C27",
   "status": "proved",
   "theorems": [
    "C27_iteration_ends",
    "C27_never_panics"
   ],
   "note": ""
  },
  {
   "property": "C28",
   "status": "proved",
   "theorems": [
    "C28_size_of",
    "C28_size_of_local",
    "C28_errors",
    "C28_by_kind"
   ],
   "note": ""
  },
  {
   "property": "C29",
   "status": "partial",
   "theorems": [
    "C29_wrapped_size_refuted",
    "C29_exact_partial",
    "C29_panics_exactly_partial",
    "C29_wrapped_exactly_partial"
   ],
   "note": "Refuted: unchecked multiplication. Proved part: exact or panic with overflow checks, exact modulo 2^64 without, exact when the size is positive and fits; with overflow checks it panics exactly if a product that enters into the size does not fit, without it returns exactly the size modulo 2^64 (2^32)."
  },
  {
   "property": "C30",
   "status": "partial",
   "theorems": [
    "C30_loops_exactly_partial",
    "C30_offset_of_local_partial",
    "C30_queries_terminate_refuted",
    "C30_terminate_partial",
    "C30_offset_of_terminates_partial",
    "C30_never_returns_exactly_partial"
   ],
   "note": "Refuted: self-referential typedefs and anonymous members. Proved part: an endless chain of links is the only reason, and only one that the path gets to; offset_of does not return exactly if the search of C70 is not over after any number of steps, that is (C72), if it comes back to a question it had asked."
  },
  {
   "property": "C31",
   "status": "proved",
   "theorems": [
    "C31_pointee"
   ],
   "note": ""
  },
  {
   "property": "C32",
   "status": "proved",
   "theorems": [
    "C32_sound",
    "C32_sound_reported_sizes"
   ],
   "note": "Without overflow checks the element sizes are those size_of reports (C29)."
  },
  {
   "property": "C33",
   "status": "proved",
   "theorems": [
    "C33_complete",
    "C33_exact",
    "C33_complete_consistent",
    "C33_exact_along_path"
   ],
   "note": "Side conditions are those forced by C29, C30, C39 and 32-bit offsets; C33_exact_along_path needs them only at the places the path gets to."
  },
  {
   "property": "C34",
   "status": "proved",
   "theorems": [
    "C34_offset_of",
    "C34_size_of",
    "C34_pointee"
   ],
   "note": ""
  },
  {
   "property": "C35",
   "status": "proved",
   "theorems": [
    "C35_inside"
   ],
   "note": ""
  },
  {
   "property": "C36",
   "status": "proved",
   "theorems": [
    "C36_first_component",
    "C36_void",
    "C36_unknown",
    "C36_refused",
    "C36_never_ok"
   ],
   "note": ""
  },
  {
   "property": "C37",
   "status": "partial",
   "theorems": [
    "C37_unknown_id_refuted",
    "C37_empty_path_partial"
   ],
   "note": "Refuted: the empty path succeeds for unknown ids. Proved part: everything else."
  },
  {
   "property": "C38",
   "status": "proved",
   "theorems": [
    "C38_indexing_linear",
    "C38_indexing_linear_consistent",
    "C38_too_far"
   ],
   "note": ""
  },
  {
   "property": "C39",
   "status": "partial",
   "theorems": [
    "C39_anonymous_bitfield_refuted",
    "C39_member_found_partial"
   ],
   "note": "Refuted: an unnamed bitfield makes every lookup by name fail. Proved part: true when anonymous members start at whole bytes."
  },
  {
   "property": "C40",
   "status": "proved",
   "theorems": [
    "C40_cached_results_exact",
    "C40_atomic_exact",
    "C40_atomic_progress"
   ],
   "note": ""
  },
  {
   "property": "C41",
   "status": "proved",
   "theorems": [
    "C41_entries_exact",
    "C41_errors_not_cached",
    "C41_successes_cached",
    "C41_only_asked",
    "C41_entries_stay",
    "C41_failure_keeps_cache",
    "C41_atomic_entries_stay",
    "C41_atomic_failure_keeps_cache"
   ],
   "note": ""
  },
  {
   "property": "C42",
   "status": "proved",
   "theorems": [
    "C42_growth",
    "C42_growth_any_width"
   ],
   "note": ""
  },
  {
   "property": "C43",
   "status": "proved",
   "theorems": [
    "C43_profiles_agree",
    "C43_debug_result_holds"
   ],
   "note": ""
  },
  {
   "property": "C44",
   "status": "proved",
   "theorems": [
    "C44_widths",
    "C44_any_width"
   ],
   "note": ""
  },
  {
   "property": "C45",
   "status": "proved",
   "theorems": [
    "C45_exclusive",
    "C45_waits_without_lock",
    "C45_no_deadlock",
    "C45_all_return",
    "C45_fair"
   ],
   "note": ""
  },
  {
   "property": "C46",
   "status": "proved",
   "theorems": [
    "C46_paths_compose",
    "C46_paths_compose_consistent"
   ],
   "note": ""
  },
  {
   "property": "C47",
   "status": "proved",
   "theorems": [
    "C47_any_build",
    "C47_same_bytes_same_result",
    "C47_requests_determined",
    "C47_any_width"
   ],
   "note": ""
  },
  {
   "property": "C48",
   "status": "proved",
   "theorems": [
    "C48_size_of",
    "C48_pointee",
    "C48_offset_of",
    "C48_growth",
    "C48_growth_any_width"
   ],
   "note": ""
  },
  {
   "property": "C49",
   "status": "proved",
   "theorems": [
    "C49_shown_decides",
    "C49_written_back",
    "C49_shown_decides_any_width",
    "C49_written_back_any_width"
   ],
   "note": ""
  },
  {
   "property": "C50",
   "status": "proved",
   "theorems": [
    "C50_exact",
    "C50_order_reached",
    "C50_any_width",
    "C50_bounded_work",
    "C50_any_readable"
   ],
   "note": ""
  },
  {
   "property": "C51",
   "status": "proved",
   "theorems": [
    "C51_failure_explained",
    "C51_broken_iff",
    "C51_one_reason",
    "C51_any_width"
   ],
   "note": ""
  },
  {
   "property": "C52",
   "status": "proved",
   "theorems": [
    "C52_outcome_explained",
    "C52_error_kinds"
   ],
   "note": ""
  },
  {
   "property": "C53",
   "status": "partial",
   "theorems": [
    "C53_c_program_partial",
    "C53_exponential_refuted",
    "C53_offset_of_partial",
    "C53_in_place_partial",
    "C53_shared_partial",
    "C53_size_of",
    "C53_ambiguous_refuted"
   ],
   "note": "Refuted twice: structs with two anonymous members of one type double the work at each level (C53_exponential_refuted), ambiguous names at each component of the path (C53_ambiguous_refuted: one fixed file of 93 bytes). Proved part: the bound, when no struct gets to another in two ways through anonymous members, names are unambiguous and chains end: in files where each anonymous member has a type of its own, in deduplicated ones, and in every BTF file of a C program; size_of always."
  },
  {
   "property": "C54",
   "status": "proved",
   "theorems": [
    "C54_get_type_size",
    "C54_get_type_offset",
    "C54_dump_btf",
    "C54_usage",
    "C54_readable",
    "C54_dump_btf_any_width",
    "C54_get_type_size_any_width",
    "C54_get_type_offset_any_width"
   ],
   "note": ""
  },
  {
   "property": "C55",
   "status": "proved",
   "theorems": [
    "C55_closed"
   ],
   "note": ""
  },
  {
   "property": "C56",
   "status": "proved",
   "theorems": [
    "C56_same_components",
    "C56_every_text"
   ],
   "note": ""
  },
  {
   "property": "C57",
   "status": "proved",
   "theorems": [
    "C57_messages_fit",
    "C57_pointee_message",
    "C57_size_message",
    "C57_offset_message",
    "C57_list_head_known",
    "C57_texts_differ",
    "C57_wording"
   ],
   "note": ""
  },
  {
   "property": "C58",
   "status": "proved",
   "theorems": [
    "C58_bad_character",
    "C58_first_bad",
    "C58_unclosed",
    "C58_empty",
    "C58_too_big",
    "C58_never_not_a_number"
   ],
   "note": ""
  },
  {
   "property": "C59",
   "status": "partial",
   "theorems": [
    "C59_otherwise_returns_partial",
    "C59_release_returns_refuted",
    "C59_release_same_refuted",
    "C59_release_partial",
    "C59_small_files_partial"
   ],
   "note": "Refuted: a 4 GiB file on which it never returns, and 24 bytes with another error. Proved part: no panic; equal to the 64-bit build when no section ends in the last MiB; for files shorter than 4 GiB - 1 MiB it returns and accepts the same files with the same tables (only the error can differ, in the case above); for files of any length it returns the result of the 64-bit build unless the file is one of reaches_4G (NarrowSpec.v). On 32-bit release builds the model cuts loops after as many rounds as the section has bytes; the refutation holds for every number of rounds."
  },
  {
   "property": "C60",
   "status": "proved",
   "theorems": [
    "C60_other_byte_order",
    "C60_equal_tables",
    "C60_other_byte_order_any_width",
    "C60_equal_tables_any_width"
   ],
   "note": "The one exception stated in the theorem is the array tail of C14; 64-bit enumerators are related by exchanging halves (C06)."
  },
  {
   "property": "C61",
   "status": "proved",
   "theorems": [
    "C61_kind_of_message",
    "C61_readable_error",
    "C61_message_iff",
    "C61_one_message",
    "C61_texts",
    "C61_any_width",
    "C61_checked_32"
   ],
   "note": "Spec: LoadMessageSpec.v (broken_says). C61_message_iff is for served files on 64-bit targets, C61_any_width also for 32-bit ones when no section ends in the last MiB below 4 GiB; C61_kind_of_message and C61_readable_error hold for every Readable and target."
  },
  {
   "property": "C62",
   "status": "proved",
   "theorems": [
    "C62_same_results",
    "C62_size_of",
    "C62_pointee_tid",
    "C62_offset_of",
    "C62_offset_of_named_cycles",
    "C62_reached"
   ],
   "note": "Counts calls of the three functions that call themselves; the others add a constant. C62_reached: the bounds are attained. Example C62_cycle: with an anonymous cycle offset_of may return and still nest deeper than there are types."
  },
  {
   "property": "C63",
   "status": "proved",
   "theorems": [
    "C63_type_readable",
    "C63_dump_readable",
    "C63_same_text_same_object",
    "C63_dump_btf",
    "C63_clean",
    "C63_shows",
    "C63_entries",
    "C63_literals",
    "C63_clean_any_width",
    "C63_same_text_same_object_any_width",
    "C63_dump_btf_any_width"
   ],
   "note": "The escapes follow str::fmt for characters up to U+00FF, which are all that names can contain (C11). Example C63_met: a file whose name tries to colour the terminal and to forge a line."
  },
  {
   "property": "C64",
   "status": "proved",
   "theorems": [
    "C64_no_overlap",
    "C64_elements"
   ],
   "note": "The layout hypotheses (consistent, unambiguous, members_apart) are about the file; all three are checked for the sample file, where a union shows that the condition on where the paths part is needed."
  },
  {
   "property": "C65",
   "status": "proved",
   "theorems": [
    "C65_any_build",
    "C65_never_misread",
    "C65_truncated",
    "C65_cut_matters",
    "C65_trailing",
    "C65_complete"
   ],
   "note": "C65_never_misread covers files that grow while they are read. A file whose tail was preallocated with zeros is not cut off in this sense."
  },
  {
   "property": "C66",
   "status": "proved",
   "theorems": [
    "C66_one_each",
    "C66_at_most",
    "C66_asked_again",
    "C66_no_limit"
   ],
   "note": "C66_no_limit is a statement about the code as it is (an unbounded cache keyed by the text of the path), not a defect of the answers."
  },
  {
   "property": "C67",
   "status": "proved",
   "theorems": [
    "C67_bounded_memory",
    "C67_order_reached",
    "C67_any_width"
   ],
   "note": "Counts entries and bytes of text, not allocator overhead. C67_bounded_memory covers every file, C67_order_reached the family of files that reach the order."
  },
  {
   "property": "C68",
   "status": "proved",
   "theorems": [
    "C68_error_text",
    "C68_same_runs",
    "C68_dump_btf",
    "C68_get_type_size",
    "C68_get_type_offset",
    "C68_cause_readable",
    "C68_dump_btf_any_width",
    "C68_get_type_size_any_width",
    "C68_get_type_offset_any_width"
   ],
   "note": "The text of the panic message, not the prefix written by the panic hook; the texts of I/O errors are parameters. C68_cause_readable assumes that the text of a failed open does not look like an error of the library."
  },
  {
   "property": "C69",
   "status": "proved",
   "theorems": [
    "C69_same_result",
    "C69_same_file",
    "C69_same_file_any_width",
    "C69_same_result_any_width"
   ],
   "note": "The exception (a type section that ends inside its last array, C14) is part of the statement and shown to be real by C69_met."
  },
  {
   "property": "C70",
   "status": "proved",
   "theorems": [
    "C70_offset_of_exact",
    "C70_one_result",
    "C70_returns",
    "C70_never_returns"
   ],
   "note": "Element sizes are what size_of returns (C28, C29), so wrapped sizes of release builds are included. Caching: C40, C41, C45."
  },
  {
   "property": "C71",
   "status": "proved",
   "theorems": [
    "C71_size_of",
    "C71_pointee",
    "C71_offset_of",
    "C71_renamed_file",
    "C71_renamed_file_any_width"
   ],
   "note": "Results are compared by value and error kind (messages show the type, so they do show its name). C48 is the same for type ids."
  },
  {
   "property": "C72",
   "status": "proved",
   "theorems": [
    "C72_size_of",
    "C72_pointee",
    "C72_offset_of",
    "C72_loops",
    "C72_decided"
   ],
   "note": "The stack is unbounded in the model; on a real machine a call that does not return by recursion ends in a stack overflow (C62 counts nested calls)."
  },
  {
   "property": "C73",
   "status": "proved",
   "theorems": [
    "C73_fetched_once",
    "C73_no_byte_twice",
    "C73_fixed_file",
    "C73_changing_file",
    "C73_names_must_stay",
    "C73_changing_file_any_width",
    "C73_fetched_once_any_width",
    "C73_no_byte_twice_any_width",
    "C73_fixed_file_any_width"
   ],
   "note": "A read that fails ends the load with its error (C16). On 32-bit targets: the _any_width theorems, for builds with overflow checks and loads that do not panic (C02)."
  },
  {
   "property": "C74",
   "status": "proved",
   "theorems": [
    "C74_first_failure",
    "C74_prefix_answered",
    "C74_text",
    "C74_no_rescue",
    "C74_stays_inside",
    "C74_bitfield_last",
    "C74_elsewhere"
   ],
   "note": "That the longer path stays inside is stated for tables that name members unambiguously; C74_elsewhere shows why."
  },
  {
   "property": "C75",
   "status": "proved",
   "theorems": [
    "C75_pointee_tid",
    "C75_size_of",
    "C75_offset_of",
    "C75_elsewhere",
    "C75_retarget",
    "C75_resize"
   ],
   "note": "Kinds of errors; messages name types and are not compared. What is looked at is an upper bound: a search that has found its member looks at fewer."
  },
  {
   "property": "C76",
   "status": "proved",
   "theorems": [
    "C76_loads",
    "C76_by_name",
    "C76_names",
    "C76_size_of",
    "C76_offset_of",
    "C76_pointee",
    "C76_answered",
    "C76_apart",
    "C76_aligned",
    "C76_one_layout",
    "C76_has_file"
   ],
   "note": "The ABI part (layout rules of GCC and Clang; pointer size, alignments and unnamed bitfields by machine) is a specification of what compilers do, not derived from anything in the repository (compared with compilers: tools/abi). Attributes on bitfields are not in the language; a flexible array member is an array with 0 elements; types are under 512 MiB (bit offsets are 32-bit numbers), structs with bitfields under 2 MiB (24-bit offsets in the format)."
  },
  {
   "property": "C77",
   "status": "partial",
   "theorems": [
    "C77_tag_partial",
    "C77_tags_refuted",
    "C77_untagged_partial"
   ],
   "note": "Refuted: offset_of and pointee_tid do not see through type tags (size_of does). Proved part: exactly what each query does on a tag, for every table; and that following the tags by hand gives the answers of C for every legal program."
  },
  {
   "property": "C78",
   "status": "proved",
   "theorems": [
    "C78_get_type_size",
    "C78_get_type_offset",
    "C78_dump_btf",
    "C78_any_history",
    "C78_all_return"
   ],
   "note": ""
  },
  {
   "property": "C79",
   "status": "partial",
   "theorems": [
    "C79_size_of_partial",
    "C79_offset_of_partial",
    "C79_sound_partial",
    "C79_answered_partial",
    "C79_taken_fits",
    "C79_taken_size_partial",
    "C79_taken_offset_partial",
    "C79_taken_answered_partial",
    "C79_rest_right_partial",
    "C79_pointers_refuted"
   ],
   "note": "Refuted: the size of a pointer is taken from a type called list_head. Proved part, for every lawful program without list_head: exactly which queries are answered, and that the answers are those of C; for every lawful program, whatever its list_head: exactly the sizes and places that follow from the size btfparse takes for pointers (completeness of places: when they lie below 512 MiB), and that all other sizes are those of C."
  },
  {
   "property": "C80",
   "status": "proved",
   "theorems": [
    "C80_answers",
    "C80_names",
    "C80_merge",
    "C80_merge_again",
    "C80_answers_any_width",
    "C80_names_any_width"
   ],
   "note": ""
  },
  {
   "property": "C81",
   "status": "proved",
   "theorems": [
    "C81_size_of",
    "C81_struct",
    "C81_pointee",
    "C81_same",
    "C81_offset_of",
    "C81_c_program",
    "C81_largest",
    "C81_largest_any_width"
   ],
   "note": ""
  },
  {
   "property": "C82",
   "status": "proved",
   "theorems": [
    "C82_readable",
    "C82_shows",
    "C82_entries",
    "C82_lines",
    "C82_table",
    "C82_same_tree",
    "C82_clean",
    "C82_clean_any_width"
   ],
   "note": ""
  },
  {
   "property": "C83",
   "status": "proved",
   "theorems": [
    "C83_same",
    "C83_counts",
    "C83_offset_of",
    "C83_size_of",
    "C83_pointee",
    "C83_step_by_step",
    "C83_no_failed_lookup"
   ],
   "note": ""
  },
  {
   "property": "C84",
   "status": "proved",
   "theorems": [
    "C84_size_of",
    "C84_offset_of",
    "C84_texts",
    "C84_any_path",
    "C84_from_file"
   ],
   "note": ""
  },
  {
   "property": "C85",
   "status": "partial",
   "theorems": [
    "C85_loads_partial",
    "C85_refuted"
   ],
   "note": "Refuted: a bitfield in the old encoding (no kind flag) makes the load fail. Proved part: every other file the kernel accepts is loaded with the kernel's ids, and such a file always fails with InvalidOffset. kernel_checked states necessary conditions of acceptance, from kernel/bpf/btf.c; the kernel itself is not modelled."
  },
  {
   "property": "C86",
   "status": "proved",
   "theorems": [
    "C86_answered",
    "C86_sizes",
    "C86_inside"
   ],
   "note": "kernel_resolved states necessary conditions of acceptance, from kernel/bpf/btf.c; the kernel itself is not modelled."
  },
  {
   "property": "C87",
   "status": "proved",
   "theorems": [
    "C87_survives",
    "C87_dropped",
    "C87_kernel"
   ],
   "note": ""
  },
  {
   "property": "C88",
   "status": "proved",
   "theorems": [
    "C88_any_build",
    "C88_tools_any_build",
    "C88_any_pieces",
    "C88_flaky",
    "C88_returns",
    "C88_tools"
   ],
   "note": ""
  },
  {
   "property": "C89",
   "status": "proved",
   "theorems": [
    "C89_as_in_C",
    "C89_answered",
    "C89_back"
   ],
   "note": ""
  }
 ]
}