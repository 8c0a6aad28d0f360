{
 "claims": [
  {
   "property": "C01",
   "status": "proved",
   "theorems": [
    "C01_read_returns_the_bits",
    "C01_read_sequence_slices_the_bits"
   ],
   "note": "Every reachable cursor state, every width 1..63, and sequences of reads."
  },
  {
   "property": "C02",
   "status": "proved",
   "theorems": [
    "C02_read_errors_exactly_when_out_of_range",
    "C02_bytes_past_the_limit_are_never_seen"
   ],
   "note": "Exact error conditions, and observational independence from bytes past the limit for every operation sequence."
  },
  {
   "property": "C03",
   "status": "partial",
   "theorems": [
    "C03_failed_read_keeps_position_refuted",
    "C03_failed_read_partial",
    "C03_short_read_skips_the_loaded_bits"
   ],
   "note": "Full claim refuted: a Short read moves the position. Everything else is proved, and how far it moves (the bits left in the loaded block)."
  },
  {
   "property": "C04",
   "status": "proved",
   "theorems": [
    "C04_seek_bit_exact",
    "C04_failed_seeks"
   ],
   "note": "Both directions, every reachable state."
  },
  {
   "property": "C05",
   "status": "partial",
   "theorems": [
    "C05_seek_partial",
    "C05_failed_seeks",
    "C05_seek_never_panics_refuted",
    "C05_panics_exactly"
   ],
   "note": "Contract proved for every request that does not overflow i64 (or with wrapping arithmetic) and lengths < 2^63; the no-panic part is refuted for Current in builds with overflow checks, with the exact condition."
  },
  {
   "property": "C06",
   "status": "proved",
   "theorems": [
    "C06_vbr_round_trip",
    "C06_other_widths_rejected"
   ],
   "note": "Every u64, every width, every surrounding data; other widths rejected."
  },
  {
   "property": "C07",
   "status": "partial",
   "theorems": [
    "C07_svbr_round_trip_partial",
    "C07_svbr_min_reads_zero",
    "C07_svbr_round_trip_refuted",
    "C07_svbr_value"
   ],
   "note": "Proved for every i64 except i64::MIN, which always decodes to 0 (refuted); the value of every text is given."
  },
  {
   "property": "C08",
   "status": "partial",
   "theorems": [
    "C08_read_vbr_terminates",
    "C08_read_vbr_value_partial",
    "C08_read_vbr_success_consumes_a_text",
    "C08_read_vbr_wraps",
    "C08_cut_texts_fail",
    "C08_complete_or_cut",
    "C08_overlong_vbr_refuted"
   ],
   "note": "Termination, and the exact result for every input: complete texts, texts cut short, wrapping shifts. The full claim is refuted: overlong encodings panic or give a wrong value."
  },
  {
   "property": "C09",
   "status": "partial",
   "theorems": [
    "C09_align32_partial",
    "C09_align32_refuted",
    "C09_align32_exactly"
   ],
   "note": "Proved for cursors over inputs of whole 32-bit words that were moved to word boundaries only (all cursors of the parser). Refuted in general; for every cursor the position reached is described exactly (C09_align32_exactly)."
  },
  {
   "property": "C10",
   "status": "partial",
   "theorems": [
    "C10_read_as_checked_cast",
    "C10_primitive_types",
    "C10_read_as_float_partial",
    "C10_read_as_float_fails",
    "C10_read_as_float_refuted",
    "C10_read_exact_f64_always_fails",
    "C10_read_exact_partial",
    "C10_read_exact_signed",
    "C10_read_exact_64_always_fails",
    "C10_read_exact_64_refuted",
    "C10_read_exact_signed_refuted"
   ],
   "note": "read_as and read_exact are characterised for every type; 64-bit and signed read_exact do not do what the claim says (refuted). Floating-point targets: rounded to nearest instead of BadCast (refuted, exact result proved)."
  },
  {
   "property": "C11",
   "status": "proved",
   "theorems": [
    "C11_exhausted_iff_at_end"
   ],
   "note": "Every reachable state."
  },
  {
   "property": "C12",
   "status": "proved",
   "theorems": [
    "C12_cursor_is_a_position_in_a_bit_string",
    "C12_read_never_panics"
   ],
   "note": "Every operation history from both constructors."
  },
  {
   "property": "C13",
   "status": "proved",
   "theorems": [
    "C13_parsing_inverts_writing"
   ],
   "note": "Every well-formed abstract stream (independent writer), any size and nesting, whose record sizes the allocator can serve. BLOCKINFO definitions are added up over the stream; that LLVM's own writer starts afresh with every BLOCKINFO block is C80."
  },
  {
   "property": "C14",
   "status": "proved",
   "theorems": [
    "C14_advance_terminates_and_progresses",
    "C14_at_most_one_entry_per_bit"
   ],
   "note": "Every reachable parser state. The recursion depth of advance on the native stack is not modelled."
  },
  {
   "property": "C15",
   "status": "proved",
   "theorems": [
    "C15_blocks_nest_and_contain_the_records"
   ],
   "note": "Every input and number of calls, errors in between included."
  },
  {
   "property": "C16",
   "status": "proved",
   "theorems": [
    "C16_advance_is_a_run_of_steps",
    "C16_blockinfo_is_transparent",
    "C16_no_blockinfo_entry"
   ],
   "note": "Stated over single steps of advance, plus the theorem that advance is a run of such steps."
  },
  {
   "property": "C17",
   "status": "partial",
   "theorems": [
    "C17_end_is_final",
    "C17_iteration_ends_refuted",
    "C17_iteration_ends_partial",
    "C17_endless_exactly",
    "C17_endless_error"
   ],
   "note": "Finality of the end is proved. That iteration ends is refuted: it does not end exactly when a block announces abbreviation ids of 64 or more bits and input is left (equivalence proved)."
  },
  {
   "property": "C18",
   "status": "partial",
   "theorems": [
    "C18_panics_exactly",
    "C18_never_panics_refuted",
    "C18_only_input_panics_partial"
   ],
   "note": "Full claim refuted; proved that only the five listed input-dependent panics occur, two of them only with overflow checks, and exactly on which inputs each of them occurs (C18_panics_exactly, P_Grammar.v)."
  },
  {
   "property": "C19",
   "status": "proved",
   "theorems": [
    "C19_leaving_a_block_restores_the_scopes",
    "C19_definitions_stay_in_their_block"
   ],
   "note": "Every state; the later-block half is C16's description of the abbreviations of an entered block."
  },
  {
   "property": "C20",
   "status": "proved",
   "theorems": [
    "C20_wrapped_parses_like_raw",
    "C20_wrapped_input_is_recognised"
   ],
   "note": "Every payload, header and padding; results compared up to and including the first that is not an entry."
  },
  {
   "property": "C21",
   "status": "partial",
   "theorems": [
    "C21_payload_at_any_offset",
    "C21_alignment_is_that_of_the_payload",
    "C21_alignment_of_whole_words",
    "C21_payload_like_raw_refuted",
    "C21_offset_and_size_delimit_the_payload_refuted",
    "C21_offset_and_size_delimit_the_payload_partial"
   ],
   "note": "Refuted: the end is size+20 instead of offset+size. Proved: the slice parsed is [offset, size+20), for every offset; for offsets divisible by 4 like the same slice given to from_raw, for others with the alignments of C21_payload_at_any_offset, which are not those of the slice in its last eight bytes (C21_payload_like_raw_refuted)."
  },
  {
   "property": "C22",
   "status": "proved",
   "theorems": [
    "C22_opening_exactly",
    "C22_opened_at",
    "C22_raw_container_check",
    "C22_from_dispatches_on_the_magic",
    "C22_from_needs_four_bytes"
   ],
   "note": "Every byte string; the exact rules of opening are OpenSpec.v."
  },
  {
   "property": "C23",
   "status": "proved",
   "theorems": [
    "C23_meaning_independent_of_encoding"
   ],
   "note": "Any two well-formed streams with the same meaning."
  },
  {
   "property": "C24",
   "status": "proved",
   "theorems": [
    "C24_entries_depend_on_consumed_bytes"
   ],
   "note": "Every input, every suffix of whole words."
  },
  {
   "property": "C25",
   "status": "proved",
   "theorems": [
    "C25_decoding_a_definition_returns_it",
    "C25_accepted_definitions_are_well_shaped",
    "C25_stored_definitions_are_well_shaped"
   ],
   "note": "Both the decoding of every definition and the shape of every accepted one."
  },
  {
   "property": "C26",
   "status": "proved",
   "theorems": [
    "C26_char6_decodes_to_the_alphabet",
    "C26_char6_stays_in_the_alphabet"
   ],
   "note": "All 64 values against the documented ranges; no out-of-range index from any input."
  },
  {
   "property": "C27",
   "status": "proved",
   "theorems": [
    "C27_unrolling_preserves_structure",
    "C27_structure_is_determined_by_the_stream",
    "C27_written_streams_are_unrolled",
    "C27_unrolling_terminates",
    "C27_entry_parsers_are_reachable"
   ],
   "note": "Every reachable parser state and every input: the result is the unrolling of the unique well-nested reading of the stream; written streams are unrolled. Native stack depth of the recursion is not modelled."
  },
  {
   "property": "C28",
   "status": "proved",
   "theorems": [
    "C28_streams_are_accepted_iff_well_grouped",
    "C28_module_of_an_identification_block",
    "C28_one_module_per_identification_block"
   ],
   "note": "Every sequence of top-level blocks: accepted iff well grouped, and the association by position for every module."
  },
  {
   "property": "C29",
   "status": "partial",
   "theorems": [
    "C29_strings_partial",
    "C29_blobs_partial",
    "C29_last_field_and_beyond_partial",
    "C29_one_character_refuted",
    "C29_empty_record_partial",
    "C29_empty_record_last_index_partial",
    "C29_no_panic_refuted"
   ],
   "note": "Exact contract whenever at least two fields stand at or after the index, and for every other index; one-character strings are rejected and records without fields panic (both refuted)."
  },
  {
   "property": "C30",
   "status": "proved",
   "theorems": [
    "C30_by_code_selects",
    "C30_record_cardinalities",
    "C30_one_is_the_first",
    "C30_by_id_selects",
    "C30_block_cardinalities"
   ],
   "note": "Records: every list. Blocks: every unrolled tree."
  },
  {
   "property": "C31",
   "status": "partial",
   "theorems": [
    "C31_lookup_partial",
    "C31_get_partial",
    "C31_panics_exactly",
    "C31_never_panics_refuted",
    "C31_table_is_the_blob"
   ],
   "note": "Complete for references with offset+size below 2^64, in both build profiles. Refuted beyond: a range that begins inside the table and whose end overflows panics; the exact condition is a theorem."
  },
  {
   "property": "C32",
   "status": "proved",
   "theorems": [
    "C32_block_ids",
    "C32_block_ids_are_injective"
   ],
   "note": "Every number."
  },
  {
   "property": "C33",
   "status": "partial",
   "theorems": [
    "C33_table_partial",
    "C33_table_with_merging",
    "C33_every_record_is_an_entry_refuted"
   ],
   "note": "Exact (iff) for blocks in which no named or opaque struct directly follows a struct and no name record is empty; the exact behaviour with merging is a theorem too. Refuted in general: an anonymous struct followed by a named one becomes one entry."
  },
  {
   "property": "C34",
   "status": "partial",
   "theorems": [
    "C34_acyclic_tables_terminate_partial",
    "C34_fuel_is_irrelevant",
    "C34_diverges_exactly",
    "C34_no_fuel_helps",
    "C34_terminates_refuted"
   ],
   "note": "The full claim is refuted for recursive types, e.g. a linked list. Exactly when the resolution does not end is proved: the records are read, and a path of references without end is reached (C34_diverges_exactly); in particular all blocks without a cycle of references terminate."
  },
  {
   "property": "C35",
   "status": "partial",
   "theorems": [
    "C35_types_are_well_built_partial",
    "C35_vectors_are_not_empty_refuted",
    "C35_parameters_are_not_opaque_refuted"
   ],
   "note": "All accepted tables obey the construction rules except that vectors may have no elements and parameters may be opaque structs, both refuted."
  },
  {
   "property": "C36",
   "status": "partial",
   "theorems": [
    "C36_group_partial",
    "C36_groups_partial",
    "C36_lists_name_groups",
    "C36_alignments_are_misread",
    "C36_alignments_refuted",
    "C36_vscale_range_refuted"
   ],
   "note": "Exact for the reading of integer values that the code implements (denotes). Refuted for LLVM's encodings: align and alignstack are written as byte counts but read as exponent plus one; the bounds of vscale_range are stored in the opposite order."
  },
  {
   "property": "C37",
   "status": "partial",
   "theorems": [
    "C37_groups_panic_exactly_partial",
    "C37_lists_panic_exactly_partial",
    "C37_terminates",
    "C37_never_panics_refuted"
   ],
   "note": "Termination for all blocks. The no-panic claim is refuted: the exact conditions for a panic (a record ending inside the key of a key/value attribute; a record of the old list format) are theorems."
  },
  {
   "property": "C38",
   "status": "partial",
   "theorems": [
    "C38_functions_partial",
    "C38_aliases_partial",
    "C38_comdats_partial",
    "C38_short_records_are_rejected",
    "C38_old_versions_are_rejected",
    "C38_panics_exactly",
    "C38_terminates",
    "C38_llvm_aliases_are_misread",
    "C38_comdat_references_are_ignored",
    "C38_comdat_reference_refuted",
    "C38_alias_layout_refuted",
    "C38_alignment_refuted"
   ],
   "note": "Function, alias and comdat records are characterised exactly (iff), with panics and termination; the documented layout is refuted for aliases (LLVM's address space field), for alignments above 255 and for the COMDAT reference of functions."
  },
  {
   "property": "C39",
   "status": "proved",
   "theorems": [
    "C39_layout_parsing_never_panics",
    "C39_layout_last_specification_wins",
    "C39_layout_accepts_the_grammar",
    "C39_layout_errors_exactly"
   ],
   "note": "Totality, and an exact grammar with meanings: accepted iff ASCII and every specification is in the grammar; the result holds the last setting per component. Every rejected string gets exactly the error of LayoutStopSpec.v."
  },
  {
   "property": "C40",
   "status": "partial",
   "theorems": [
    "C40_aggregate_specification_refuted",
    "C40_aggregate_alignment_is_constant",
    "C40_aggregate_specification_partial"
   ],
   "note": "Full claim refuted: aggregate_alignment is constant. The specification does reach the type specification list (partial theorem)."
  },
  {
   "property": "C41",
   "status": "partial",
   "theorems": [
    "C41_byte_alignments_are_the_powers_of_two",
    "C41_byte_alignment_round_trip",
    "C41_byte_alignment_round_trip_back",
    "C41_order_is_the_order_of_byte_values",
    "C41_bit_alignments_exactly",
    "C41_bit_alignment_round_trip",
    "C41_bit_alignment_round_trip_back_partial",
    "C41_bit_alignment_round_trip_back_refuted"
   ],
   "note": "Everything proved except bit_align of the three largest alignments, which overflows (refuted)."
  },
  {
   "property": "C42",
   "status": "proved",
   "theorems": [
    "C42_type_specifications_are_a_sorted_map"
   ],
   "note": "Every update sequence."
  },
  {
   "property": "C43",
   "status": "partial",
   "theorems": [
    "C43_pointer_specifications_refuted",
    "C43_pointer_specifications_partial",
    "C43_last_entry_is_last_update_partial"
   ],
   "note": "Uniqueness refuted; exact content per address space, order and last entry proved."
  },
  {
   "property": "C44",
   "status": "partial",
   "theorems": [
    "C44_type_specifications_pref_at_least_abi",
    "C44_pointer_specifications_refuted",
    "C44_type_specification_language",
    "C44_pointer_specification_language"
   ],
   "note": "Proved for type specifications; refuted for pointer specifications. Exact languages of both parsers."
  },
  {
   "property": "C45",
   "status": "partial",
   "theorems": [
    "C45_binary_operations_refuted",
    "C45_binary_operations_always_fail",
    "C45_errors_exactly",
    "C45_unary_operations",
    "C45_binary_operations_partial"
   ],
   "note": "Refuted: no (opcode, type) pair is accepted; only the 'fails otherwise' half holds."
  },
  {
   "property": "C46",
   "status": "proved",
   "theorems": [
    "C46_aligned_types_are_totally_ordered"
   ],
   "note": "Total order, lexicographic in (kind, width)."
  },
  {
   "property": "C47",
   "status": "proved",
   "theorems": [
    "C47_modules_exactly",
    "C47_mapped_modules",
    "C47_versions"
   ],
   "note": "Iff between success and the description, for every block; includes the context, the function records and the aliases."
  },
  {
   "property": "C48",
   "status": "partial",
   "theorems": [
    "C48_modules_with_bodies_are_never_mapped",
    "C48_no_body_is_mapped",
    "C48_body_records_exactly",
    "C48_bodies_exactly",
    "C48_modules_with_bodies_refuted"
   ],
   "note": "Refuted: no module with a function block is ever mapped."
  },
  {
   "property": "C49",
   "status": "proved",
   "theorems": [
    "C49_wire_enumerations_realise_their_numbering",
    "C49_decoders_with_a_default",
    "C49_bitstream_codes"
   ],
   "note": "17 derived enumerations, 4 decoders with defaults, 3 bitstream code sets."
  },
  {
   "property": "C50",
   "status": "proved",
   "theorems": [
    "C50_stream_errors_reject",
    "C50_failures_come_from_the_stream",
    "C50_stops_exactly"
   ],
   "note": "Every reachable parser state; and conversely parse errors and panics come from the stream."
  },
  {
   "property": "C51",
   "status": "partial",
   "theorems": [
    "C51_specification_parsing_never_panics_refuted",
    "C51_specification_parsing_never_panics_partial",
    "C51_specifications_exactly",
    "C51_panics_exactly"
   ],
   "note": "Refuted for a first character outside ASCII; the panics and all errors are described exactly."
  },
  {
   "property": "C52",
   "status": "partial",
   "theorems": [
    "C52_llvm_layouts_are_accepted_refuted",
    "C52_zero_abi_is_rejected"
   ],
   "note": "Full claim refuted: a zero ABI alignment of aggregates, used by real targets, is always rejected."
  },
  {
   "property": "C53",
   "status": "partial",
   "theorems": [
    "C53_consecutive_named_structs_are_rejected",
    "C53_vectors_of_pointers_are_rejected",
    "C53_consecutive_named_structs_refuted"
   ],
   "note": "The full claim is refuted: two named structs in a row are rejected in every table, and no accepted table has a vector of opaque pointers."
  },
  {
   "property": "C54",
   "status": "partial",
   "theorems": [
    "C54_panics_partial",
    "C54_huge_entry_counts_are_fatal",
    "C54_never_panics_refuted",
    "C54_panics_exactly"
   ],
   "note": "The full claim is refuted; the panics are described exactly (C54_panics_exactly)."
  },
  {
   "property": "C55",
   "status": "partial",
   "theorems": [
    "C55_selection_kinds_are_never_those_of_llvm",
    "C55_selection_kinds_refuted"
   ],
   "note": "Refuted: the kind is never the one of LLVM's number."
  },
  {
   "property": "C56",
   "status": "partial",
   "theorems": [
    "C56_accepted_types",
    "C56_vectors_are_llvms_refuted",
    "C56_vectors_are_llvms_partial",
    "C56_rejected_types",
    "C56_predicates",
    "C56_scalar_types",
    "C56_byte_width"
   ],
   "note": "Iff for success and for each error of every constructor. The rule for vectors is not LLVM's: refuted both ways (C56_vectors_are_llvms_refuted), with the difference exactly (C56_vectors_are_llvms_partial)."
  },
  {
   "property": "C57",
   "status": "proved",
   "theorems": [
    "C57_headers_fit",
    "C57_numbers_fit"
   ],
   "note": "For every parser state reachable from any buffer."
  },
  {
   "property": "C58",
   "status": "proved",
   "theorems": [
    "C58_identification_blocks",
    "C58_table_blocks"
   ],
   "note": "Iff for each of the three blocks; see C29 for texts of one byte."
  },
  {
   "property": "C59",
   "status": "proved",
   "theorems": [
    "C59_bitcode_is_what_the_buffer_says",
    "C59_written_bitcode_is_mapped",
    "C59_description_depends_on_the_tree_only"
   ],
   "note": "Iff for every buffer below 2^61 bytes, and for every stream of the writer. What type and attribute blocks and layout strings mean is C33, C36, C39; the deviations from LLVM are those of C29, C38, C48, C53, C55."
  },
  {
   "property": "C60",
   "status": "partial",
   "theorems": [
    "C60_panics_partial",
    "C60_opening_never_panics",
    "C60_never_panics_refuted",
    "C60_panics_exactly"
   ],
   "note": "The full claim is refuted; the panics are described exactly: a buffer panics iff the rules of VerdictSpec.v say so (C60_panics_exactly), and the causes are listed in C60_panics_partial."
  },
  {
   "property": "C61",
   "status": "partial",
   "theorems": [
    "C61_terminates_partial",
    "C61_diverges_exactly",
    "C61_terminates_refuted"
   ],
   "note": "The full claim is refuted. Exactly when the mapping does not end is proved: it gets to a TYPE block that refers to itself as in C34 (C61_diverges_exactly)."
  },
  {
   "property": "C62",
   "status": "proved",
   "theorems": [
    "C62_dump_prints_the_entries",
    "C62_dump_ends_without_underflow",
    "C62_dump_of_written_streams"
   ],
   "note": ""
  },
  {
   "property": "C63",
   "status": "partial",
   "theorems": [
    "C63_orders",
    "C63_kinds_before_widths",
    "C63_pointer_specs_agree_refuted"
   ],
   "note": "Total orders are proved, and agreement with == for Align, AlignedType and TypeAlignSpec; agreement is refuted for PointerAlignSpec, which compares address spaces only while its equality is derived."
  },
  {
   "property": "C64",
   "status": "proved",
   "theorems": [
    "C64_display_round_trip"
   ],
   "note": ""
  },
  {
   "property": "C65",
   "status": "proved",
   "theorems": [
    "C65_next_exactly",
    "C65_stream_exactly",
    "C65_written_streams_are_texts",
    "C65_stops_exactly",
    "C65_story_exactly",
    "C65_one_story"
   ],
   "note": "Every input that can be opened; the grammar is GrammarSpec.v, its complement (every error and panic with the inputs it is for) GrammarStopSpec.v, both stated without the parser's functions."
  },
  {
   "property": "C66",
   "status": "proved",
   "theorems": [
    "C66_inputs_exactly",
    "C66_inputs_one_fate_each",
    "C66_type_tables",
    "C66_texts",
    "C66_blobs",
    "C66_names",
    "C66_comdats",
    "C66_functions",
    "C66_aliases",
    "C66_groups",
    "C66_group_blocks",
    "C66_attribute_lists",
    "C66_modules",
    "C66_tables",
    "C66_streams",
    "C66_buffers",
    "C66_one_fate_each"
   ],
   "note": "The rules are VerdictSpec.v, TypeStopSpec.v, LayoutStopSpec.v, OpenSpec.v and InputSpec.v. C66_inputs_exactly goes down to the bits for every input below 2^61 bytes; C66_buffers starts from the entries the parser tells."
  },
  {
   "property": "C67",
   "status": "partial",
   "theorems": [
    "C67_the_stack_only_overflows",
    "C67_overflows_exactly",
    "C67_stack_needed_is_the_depth",
    "C67_one_activation_per_bit_is_enough",
    "C67_fixed_stack_refuted",
    "C67_the_stack_of_a_call_only_overflows",
    "C67_a_call_overflows_exactly",
    "C67_one_activation_per_unread_bit_is_enough",
    "C67_fixed_stack_of_a_call_refuted"
   ],
   "note": "The claim of a fixed stack is refuted for both recursions; proved instead: exactly which inputs overflow which stack, and that the bound has no other effect."
  },
  {
   "property": "C68",
   "status": "partial",
   "theorems": [
    "C68_types_are_no_deeper_than_the_table_is_long",
    "C68_types_have_at_most_exponentially_many_nodes",
    "C68_types_can_grow_exponentially",
    "C68_proportional_size_refuted"
   ],
   "note": "Proportional size is refuted (exponential growth); proved instead: depth bound, exponential bound on nodes, and that the exponential is reached."
  },
  {
   "property": "C69",
   "status": "proved",
   "theorems": [
    "C69_files_come_back",
    "C69_files_can_be_written",
    "C69_modules_come_back"
   ],
   "note": "Round trip of whole files and of single modules (tables and functions); the class leaves out what is refuted elsewhere (C29, C33, C34, C36, C38, C48, C55)."
  },
  {
   "property": "C70",
   "status": "partial",
   "theorems": [
    "C70_builds_agree",
    "C70_opening_is_the_same",
    "C70_entries_agree",
    "C70_reads_agree",
    "C70_conversions_agree",
    "C70_fewer_checks_fewer_panics",
    "C70_dumps_agree",
    "C70_builds_are_the_same_refuted"
   ],
   "note": "Agreement unless one of the two panics is proved for every modelled function; that the build changes nothing is refuted."
  },
  {
   "property": "C71",
   "status": "partial",
   "theorems": [
    "C71_defaults_are_llvms_refuted",
    "C71_defaults_are_llvms_partial",
    "C71_other_defaults",
    "C71_pointer_defaults",
    "C71_single_defaults"
   ],
   "note": "Proved for all components but three; refuted for 64 bit integers, vectors and aggregates, with what they are instead."
  },
  {
   "property": "C72",
   "status": "partial",
   "theorems": [
    "C72_shifts",
    "C72_byte_alignments",
    "C72_bit_alignments_partial",
    "C72_bit_alignments_refuted",
    "C72_widths_partial",
    "C72_widths_refuted",
    "C72_address_spaces",
    "C72_type_alignments_partial",
    "C72_type_alignments_refuted",
    "C72_pointer_alignments",
    "C72_parts_of_types",
    "C72_parts_of_pointers_partial",
    "C72_parts_of_pointers_refuted",
    "C72_text_index_partial",
    "C72_blob_index_partial",
    "C72_index_refuted",
    "C72_comdat_length_partial",
    "C72_comdat_length_refuted",
    "C72_function_length",
    "C72_alias_length",
    "C72_group_length",
    "C72_group_fields_partial",
    "C72_group_fields_refuted",
    "C72_table_size",
    "C72_instruction_fields",
    "C72_symbol_table_refuted",
    "C72_type_table_refuted",
    "C72_top_level_blocks_partial",
    "C72_adjacent_modules_refuted"
   ],
   "note": "Full claim refuted by nine kinds of messages; each is characterised exactly, the others are proved true. Messages that print types with Debug are in C76."
  },
  {
   "property": "C73",
   "status": "partial",
   "theorems": [
    "C73_operands_are_at_most_quadratic",
    "C73_unrolling_copies_per_module",
    "C73_unrolled_is_at_most_cubic_partial",
    "C73_tables_are_at_most_quadratic_partial",
    "C73_proportional_operands_refuted",
    "C73_cubic_growth_is_reached",
    "C73_proportional_tables_refuted"
   ],
   "note": "Proportionality is refuted (factors up to 10000 operands, 3000 table bytes per bit). Proved instead: quadratic bound on operands, cubic bound on unrolled operands (reached up to a constant), quadratic bound on tables."
  },
  {
   "property": "C74",
   "status": "proved",
   "theorems": [
    "C74_files_load_alike",
    "C74_entries_alike",
    "C74_cursors_alike",
    "C74_signed_alike",
    "C74_words_of_64_bits"
   ],
   "note": "Proved for files, entries and cursor histories, for all buffers below 2^29 bytes. The code with words of any size is modelled separately (WordModel.v) and proved equal to the other models, in every outcome, with 64-bit words."
  },
  {
   "property": "C75",
   "status": "partial",
   "theorems": [
    "C75_small_fields_partial",
    "C75_modules_exactly",
    "C75_files_refuted",
    "C75_operand_widths_refuted",
    "C75_id_widths_refuted",
    "C75_ids_refuted",
    "C75_vbr_widths_refuted",
    "C75_arrays_refuted",
    "C75_blobs_refuted",
    "C75_capacities_refuted",
    "C75_references_wrap",
    "C75_positions_refuted",
    "C75_past_512_MiB_refuted",
    "C75_signed_refuted"
   ],
   "note": "Full claim refuted in twelve ways by particular inputs. Proved: the mapper makes of a module exactly what it makes, with 64-bit words, of the module with reduced positions; modules with fields below 2^31 get the same outcome, errors included."
  },
  {
   "property": "C76",
   "status": "partial",
   "theorems": [
    "C76_types",
    "C76_tables",
    "C76_type_errors",
    "C76_operator_errors",
    "C76_opcodes_refuted",
    "C76_unrolled",
    "C76_modules",
    "C76_dump",
    "C76_dump_lines"
   ],
   "note": "Proved but for one part, which is refuted: the message about an unknown opcode does not say which."
  },
  {
   "property": "C77",
   "status": "partial",
   "theorems": [
    "C77_chains",
    "C77_bytes_refuted",
    "C77_length",
    "C77_repeats_refuted",
    "C77_repeats_exactly",
    "C77_unroll_fails",
    "C77_unroll_failures",
    "C77_dump_failures"
   ],
   "note": "Proved but for two parts, which are refuted: the bytes of a text that is not UTF-8 are not told; some messages end with the message of their cause (for exactly the listed errors)."
  },
  {
   "property": "C78",
   "status": "proved",
   "theorems": [
    "C78_enumerations_agree",
    "C78_stream_enumerations_agree",
    "C78_no_duplicates",
    "C78_constants_agree"
   ],
   "note": "Twelve enumerations, six constants; TARGET_TRIPLE is set by the build and not modelled."
  },
  {
   "property": "C79",
   "status": "partial",
   "theorems": [
    "C79_loading_depends_on_known_parts_partial",
    "C79_written_files_partial",
    "C79_modules_partial",
    "C79_types_partial",
    "C79_refused_partial",
    "C79_unknown_types_are_skipped_refuted",
    "C79_unknown_attribute_records_are_skipped_refuted",
    "C79_additional_comdat_fields_are_skipped_refuted",
    "C79_unknown_top_level_blocks_are_skipped_refuted"
   ],
   "note": "The positive part is proved for all buffers and for streams as LLVM writes them; unknown parts, order and further fields for every module. That unknown parts are always skipped is refuted for records in TYPE blocks and attribute groups, COMDAT fields and top-level blocks, with the refusals proved in general."
  },
  {
   "property": "C80",
   "status": "partial",
   "theorems": [
    "C80_agreeing_blockinfo_partial",
    "C80_one_blockinfo_partial",
    "C80_same_blockinfo_partial",
    "C80_files_of_several_modules_load_refuted",
    "C80_modules_with_other_types_load_refuted",
    "C80_records_are_read_with_their_blockinfo_refuted"
   ],
   "note": "Refuted in general: files of two modules that load alone are rejected together (same BLOCKINFO with own abbreviations of a block; other numbers of types), or a record is read with another code. Proved where the definitions agree (C80_agreeing_blockinfo_partial), in particular for one BLOCKINFO block and for equal ones without own abbreviations."
  },
  {
   "property": "C81",
   "status": "partial",
   "theorems": [
    "C81_zero_width_fields_partial",
    "C81_no_record_with_zero_width_partial",
    "C81_zero_width_fields_are_zero_refuted",
    "C81_trailing_word_partial",
    "C81_trailing_bytes_partial",
    "C81_padding_of_a_wrapper_partial",
    "C81_trailing_bytes_are_tolerated_refuted",
    "C81_magic_is_ignored_partial",
    "C81_only_ir_is_loaded_refuted"
   ],
   "note": "False in all three parts (C81_zero_width_fields_are_zero_refuted, C81_trailing_bytes_are_tolerated_refuted, C81_only_ir_is_loaded_refuted). Proved instead: what happens exactly with records of abbreviations with fields of width zero, that anything of one to seven bytes behind a written raw stream makes loading fail (with the entries before it unchanged), that wrapped files load like their payload whatever follows it, and that loading does not depend on the magic of a raw file."
  },
  {
   "property": "C82",
   "status": "partial",
   "theorems": [
    "C82_unrolled_exactly_partial",
    "C82_same_modules_partial",
    "C82_loaded_like_llvm_partial",
    "C82_llvm_refuses_exactly",
    "C82_every_file_of_llvm_is_unrolled_refuted",
    "C82_malformed_files_are_refused_refuted",
    "C82_same_string_table_refuted"
   ],
   "note": "False both ways (C82_every_file_of_llvm_is_unrolled_refuted, C82_malformed_files_are_refused_refuted), and for string tables that are not written as LLVM writes them (C82_same_string_table_refuted). Proved instead: which of the files LLVM finds modules in are unrolled, exactly; that their modules, identifications, string tables and symbol table are LLVM's; and which files LLVM refuses."
  },
  {
   "property": "C83",
   "status": "partial",
   "theorems": [
    "C83_records_fit",
    "C83_fitting_records_are_written",
    "C83_code_is_a_scalar_refuted",
    "C83_code_partial"
   ],
   "note": "That records fit their abbreviations, and exactly which values do, is proved in full; that the code never comes from an array or blob is refuted, with what it is instead (C83_code_partial)."
  },
  {
   "property": "C84",
   "status": "partial",
   "theorems": [
    "C84_same_function_partial",
    "C84_visibility_partial",
    "C84_storage_partial",
    "C84_accepted_partial",
    "C84_accepted_by_llvm_partial",
    "C84_conventions_partial",
    "C84_accepted_refuted",
    "C84_visibility_refuted",
    "C84_storage_refuted",
    "C84_accepted_by_llvm_refuted"
   ],
   "note": "The full claim is refuted in both directions; which fields agree, when the other two agree and which records only one side accepts is proved exactly. LLVM's reader is described in ReaderSpec.v from knowledge of its source, for fields below 2^32."
  },
  {
   "property": "C85",
   "status": "partial",
   "theorems": [
    "C85_same_types_partial",
    "C85_accepted_partial",
    "C85_accepted_by_llvm_partial",
    "C85_accepted_refuted",
    "C85_pointers_refuted",
    "C85_counts_refuted",
    "C85_accepted_by_llvm_refuted"
   ],
   "note": "The full claim is refuted in both directions. That tables read by both are the same, exactly which of LLVM's tables are accepted and exactly which accepted tables LLVM reads is proved for blocks with one NUMENTRY record and POINTER records of at most two fields. LLVM's reader is described in TypeReaderSpec.v from knowledge of its source."
  },
  {
   "property": "C86",
   "status": "partial",
   "theorems": [
    "C86_same_group_partial",
    "C86_accepted_partial",
    "C86_accepted_by_llvm_partial",
    "C86_same_groups_partial",
    "C86_groups_accepted_partial",
    "C86_groups_accepted_by_llvm_partial",
    "C86_same_lists_partial",
    "C86_lists_accepted_partial",
    "C86_accepted_refuted",
    "C86_values_refuted",
    "C86_accepted_by_llvm_refuted"
   ],
   "note": "The full claim is refuted in both directions. That groups and lists read by both are the same but for the values listed, exactly which of LLVM's are accepted and exactly which accepted ones LLVM reads is proved. LLVM's reader is described in AttributeReaderSpec.v from knowledge of its source, for any set of known keys."
  },
  {
   "property": "C87",
   "status": "partial",
   "theorems": [
    "C87_same_alias_partial",
    "C87_aliases_accepted_partial",
    "C87_local_aliases_are_refused",
    "C87_modules_have_no_local_aliases",
    "C87_aliases_accepted_by_llvm_partial",
    "C87_without_address_space_partial",
    "C87_without_address_space_accepted_partial",
    "C87_same_comdat_partial",
    "C87_comdats_accepted_partial",
    "C87_aliases_refuted",
    "C87_aliases_accepted_by_llvm_refuted",
    "C87_without_address_space_refuted",
    "C87_comdats_refuted"
   ],
   "note": "The full claim is refuted in both directions. What agrees, exactly which records only one side accepts, and that the address space of aliases and the numbering of COMDAT kinds are what differs is proved. LLVM's reader is described in AliasReaderSpec.v from knowledge of its source, for fields below 2^32."
  },
  {
   "property": "C88",
   "status": "partial",
   "theorems": [
    "C88_same_strings_partial",
    "C88_strings_accepted_partial",
    "C88_triple_refuted",
    "C88_version_refuted",
    "C88_accepted_refuted"
   ],
   "note": "The full claim is refuted in both directions. That the values agree in mapped modules (but for a missing triple), which versions and which strings only one side accepts is proved exactly. LLVM's reader is described in ModuleReaderSpec.v from knowledge of its source, without its check of the order of records."
  },
  {
   "property": "C89",
   "status": "partial",
   "theorems": [
    "C89_same_producer_partial",
    "C89_accepted_partial",
    "C89_accepted_by_llvm_partial",
    "C89_producer_refuted",
    "C89_accepted_refuted"
   ],
   "note": "The full claim is refuted in both directions. Exactly which blocks each side accepts and how the producers compare is proved. LLVM's reader is described in ModuleReaderSpec.v from knowledge of its source."
  },
  {
   "property": "C90",
   "status": "partial",
   "theorems": [
    "C90_same_settings_partial",
    "C90_same_layout_partial",
    "C90_same_type_alignments_partial",
    "C90_same_pointers_partial",
    "C90_accepted_partial",
    "C90_accepted_by_llvm_partial",
    "C90_native_integers_refuted",
    "C90_non_integral_refuted",
    "C90_byte_order_refuted",
    "C90_default_alignment_refuted",
    "C90_accepted_refuted",
    "C90_accepted_by_llvm_refuted"
   ],
   "note": "The full claim is refuted in both directions and for native integers, non-integral address spaces, byte order and default alignments. Agreement on strings accepted by both, and exactly which strings only one side accepts, is proved. LLVM's parser is described in LayoutReaderSpec.v from knowledge of its source."
  },
  {
   "property": "C91",
   "status": "partial",
   "theorems": [
    "C91_same_layout_partial",
    "C91_same_type_alignments_partial",
    "C91_same_pointers_partial",
    "C91_read_by_llvm_partial",
    "C91_same_layout_refuted",
    "C91_layout_accepted_refuted"
   ],
   "note": "The full claim is refuted (modules without a layout; layouts only one side accepts). Agreement of every component, where the string settles it, is proved of every module both read. LLVM's reader is described in ModuleReaderSpec.v and LayoutReaderSpec.v from knowledge of its source."
  },
  {
   "property": "C92",
   "status": "partial",
   "theorems": [
    "C92_same_contents_partial",
    "C92_read_by_llvm_partial",
    "C92_same_contents_refuted"
   ],
   "note": "The full claim is refuted for modules without a triple. Agreement of string tables, producers, triples where there is a record and assembly is proved of every file both read; which files those are is C81 and C82. LLVM's reader is described in FileSpec.v and ModuleReaderSpec.v from knowledge of its source."
  }
 ]
}