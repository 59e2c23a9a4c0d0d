{
 "claims": [
  {
   "property": "C01",
   "status": "proved",
   "theorems": [
    "C01_round_trip"
   ],
   "note": ""
  },
  {
   "property": "C02",
   "status": "proved",
   "theorems": [
    "C02_encode_layout",
    "C02_encode_iff"
   ],
   "note": ""
  },
  {
   "property": "C03",
   "status": "proved",
   "theorems": [
    "C03_encode_length"
   ],
   "note": ""
  },
  {
   "property": "C04",
   "status": "proved",
   "theorems": [
    "C04_injective",
    "C04_prefix_free"
   ],
   "note": ""
  },
  {
   "property": "C05",
   "status": "partial",
   "theorems": [
    "C05_is_encodable",
    "C05_is_encodable_agrees",
    "C05_is_encodable_refuted",
    "C05_is_encodable_raises_refuted"
   ],
   "note": "is_encodable agrees with encode except where the argument makes encode raise something else than EncodingError; the exact cases and witnesses are given."
  },
  {
   "property": "C06",
   "status": "proved",
   "theorems": [
    "C06_uint",
    "C06_int"
   ],
   "note": ""
  },
  {
   "property": "C07",
   "status": "proved",
   "theorems": [
    "C07_fixed_exact",
    "C07_fixed_out_of_range",
    "C07_fixed_special",
    "C07_fixed_nonnumber"
   ],
   "note": ""
  },
  {
   "property": "C08",
   "status": "partial",
   "theorems": [
    "C08_fixed_decimal",
    "C08_excess_rejected_partial",
    "C08_excess_refuted",
    "C08_malformed_refuted"
   ],
   "note": "Non-negative numbers with excess digits are rejected (exponents down to -1000997); negative ones are accepted and truncated, and may even be encoded as bytes that decode rejects (witnesses). The exact accepted set is proved."
  },
  {
   "property": "C09",
   "status": "proved",
   "theorems": [
    "C09_decode_canonical",
    "C09_decode_reencodable"
   ],
   "note": ""
  },
  {
   "property": "C10",
   "status": "proved",
   "theorems": [
    "C10_decode_static",
    "C10_nonmalleable"
   ],
   "note": ""
  },
  {
   "property": "C11",
   "status": "partial",
   "theorems": [
    "C11_decode_errors",
    "C11_overflow_refuted"
   ],
   "note": "Exact set of decode errors; OverflowError occurs for lengths beyond sys.maxsize (witness)."
  },
  {
   "property": "C12",
   "status": "partial",
   "theorems": [
    "C12_strict_trailing",
    "C12_lenient_trailing_refuted"
   ],
   "note": "Holds in strict mode for top-level trailing data as stated; the lenient flag does not cover all padding (witness)."
  },
  {
   "property": "C13",
   "status": "proved",
   "theorems": [
    "C13_lenient_extends"
   ],
   "note": ""
  },
  {
   "property": "C14",
   "status": "partial",
   "theorems": [
    "C14_flag_top_level_only",
    "C14_lenient_bytes_partial",
    "C14_nested_padding_refuted"
   ],
   "note": "The strict flag reaches only top-level members; nested padding stays checked (witness)."
  },
  {
   "property": "C15",
   "status": "proved",
   "theorems": [
    "C15_pointers",
    "C15_bad_pointer"
   ],
   "note": ""
  },
  {
   "property": "C16",
   "status": "partial",
   "theorems": [
    "C16_head_count",
    "C16_pointers_partial",
    "C16_pointer_into_head_refuted"
   ],
   "note": "Pointer lower bound is exact only when every static member occupies one word; otherwise a pointer may aim into the head (witness)."
  },
  {
   "property": "C17",
   "status": "proved",
   "theorems": [
    "C17_frames",
    "C17_head_tail_frames",
    "C17_pop_restores",
    "C17_pop_empty"
   ],
   "note": ""
  },
  {
   "property": "C18",
   "status": "proved",
   "theorems": [
    "C18_bounded"
   ],
   "note": ""
  },
  {
   "property": "C19",
   "status": "partial",
   "theorems": [
    "C19_size_refuted",
    "C19_shared_tails",
    "C19_flat_partial"
   ],
   "note": "Proportional for types without T[] inside T[]; otherwise shared tails grow quadratically and beyond any constant factor (witness family). C60 has the general bound."
  },
  {
   "property": "C20",
   "status": "proved",
   "theorems": [
    "C20_parse_print"
   ],
   "note": ""
  },
  {
   "property": "C21",
   "status": "proved",
   "theorems": [
    "C21_parse_iff",
    "C21_unambiguous",
    "C21_parse_error"
   ],
   "note": ""
  },
  {
   "property": "C22",
   "status": "proved",
   "theorems": [
    "C22_normalize_iff",
    "C22_idempotent",
    "C22_normalize_type",
    "C22_normalize_error"
   ],
   "note": ""
  },
  {
   "property": "C23",
   "status": "partial",
   "theorems": [
    "C23_encode",
    "C23_decode",
    "C23_is_encodable",
    "C23_bare_byte_refuted"
   ],
   "note": "Holds for every string but the bare word \"byte\" (witness)."
  },
  {
   "property": "C24",
   "status": "partial",
   "theorems": [
    "C24_is_encodable_type",
    "C24_abi_types_partial",
    "C24_one_type",
    "C24_abi_types_refuted"
   ],
   "note": "The accepted set is characterised exactly; it differs from the ABI on sized \"bool\" and on the bare word \"byte\" (witnesses)."
  },
  {
   "property": "C25",
   "status": "proved",
   "theorems": [
    "C25_coders_agree"
   ],
   "note": ""
  },
  {
   "property": "C26",
   "status": "proved",
   "theorems": [
    "C26_one_registration",
    "C26_unambiguous"
   ],
   "note": ""
  },
  {
   "property": "C27",
   "status": "proved",
   "theorems": [
    "C27_lookups_fresh",
    "C27_caching_unobservable"
   ],
   "note": ""
  },
  {
   "property": "C28",
   "status": "partial",
   "theorems": [
    "C28_steps_are_calls",
    "C28_encoders_partial",
    "C28_decoders_partial",
    "C28_one_writer_partial",
    "C28_update_heals",
    "C28_lookup_inside_update_refuted",
    "C28_lookup_across_update_refuted",
    "C28_lookup_during_update_refuted",
    "C28_same_matcher_refuted",
    "C28_pair_split_refuted"
   ],
   "note": "Lookups, encodes and decodes in any number of threads are exact while nobody changes the registrations they use. With one updating thread the tables and the outcomes of the updates are as if it ran alone, and an update that runs undisturbed removes every stale coder. Otherwise false: two schedules leave a stale coder in the cache, a lookup during an update can answer False for a type that is registered throughout, two threads can both add the same matcher, register and unregister can leave a decoder without encoder (witnesses)."
  },
  {
   "property": "C29",
   "status": "partial",
   "theorems": [
    "C29_entries_partial",
    "C29_unregister_label_partial",
    "C29_register_lookup",
    "C29_register_lookup_decoder",
    "C29_register_taken",
    "C29_register_taken_decoder",
    "C29_register_unregister",
    "C29_register_unregister_decoder",
    "C29_register_unregister_string",
    "C29_register_unregister_string_decoder",
    "C29_register_elsewhere",
    "C29_register_decoder_elsewhere",
    "C29_unregister_elsewhere",
    "C29_unregister_decoder_elsewhere",
    "C29_order_irrelevant",
    "C29_orphan_label_refuted",
    "C29_label_ignored_refuted"
   ],
   "note": "Holds for every history in which labelled matchers are unregistered by label or by the same object; otherwise an orphan label removes another entry (witness). A label given with a string is dropped (witness). Lookups: for type strings that make no matcher raise; C67 has the others."
  },
  {
   "property": "C30",
   "status": "partial",
   "theorems": [
    "C30_label_freed_partial",
    "C30_equal_matcher_refuted"
   ],
   "note": "Holds when the matcher object passed is the one registered; an equal one leaves the label occupied (witness)."
  },
  {
   "property": "C31",
   "status": "partial",
   "theorems": [
    "C31_one_table",
    "C31_one_sided_partial",
    "C31_both_sided_partial",
    "C31_register_refuted",
    "C31_unregister_refuted",
    "C31_unregister_label_refuted"
   ],
   "note": "Every failing register_*, and every failing paired call in programs that use paired calls only, changes nothing; register, unregister and unregister by an orphan label do not (witnesses)."
  },
  {
   "property": "C32",
   "status": "proved",
   "theorems": [
    "C32_independent",
    "C32_programs_separated",
    "C32_copy",
    "C32_answers"
   ],
   "note": ""
  },
  {
   "property": "C33",
   "status": "partial",
   "theorems": [
    "C33_strict_per_call_partial",
    "C33_instance_refuted",
    "C33_copy_refuted"
   ],
   "note": "Holds when no decoder instance with its own strict flag is registered; a registered StringDecoder instance violates it, also through a copy (witnesses)."
  },
  {
   "property": "C34",
   "status": "proved",
   "theorems": [
    "C34_packed_layout",
    "C34_packed_iff",
    "C34_packed_same_arguments"
   ],
   "note": ""
  },
  {
   "property": "C35",
   "status": "proved",
   "theorems": [
    "C35_packed_length",
    "C35_packed_injective",
    "C35_packed_collision"
   ],
   "note": ""
  },
  {
   "property": "C36",
   "status": "proved",
   "theorems": [
    "C36_decode_address",
    "C36_encode_address",
    "C36_keccak"
   ],
   "note": ""
  },
  {
   "property": "C37",
   "status": "proved",
   "theorems": [
    "C37_encode_string",
    "C37_decode_string"
   ],
   "note": ""
  },
  {
   "property": "C38",
   "status": "partial",
   "theorems": [
    "C38_class",
    "C38_encode_outcome",
    "C38_encode_error_refuted"
   ],
   "note": "Exact outcome of encode on every argument; witnesses for the non-EncodingError cases."
  },
  {
   "property": "C39",
   "status": "proved",
   "theorems": [
    "C39_encode_arity",
    "C39_encode_shape",
    "C39_encode_packed_arity",
    "C39_encode_packed_shape"
   ],
   "note": ""
  },
  {
   "property": "C40",
   "status": "partial",
   "theorems": [
    "C40_register",
    "C40_encode_tuples",
    "C40_is_encodable",
    "C40_decode_tuples",
    "C40_arrays_fail",
    "C40_arrays_refuted",
    "C40_short_chunk_refuted"
   ],
   "note": "Proved for argument lists and tuples nested in any way; arrays always raise AttributeError, and chunks shorter than a word break the pointer check of a following dynamic value (witnesses)."
  },
  {
   "property": "C41",
   "status": "proved",
   "theorems": [
    "C41_valid_type",
    "C41_valid_type_packed",
    "C41_lookup_failures"
   ],
   "note": ""
  },
  {
   "property": "C42",
   "status": "proved",
   "theorems": [
    "C42_encodable",
    "C42_round_trip",
    "C42_has_strategy",
    "C42_no_strategy",
    "C42_covers"
   ],
   "note": ""
  },
  {
   "property": "C43",
   "status": "proved",
   "theorems": [
    "C43_ceil32",
    "C43_unsigned_bounds",
    "C43_signed_bounds",
    "C43_scale_places",
    "C43_scale_rounding"
   ],
   "note": ""
  },
  {
   "property": "C44",
   "status": "proved",
   "theorems": [
    "C44_unregistered",
    "C44_has_encoder",
    "C44_ambiguous"
   ],
   "note": ""
  },
  {
   "property": "C45",
   "status": "proved",
   "theorems": [
    "C45_decode_bool"
   ],
   "note": ""
  },
  {
   "property": "C46",
   "status": "proved",
   "theorems": [
    "C46_decode_sound",
    "C46_decode_complete",
    "C46_held_value_unique"
   ],
   "note": ""
  },
  {
   "property": "C47",
   "status": "proved",
   "theorems": [
    "C47_sizes",
    "C47_fixed",
    "C47_unknown_keyword",
    "C47_misplaced_keyword",
    "C47_container_missing",
    "C47_tuple_encoder",
    "C47_sized_array_encoder",
    "C47_dynamic_array_encoder",
    "C47_packed_array_encoder",
    "C47_tuple_decoder",
    "C47_array_decoder",
    "C47_not_a_number",
    "C47_functions",
    "C47_dynamic",
    "C47_static_string",
    "C47_static",
    "C47_dynamic_given"
   ],
   "note": ""
  },
  {
   "property": "C48",
   "status": "proved",
   "theorems": [
    "C48_uint",
    "C48_int",
    "C48_bool",
    "C48_address",
    "C48_bytes",
    "C48_fixed"
   ],
   "note": ""
  },
  {
   "property": "C49",
   "status": "proved",
   "theorems": [
    "C49_short",
    "C49_uint",
    "C49_int",
    "C49_ufixed",
    "C49_fixed",
    "C49_bool",
    "C49_address",
    "C49_bytes",
    "C49_inverse"
   ],
   "note": ""
  },
  {
   "property": "C50",
   "status": "proved",
   "theorems": [
    "C50_parts",
    "C50_parts_well_formed",
    "C50_well_formed",
    "C50_strict",
    "C50_default",
    "C50_ignore",
    "C50_replace",
    "C50_backslashreplace",
    "C50_surrogateescape",
    "C50_surrogateescape_lossless",
    "C50_surrogatepass",
    "C50_surrogatepass_raises",
    "C50_encoding_handlers",
    "C50_unknown",
    "C50_registered"
   ],
   "note": ""
  },
  {
   "property": "C51",
   "status": "proved",
   "theorems": [
    "C51_encode",
    "C51_is_encodable",
    "C51_is_encodable_type",
    "C51_decode",
    "C51_state",
    "C51_leaf",
    "C51_arity",
    "C51_is_encodable_false_refuted",
    "C51_encode_long_type",
    "C51_decode_long_type",
    "C51_is_encodable_long_type",
    "C51_wide"
   ],
   "note": "Proved as stated. The refutation is of \"is_encodable returns a bool\", which C05 has without the limit."
  },
  {
   "property": "C52",
   "status": "proved",
   "theorems": [
    "C52_str",
    "C52_eq",
    "C52_eq_laws",
    "C52_item_type",
    "C52_no_item_type",
    "C52_is_dynamic",
    "C52_nodes",
    "C52_trees"
   ],
   "note": ""
  },
  {
   "property": "C53",
   "status": "proved",
   "theorems": [
    "C53_valid",
    "C53_invalid",
    "C53_no_other_error",
    "C53_named_valid",
    "C53_hand_built"
   ],
   "note": ""
  },
  {
   "property": "C54",
   "status": "proved",
   "theorems": [
    "C54_encode",
    "C54_encode_single",
    "C54_packed_arrays",
    "C54_decode",
    "C54_decode_agree",
    "C54_decode_single"
   ],
   "note": ""
  },
  {
   "property": "C55",
   "status": "proved",
   "theorems": [
    "C55_wrap",
    "C55_array",
    "C55_concat",
    "C55_decode_static",
    "C55_decode_dynamic"
   ],
   "note": ""
  },
  {
   "property": "C56",
   "status": "proved",
   "theorems": [
    "C56_encode",
    "C56_decode",
    "C56_decode_back"
   ],
   "note": ""
  },
  {
   "property": "C57",
   "status": "proved",
   "theorems": [
    "C57_encode",
    "C57_decode"
   ],
   "note": ""
  },
  {
   "property": "C58",
   "status": "proved",
   "theorems": [
    "C58_full_words"
   ],
   "note": ""
  },
  {
   "property": "C59",
   "status": "proved",
   "theorems": [
    "C59_truncated",
    "C59_any_payload"
   ],
   "note": ""
  },
  {
   "property": "C60",
   "status": "proved",
   "theorems": [
    "C60_items",
    "C60_polynomial",
    "C60_longest"
   ],
   "note": ""
  },
  {
   "property": "C61",
   "status": "proved",
   "theorems": [
    "C61_accepted",
    "C61_uint",
    "C61_int",
    "C61_bool",
    "C61_address",
    "C61_bytes",
    "C61_decode",
    "C61_decode_not_bool",
    "C61_decode_int"
   ],
   "note": ""
  },
  {
   "property": "C62",
   "status": "proved",
   "theorems": [
    "C62_same",
    "C62_exact",
    "C62_bound",
    "C62_nested",
    "C62_length_bound_refuted"
   ],
   "note": ""
  },
  {
   "property": "C63",
   "status": "proved",
   "theorems": [
    "C63_encoder",
    "C63_decoder",
    "C63_encoder_error",
    "C63_decoder_error",
    "C63_encoder_type_error",
    "C63_decoder_type_error",
    "C63_sized_bytes_refuted",
    "C63_tuple_encoder",
    "C63_tuple_decoder",
    "C63_tuple_dimensions_refuted",
    "C63_array_encoder",
    "C63_array_decoder",
    "C63_wrong_shape"
   ],
   "note": "Proved as stated. The refutations are of \"ByteStringEncoder accepts only bytes\" and \"TupleEncoder accepts only strings without array dimensions\"."
  },
  {
   "property": "C64",
   "status": "proved",
   "theorems": [
    "C64_total_offset",
    "C64_cursor",
    "C64_push",
    "C64_push_raises",
    "C64_push_atomic_refuted",
    "C64_pop_empty",
    "C64_seek",
    "C64_seek_moves",
    "C64_seek_fails",
    "C64_seek_in_frame",
    "C64_read",
    "C64_read_raises",
    "C64_raises_unchanged",
    "C64_frame_restored",
    "C64_same_read",
    "C64_same_seek",
    "C64_same_push",
    "C64_same_pop",
    "C64_headtail_short",
    "C64_headtail_far",
    "C64_headtail",
    "C64_headtail_error"
   ],
   "note": "Proved as stated. The refutation is of \"a push_frame that raises changes nothing\": its frame stays on the stack."
  },
  {
   "property": "C65",
   "status": "proved",
   "theorems": [
    "C65_short",
    "C65_long",
    "C65_fits",
    "C65_error",
    "C65_default"
   ],
   "note": ""
  },
  {
   "property": "C66",
   "status": "proved",
   "theorems": [
    "C66_grammar",
    "C66_same_type",
    "C66_same_value_error",
    "C66_same_parse_error",
    "C66_total",
    "C66_before",
    "C66_after_type",
    "C66_where",
    "C66_first_wrong_refuted",
    "C66_message"
   ],
   "note": "Proved as stated, for parsimonious 0.10. The refutation is of \"it always points at the first wrong character\"."
  },
  {
   "property": "C67",
   "status": "proved",
   "theorems": [
    "C67_encoder",
    "C67_decoder",
    "C67_one_exception",
    "C67_encode",
    "C67_decode",
    "C67_answered",
    "C67_answered_decoder",
    "C67_removed",
    "C67_not_called",
    "C67_unmatched_refuted",
    "C67_order_refuted",
    "C67_class"
   ],
   "note": "Proved as stated. The refutations are of \"a registration whose matcher does not match a type leaves it usable\" and \"the order of registrations does not matter\"."
  },
  {
   "property": "C68",
   "status": "proved",
   "theorems": [
    "C68_length",
    "C68_packed_length"
   ],
   "note": ""
  },
  {
   "property": "C69",
   "status": "proved",
   "theorems": [
    "C69_order",
    "C69_packed_order",
    "C69_negative",
    "C69_packed_negative",
    "C69_dynamic_refuted",
    "C69_signs_refuted"
   ],
   "note": "Proved as stated. The refutations show that neither restriction can be dropped."
  },
  {
   "property": "C70",
   "status": "proved",
   "theorems": [
    "C70_same",
    "C70_true",
    "C70_reason",
    "C70_iff",
    "C70_sensible"
   ],
   "note": ""
  },
  {
   "property": "C71",
   "status": "proved",
   "theorems": [
    "C71_same",
    "C71_true",
    "C71_reason",
    "C71_iff",
    "C71_shown",
    "C71_first_argument",
    "C71_first_item",
    "C71_last"
   ],
   "note": ""
  },
  {
   "property": "C72",
   "status": "proved",
   "theorems": [
    "C72_ends",
    "C72_reachable",
    "C72_lookups_fresh",
    "C72_caching_unobservable",
    "C72_lookup_harmless",
    "C72_all_or_nothing",
    "C72_undo_encoder",
    "C72_undo_decoder",
    "C72_undo",
    "C72_redo",
    "C72_finish_encoder",
    "C72_finish_decoder",
    "C72_finish",
    "C72_retry_unregister_refuted",
    "C72_retry_register_refuted"
   ],
   "note": ""
  },
  {
   "property": "C73",
   "status": "proved",
   "theorems": [
    "C73_same_lookup",
    "C73_same_lookup_decoder",
    "C73_same_register",
    "C73_same_unregister",
    "C73_lookup",
    "C73_lookup_decoder",
    "C73_lookup_said",
    "C73_lookup_said_decoder",
    "C73_misfit_said",
    "C73_misfit_said_decoder",
    "C73_standard",
    "C73_standard_decoder",
    "C73_register_encoder",
    "C73_register_decoder",
    "C73_register",
    "C73_unregister_encoder",
    "C73_unregister_decoder",
    "C73_unregister",
    "C73_register_leaves",
    "C73_none_cured",
    "C73_none_cured_decoder",
    "C73_many_cured",
    "C73_many_cured_decoder",
    "C73_taken_cured",
    "C73_taken_cured_decoder",
    "C73_label_cured",
    "C73_label_cured_decoder"
   ],
   "note": ""
  },
  {
   "property": "C74",
   "status": "proved",
   "theorems": [
    "C74_faithful",
    "C74_pure_refuted",
    "C74_same_object",
    "C74_same_object_threads_refuted",
    "C74_overtaken",
    "C74_other_object",
    "C74_total",
    "C74_first",
    "C74_unshared",
    "C74_contained",
    "C74_assign",
    "C74_assign_lacks",
    "C74_assign_cases",
    "C74_spoils",
    "C74_keeps",
    "C74_item",
    "C74_str",
    "C74_validate",
    "C74_validate_endless",
    "C74_validate_tree",
    "C74_unspoiled",
    "C74_base_equals",
    "C74_has_arrlist",
    "C74_is_base_tuple",
    "C74_type_str",
    "C74_tuple_type_str"
   ],
   "note": ""
  },
  {
   "property": "C75",
   "status": "proved",
   "theorems": [
    "C75_pointer_map",
    "C75_prefix",
    "C75_static",
    "C75_byte",
    "C75_pointers_refuted",
    "C75_lenient_refuted"
   ],
   "note": ""
  },
  {
   "property": "C76",
   "status": "proved",
   "theorems": [
    "C76_register",
    "C76_encode",
    "C76_is_encodable",
    "C76_decode",
    "C76_round_trip",
    "C76_disagree_refuted"
   ],
   "note": ""
  },
  {
   "property": "C77",
   "status": "proved",
   "theorems": [
    "C77_generates",
    "C77_encodable",
    "C77_round_trip",
    "C77_others",
    "C77_register"
   ],
   "note": ""
  },
  {
   "property": "C78",
   "status": "proved",
   "theorems": [
    "C78_zpad",
    "C78_zpad_right",
    "C78_fpad",
    "C78_pads_32",
    "C78_again"
   ],
   "note": ""
  },
  {
   "property": "C79",
   "status": "proved",
   "theorems": [
    "C79_hash",
    "C79_total",
    "C79_steady",
    "C79_lookup",
    "C79_unregister",
    "C79_twice",
    "C79_stuck",
    "C79_cached",
    "C79_unregister_refuted"
   ],
   "note": ""
  },
  {
   "property": "C80",
   "status": "proved",
   "theorems": [
    "C80_decode",
    "C80_encode",
    "C80_encode_errors",
    "C80_is_encodable",
    "C80_decode_limited",
    "C80_encode_limited",
    "C80_decode_exact",
    "C80_encode_exact",
    "C80_all_types_refuted",
    "C80_all_values_refuted",
    "C80_is_encodable_false_refuted"
   ],
   "note": ""
  },
  {
   "property": "C81",
   "status": "proved",
   "theorems": [
    "C81_encode",
    "C81_decode",
    "C81_is_encodable",
    "C81_is_encodable_type",
    "C81_encode_packed",
    "C81_is_encodable_packed"
   ],
   "note": ""
  },
  {
   "property": "C82",
   "status": "proved",
   "theorems": [
    "C82_encode",
    "C82_decode"
   ],
   "note": ""
  },
  {
   "property": "C83",
   "status": "proved",
   "theorems": [
    "C83_repr",
    "C83_literal",
    "C83_matchers",
    "C83_matchers_refuted",
    "C83_messages",
    "C83_test",
    "C83_test_refuted",
    "C83_type_string",
    "C83_types"
   ],
   "note": ""
  },
  {
   "property": "C84",
   "status": "proved",
   "theorems": [
    "C84_start",
    "C84_history",
    "C84_history_refuted",
    "C84_lookup"
   ],
   "note": ""
  },
  {
   "property": "C85",
   "status": "proved",
   "theorems": [
    "C85_history",
    "C85_same",
    "C85_new",
    "C85_stuck",
    "C85_class",
    "C85_encoder_class"
   ],
   "note": ""
  },
  {
   "property": "C86",
   "status": "proved",
   "theorems": [
    "C86_is_encodable",
    "C86_is_encodable_object",
    "C86_encode",
    "C86_encode_object",
    "C86_decode"
   ],
   "note": ""
  },
  {
   "property": "C87",
   "status": "proved",
   "theorems": [
    "C87_bytes",
    "C87_same",
    "C87_plain",
    "C87_true",
    "C87_some"
   ],
   "note": ""
  },
  {
   "property": "C88",
   "status": "proved",
   "theorems": [
    "C88_decimal",
    "C88_decimal_same",
    "C88_same",
    "C88_true",
    "C88_class_needed_refuted",
    "C88_shown"
   ],
   "note": ""
  },
  {
   "property": "C89",
   "status": "proved",
   "theorems": [
    "C89_same",
    "C89_true",
    "C89_reason",
    "C89_noticed",
    "C89_misused",
    "C89_first",
    "C89_order",
    "C89_values",
    "C89_text",
    "C89_size_shown_refuted"
   ],
   "note": ""
  }
 ]
}
