{
 "claims": [
  {
   "property": "C01",
   "status": "proved",
   "theorems": [
    "C01_accepts_exactly_the_grammar",
    "C01_parse_iff_type_string",
    "C01_display_is_type_string",
    "C01_parser_terminates"
   ],
   "note": ""
  },
  {
   "property": "C02",
   "status": "proved",
   "theorems": [
    "C02_alignment_is_1_2_4_8",
    "C02_alignment_is_the_gvariant_one",
    "C02_container_at_least_components",
    "C02_declared_is_computed",
    "C02_narrowing_is_legal"
   ],
   "note": ""
  },
  {
   "property": "C03",
   "status": "proved",
   "theorems": [
    "C03_fixed_iff_no_variable_part",
    "C03_size_is_the_gvariant_one",
    "C03_size_positive_multiple"
   ],
   "note": ""
  },
  {
   "property": "C04",
   "status": "proved",
   "theorems": [
    "C04_layout",
    "C04_no_implicit_padding"
   ],
   "note": "rustc's repr(C) algorithm is modelled from the Rust reference"
  },
  {
   "property": "C05",
   "status": "partial",
   "theorems": [
    "C05_every_fixed_struct_refuted",
    "C05_macro_ok_iff_every_struct",
    "C05_fixed_struct_accepted_iff",
    "C05_variable_struct_accepted",
    "C05_strictest_first_accepted"
   ],
   "note": "The property is false of the code; refuted by (yii); the exact set of accepted types is proved"
  },
  {
   "property": "C06",
   "status": "partial",
   "theorems": [
    "C06_names_distinct",
    "C06_defined_once_iff_no_repeat",
    "C06_defined_once_refuted"
   ],
   "note": "distinct names proved; 'defined once' is false of the code, refuted by ((s)(s)); exact condition proved"
  },
  {
   "property": "C07",
   "status": "proved",
   "theorems": [
    "C07_table_gives_the_start"
   ],
   "note": "for type strings below 2^32 bytes and framing offsets below 2^63"
  },
  {
   "property": "C40",
   "status": "partial",
   "theorems": [
    "C40_defaults_typecheck_refuted",
    "C40_defaults_typecheck_iff"
   ],
   "note": "The property is false of the code; refuted by (b); exact condition proved"
  },
  {
   "property": "C41",
   "status": "proved",
   "theorems": [
    "C41_defines_exactly_the_structures"
   ],
   "note": ""
  },
  {
   "property": "C42",
   "status": "proved",
   "theorems": [
    "C42_names_are_identifiers"
   ],
   "note": ""
  },
  {
   "property": "C43",
   "status": "proved",
   "theorems": [
    "C43_usable_iff"
   ],
   "note": "relative to the modelled reasons for not compiling"
  },
  {
   "property": "C17",
   "status": "proved",
   "theorems": [
    "C17_always_a_proper_string",
    "C17_normal_form",
    "C17_otherwise_empty"
   ],
   "note": "UTF-8 validity specified as concatenation of encoded scalar values"
  },
  {
   "property": "C28",
   "status": "partial",
   "theorems": [
    "C28_try_as_aligned_sound_refuted",
    "C28_safe_code_reaches_ub_refuted"
   ],
   "note": "The property is false of the code; refuted at address 1; see C46"
  },
  {
   "property": "C29",
   "status": "partial",
   "theorems": [
    "C29_copy_to_align_refuted"
   ],
   "note": "The property is false of the code; refuted for empty data; proved otherwise, see C45"
  },
  {
   "property": "C30",
   "status": "partial",
   "theorems": [
    "C30_offsets_are_multiples",
    "C30_try_new_exact",
    "C30_align_offset_whenever_it_fits_refuted"
   ],
   "note": "multiples and try_new proved; the align_offset clause is false of the code with overflow checks at x = 2^64-8; exact condition in C44"
  },
  {
   "property": "C31",
   "status": "proved",
   "theorems": [
    "C31_buffer_is_a_vector",
    "C31_new_buffer_is_an_empty_vector"
   ],
   "note": "allocation addresses at most 2^64-9"
  },
  {
   "property": "C34",
   "status": "proved",
   "theorems": [
    "C34_slicing_step",
    "C34_slicing_chains",
    "C34_empty_aligned"
   ],
   "note": ""
  },
  {
   "property": "C35",
   "status": "proved",
   "theorems": [
    "C35_gstring_is_a_nul_free_string",
    "C35_try_from_rejects_exactly_nuls"
   ],
   "note": ""
  },
  {
   "property": "C36",
   "status": "proved",
   "theorems": [
    "C36_order",
    "C36_equality"
   ],
   "note": ""
  },
  {
   "property": "C37",
   "status": "partial",
   "theorems": [
    "C37_with_capacity_refuted"
   ],
   "note": "false of the code for with_capacity; reserve proved, see C47"
  },
  {
   "property": "C44",
   "status": "proved",
   "theorems": [
    "C44_align_offset_least_multiple",
    "C44_align_offset_without_checks",
    "C44_align_offset_panics_iff"
   ],
   "note": ""
  },
  {
   "property": "C45",
   "status": "proved",
   "theorems": [
    "C45_copy_to_align"
   ],
   "note": ""
  },
  {
   "property": "C46",
   "status": "proved",
   "theorems": [
    "C46_try_as_aligned_checks_nothing"
   ],
   "note": ""
  },
  {
   "property": "C47",
   "status": "proved",
   "theorems": [
    "C47_reserve"
   ],
   "note": ""
  },
  {
   "property": "C08",
   "status": "proved",
   "theorems": [
    "C08_references_are_sound",
    "C08_accessors_have_no_undefined_behaviour",
    "C08_reading_has_no_undefined_behaviour"
   ],
   "note": "for buffers below 2^63 bytes and type strings below 2^32"
  },
  {
   "property": "C09",
   "status": "partial",
   "theorems": [
    "C09_never_panics_refuted",
    "C09_never_panics_maybe_refuted"
   ],
   "note": "The property is false of the code; refuted by aai on [0,1] and mai on [0,1]; the exact condition is C48"
  },
  {
   "property": "C10",
   "status": "proved",
   "theorems": [
    "C10_decoding_follows_the_rules"
   ],
   "note": "whenever reading does not panic (C48 says exactly when)"
  },
  {
   "property": "C11",
   "status": "proved",
   "theorems": [
    "C11_exact_size_only",
    "C11_value"
   ],
   "note": ""
  },
  {
   "property": "C13",
   "status": "proved",
   "theorems": [
    "C13_items_are_the_indexed_elements",
    "C13_every_step",
    "C13_length"
   ],
   "note": ""
  },
  {
   "property": "C14",
   "status": "partial",
   "theorems": [
    "C14_index_out_of_range_refuted"
   ],
   "note": "The property is false of the code; refuted without overflow checks at index 2^63+1; the true claim is C51"
  },
  {
   "property": "C15",
   "status": "proved",
   "theorems": [
    "C15_fixed_size",
    "C15_variable_size"
   ],
   "note": "with the panic of C48 where the element is an array of fixed-size elements of the wrong length"
  },
  {
   "property": "C16",
   "status": "proved",
   "theorems": [
    "C16_split",
    "C16_get"
   ],
   "note": ""
  },
  {
   "property": "C18",
   "status": "proved",
   "theorems": [
    "C18_zero_copy"
   ],
   "note": ""
  },
  {
   "property": "C19",
   "status": "partial",
   "theorems": [
    "C19_out_of_range",
    "C19_array_elements",
    "C19_structure_members",
    "C19_beyond_4GiB_refuted"
   ],
   "note": "proved for every buffer below 4 GiB; beyond that it is false of the code without overflow checks, refuted by aan with a corrupt 8-byte offset; the exact claim is C76"
  },
  {
   "property": "C38",
   "status": "partial",
   "theorems": [
    "C38_mutable_casts_refuted"
   ],
   "note": "The property is false of the code; refuted for every array of fixed-size elements (todo!()); the true claim is C50"
  },
  {
   "property": "C39",
   "status": "partial",
   "theorems": [
    "C39_beyond_4GiB_refuted",
    "C39_wraps_around_refuted"
   ],
   "note": "The property is false of the code; refuted with overflow checks (panic) and without (wrong value); what does hold is C49 and C73 to C76"
  },
  {
   "property": "C48",
   "status": "proved",
   "theorems": [
    "C48_panics_exactly",
    "C48_other_types_never_panic"
   ],
   "note": ""
  },
  {
   "property": "C49",
   "status": "proved",
   "theorems": [
    "C49_panics_beyond_4GiB",
    "C49_no_panic_without_overflow_checks"
   ],
   "note": ""
  },
  {
   "property": "C50",
   "status": "proved",
   "theorems": [
    "C50_other_mutable_casts"
   ],
   "note": ""
  },
  {
   "property": "C51",
   "status": "proved",
   "theorems": [
    "C51_index_out_of_range_panics",
    "C51_index_without_checks",
    "C51_fixed_index_out_of_range_panics"
   ],
   "note": ""
  },
  {
   "property": "C20",
   "status": "proved",
   "theorems": [
    "C20_equality_compares_values",
    "C20_same_value_without_doubles",
    "C20_symmetric",
    "C20_transitive",
    "C20_no_undefined_behaviour"
   ],
   "note": "for views of buffers below 2^63 bytes; the value theorems assume both sides can be read without panic"
  },
  {
   "property": "C21",
   "status": "proved",
   "theorems": [
    "C21_counts_bytes",
    "C21_failing_sink",
    "C21_never_panics",
    "C21_writes_exactly"
   ],
   "note": "for outputs below 2^63 bytes"
  },
  {
   "property": "C22",
   "status": "partial",
   "theorems": [
    "C22_normal_form_refuted"
   ],
   "note": "The property is false of the code; refuted by a(si) with one element; exact condition in C52, types for which it holds in C54"
  },
  {
   "property": "C23",
   "status": "partial",
   "theorems": [
    "C23_round_trip_refuted"
   ],
   "note": "The property is false of the code; refuted by a(si) with one element; exact condition in C53, types for which it holds in C54"
  },
  {
   "property": "C24",
   "status": "partial",
   "theorems": [
    "C24_reserialise_refuted"
   ],
   "note": "The property is false of the code; refuted by a(si) with one element; exact condition in C55"
  },
  {
   "property": "C25",
   "status": "partial",
   "theorems": [
    "C25_unique"
   ],
   "note": "uniqueness proved; preservation is false of the code (C24_reserialise_refuted), exact condition in C56"
  },
  {
   "property": "C26",
   "status": "proved",
   "theorems": [
    "C26_nul_is_refused",
    "C26_nul_inside",
    "C26_views_are_normalised",
    "C26_others_are_written",
    "C26_others_are_read_back"
   ],
   "note": ""
  },
  {
   "property": "C27",
   "status": "partial",
   "theorems": [
    "C27_type_string",
    "C27_value_refuted"
   ],
   "note": "the type string clause is proved; the value clause is false of the code for a(si); the rest is C57"
  },
  {
   "property": "C52",
   "status": "proved",
   "theorems": [
    "C52_normal_form_exactly"
   ],
   "note": ""
  },
  {
   "property": "C53",
   "status": "proved",
   "theorems": [
    "C53_round_trip_exactly"
   ],
   "note": ""
  },
  {
   "property": "C54",
   "status": "proved",
   "theorems": [
    "C54_unpadded_types",
    "C54_unpadded_views"
   ],
   "note": ""
  },
  {
   "property": "C55",
   "status": "proved",
   "theorems": [
    "C55_views_write",
    "C55_views_round_trip_exactly"
   ],
   "note": ""
  },
  {
   "property": "C56",
   "status": "proved",
   "theorems": [
    "C56_preserved_exactly"
   ],
   "note": ""
  },
  {
   "property": "C57",
   "status": "proved",
   "theorems": [
    "C57_get_exactly"
   ],
   "note": ""
  },
  {
   "property": "C12",
   "status": "proved",
   "theorems": [
    "C12_width_is_least",
    "C12_writer_and_reader_agree",
    "C12_no_offsets"
   ],
   "note": "for containers below 2^63 bytes (the largest a Rust object can be)"
  },
  {
   "property": "C32",
   "status": "partial",
   "theorems": [
    "C32_empty_stream_refuted"
   ],
   "note": "The property is false of the code; refuted by an empty stream read as ai; exact behaviour in C58"
  },
  {
   "property": "C33",
   "status": "partial",
   "theorems": [
    "C33_to_owned_refuted"
   ],
   "note": "The property is false of the code; refuted for empty data by (aiai); proved for non-empty data in C59, exact behaviour for empty data in C58"
  },
  {
   "property": "C58",
   "status": "proved",
   "theorems": [
    "C58_empty_stream",
    "C58_empty_bytes",
    "C58_to_owned_of_empty"
   ],
   "note": "allocation addresses at most 2^64-9"
  },
  {
   "property": "C59",
   "status": "proved",
   "theorems": [
    "C59_from_bytes",
    "C59_deserialize",
    "C59_to_owned"
   ],
   "note": "allocation addresses at most 2^64-9"
  },
  {
   "property": "C60",
   "status": "proved",
   "theorems": [
    "C60_position_independent",
    "C60_only_the_address_modulo_alignment"
   ],
   "note": ""
  },
  {
   "property": "C61",
   "status": "proved",
   "theorems": [
    "C61_native_comparison"
   ],
   "note": ""
  },
  {
   "property": "C62",
   "status": "proved",
   "theorems": [
    "C62_order_of_maybes",
    "C62_equal_agrees"
   ],
   "note": ""
  },
  {
   "property": "C63",
   "status": "proved",
   "theorems": [
    "C63_hash_of_maybes"
   ],
   "note": ""
  },
  {
   "property": "C64",
   "status": "proved",
   "theorems": [
    "C64_debug_prints_the_value",
    "C64_owned_prints_the_value"
   ],
   "note": "how numbers, doubles and strings are rendered is a parameter"
  },
  {
   "property": "C65",
   "status": "proved",
   "theorems": [
    "C65_debug_panics_with_reading",
    "C65_debug_only_panics"
   ],
   "note": ""
  },
  {
   "property": "C66",
   "status": "partial",
   "theorems": [
    "C66_infallible_refuted"
   ],
   "note": "The property is false of the code; refuted by a string with a NUL byte; the true claim is C67"
  },
  {
   "property": "C67",
   "status": "proved",
   "theorems": [
    "C67_to_vec",
    "C67_to_vec_panics"
   ],
   "note": "for outputs below 2^63 bytes"
  },
  {
   "property": "C68",
   "status": "partial",
   "theorems": [
    "C68_fuzz_target_refuted"
   ],
   "note": "The property is false of the code; refuted for every input whose length is 0 or not a multiple of 4; what holds is C72"
  },
  {
   "property": "C69",
   "status": "proved",
   "theorems": [
    "C69_ostree_ls",
    "C69_long_files"
   ],
   "note": ""
  },
  {
   "property": "C70",
   "status": "proved",
   "theorems": [
    "C70_rust_types",
    "C70_from_strings",
    "C70_other_strings"
   ],
   "note": ""
  },
  {
   "property": "C71",
   "status": "proved",
   "theorems": [
    "C71_type_in_scope",
    "C71_fields_in_scope"
   ],
   "note": ""
  },
  {
   "property": "C72",
   "status": "proved",
   "theorems": [
    "C72_fuzz_target_passes",
    "C72_any_type"
   ],
   "note": "given that GLib calls only normal forms normal"
  },
  {
   "property": "C73",
   "status": "proved",
   "theorems": [
    "C73_near_offsets",
    "C73_below_4GiB"
   ],
   "note": ""
  },
  {
   "property": "C74",
   "status": "proved",
   "theorems": [
    "C74_normal_forms"
   ],
   "note": ""
  },
  {
   "property": "C75",
   "status": "proved",
   "theorems": [
    "C75_checked_builds"
   ],
   "note": ""
  },
  {
   "property": "C76",
   "status": "proved",
   "theorems": [
    "C76_array_elements",
    "C76_structure_members"
   ],
   "note": ""
  },
  {
   "property": "C77",
   "status": "proved",
   "theorems": [
    "C77_types_that_can_panic"
   ],
   "note": ""
  },
  {
   "property": "C78",
   "status": "proved",
   "theorems": [
    "C78_constructed_values"
   ],
   "note": ""
  },
  {
   "property": "C79",
   "status": "proved",
   "theorems": [
    "C79_member_assignment"
   ],
   "note": ""
  },
  {
   "property": "C80",
   "status": "proved",
   "theorems": [
    "C80_writing_into_a_buffer"
   ],
   "note": "allocation addresses at most 2^64-9"
  },
  {
   "property": "C81",
   "status": "proved",
   "theorems": [
    "C81_slices_of_numbers"
   ],
   "note": ""
  },
  {
   "property": "C82",
   "status": "partial",
   "theorems": [
    "C82_elements_refuted",
    "C82_members_refuted"
   ],
   "note": "The property is false of the code; a framing offset that points backwards makes a later child cover the bytes of an earlier one; what holds is C83"
  },
  {
   "property": "C83",
   "status": "proved",
   "theorems": [
    "C83_array_elements",
    "C83_structure_members",
    "C83_normal_arrays",
    "C83_normal_structures"
   ],
   "note": ""
  },
  {
   "property": "C84",
   "status": "partial",
   "theorems": [
    "C84_amplification_refuted"
   ],
   "note": "The property is false of the code; arrays nested k deep give n^(1+k) from n(16k+1) bytes; the bound that holds is C85"
  },
  {
   "property": "C85",
   "status": "proved",
   "theorems": [
    "C85_bounded",
    "C85_in_range",
    "C85_normal_forms"
   ],
   "note": ""
  },
  {
   "property": "C86",
   "status": "partial",
   "theorems": [
    "C86_keys_refuted",
    "C86_handles_refuted"
   ],
   "note": "The property is false of the code; a{vs} is accepted, h is not; the exact relation is C87"
  },
  {
   "property": "C87",
   "status": "proved",
   "theorems": [
    "C87_accepted",
    "C87_definite"
   ],
   "note": ""
  },
  {
   "property": "C88",
   "status": "proved",
   "theorems": [
    "C88_none",
    "C88_empty",
    "C88_more_than_one",
    "C88_array_item",
    "C88_maybe_item",
    "C88_in_tuple",
    "C88_entry_close",
    "C88_entry_types",
    "C88_not_closed",
    "C88_unexpected"
   ],
   "note": ""
  },
  {
   "property": "C89",
   "status": "proved",
   "theorems": [
    "C89_reads_everything",
    "C89_returns_the_error",
    "C89_all_readers"
   ],
   "note": ""
  },
  {
   "property": "C90",
   "status": "partial",
   "theorems": [
    "C90_variants_refuted",
    "C90_nans_refuted"
   ],
   "note": "The property is false of the code; variants with type strings that are not UTF-8, and NaNs, print alike; what holds is C91"
  },
  {
   "property": "C91",
   "status": "proved",
   "theorems": [
    "C91_text_tells_the_value",
    "C91_numbers",
    "C91_strings",
    "C91_type_strings",
    "C91_mended"
   ],
   "note": ""
  },
  {
   "property": "C92",
   "status": "proved",
   "theorems": [
    "C92_strings_survive_panics",
    "C92_reserved"
   ],
   "note": ""
  },
  {
   "property": "C93",
   "status": "proved",
   "theorems": [
    "C93_buffers_survive_panics"
   ],
   "note": ""
  },
  {
   "property": "C94",
   "status": "proved",
   "theorems": [
    "C94_array_elements",
    "C94_structure_members"
   ],
   "note": ""
  },
  {
   "property": "C95",
   "status": "proved",
   "theorems": [
    "C95_follows_the_specification",
    "C95_normal_forms",
    "C95_strings",
    "C95_object_paths",
    "C95_signatures",
    "C95_variants",
    "C95_overlap"
   ],
   "note": ""
  },
  {
   "property": "C96",
   "status": "partial",
   "theorems": [
    "C96_variant_equality_refuted"
   ],
   "note": "The property is false of the code; variants holding 0.0 and -0.0 differ, a variant holding a NaN equals itself. C97 is the corrected claim."
  },
  {
   "property": "C97",
   "status": "proved",
   "theorems": [
    "C97_normal_variants",
    "C97_contents",
    "C97_equal_variants",
    "C97_false_negative",
    "C97_reflexive"
   ],
   "note": ""
  },
  {
   "property": "C98",
   "status": "proved",
   "theorems": [
    "C98_any_writer",
    "C98_patient",
    "C98_failing"
   ],
   "note": ""
  },
  {
   "property": "C99",
   "status": "proved",
   "theorems": [
    "C99_reading",
    "C99_twice",
    "C99_writing",
    "C99_portable",
    "C99_not_portable"
   ],
   "note": ""
  },
  {
   "property": "C100",
   "status": "proved",
   "theorems": [
    "C100_valid_values"
   ],
   "note": ""
  },
  {
   "property": "C101",
   "status": "partial",
   "theorems": [
    "C101_bytes_lost_refuted",
    "C101_unusable_refuted"
   ],
   "note": "FALSE: align_cold starts with reserve(7); if that panics the vector is left without padding at an unaligned address, and Deref takes its first bytes for padding. Corrected claim: C102."
  },
  {
   "property": "C102",
   "status": "proved",
   "theorems": [
    "C102_buffers_without_memory"
   ],
   "note": ""
  },
  {
   "property": "C103",
   "status": "partial",
   "theorems": [
    "C103_no_std_refuted"
   ],
   "note": "FALSE: aligned_bytes.rs:90 and many other places name std without a cfg. Corrected claim: C104."
  },
  {
   "property": "C104",
   "status": "proved",
   "theorems": [
    "C104_names_need_std",
    "C104_missing",
    "C104_unguarded"
   ],
   "note": ""
  },
  {
   "property": "C105",
   "status": "partial",
   "theorems": [
    "C105_views_refuted",
    "C105_bytes_as_string_refuted",
    "C105_gstring_refuted"
   ],
   "note": "FALSE: &MaybeFixedSize<Bool> cannot be passed because Bool itself does not implement SerializeTo<Bool>; structures have no impl for themselves; &[u8], GString and &GString do not implement SerializeTo<Str>. Corrected claim: C106."
  },
  {
   "property": "C106",
   "status": "proved",
   "theorems": [
    "C106_marker_types",
    "C106_views",
    "C106_every_type",
    "C106_members",
    "C106_copy",
    "C106_accepted_values"
   ],
   "note": "One rule per impl stands for trait resolution; together with C21 what is accepted never panics."
  },
  {
   "property": "C107",
   "status": "partial",
   "theorems": [
    "C107_iterators_end_refuted"
   ],
   "note": "FALSE: with overflow checks a corrupt 8-byte offset makes align_offset panic before the iterator is moved on, so every further call panics. Corrected claim: C108."
  },
  {
   "property": "C108",
   "status": "proved",
   "theorems": [
    "C108_calls",
    "C108_calls_in_general"
   ],
   "note": ""
  },
  {
   "property": "C109",
   "status": "partial",
   "theorems": [
    "C109_offsets_refuted",
    "C109_slices_refuted"
   ],
   "note": "FALSE: derive on a type with parameter A asks A for the same trait, and A1 to A8 derive Debug, Copy and Clone only. Corrected claim: C110."
  },
  {
   "property": "C110",
   "status": "proved",
   "theorems": [
    "C110_derived",
    "C110_offsets_compare",
    "C110_try_from",
    "C110_display",
    "C110_slices"
   ],
   "note": ""
  },
  {
   "property": "C111",
   "status": "proved",
   "theorems": [
    "C111_eq",
    "C111_eq_is_lawful",
    "C111_hash",
    "C111_partial_ord",
    "C111_ord",
    "C111_owned_strings"
   ],
   "note": ""
  },
  {
   "property": "C112",
   "status": "proved",
   "theorems": [
    "C112_table_of_the_specification",
    "C112_reduction_keeps_starts",
    "C112_or_after_reduction",
    "C112_reduction_is_skipped"
   ],
   "note": ""
  },
  {
   "property": "C113",
   "status": "proved",
   "theorems": [
    "C113_unframed",
    "C113_normal",
    "C113_not_always"
   ],
   "note": "Contents of variants are bytes here, as everywhere; they are left alone."
  },
  {
   "property": "C114",
   "status": "partial",
   "theorems": [
    "C114_readme_refuted",
    "C114_same_interface_refuted"
   ],
   "note": "The property is false of the code; README.md:8-9 compares a GString with a &str, for which there is no PartialEq; MaybeNonFixedSize has no comparison with Option (its impls lack ?Sized), no order and no hash, unlike MaybeFixedSize. What can be compared is proved in C115."
  },
  {
   "property": "C115",
   "status": "proved",
   "theorems": [
    "C115_views",
    "C115_options",
    "C115_owned_strings",
    "C115_symmetric",
    "C115_answer"
   ],
   "note": "Views of o and g have the Rust type of views of s, so the last theorem is stated for types without them."
  },
  {
   "property": "C116",
   "status": "proved",
   "theorems": [
    "C116_cast_slice",
    "C116_cast_value"
   ],
   "note": ""
  },
  {
   "property": "C117",
   "status": "proved",
   "theorems": [
    "C117_flags",
    "C117_pretty",
    "C117_owned",
    "C117_panics",
    "C117_without_flags"
   ],
   "note": "What core writes for numbers, booleans, strings and () under the flags is a parameter, for {:#?} that of C91 (doubles stay a parameter)."
  },
  {
   "property": "C118",
   "status": "proved",
   "theorems": [
    "C118_text_tells_the_value"
   ],
   "note": "As C91: how core prints doubles is a parameter, about which injectivity (other than for NaNs) and the characters used are assumed."
  },
  {
   "property": "C119",
   "status": "proved",
   "theorems": [
    "C119_wraps_around",
    "C119_near_offsets"
   ],
   "note": ""
  },
  {
   "property": "C120",
   "status": "proved",
   "theorems": [
    "C120_debug",
    "C120_pretty"
   ],
   "note": "How core prints doubles is a parameter, about which only the characters used are assumed."
  },
  {
   "property": "C121",
   "status": "proved",
   "theorems": [
    "C121_define_gv_emits",
    "C121_else_define_gv_panics",
    "C121_one_text_per_structure",
    "C121_text_is_items",
    "C121_structure_text_is_items",
    "C121_type_text_is_tokens"
   ],
   "note": "What counts as Rust tokens is a part of Rust's lexical grammar, written down in LexSpec; what it accepts, Rust's lexer accepts."
  },
  {
   "property": "C122",
   "status": "proved",
   "theorems": [
    "C122_variable_structure",
    "C122_fixed_structure",
    "C122_alignment",
    "C122_traits"
   ],
   "note": "About the text of the templates, by reading it back; that the fields then lie end to end in memory is C04."
  },
  {
   "property": "C123",
   "status": "proved",
   "theorems": [
    "C123_reads_every_component",
    "C123_writes_the_structure",
    "C123_writes_the_fixed_structure",
    "C123_every_field_once"
   ],
   "note": "About the text of the templates, by reading it back. The parts of these bodies that are the same for all types are compared literally; C124 has the other bodies."
  },
  {
   "property": "C124",
   "status": "proved",
   "theorems": [
    "C124_representation",
    "C124_casts",
    "C124_tuples",
    "C124_delegates"
   ],
   "note": "About the text of the templates, by reading it back. Signatures of the functions, other than the types of tuples and type parameters, are not read: rustc checks them against the traits."
  },
  {
   "property": "C125",
   "status": "proved",
   "theorems": [
    "C125_words",
    "C125_words_of_the_type",
    "C125_names_are_new"
   ],
   "note": "The lists of names are in NameSpec. That each name means there what the templates intend is rustc's to check."
  },
  {
   "property": "C126",
   "status": "proved",
   "theorems": [
    "C126_variable_size",
    "C126_is_the_model",
    "C126_fixed_size"
   ],
   "note": "The type of each component is taken from the structure's type; C123 has that the call names it. Data fields are taken to follow each other without gaps; C04 has that repr(C) puts them there."
  },
  {
   "property": "C127",
   "status": "proved",
   "theorems": [
    "C127_variable_size",
    "C127_fixed_size",
    "C127_is_the_model",
    "C127_is_the_model_fixed"
   ],
   "note": "The last two hold for any writer and whatever serialising a component does. The body around the statements is compared literally when they are read back (TextSpec)."
  },
  {
   "property": "C128",
   "status": "partial",
   "theorems": [
    "C128_module_example_refuted",
    "C128_module_example_reads_nothing",
    "C128_module_example_fails"
   ],
   "note": "The property is false of the code; the example in aligned_bytes.rs:40-42 calls read with the empty slice of an empty vector. C129 has the examples that do read the file."
  },
  {
   "property": "C129",
   "status": "proved",
   "theorems": [
    "C129_crate_example",
    "C129_crate_example_error",
    "C129_with_vec_example",
    "C129_with_vec_appends"
   ],
   "note": "What std::io::Read does is modelled from its documentation."
  },
  {
   "property": "C130",
   "status": "proved",
   "theorems": [
    "C130_conversion_is_a_noop",
    "C130_conversion_pads"
   ],
   "note": ""
  },
  {
   "property": "C131",
   "status": "proved",
   "theorems": [
    "C131_eq",
    "C131_no_gaps",
    "C131_new",
    "C131_new_sets",
    "C131_default"
   ],
   "note": ""
  },
  {
   "property": "C132",
   "status": "proved",
   "theorems": [
    "C132_reads",
    "C132_iterates",
    "C132_compares",
    "C132_prints",
    "C132_owns",
    "C132_writes",
    "C132_assigns",
    "C132_files",
    "C132_fuzzes"
   ],
   "note": ""
  },
  {
   "property": "C133",
   "status": "proved",
   "theorems": [
    "C133_prints",
    "C133_panics",
    "C133_errors"
   ],
   "note": "println! is taken to succeed; what File::open and read give is arbitrary."
  },
  {
   "property": "C134",
   "status": "proved",
   "theorems": [
    "C134_one_type",
    "C134_target",
    "C134_specification"
   ],
   "note": "GLib is a record of arbitrary answers; reference counting and messages of failed assertions are left out."
  },
  {
   "property": "C135",
   "status": "proved",
   "theorems": [
    "C135_documented"
   ],
   "note": ""
  },
  {
   "property": "C136",
   "status": "partial",
   "theorems": [
    "C136_null_refuted"
   ],
   "note": "The property is false of the code; if GLib returns NULL for an array without elements, slice::from_raw_parts is called with NULL, which is undefined behaviour; witness: four zero bytes, read as aay."
  },
  {
   "property": "C137",
   "status": "partial",
   "theorems": [
    "C137_end_to_end_refuted"
   ],
   "note": "The property is false of the code; an empty array of numbers as the only component of a structure is written as no bytes, and the object deserialized from no bytes panics when read in a debug build and has undefined behaviour in others; witness: ([],) as (ai). C138 says exactly when it holds."
  },
  {
   "property": "C138",
   "status": "proved",
   "theorems": [
    "C138_end_to_end"
   ],
   "note": ""
  },
  {
   "property": "C139",
   "status": "proved",
   "theorems": [
    "C139_checked_exactly",
    "C139_which_panic",
    "C139_near_offsets"
   ],
   "note": ""
  },
  {
   "property": "C140",
   "status": "proved",
   "theorems": [
    "C140_written",
    "C140_read",
    "C140_failures",
    "C140_no_new_panic",
    "C140_passed_on",
    "C140_delegating",
    "C140_documented",
    "C140_any_writer"
   ],
   "note": ""
  },
  {
   "property": "C141",
   "status": "proved",
   "theorems": [
    "C141_copies",
    "C141_default",
    "C141_records",
    "C141_normal"
   ],
   "note": ""
  },
  {
   "property": "C142",
   "status": "proved",
   "theorems": [
    "C142_calls_keep_promises",
    "C142_doors_break_promises",
    "C142_careful_programs",
    "C142_only_through_doors",
    "C142_comparable"
   ],
   "note": ""
  },
  {
   "property": "C143",
   "status": "proved",
   "theorems": [
    "C143_programs_compute_with_values",
    "C143_addresses_do_not_matter",
    "C143_only_bounds_panic"
   ],
   "note": ""
  },
  {
   "property": "C144",
   "status": "proved",
   "theorems": [
    "C144_programs_on_any_data",
    "C144_addresses_do_not_matter",
    "C144_which_panics",
    "C144_lazy_values",
    "C144_lazy_comparison"
   ],
   "note": ""
  },
  {
   "property": "C145",
   "status": "proved",
   "theorems": [
    "C145_programs",
    "C145_without_failed_checks"
   ],
   "note": ""
  },
  {
   "property": "C146",
   "status": "proved",
   "theorems": [
    "C146_programs",
    "C146_without_undefined_behaviour"
   ],
   "note": ""
  },
  {
   "property": "C147",
   "status": "proved",
   "theorems": [
    "C147_release",
    "C147_any_build",
    "C147_any_address",
    "C147_by_type",
    "C147_least"
   ],
   "note": ""
  },
  {
   "property": "C148",
   "status": "proved",
   "theorems": [
    "C148_constant",
    "C148_members",
    "C148_answers"
   ],
   "note": ""
  },
  {
   "property": "C149",
   "status": "proved",
   "theorems": [
    "C149_strings",
    "C149_variants"
   ],
   "note": ""
  },
  {
   "property": "C150",
   "status": "partial",
   "theorems": [
    "C150_linear_refuted"
   ],
   "note": "The property is false of the code; arrays nested k deep take n^(1+k) steps for n(16k+1) bytes; the bounds that hold are C151"
  },
  {
   "property": "C151",
   "status": "proved",
   "theorems": [
    "C151_bounded",
    "C151_in_range",
    "C151_normal_forms"
   ],
   "note": ""
  },
  {
   "property": "C152",
   "status": "proved",
   "theorems": [
    "C152_bounded",
    "C152_reached",
    "C152_in_range",
    "C152_normal_forms",
    "C152_lengths"
   ],
   "note": ""
  },
  {
   "property": "C153",
   "status": "proved",
   "theorems": [
    "C153_few",
    "C153_one_by_one"
   ],
   "note": ""
  },
  {
   "property": "C154",
   "status": "proved",
   "theorems": [
    "C154_at_most",
    "C154_type",
    "C154_reached"
   ],
   "note": ""
  },
  {
   "property": "C155",
   "status": "proved",
   "theorems": [
    "C155_text",
    "C155_bytes",
    "C155_in_range",
    "C155_pretty",
    "C155_indented"
   ],
   "note": ""
  },
  {
   "property": "C156",
   "status": "proved",
   "theorems": [
    "C156_values",
    "C156_views",
    "C156_in_range",
    "C156_reached"
   ],
   "note": ""
  },
  {
   "property": "C157",
   "status": "proved",
   "theorems": [
    "C157_references",
    "C157_trivial",
    "C157_spans",
    "C157_fixed",
    "C157_variable",
    "C157_emitted"
   ],
   "note": ""
  },
  {
   "property": "C158",
   "status": "proved",
   "theorems": [
    "C158_sends",
    "C158_threads",
    "C158_nothing_raw",
    "C158_wrap"
   ],
   "note": ""
  },
  {
   "property": "C159",
   "status": "proved",
   "theorems": [
    "C159_kept",
    "C159_parts",
    "C159_written",
    "C159_fixed"
   ],
   "note": ""
  },
  {
   "property": "C160",
   "status": "proved",
   "theorems": [
    "C160_linear",
    "C160_calls"
   ],
   "note": ""
  },
  {
   "property": "C161",
   "status": "proved",
   "theorems": [
    "C161_from_bytes_same",
    "C161_deserialize_same",
    "C161_from_bytes",
    "C161_deserialize",
    "C161_from_bytes_bound",
    "C161_deserialize_bound"
   ],
   "note": ""
  },
  {
   "property": "C162",
   "status": "proved",
   "theorems": [
    "C162_answers",
    "C162_steps",
    "C162_bounded",
    "C162_in_range"
   ],
   "note": ""
  },
  {
   "property": "C163",
   "status": "proved",
   "theorems": [
    "C163_least",
    "C163_equal",
    "C163_get"
   ],
   "note": ""
  },
  {
   "property": "C164",
   "status": "proved",
   "theorems": [
    "C164_answers",
    "C164_linear",
    "C164_steps",
    "C164_depth",
    "C164_depth_bounded",
    "C164_depth_reached"
   ],
   "note": ""
  },
  {
   "property": "C165",
   "status": "proved",
   "theorems": [
    "C165_align",
    "C165_size",
    "C165_size_calls",
    "C165_fixed",
    "C165_member",
    "C165_entry",
    "C165_plain",
    "C165_quadratic"
   ],
   "note": ""
  }
 ]
}