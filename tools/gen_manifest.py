import json
C=[]
def c(prop,status,theorems,note):
    C.append(dict(property=prop,status=status,theorems=theorems,note=note))
FALSE="The property is false of the code; "
c("C01","proved",["C01_accepts_exactly_the_grammar","C01_parse_iff_type_string","C01_display_is_type_string","C01_parser_terminates"],"")
c("C02","proved",["C02_alignment_is_1_2_4_8","C02_alignment_is_the_gvariant_one","C02_container_at_least_components","C02_declared_is_computed","C02_narrowing_is_legal"],"")
c("C03","proved",["C03_fixed_iff_no_variable_part","C03_size_is_the_gvariant_one","C03_size_positive_multiple"],"")
c("C04","proved",["C04_layout","C04_no_implicit_padding"],"rustc's repr(C) algorithm is modelled from the Rust reference")
c("C05","partial",["C05_every_fixed_struct_refuted","C05_macro_ok_iff_every_struct","C05_fixed_struct_accepted_iff","C05_variable_struct_accepted","C05_strictest_first_accepted"],FALSE+"refuted by (yii); the exact set of accepted types is proved")
c("C06","partial",["C06_names_distinct","C06_defined_once_iff_no_repeat","C06_defined_once_refuted"],"distinct names proved; 'defined once' is false of the code, refuted by ((s)(s)); exact condition proved")
c("C07","proved",["C07_table_gives_the_start"],"for type strings below 2^32 bytes and framing offsets below 2^63")
c("C40","partial",["C40_defaults_typecheck_refuted","C40_defaults_typecheck_iff"],FALSE+"refuted by (b); exact condition proved")
c("C41","proved",["C41_defines_exactly_the_structures"],"")
c("C42","proved",["C42_names_are_identifiers"],"")
c("C43","proved",["C43_usable_iff"],"relative to the modelled reasons for not compiling")
c("C17","proved",["C17_always_a_proper_string","C17_normal_form","C17_otherwise_empty"],"UTF-8 validity specified as concatenation of encoded scalar values")
c("C28","partial",["C28_try_as_aligned_sound_refuted","C28_safe_code_reaches_ub_refuted"],FALSE+"refuted at address 1; see C46")
c("C29","partial",["C29_copy_to_align_refuted"],FALSE+"refuted for empty data; proved otherwise, see C45")
c("C30","partial",["C30_offsets_are_multiples","C30_try_new_exact","C30_align_offset_whenever_it_fits_refuted"],"multiples and try_new proved; the align_offset clause is false of the code with overflow checks at x = 2^64-8; exact condition in C44")
c("C31","proved",["C31_buffer_is_a_vector","C31_new_buffer_is_an_empty_vector"],"allocation addresses at most 2^64-9")
c("C34","proved",["C34_slicing_step","C34_slicing_chains","C34_empty_aligned"],"")
c("C35","proved",["C35_gstring_is_a_nul_free_string","C35_try_from_rejects_exactly_nuls"],"")
c("C36","proved",["C36_order","C36_equality"],"")
c("C37","partial",["C37_with_capacity_refuted"],"false of the code for with_capacity; reserve proved, see C47")
c("C44","proved",["C44_align_offset_least_multiple","C44_align_offset_without_checks","C44_align_offset_panics_iff"],"")
c("C45","proved",["C45_copy_to_align"],"")
c("C46","proved",["C46_try_as_aligned_checks_nothing"],"")
c("C47","proved",["C47_reserve"],"")
c("C08","proved",["C08_references_are_sound","C08_accessors_have_no_undefined_behaviour","C08_reading_has_no_undefined_behaviour"],"for buffers below 2^63 bytes and type strings below 2^32")
c("C09","partial",["C09_never_panics_refuted","C09_never_panics_maybe_refuted"],FALSE+"refuted by aai on [0,1] and mai on [0,1]; the exact condition is C48")
c("C10","proved",["C10_decoding_follows_the_rules"],"whenever reading does not panic (C48 says exactly when)")
c("C11","proved",["C11_exact_size_only","C11_value"],"")
c("C13","proved",["C13_items_are_the_indexed_elements","C13_every_step","C13_length"],"")
c("C14","partial",["C14_index_out_of_range_refuted"],FALSE+"refuted without overflow checks at index 2^63+1; the true claim is C51")
c("C15","proved",["C15_fixed_size","C15_variable_size"],"with the panic of C48 where the element is an array of fixed-size elements of the wrong length")
c("C16","proved",["C16_split","C16_get"],"")
c("C18","proved",["C18_zero_copy"],"")
c("C19","partial",["C19_out_of_range","C19_array_elements","C19_structure_members","C19_beyond_4GiB_refuted"],"proved for every buffer below 4 GiB; beyond that it is false of the code without overflow checks, refuted by aan with a corrupt 8-byte offset; the exact claim is C76")
c("C38","partial",["C38_mutable_casts_refuted"],FALSE+"refuted for every array of fixed-size elements (todo!()); the true claim is C50")
c("C39","partial",["C39_beyond_4GiB_refuted","C39_wraps_around_refuted"],FALSE+"refuted with overflow checks (panic) and without (wrong value); what does hold is C49 and C73 to C76")
c("C48","proved",["C48_panics_exactly","C48_other_types_never_panic"],"")
c("C49","proved",["C49_panics_beyond_4GiB","C49_no_panic_without_overflow_checks"],"")
c("C50","proved",["C50_other_mutable_casts"],"")
c("C51","proved",["C51_index_out_of_range_panics","C51_index_without_checks","C51_fixed_index_out_of_range_panics"],"")
c("C20","proved",["C20_equality_compares_values","C20_same_value_without_doubles","C20_symmetric","C20_transitive","C20_no_undefined_behaviour"],"for views of buffers below 2^63 bytes; the value theorems assume both sides can be read without panic")
c("C21","proved",["C21_counts_bytes","C21_failing_sink","C21_never_panics","C21_writes_exactly"],"for outputs below 2^63 bytes")
c("C22","partial",["C22_normal_form_refuted"],FALSE+"refuted by a(si) with one element; exact condition in C52, types for which it holds in C54")
c("C23","partial",["C23_round_trip_refuted"],FALSE+"refuted by a(si) with one element; exact condition in C53, types for which it holds in C54")
c("C24","partial",["C24_reserialise_refuted"],FALSE+"refuted by a(si) with one element; exact condition in C55")
c("C25","partial",["C25_unique"],"uniqueness proved; preservation is false of the code (C24_reserialise_refuted), exact condition in C56")
c("C26","proved",["C26_nul_is_refused","C26_nul_inside","C26_views_are_normalised","C26_others_are_written","C26_others_are_read_back"],"")
c("C27","partial",["C27_type_string","C27_value_refuted"],"the type string clause is proved; the value clause is false of the code for a(si); the rest is C57")
c("C52","proved",["C52_normal_form_exactly"],"")
c("C53","proved",["C53_round_trip_exactly"],"")
c("C54","proved",["C54_unpadded_types","C54_unpadded_views"],"")
c("C55","proved",["C55_views_write","C55_views_round_trip_exactly"],"")
c("C56","proved",["C56_preserved_exactly"],"")
c("C57","proved",["C57_get_exactly"],"")
c("C12","proved",["C12_width_is_least","C12_writer_and_reader_agree","C12_no_offsets"],"for containers below 2^63 bytes (the largest a Rust object can be)")
c("C32","partial",["C32_empty_stream_refuted"],FALSE+"refuted by an empty stream read as ai; exact behaviour in C58")
c("C33","partial",["C33_to_owned_refuted"],FALSE+"refuted for empty data by (aiai); proved for non-empty data in C59, exact behaviour for empty data in C58")
c("C58","proved",["C58_empty_stream","C58_empty_bytes","C58_to_owned_of_empty"],"allocation addresses at most 2^64-9")
c("C59","proved",["C59_from_bytes","C59_deserialize","C59_to_owned"],"allocation addresses at most 2^64-9")
c("C60","proved",["C60_position_independent","C60_only_the_address_modulo_alignment"],"")
c("C61","proved",["C61_native_comparison"],"")
c("C62","proved",["C62_order_of_maybes","C62_equal_agrees"],"")
c("C63","proved",["C63_hash_of_maybes"],"")
c("C64","proved",["C64_debug_prints_the_value","C64_owned_prints_the_value"],"how numbers, doubles and strings are rendered is a parameter")
c("C65","proved",["C65_debug_panics_with_reading","C65_debug_only_panics"],"")
c("C66","partial",["C66_infallible_refuted"],FALSE+"refuted by a string with a NUL byte; the true claim is C67")
c("C67","proved",["C67_to_vec","C67_to_vec_panics"],"for outputs below 2^63 bytes")
c("C68","partial",["C68_fuzz_target_refuted"],FALSE+"refuted for every input whose length is 0 or not a multiple of 4; what holds is C72")
c("C69","proved",["C69_ostree_ls","C69_long_files"],"")
c("C70","proved",["C70_rust_types","C70_from_strings","C70_other_strings"],"")
c("C71","proved",["C71_type_in_scope","C71_fields_in_scope"],"")
c("C72","proved",["C72_fuzz_target_passes","C72_any_type"],"given that GLib calls only normal forms normal")
c("C73","proved",["C73_near_offsets","C73_below_4GiB"],"")
c("C74","proved",["C74_normal_forms"],"")
c("C75","proved",["C75_checked_builds"],"")
c("C76","proved",["C76_array_elements","C76_structure_members"],"")
c("C77","proved",["C77_types_that_can_panic"],"")
c("C78","proved",["C78_constructed_values"],"")
c("C79","proved",["C79_member_assignment"],"")
c("C80","proved",["C80_writing_into_a_buffer"],"allocation addresses at most 2^64-9")
c("C81","proved",["C81_slices_of_numbers"],"")
c("C82","partial",["C82_elements_refuted","C82_members_refuted"],FALSE+"a framing offset that points backwards makes a later child cover the bytes of an earlier one; what holds is C83")
c("C83","proved",["C83_array_elements","C83_structure_members","C83_normal_arrays","C83_normal_structures"],"")
c("C84","partial",["C84_amplification_refuted"],FALSE+"arrays nested k deep give n^(1+k) from n(16k+1) bytes; the bound that holds is C85")
c("C85","proved",["C85_bounded","C85_in_range","C85_normal_forms"],"")
c("C86","partial",["C86_keys_refuted","C86_handles_refuted"],FALSE+"a{vs} is accepted, h is not; the exact relation is C87")
c("C87","proved",["C87_accepted","C87_definite"],"")
c("C88","proved",["C88_none","C88_empty","C88_more_than_one","C88_array_item","C88_maybe_item","C88_in_tuple","C88_entry_close","C88_entry_types","C88_not_closed","C88_unexpected"],"")
c("C89","proved",["C89_reads_everything","C89_returns_the_error","C89_all_readers"],"")
c("C90","partial",["C90_variants_refuted","C90_nans_refuted"],FALSE+"variants with type strings that are not UTF-8, and NaNs, print alike; what holds is C91")
c("C91","proved",["C91_text_tells_the_value","C91_numbers","C91_strings","C91_type_strings","C91_mended"],"")
c("C92","proved",["C92_strings_survive_panics","C92_reserved"],"")
c("C93","proved",["C93_buffers_survive_panics"],"")
c("C94","proved",["C94_array_elements","C94_structure_members"],"")
c("C95","proved",["C95_follows_the_specification","C95_normal_forms","C95_strings","C95_object_paths","C95_signatures","C95_variants","C95_overlap"],"")
c("C96","partial",["C96_variant_equality_refuted"],FALSE+"variants holding 0.0 and -0.0 differ, a variant holding a NaN equals itself. C97 is the corrected claim.")
c("C97","proved",["C97_normal_variants","C97_contents","C97_equal_variants","C97_false_negative","C97_reflexive"],"")
c("C98","proved",["C98_any_writer","C98_patient","C98_failing"],"")
c("C99","proved",["C99_reading","C99_twice","C99_writing","C99_portable","C99_not_portable"],"")
c("C100","proved",["C100_valid_values"],"")
c("C101","partial",["C101_bytes_lost_refuted","C101_unusable_refuted"],"FALSE: align_cold starts with reserve(7); if that panics the vector is left without padding at an unaligned address, and Deref takes its first bytes for padding. Corrected claim: C102.")
c("C102","proved",["C102_buffers_without_memory"],"")
c("C103","partial",["C103_no_std_refuted"],"FALSE: aligned_bytes.rs:90 and many other places name std without a cfg. Corrected claim: C104.")
c("C104","proved",["C104_names_need_std","C104_missing","C104_unguarded"],"")
c("C105","partial",["C105_views_refuted","C105_bytes_as_string_refuted","C105_gstring_refuted"],"FALSE: &MaybeFixedSize<Bool> cannot be passed because Bool itself does not implement SerializeTo<Bool>; structures have no impl for themselves; &[u8], GString and &GString do not implement SerializeTo<Str>. Corrected claim: C106.")
c("C106","proved",["C106_marker_types","C106_views","C106_every_type","C106_members","C106_copy","C106_accepted_values"],"One rule per impl stands for trait resolution; together with C21 what is accepted never panics.")
c("C107","partial",["C107_iterators_end_refuted"],"FALSE: with overflow checks a corrupt 8-byte offset makes align_offset panic before the iterator is moved on, so every further call panics. Corrected claim: C108.")
c("C108","proved",["C108_calls","C108_calls_in_general"],"")
c("C109","partial",["C109_offsets_refuted","C109_slices_refuted"],"FALSE: derive on a type with parameter A asks A for the same trait, and A1 to A8 derive Debug, Copy and Clone only. Corrected claim: C110.")
c("C110","proved",["C110_derived","C110_offsets_compare","C110_try_from","C110_display","C110_slices"],"")
c("C111","proved",["C111_eq","C111_eq_is_lawful","C111_hash","C111_partial_ord","C111_ord","C111_owned_strings"],"")
c("C112","proved",["C112_table_of_the_specification","C112_reduction_keeps_starts","C112_or_after_reduction","C112_reduction_is_skipped"],"")
c("C113","proved",["C113_unframed","C113_normal","C113_not_always"],"Contents of variants are bytes here, as everywhere; they are left alone.")
c("C114","partial",["C114_readme_refuted","C114_same_interface_refuted"],FALSE+"README.md:8-9 compares a GString with a &str, for which there is no PartialEq; MaybeNonFixedSize has no comparison with Option (its impls lack ?Sized), no order and no hash, unlike MaybeFixedSize. What can be compared is proved in C115.")
c("C115","proved",["C115_views","C115_options","C115_owned_strings","C115_symmetric","C115_answer"],"Views of o and g have the Rust type of views of s, so the last theorem is stated for types without them.")
c("C116","proved",["C116_cast_slice","C116_cast_value"],"")
c("C117","proved",["C117_flags","C117_pretty","C117_owned","C117_panics","C117_without_flags"],"What core writes for numbers, booleans, strings and () under the flags is a parameter, for {:#?} that of C91 (doubles stay a parameter).")
c("C118","proved",["C118_text_tells_the_value"],"As C91: how core prints doubles is a parameter, about which injectivity (other than for NaNs) and the characters used are assumed.")
c("C119","proved",["C119_wraps_around","C119_near_offsets"],"")
c("C120","proved",["C120_debug","C120_pretty"],"How core prints doubles is a parameter, about which only the characters used are assumed.")
c("C121","proved",["C121_define_gv_emits","C121_else_define_gv_panics","C121_one_text_per_structure","C121_text_is_items","C121_structure_text_is_items","C121_type_text_is_tokens"],"What counts as Rust tokens is a part of Rust's lexical grammar, written down in LexSpec; what it accepts, Rust's lexer accepts.")
c("C122","proved",["C122_variable_structure","C122_fixed_structure","C122_alignment","C122_traits"],"About the text of the templates, by reading it back; that the fields then lie end to end in memory is C04.")
c("C123","proved",["C123_reads_every_component","C123_writes_the_structure","C123_writes_the_fixed_structure","C123_every_field_once"],"About the text of the templates, by reading it back. The parts of these bodies that are the same for all types are compared literally; C124 has the other bodies.")
c("C124","proved",["C124_representation","C124_casts","C124_tuples","C124_delegates"],"About the text of the templates, by reading it back. Signatures of the functions, other than the types of tuples and type parameters, are not read: rustc checks them against the traits.")
c("C125","proved",["C125_words","C125_words_of_the_type","C125_names_are_new"],"The lists of names are in NameSpec. That each name means there what the templates intend is rustc's to check.")
c("C126","proved",["C126_variable_size","C126_is_the_model","C126_fixed_size"],"The type of each component is taken from the structure's type; C123 has that the call names it. Data fields are taken to follow each other without gaps; C04 has that repr(C) puts them there.")
c("C127","proved",["C127_variable_size","C127_fixed_size","C127_is_the_model","C127_is_the_model_fixed"],"The last two hold for any writer and whatever serialising a component does. The body around the statements is compared literally when they are read back (TextSpec).")
c("C128","partial",["C128_module_example_refuted","C128_module_example_reads_nothing","C128_module_example_fails"],FALSE+"the example in aligned_bytes.rs:40-42 calls read with the empty slice of an empty vector. C129 has the examples that do read the file.")
c("C129","proved",["C129_crate_example","C129_crate_example_error","C129_with_vec_example","C129_with_vec_appends"],"What std::io::Read does is modelled from its documentation.")
c("C130","proved",["C130_conversion_is_a_noop","C130_conversion_pads"],"")
c("C131","proved",["C131_eq","C131_no_gaps","C131_new","C131_new_sets","C131_default"],"")
c("C132","proved",["C132_reads","C132_iterates","C132_compares","C132_prints","C132_owns","C132_writes","C132_assigns","C132_files","C132_fuzzes"],"")
c("C133","proved",["C133_prints","C133_panics","C133_errors"],"println! is taken to succeed; what File::open and read give is arbitrary.")
c("C134","proved",["C134_one_type","C134_target","C134_specification"],"GLib is a record of arbitrary answers; reference counting and messages of failed assertions are left out.")
c("C135","proved",["C135_documented"],"")
c("C136","partial",["C136_null_refuted"],FALSE+"if GLib returns NULL for an array without elements, slice::from_raw_parts is called with NULL, which is undefined behaviour; witness: four zero bytes, read as aay.")
c("C137","partial",["C137_end_to_end_refuted"],FALSE+"an empty array of numbers as the only component of a structure is written as no bytes, and the object deserialized from no bytes panics when read in a debug build and has undefined behaviour in others; witness: ([],) as (ai). C138 says exactly when it holds.")
c("C138","proved",["C138_end_to_end"],"")
c("C139","proved",["C139_checked_exactly","C139_which_panic","C139_near_offsets"],"")
c("C140","proved",["C140_written","C140_read","C140_failures","C140_no_new_panic","C140_passed_on","C140_delegating","C140_documented","C140_any_writer"],"")
c("C141","proved",["C141_copies","C141_default","C141_records","C141_normal"],"")
c("C142","proved",["C142_calls_keep_promises","C142_doors_break_promises","C142_careful_programs","C142_only_through_doors","C142_comparable"],"")
c("C143","proved",["C143_programs_compute_with_values","C143_addresses_do_not_matter","C143_only_bounds_panic"],"")
c("C144","proved",["C144_programs_on_any_data","C144_addresses_do_not_matter","C144_which_panics","C144_lazy_values","C144_lazy_comparison"],"")
c("C145","proved",["C145_programs","C145_without_failed_checks"],"")
c("C146","proved",["C146_programs","C146_without_undefined_behaviour"],"")
c("C147","proved",["C147_release","C147_any_build","C147_any_address","C147_by_type","C147_least"],"")
c("C148","proved",["C148_constant","C148_members","C148_answers"],"")
c("C149","proved",["C149_strings","C149_variants"],"")
c("C150","partial",["C150_linear_refuted"],FALSE+"arrays nested k deep take n^(1+k) steps for n(16k+1) bytes; the bounds that hold are C151")
c("C151","proved",["C151_bounded","C151_in_range","C151_normal_forms"],"")
c("C152","proved",["C152_bounded","C152_reached","C152_in_range","C152_normal_forms","C152_lengths"],"")
c("C153","proved",["C153_few","C153_one_by_one"],"")
c("C154","proved",["C154_at_most","C154_type","C154_reached"],"")
c("C155","proved",["C155_text","C155_bytes","C155_in_range","C155_pretty","C155_indented"],"")
c("C156","proved",["C156_values","C156_views","C156_in_range","C156_reached"],"")
c("C157","proved",["C157_references","C157_trivial","C157_spans","C157_fixed","C157_variable","C157_emitted"],"")
c("C158","proved",["C158_sends","C158_threads","C158_nothing_raw","C158_wrap"],"")
c("C159","proved",["C159_kept","C159_parts","C159_written","C159_fixed"],"")
c("C160","proved",["C160_linear","C160_calls"],"")
c("C161","proved",["C161_from_bytes_same","C161_deserialize_same","C161_from_bytes","C161_deserialize","C161_from_bytes_bound","C161_deserialize_bound"],"")
c("C162","proved",["C162_answers","C162_steps","C162_bounded","C162_in_range"],"")
c("C163","proved",["C163_least","C163_equal","C163_get"],"")
c("C164","proved",["C164_answers","C164_linear","C164_steps","C164_depth","C164_depth_bounded","C164_depth_reached"],"")
c("C165","proved",["C165_align","C165_size","C165_size_calls","C165_fixed","C165_member","C165_entry","C165_plain","C165_quadratic"],"")
json.dump({"claims":C},open('/verif/MANIFEST.json','w'),indent=1)
import re,glob
src="".join(open(f).read() for f in glob.glob('/verif/rocq/theories/Prop_*.v'))
have=set(re.findall(r"^Theorem (\w+)",src,re.M)); used={t for x in C for t in x["theorems"]}
print("missing",used-have,"unlisted",have-used)
