{
 "claims": [
  {
   "property": "C01",
   "status": "proved",
   "theorems": [
    "c01_v1_encoder_appends_wire"
   ],
   "note": ""
  },
  {
   "property": "C02",
   "status": "proved",
   "theorems": [
    "c02_v2_encoder_appends_wire",
    "c02_buffers_are_wf"
   ],
   "note": ""
  },
  {
   "property": "C03",
   "status": "proved",
   "theorems": [
    "c03_v1_round_trip"
   ],
   "note": ""
  },
  {
   "property": "C04",
   "status": "proved",
   "theorems": [
    "c04_v2_round_trip"
   ],
   "note": ""
  },
  {
   "property": "C05",
   "status": "proved",
   "theorems": [
    "c05_v1_v2_interoperate"
   ],
   "note": ""
  },
  {
   "property": "C06",
   "status": "proved",
   "theorems": [
    "c06_v2_bytes_boundary",
    "c06_v2_long_bytes_unreadable_refuted",
    "c06_v2_strings_right"
   ],
   "note": ""
  },
  {
   "property": "C07",
   "status": "proved",
   "theorems": [
    "c07_varint_size",
    "c07_varint_minimal",
    "c07_varint_unique",
    "c07_varint_last_digit",
    "c07_size_bound",
    "c07_bound_reached",
    "c07_v2_reservations"
   ],
   "note": ""
  },
  {
   "property": "C08",
   "status": "proved",
   "theorems": [
    "c08_uniquely_decodable",
    "c08_prefix_free"
   ],
   "note": ""
  },
  {
   "property": "C09",
   "status": "proved",
   "theorems": [
    "c09_zigzag_bijection",
    "c09_small_is_short",
    "c09_signed_round_trip",
    "c09_decoded_in_range"
   ],
   "note": ""
  },
  {
   "property": "C10",
   "status": "proved",
   "theorems": [
    "c10_float32",
    "c10_float64",
    "c10_round_trip"
   ],
   "note": ""
  },
  {
   "property": "C11",
   "status": "proved",
   "theorems": [
    "c11_v1_wrong_kind",
    "c11_v2_wrong_kind"
   ],
   "note": ""
  },
  {
   "property": "C12",
   "status": "proved",
   "theorems": [
    "c12_v1_panics_iff_truncated_varint",
    "c12_never_panics_refuted"
   ],
   "note": ""
  },
  {
   "property": "C13",
   "status": "proved",
   "theorems": [
    "c13_v2_panics_iff_truncated_varint"
   ],
   "note": ""
  },
  {
   "property": "C14",
   "status": "proved",
   "theorems": [
    "c14_rest_is_suffix",
    "c14_v1_progress",
    "c14_v2_progress",
    "c14_v2_no_progress_refuted"
   ],
   "note": ""
  },
  {
   "property": "C15",
   "status": "proved",
   "theorems": [
    "c15_v1_extension",
    "c15_v2_extension",
    "c15_v1_value_is_in_consumed",
    "c15_v2_value_is_in_consumed"
   ],
   "note": ""
  },
  {
   "property": "C16",
   "status": "proved",
   "theorems": [
    "c16_v1_after_failure",
    "c16_v2_after_failure",
    "c16_v1_scalars_atomic",
    "c16_v2_scalars_and_bytes_atomic",
    "c16_atomic_refuted",
    "c16_v1_every_input",
    "c16_v2_every_input"
   ],
   "note": ""
  },
  {
   "property": "C17",
   "status": "proved",
   "theorems": [
    "c17_truncated_never_accepted"
   ],
   "note": ""
  },
  {
   "property": "C18",
   "status": "proved",
   "theorems": [
    "c18_v1_integers",
    "c18_v2_integers",
    "c18_v1_v2_agree"
   ],
   "note": ""
  },
  {
   "property": "C19",
   "status": "proved",
   "theorems": [
    "c19_v1_destination",
    "c19_v1_exact_iff",
    "c19_v1_failure_independent",
    "c19_payload_refuted"
   ],
   "note": ""
  },
  {
   "property": "C20",
   "status": "proved",
   "theorems": [
    "c20_v2_destination",
    "c20_v2_destination_memory"
   ],
   "note": ""
  },
  {
   "property": "C21",
   "status": "proved",
   "theorems": [
    "c21_v1_bool",
    "c21_v2_bool"
   ],
   "note": ""
  },
  {
   "property": "C22",
   "status": "proved",
   "theorems": [
    "c22_v2_buffer_is_a_log",
    "c22_new_buffer"
   ],
   "note": ""
  },
  {
   "property": "C23",
   "status": "proved",
   "theorems": [
    "c23_grow"
   ],
   "note": ""
  },
  {
   "property": "C24",
   "status": "proved",
   "theorems": [
    "c24_short_slice",
    "c24_full_slice",
    "c24_write_is_safe",
    "c24_contract_refuted"
   ],
   "note": ""
  },
  {
   "property": "C25",
   "status": "proved",
   "theorems": [
    "c25_bytes_panics_iff",
    "c25_move_back",
    "c25_move_forward",
    "c25_move_inverse",
    "c25_encode_after_move_back"
   ],
   "note": ""
  },
  {
   "property": "C26",
   "status": "proved",
   "theorems": [
    "c26_v2_views_stable",
    "c26_v2_reset_overwrites_refuted"
   ],
   "note": ""
  },
  {
   "property": "C27",
   "status": "proved",
   "theorems": [
    "c27_v1_views_stable",
    "c27_v1_buffer_is_a_log",
    "c27_v1_reset_overwrites"
   ],
   "note": ""
  },
  {
   "property": "C28",
   "status": "proved",
   "theorems": [
    "c28_get_is_empty",
    "c28_get_is_fit",
    "c28_pooled_buffers_are_empty",
    "c28_put_nil",
    "c28_use_after_put_refuted"
   ],
   "note": ""
  },
  {
   "property": "C29",
   "status": "proved",
   "theorems": [
    "c29_clients_do_not_interfere",
    "c29_double_put_refuted"
   ],
   "note": ""
  },
  {
   "property": "C30",
   "status": "proved",
   "theorems": [
    "c30_get_decoder_starts_at_input",
    "c30_decoders_are_private",
    "c30_pooled_decoders_hold_nothing",
    "c30_double_return_refuted"
   ],
   "note": ""
  },
  {
   "property": "C31",
   "status": "proved",
   "theorems": [
    "c31_error_round_trip",
    "c31_error_is",
    "c31_error_is_not"
   ],
   "note": ""
  },
  {
   "property": "C32",
   "status": "proved",
   "theorems": [
    "c32_length_check",
    "c32_payload_within_input",
    "c32_panic_set"
   ],
   "note": ""
  },
  {
   "property": "C33",
   "status": "proved",
   "theorems": [
    "c33_rust_encoder_appends_wire",
    "c33_rust_encoder_anywhere"
   ],
   "note": ""
  },
  {
   "property": "C34",
   "status": "proved",
   "theorems": [
    "c34_rust_round_trip"
   ],
   "note": ""
  },
  {
   "property": "C35",
   "status": "proved",
   "theorems": [
    "c35_rust_after_failure",
    "c35_probe_restores_refuted"
   ],
   "note": ""
  },
  {
   "property": "C36",
   "status": "proved",
   "theorems": [
    "c36_rust_no_panic_64",
    "c36_rust_panic_set",
    "c36_rust_success_advances",
    "c36_rust_failure_forward",
    "c36_rust_any_sequence"
   ],
   "note": ""
  },
  {
   "property": "C37",
   "status": "proved",
   "theorems": [
    "c37_go_to_rust",
    "c37_rust_to_go",
    "c37_go_text_in_rust"
   ],
   "note": ""
  },
  {
   "property": "C38",
   "status": "proved",
   "theorems": [
    "c38_ts_encoder_appends_wire",
    "c38_ts_enough_room",
    "c38_ts_modest_values",
    "c38_ts_to_go"
   ],
   "note": ""
  },
  {
   "property": "C39",
   "status": "proved",
   "theorems": [
    "c39_ts_encode_iff_fits",
    "c39_ts_misfit",
    "c39_ts_wrong_output_refuted",
    "c39_ts_empty_buffer",
    "c39_ts_offset_view",
    "c39_ts_first_string"
   ],
   "note": ""
  },
  {
   "property": "C40",
   "status": "proved",
   "theorems": [
    "c40_ts_reads_valid",
    "c40_ts_round_trip",
    "c40_ts_unchanged",
    "c40_ts_changed",
    "c40_ts_nan",
    "c40_ts_any",
    "c40_ts_uint16_refuted",
    "c40_ts_bom_refuted"
   ],
   "note": ""
  },
  {
   "property": "C41",
   "status": "proved",
   "theorems": [
    "c41_ts_truncated_succeeds",
    "c41_ts_truncated_kinds",
    "c41_ts_truncated_views",
    "c41_ts_nothing_left"
   ],
   "note": ""
  },
  {
   "property": "C42",
   "status": "proved",
   "theorems": [
    "c42_all_decoders_agree",
    "c42_ts_disagrees_otherwise"
   ],
   "note": ""
  },
  {
   "property": "C43",
   "status": "proved",
   "theorems": [
    "c43_rust_accepts_what_v1_accepts",
    "c43_integers_agree",
    "c43_otherwise_rust_errs"
   ],
   "note": ""
  },
  {
   "property": "C44",
   "status": "proved",
   "theorems": [
    "c44_encode_pass",
    "c44_encode_refused",
    "c44_null_handle",
    "c44_null_status",
    "c44_null_decode_none_refuted",
    "c44_decode_follows_rust",
    "c44_decode_pass_iff",
    "c44_decode_none",
    "c44_round_trip",
    "c44_any_program",
    "c44_any_program_encode",
    "c44_any_program_decode"
   ],
   "note": ""
  },
  {
   "property": "C45",
   "status": "proved",
   "theorems": [
    "c45_buffer_exact",
    "c45_any_program_buffer",
    "c45_any_program_size",
    "c45_four_gib_refuted"
   ],
   "note": ""
  },
  {
   "property": "C46",
   "status": "proved",
   "theorems": [
    "c46_v2_round_trip",
    "c46_v2_reuse",
    "c46_v1_reuse",
    "c46_v2_exact",
    "c46_v1_exact",
    "c46_plain_schemas_readable",
    "c46_v2_stale_message_refuted",
    "c46_v2_nil_element_refuted",
    "c46_v1_nil_message_refuted"
   ],
   "note": ""
  },
  {
   "property": "C47",
   "status": "proved",
   "theorems": [
    "c47_first_byte",
    "c47_unanchored_is_dropped",
    "c47_injective",
    "c47_ambiguous_refuted",
    "c47_misread_refuted"
   ],
   "note": ""
  },
  {
   "property": "C48",
   "status": "proved",
   "theorems": [
    "c48_terminates_iff",
    "c48_v2_linear_stack",
    "c48_v2_overflow_refuted",
    "c48_v1_linear_stack",
    "c48_v1_terminates_iff",
    "c48_v1_terminates_pointwise"
   ],
   "note": ""
  },
  {
   "property": "C49",
   "status": "proved",
   "theorems": [
    "c49_go_tables",
    "c49_rust_tables",
    "c49_domains",
    "c49_same_kind",
    "c49_typescript_refuted"
   ],
   "note": ""
  },
  {
   "property": "C50",
   "status": "proved",
   "theorems": [
    "c50_camel_exact",
    "c50_exported_iff",
    "c50_full_names",
    "c50_content_kept",
    "c50_collisions_agree",
    "c50_style_injective",
    "c50_collision_refuted",
    "c50_bad_names_refuted",
    "c50_idempotent"
   ],
   "note": ""
  },
  {
   "property": "C51",
   "status": "proved",
   "theorems": [
    "c51_rust_kind_round_trip",
    "c51_rust_kind_of_byte"
   ],
   "note": ""
  },
  {
   "property": "C52",
   "status": "proved",
   "theorems": [
    "c52_ts_bytes_stable"
   ],
   "note": ""
  },
  {
   "property": "C53",
   "status": "proved",
   "theorems": [
    "c53_ts_decoder_exact",
    "c53_ts_strings_wellformed",
    "c53_ts_any_exact"
   ],
   "note": ""
  },
  {
   "property": "C54",
   "status": "proved",
   "theorems": [
    "c54_ts_uint8_wraps",
    "c54_ts_uint32_wraps",
    "c54_ts_uint16_wraps",
    "c54_ts_int32_wraps",
    "c54_ts_bigints"
   ],
   "note": ""
  },
  {
   "property": "C55",
   "status": "proved",
   "theorems": [
    "c55_v1_success_iff",
    "c55_v2_success_iff"
   ],
   "note": ""
  },
  {
   "property": "C56",
   "status": "proved",
   "theorems": [
    "c56_results_stable",
    "c56_free_string",
    "c56_free_bytes",
    "c56_interior_nul_refuted"
   ],
   "note": ""
  },
  {
   "property": "C57",
   "status": "proved",
   "theorems": [
    "c57_new_terminates_iff",
    "c57_new_overflows_refuted",
    "c57_all_new_return"
   ],
   "note": ""
  },
  {
   "property": "C58",
   "status": "proved",
   "theorems": [
    "c58_v1_layout",
    "c58_v2_layout",
    "c58_nil"
   ],
   "note": ""
  },
  {
   "property": "C59",
   "status": "proved",
   "theorems": [
    "c59_typed_result",
    "c59_stack_monotone"
   ],
   "note": ""
  },
  {
   "property": "C60",
   "status": "proved",
   "theorems": [
    "c60_snake_exact",
    "c60_runes",
    "c60_runes_ill_formed",
    "c60_identifiers",
    "c60_idempotent",
    "c60_unchanged",
    "c60_undoes_camel",
    "c60_collision_refuted",
    "c60_first_lower",
    "c60_first_lower_char",
    "c60_first_lower_ill_formed",
    "c60_lowercase_corrupts_refuted",
    "c60_append_string",
    "c60_counter"
   ],
   "note": ""
  },
  {
   "property": "C61",
   "status": "proved",
   "theorems": [
    "c61_rust_encode_writes_layout",
    "c61_rust_encode_appends"
   ],
   "note": ""
  },
  {
   "property": "C62",
   "status": "proved",
   "theorems": [
    "c62_rust_round_trip",
    "c62_decoded_structs_round_trip",
    "c62_empty_message_refuted"
   ],
   "note": ""
  },
  {
   "property": "C63",
   "status": "proved",
   "theorems": [
    "c63_go_v1_to_rust",
    "c63_go_v2_to_rust",
    "c63_rust_to_go"
   ],
   "note": ""
  },
  {
   "property": "C64",
   "status": "proved",
   "theorems": [
    "c64_remote_error",
    "c64_nil_message",
    "c64_any_error_refuted"
   ],
   "note": ""
  },
  {
   "property": "C65",
   "status": "proved",
   "theorems": [
    "c65_any_input",
    "c65_stack_bound",
    "c65_stack_irrelevant"
   ],
   "note": ""
  },
  {
   "property": "C66",
   "status": "proved",
   "theorems": [
    "c66_memory_bounded_by_input_refuted",
    "c66_only_memory"
   ],
   "note": ""
  },
  {
   "property": "C67",
   "status": "proved",
   "theorems": [
    "c67_terminates_iff_acyclic",
    "c67_imports",
    "c67_stack",
    "c67_generator_terminates_refuted",
    "c67_imports_complete_refuted"
   ],
   "note": ""
  },
  {
   "property": "C68",
   "status": "proved",
   "theorems": [
    "c68_last_wins",
    "c68_collapsed",
    "c68_collapsed_same",
    "c68_go_v2",
    "c68_go_v1",
    "c68_rust",
    "c68_go_v2_exact",
    "c68_go_v1_exact"
   ],
   "note": ""
  },
  {
   "property": "C69",
   "status": "proved",
   "theorems": [
    "c69_go_compiles_iff",
    "c69_rust_compiles_iff",
    "c69_all_supported_refuted"
   ],
   "note": ""
  },
  {
   "property": "C70",
   "status": "proved",
   "theorems": [
    "c70_structs",
    "c70_one_struct_per_message",
    "c70_types_iff",
    "c70_rust_types_iff",
    "c70_rust_structs",
    "c70_maps_iff",
    "c70_constructors_iff",
    "c70_methods_iff",
    "c70_variable",
    "c70_go_scalar_types",
    "c70_rust_types",
    "c70_message_references",
    "c70_map_references",
    "c70_enum_references",
    "c70_deep_enum_refuted",
    "c70_repeated_enum_refuted",
    "c70_two_files_refuted",
    "c70_constructor_clash_refuted"
   ],
   "note": ""
  },
  {
   "property": "C71",
   "status": "proved",
   "theorems": [
    "c71_member_clash_iff",
    "c71_error_field_refuted",
    "c71_go_reserved",
    "c71_rust_type_reserved_iff",
    "c71_rust_field_reserved_iff",
    "c71_ts_field_reserved_iff"
   ],
   "note": ""
  },
  {
   "property": "C72",
   "status": "proved",
   "theorems": [
    "c72_go_constants",
    "c72_rust_variants",
    "c72_languages_agree",
    "c72_declared_numbers_refuted",
    "c72_removal_shifts_refuted"
   ],
   "note": ""
  },
  {
   "property": "C73",
   "status": "proved",
   "theorems": [
    "c73_v1_error_written",
    "c73_v2_error_written",
    "c73_error_is_not_a_message",
    "c73_which_error",
    "c73_no_input"
   ],
   "note": ""
  },
  {
   "property": "C74",
   "status": "proved",
   "theorems": [
    "c74_v1_more_input",
    "c74_v2_more_input",
    "c74_v1_truncated",
    "c74_v2_truncated",
    "c74_plain_schemas",
    "c74_empty_types_refuted"
   ],
   "note": ""
  },
  {
   "property": "C75",
   "status": "proved",
   "theorems": [
    "c75_same_encoding",
    "c75_v2_exchange",
    "c75_v1_exchange",
    "c75_moved_field",
    "c75_order_refuted"
   ],
   "note": ""
  },
  {
   "property": "C76",
   "status": "proved",
   "theorems": [
    "c76_v2_old_reader",
    "c76_v1_old_reader",
    "c76_v2_new_reader",
    "c76_v1_new_reader",
    "c76_earlier_group_refuted",
    "c76_nested_refuted",
    "c76_followed_refuted"
   ],
   "note": ""
  },
  {
   "property": "C77",
   "status": "proved",
   "theorems": [
    "c77_same_decoder",
    "c77_struct_after_error",
    "c77_v1_which_fields",
    "c77_v2_which_fields",
    "c77_v1_truncated",
    "c77_v2_truncated",
    "c77_v1_retry",
    "c77_v2_retry",
    "c77_all_or_nothing_refuted"
   ],
   "note": ""
  },
  {
   "property": "C78",
   "status": "proved",
   "theorems": [
    "c78_v1_makes",
    "c78_v2_makes",
    "c78_success_is_linear",
    "c78_singular",
    "c78_eight_bytes_refuted",
    "c78_nine_bytes_refuted",
    "c78_limited_memory"
   ],
   "note": ""
  },
  {
   "property": "C79",
   "status": "proved",
   "theorems": [
    "c79_reallocations",
    "c79_capacity_bound",
    "c79_writing_is_linear",
    "c79_allocates_iff",
    "c79_reuse_allocates_nothing"
   ],
   "note": ""
  },
  {
   "property": "C80",
   "status": "proved",
   "theorems": [
    "c80_generates_iff",
    "c80_imports",
    "c80_imports_exist_iff",
    "c80_usable_refuted",
    "c80_imports_per_file_refuted"
   ],
   "note": ""
  },
  {
   "property": "C81",
   "status": "proved",
   "theorems": [
    "c81_field_orders",
    "c81_statements",
    "c81_reads_what_it_writes_iff",
    "c81_constructor_iff",
    "c81_round_trip_refuted"
   ],
   "note": ""
  },
  {
   "property": "C82",
   "status": "proved",
   "theorems": [
    "c82_truncated",
    "c82_reported",
    "c82_encode_cut_decode",
    "c82_nil_message_refuted"
   ],
   "note": ""
  },
  {
   "property": "C83",
   "status": "proved",
   "theorems": [
    "c83_more_input",
    "c83_old_library_refuted",
    "c83_vacuous_refuted"
   ],
   "note": ""
  },
  {
   "property": "C84",
   "status": "proved",
   "theorems": [
    "c84_rust_to_rust",
    "c84_rust_to_go",
    "c84_go_to_rust"
   ],
   "note": ""
  },
  {
   "property": "C85",
   "status": "proved",
   "theorems": [
    "c85_old_reader",
    "c85_new_reader"
   ],
   "note": ""
  },
  {
   "property": "C86",
   "status": "proved",
   "theorems": [
    "c86_v1_own_contents",
    "c86_v2_own_contents",
    "c86_v1_after_reset_refuted",
    "c86_v2_after_reset_refuted",
    "c86_after_reset_is_wrong"
   ],
   "note": ""
  },
  {
   "property": "C87",
   "status": "proved",
   "theorems": [
    "c87_v1_calls",
    "c87_v2_calls",
    "c87_v1_in_place",
    "c87_v2_in_place",
    "c87_overlap_refuted",
    "c87_v2_reuse_overwrites"
   ],
   "note": ""
  },
  {
   "property": "C88",
   "status": "proved",
   "theorems": [
    "c88_outputs",
    "c88_package_clause",
    "c88_fails_iff",
    "c88_independent",
    "c88_no_capture"
   ],
   "note": ""
  },
  {
   "property": "C89",
   "status": "proved",
   "theorems": [
    "c89_package_iff",
    "c89_two_files_refuted",
    "c89_no_message_refuted",
    "c89_imported_type_refuted",
    "c89_keyword_package_refuted"
   ],
   "note": ""
  },
  {
   "property": "C90",
   "status": "proved",
   "theorems": [
    "c90_outputs",
    "c90_succeeds_iff",
    "c90_rustfmt",
    "c90_recursive_refuted",
    "c90_privacy"
   ],
   "note": ""
  },
  {
   "property": "C91",
   "status": "proved",
   "theorems": [
    "c91_module_iff",
    "c91_nested_enum_refuted",
    "c91_nested_map_refuted",
    "c91_used_name_refuted",
    "c91_imported_type_refuted",
    "c91_keyword_refuted"
   ],
   "note": ""
  },
  {
   "property": "C92",
   "status": "proved",
   "theorems": [
    "c92_v1_decode",
    "c92_v2_decode",
    "c92_v2_returns",
    "c92_v1_returns",
    "c92_v2_overflow_refuted",
    "c92_nil_receiver",
    "c92_new",
    "c92_shadowed_type_refuted",
    "c92_shared_refuted"
   ],
   "note": ""
  },
  {
   "property": "C93",
   "status": "proved",
   "theorems": [
    "c93_encode",
    "c93_error",
    "c93_v2_round_trip",
    "c93_v1_round_trip",
    "c93_cycle_refuted"
   ],
   "note": ""
  },
  {
   "property": "C94",
   "status": "proved",
   "theorems": [
    "c94_type_checks",
    "c94_v2_safe",
    "c94_v1_safe",
    "c94_shadowed_type_refuted",
    "c94_only_maps_refuted",
    "c94_enum_named_uint32_refuted"
   ],
   "note": ""
  },
  {
   "property": "C95",
   "status": "proved",
   "theorems": [
    "c95_text",
    "c95_text_without_header",
    "c95_legal_files",
    "c95_current_version_refuted"
   ],
   "note": ""
  },
  {
   "property": "C96",
   "status": "proved",
   "theorems": [
    "c96_rust_header",
    "c96_typescript_header",
    "c96_current_version_refuted"
   ],
   "note": ""
  },
  {
   "property": "C97",
   "status": "proved",
   "theorems": [
    "c97_rust_decode",
    "c97_any_input",
    "c97_stack_bound",
    "c97_hidden_library_type_refuted"
   ],
   "note": ""
  },
  {
   "property": "C98",
   "status": "proved",
   "theorems": [
    "c98_rust_encode",
    "c98_round_trip",
    "c98_go_v2_to_rust",
    "c98_rust_to_go_v2"
   ],
   "note": ""
  },
  {
   "property": "C99",
   "status": "proved",
   "theorems": [
    "c99_text",
    "c99_legal_files",
    "c99_current_version_refuted"
   ],
   "note": ""
  },
  {
   "property": "C100",
   "status": "proved",
   "theorems": [
    "c100_text",
    "c100_imports",
    "c100_legal_files",
    "c100_current_version_refuted",
    "c100_map_entries_refuted"
   ],
   "note": ""
  },
  {
   "property": "C101",
   "status": "proved",
   "theorems": [
    "c101_reading",
    "c101_program",
    "c101_v2_text_round_trip",
    "c101_v1_text_round_trip",
    "c101_v2_text_safe",
    "c101_v1_text_safe",
    "c101_text_type_checks",
    "c101_current_version_refuted"
   ],
   "note": ""
  }
 ]
}