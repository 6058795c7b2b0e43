{
 "claims": [
  {
   "property": "C01",
   "status": "proved",
   "theorems": [
    "C01_accept_sound"
   ],
   "note": ""
  },
  {
   "property": "C02",
   "status": "proved",
   "theorems": [
    "C02_valid_accepted",
    "C02_static_exact",
    "C02_accepts_total"
   ],
   "note": ""
  },
  {
   "property": "C03",
   "status": "proved",
   "theorems": [
    "C03_failure_codes",
    "C03_failure_selected"
   ],
   "note": ""
  },
  {
   "property": "C04",
   "status": "proved",
   "theorems": [
    "C04_bad_signature_refused"
   ],
   "note": ""
  },
  {
   "property": "C05",
   "status": "proved",
   "theorems": [
    "C05_magic_enforced"
   ],
   "note": ""
  },
  {
   "property": "C06",
   "status": "proved",
   "theorems": [
    "C06_window_exact"
   ],
   "note": ""
  },
  {
   "property": "C07",
   "status": "proved",
   "theorems": [
    "C07_exceptions_explained",
    "C07_no_exception",
    "C07_bad_date_blocks",
    "C07_no_exception_refuted"
   ],
   "note": "The statement in properties.jsonl is proved in full; the stronger natural claim it mentions is false of the code and its negation is proved by C07_no_exception_refuted."
  },
  {
   "property": "C08",
   "status": "proved",
   "theorems": [
    "C08_null_explained",
    "C08_silent_cases",
    "C08_silent_fails",
    "C08_no_null_refuted"
   ],
   "note": "The statement in properties.jsonl is proved in full; the stronger natural claim it mentions is false of the code and its negation is proved by C08_no_null_refuted."
  },
  {
   "property": "C09",
   "status": "proved",
   "theorems": [
    "C09_best_reported",
    "C09_best_unique"
   ],
   "note": ""
  },
  {
   "property": "C10",
   "status": "proved",
   "theorems": [
    "C10_days_left",
    "C10_rounding_unique",
    "C10_double_arithmetic"
   ],
   "note": ""
  },
  {
   "property": "C11",
   "status": "proved",
   "theorems": [
    "C11_linked_to_pc"
   ],
   "note": ""
  },
  {
   "property": "C12",
   "status": "proved",
   "theorems": [
    "C12_proprietary_data",
    "C12_default_refuted",
    "C12_unwritten"
   ],
   "note": "The statement in properties.jsonl is proved in full; the stronger natural claim it mentions is false of the code and its negation is proved by C12_default_refuted."
  },
  {
   "property": "C13",
   "status": "proved",
   "theorems": [
    "C13_status_of_call",
    "C13_export_last"
   ],
   "note": ""
  },
  {
   "property": "C14",
   "status": "proved",
   "theorems": [
    "C14_single_source",
    "C14_single_static"
   ],
   "note": ""
  },
  {
   "property": "C15",
   "status": "proved",
   "theorems": [
    "C15_code_recorded",
    "C15_exported_refuted",
    "C15_single_source"
   ],
   "note": "The statement in properties.jsonl is proved in full; the stronger natural claim it mentions is false of the code and its negation is proved by C15_exported_refuted."
  },
  {
   "property": "C16",
   "status": "proved",
   "theorems": [
    "C16_more_places_never_hurt"
   ],
   "note": ""
  },
  {
   "property": "C17",
   "status": "proved",
   "theorems": [
    "C17_resplit",
    "C17_limit_removed",
    "C17_signature_binds_refuted"
   ],
   "note": "The statement in properties.jsonl is proved in full; the stronger natural claim it mentions is false of the code and its negation is proved by C17_signature_binds_refuted."
  },
  {
   "property": "C18",
   "status": "proved",
   "theorems": [
    "C18_values_bound",
    "C18_feature_bound",
    "C18_altered_value",
    "C18_altered_feature",
    "C18_added_limit"
   ],
   "note": ""
  },
  {
   "property": "C19",
   "status": "proved",
   "theorems": [
    "C19_features_isolated",
    "C19_hints_isolated",
    "C19_foreign_section",
    "C19_features_isolated_windows",
    "C19_hints_isolated_windows"
   ],
   "note": ""
  },
  {
   "property": "C20",
   "status": "proved",
   "theorems": [
    "C20_index_valid",
    "C20_log_faithful",
    "C20_no_undefined",
    "C20_long_reference_refuted",
    "C20_progress_monotone",
    "C20_index_meaning"
   ],
   "note": "The statement in properties.jsonl is proved in full; the stronger natural claim it mentions is false of the code and its negation is proved by C20_long_reference_refuted."
  },
  {
   "property": "C21",
   "status": "proved",
   "theorems": [
    "C21_null_iff_no_error",
    "C21_selection",
    "C21_selection_unique"
   ],
   "note": ""
  },
  {
   "property": "C22",
   "status": "proved",
   "theorems": [
    "C22_lower",
    "C22_raise",
    "C22_good_iff"
   ],
   "note": ""
  },
  {
   "property": "C23",
   "status": "proved",
   "theorems": [
    "C23_base64_round_trip",
    "C23_base64_is_rfc4648",
    "C23_base64_lines"
   ],
   "note": ""
  },
  {
   "property": "C24",
   "status": "proved",
   "theorems": [
    "C24_base64_out_of_bounds",
    "C24_unbase64_decoded",
    "C24_unbase64_outcomes",
    "C24_memory_safety_refuted"
   ],
   "note": "The statement in properties.jsonl is proved in full; the stronger natural claim it mentions is false of the code and its negation is proved by C24_memory_safety_refuted."
  },
  {
   "property": "C25",
   "status": "proved",
   "theorems": [
    "C25_print_parse",
    "C25_print_injective"
   ],
   "note": ""
  },
  {
   "property": "C26",
   "status": "proved",
   "theorems": [
    "C26_print_format",
    "C26_print_length"
   ],
   "note": ""
  },
  {
   "property": "C27",
   "status": "proved",
   "theorems": [
    "C27_setters",
    "C27_set_strategy",
    "C27_set_strategy_throws",
    "C27_set_data",
    "C27_set_environment_flag",
    "C27_data_match",
    "C27_strategy_bits"
   ],
   "note": ""
  },
  {
   "property": "C28",
   "status": "proved",
   "theorems": [
    "C28_equality",
    "C28_equivalence"
   ],
   "note": ""
  },
  {
   "property": "C29",
   "status": "proved",
   "theorems": [
    "C29_generated_id_validates"
   ],
   "note": ""
  },
  {
   "property": "C30",
   "status": "proved",
   "theorems": [
    "C30_adapter_order",
    "C30_interleaving",
    "C30_added_adapters",
    "C30_disk_order"
   ],
   "note": ""
  },
  {
   "property": "C31",
   "status": "proved",
   "theorems": [
    "C31_accepted_iff_own",
    "C31_never_throws",
    "C31_undefined_iff",
    "C31_undefined_case",
    "C31_network_total"
   ],
   "note": ""
  },
  {
   "property": "C32",
   "status": "proved",
   "theorems": [
    "C32_unsupported_rejected",
    "C32_undecodable_rejected",
    "C32_identify_unsupported"
   ],
   "note": ""
  },
  {
   "property": "C33",
   "status": "proved",
   "theorems": [
    "C33_protocol",
    "C33_never_throws",
    "C33_undefined_only_from_hardware"
   ],
   "note": ""
  },
  {
   "property": "C34",
   "status": "proved",
   "theorems": [
    "C34_blkid_refuted",
    "C34_network_distinct",
    "C34_disks_refuted"
   ],
   "note": "The statement in properties.jsonl is proved in full; the stronger natural claim it mentions is false of the code and its negation is proved by C34_blkid_refuted, C34_disks_refuted."
  },
  {
   "property": "C35",
   "status": "proved",
   "theorems": [
    "C35_generated_own",
    "C35_one_per_adapter",
    "C35_zero_not_accepted"
   ],
   "note": ""
  },
  {
   "property": "C36",
   "status": "proved",
   "theorems": [
    "C36_adapters",
    "C36_none",
    "C36_interleaving"
   ],
   "note": ""
  },
  {
   "property": "C37",
   "status": "proved",
   "theorems": [
    "C37_order",
    "C37_first_is_generated",
    "C37_by_uuid",
    "C37_fstab_uuid",
    "C37_fstab_label",
    "C37_preferred_only_if",
    "C37_fstab_device_refuted",
    "C37_fstab_label_uninitialised"
   ],
   "note": "The statement in properties.jsonl is proved in full; the stronger natural claim it mentions is false of the code and its negation is proved by C37_fstab_device_refuted."
  },
  {
   "property": "C38",
   "status": "proved",
   "theorems": [
    "C38_parse_uuid",
    "C38_short_uuid",
    "C38_scratch_refuted",
    "C38_no_separator_overruns"
   ],
   "note": "The statement in properties.jsonl is proved in full; the stronger natural claim it mentions is false of the code and its negation is proved by C38_scratch_refuted."
  },
  {
   "property": "C39",
   "status": "proved",
   "theorems": [
    "C39_count",
    "C39_terminates",
    "C39_attributes",
    "C39_first_name",
    "C39_names_refuted",
    "C39_labels_refuted"
   ],
   "note": "The statement in properties.jsonl is proved in full; the stronger natural claim it mentions is false of the code and its negation is proved by C39_names_refuted, C39_labels_refuted."
  },
  {
   "property": "C40",
   "status": "proved",
   "theorems": [
    "C40_trim_copy",
    "C40_trim_copy_unique",
    "C40_trim_copy_idempotent"
   ],
   "note": ""
  },
  {
   "property": "C41",
   "status": "proved",
   "theorems": [
    "C41_split_string"
   ],
   "note": ""
  },
  {
   "property": "C42",
   "status": "proved",
   "theorems": [
    "C42_mstrlcpy",
    "C42_mstrlcpy_frame",
    "C42_mstrlcpy_zero",
    "C42_mstrlcpy_overread",
    "C42_mstrlcpy_overflow"
   ],
   "note": ""
  },
  {
   "property": "C43",
   "status": "proved",
   "theorems": [
    "C43_mstrnlen_s",
    "C43_mstrnlen_s_over_read",
    "C43_reads_only_maxsize_refuted"
   ],
   "note": "The statement in properties.jsonl is proved in full; the stronger natural claim it mentions is false of the code and its negation is proved by C43_reads_only_maxsize_refuted."
  },
  {
   "property": "C44",
   "status": "proved",
   "theorems": [
    "C44_plain",
    "C44_separated",
    "C44_accepted_iff",
    "C44_rejected_iff",
    "C44_one_date",
    "C44_length",
    "C44_outcome",
    "C44_calendar",
    "C44_monotone",
    "C44_only_dates_refuted"
   ],
   "note": "The statement in properties.jsonl is proved in full; the stronger natural claim it mentions is false of the code and its negation is proved by C44_only_dates_refuted."
  },
  {
   "property": "C45",
   "status": "proved",
   "theorems": [
    "C45_identify_format"
   ],
   "note": ""
  },
  {
   "property": "C46",
   "status": "proved",
   "theorems": [
    "C46_remove_extension",
    "C46_remove_extension_else"
   ],
   "note": ""
  },
  {
   "property": "C47",
   "status": "proved",
   "theorems": [
    "C47_line_oriented",
    "C47_stops_at_nul",
    "C47_clean"
   ],
   "note": ""
  },
  {
   "property": "C48",
   "status": "proved",
   "theorems": [
    "C48_strict_weak_order",
    "C48_lookup",
    "C48_last_wins"
   ],
   "note": ""
  },
  {
   "property": "C49",
   "status": "proved",
   "theorems": [
    "C49_save_load",
    "C49_reload",
    "C49_nameless_header_refuted"
   ],
   "note": "The statement in properties.jsonl is proved in full; the stronger natural claim it mentions is false of the code and its negation is proved by C49_nameless_header_refuted."
  },
  {
   "property": "C50",
   "status": "proved",
   "theorems": [
    "C50_size_limit",
    "C50_readable_part",
    "C50_size_limit_windows"
   ],
   "note": ""
  },
  {
   "property": "C51",
   "status": "proved",
   "theorems": [
    "C51_search_order",
    "C51_nothing_else",
    "C51_nothing_else_windows"
   ],
   "note": ""
  },
  {
   "property": "C52",
   "status": "proved",
   "theorems": [
    "C52_encoded_with_nul",
    "C52_encoded_refuted",
    "C52_encoded_with_nul_windows",
    "C52_encoded_refuted_windows"
   ],
   "note": "The statement in properties.jsonl is proved in full; the stronger natural claim it mentions is false of the code and its negation is proved by C52_encoded_refuted."
  },
  {
   "property": "C53",
   "status": "proved",
   "theorems": [
    "C53_data_refuted",
    "C53_data_refuted_windows"
   ],
   "note": "The statement in properties.jsonl is proved in full; the stronger natural claim it mentions is false of the code and its negation is proved by C53_data_refuted."
  },
  {
   "property": "C54",
   "status": "proved",
   "theorems": [
    "C54_summary",
    "C54_hash_order",
    "C54_hash_order_detail",
    "C54_detail_order_refuted",
    "C54_environment",
    "C54_detail_complete",
    "C54_determined",
    "C54_defined_iff",
    "C54_defined_refuted"
   ],
   "note": "The statement in properties.jsonl is proved in full; the stronger natural claim it mentions is false of the code and its negation is proved by C54_detail_order_refuted, C54_defined_refuted."
  },
  {
   "property": "C55",
   "status": "proved",
   "theorems": [
    "C55_log_path_safe",
    "C55_log_path_unsafe",
    "C55_log_path_refuted",
    "C55_log_histories"
   ],
   "note": "The statement in properties.jsonl is proved in full; the stronger natural claim it mentions is false of the code and its negation is proved by C55_log_path_refuted."
  },
  {
   "property": "C56",
   "status": "proved",
   "theorems": [
    "C56_buffer_in_bounds",
    "C56_short_signatures",
    "C56_any_signature_refuted"
   ],
   "note": "The statement in properties.jsonl is proved in full; the stronger natural claim it mentions is false of the code and its negation is proved by C56_any_signature_refuted."
  },
  {
   "property": "C57",
   "status": "proved",
   "theorems": [
    "C57_default_strategy",
    "C57_docker_cloud_fails",
    "C57_always_available_refuted"
   ],
   "note": "The statement in properties.jsonl is proved in full; the stronger natural claim it mentions is false of the code and its negation is proved by C57_always_available_refuted."
  },
  {
   "property": "C58",
   "status": "proved",
   "theorems": [
    "C58_returns_or_hazard",
    "C58_returns_when_calm"
   ],
   "note": ""
  },
  {
   "property": "C59",
   "status": "proved",
   "theorems": [
    "C59_listing",
    "C59_by_uuid_defined"
   ],
   "note": ""
  },
  {
   "property": "C60",
   "status": "proved",
   "theorems": [
    "C60_vendor",
    "C60_brand",
    "C60_brand_short",
    "C60_hypervisor",
    "C60_model",
    "C60_silent",
    "C60_brand_recognised_refuted"
   ],
   "note": "The statement in properties.jsonl is proved in full; the stronger natural claim it mentions is false of the code and its negation is proved by C60_brand_recognised_refuted."
  },
  {
   "property": "C61",
   "status": "proved",
   "theorems": [
    "C61_first_environment",
    "C61_current_identifier",
    "C61_current_environment_refuted"
   ],
   "note": "The statement in properties.jsonl is proved in full; the stronger natural claim it mentions is false of the code and its negation is proved by C61_current_environment_refuted."
  },
  {
   "property": "C62",
   "status": "proved",
   "theorems": [
    "C62_other_methods",
    "C62_empty",
    "C62_one_number",
    "C62_ignored",
    "C62_three_fails",
    "C62_choice",
    "C62_garbage",
    "C62_unrecognised_ignored_refuted"
   ],
   "note": "The statement in properties.jsonl is proved in full; the stronger natural claim it mentions is false of the code and its negation is proved by C62_unrecognised_ignored_refuted."
  },
  {
   "property": "C63",
   "status": "proved",
   "theorems": [
    "C63_structures",
    "C63_any_table",
    "C63_memory_safety_refuted"
   ],
   "note": "The statement in properties.jsonl is proved in full; the stronger natural claim it mentions is false of the code and its negation is proved by C63_memory_safety_refuted."
  },
  {
   "property": "C64",
   "status": "proved",
   "theorems": [
    "C64_information",
    "C64_unavailable",
    "C64_well_formed_defined_refuted",
    "C64_old_processor_refuted"
   ],
   "note": "The statement in properties.jsonl is proved in full; the stronger natural claim it mentions is false of the code and its negation is proved by C64_well_formed_defined_refuted, C64_old_processor_refuted."
  },
  {
   "property": "C65",
   "status": "proved",
   "theorems": [
    "C65_double_free_iff"
   ],
   "note": ""
  },
  {
   "property": "C66",
   "status": "proved",
   "theorems": [
    "C66_dotted",
    "C66_any_text",
    "C66_unterminated"
   ],
   "note": ""
  },
  {
   "property": "C67",
   "status": "proved",
   "theorems": [
    "C67_adapters",
    "C67_comparison",
    "C67_enumeration_order",
    "C67_failures",
    "C67_error_reported_refuted"
   ],
   "note": "The statement in properties.jsonl is proved in full; the stronger natural claim it mentions is false of the code and its negation is proved by C67_error_reported_refuted."
  },
  {
   "property": "C68",
   "status": "proved",
   "theorems": [
    "C68_disks"
   ],
   "note": ""
  },
  {
   "property": "C69",
   "status": "proved",
   "theorems": [
    "C69_accepted_iff_own",
    "C69_undefined_iff",
    "C69_disk_codes",
    "C69_same_as_linux",
    "C69_file_system_accepted",
    "C69_code_of_one_machine_refuted"
   ],
   "note": "The statement in properties.jsonl is proved in full; the stronger natural claim it mentions is false of the code and its negation is proved by C69_code_of_one_machine_refuted."
  },
  {
   "property": "C70",
   "status": "proved",
   "theorems": [
    "C70_generated_is_accepted",
    "C70_disk_origin",
    "C70_ethernet_origin",
    "C70_ip_origin",
    "C70_default_strategy"
   ],
   "note": ""
  },
  {
   "property": "C71",
   "status": "proved",
   "theorems": [
    "C71_environment",
    "C71_processor",
    "C71_usual_spelling_refuted",
    "C71_wine_container",
    "C71_wine_kind"
   ],
   "note": "The statement in properties.jsonl is proved in full; the stronger natural claim it mentions is false of the code and its negation is proved by C71_usual_spelling_refuted."
  },
  {
   "property": "C72",
   "status": "proved",
   "theorems": [
    "C72_key_read",
    "C72_short_exponent_refuted",
    "C72_large_key_refuted",
    "C72_long_length",
    "C72_long_length_negative",
    "C72_length_overflow",
    "C72_stays_inside",
    "C72_nonempty"
   ],
   "note": "The statement in properties.jsonl is proved in full; the stronger natural claim it mentions is false of the code and its negation is proved by C72_short_exponent_refuted, C72_large_key_refuted."
  },
  {
   "property": "C73",
   "status": "proved",
   "theorems": [
    "C73_accepts",
    "C73_refuses",
    "C73_throws",
    "C73_undefined",
    "C73_released",
    "C73_leak_refuted",
    "C73_nonempty"
   ],
   "note": "The statement in properties.jsonl is proved in full; the stronger natural claim it mentions is false of the code and its negation is proved by C73_leak_refuted."
  },
  {
   "property": "C74",
   "status": "proved",
   "theorems": [
    "C74_released",
    "C74_all_released",
    "C74_leak_refuted",
    "C74_fails_closed",
    "C74_same",
    "C74_nonempty"
   ],
   "note": "The statement in properties.jsonl is proved in full; the stronger natural claim it mentions is false of the code and its negation is proved by C74_leak_refuted."
  },
  {
   "property": "C75",
   "status": "proved",
   "theorems": [
    "C75_described",
    "C75_default_project",
    "C75_section",
    "C75_texts",
    "C75_asked_in_full",
    "C75_sections_refuted",
    "C75_sections_listed",
    "C75_path_overflow"
   ],
   "note": "The statement in properties.jsonl is proved in full; the stronger natural claim it mentions is false of the code and its negation is proved by C75_sections_refuted."
  },
  {
   "property": "C76",
   "status": "proved",
   "theorems": [
    "C76_identifiers",
    "C76_environment",
    "C76_adapters",
    "C76_adapters_shown",
    "C76_address_order_refuted",
    "C76_files",
    "C76_runs"
   ],
   "note": "The statement in properties.jsonl is proved in full; the stronger natural claim it mentions is false of the code and its negation is proved by C76_address_order_refuted."
  },
  {
   "property": "C77",
   "status": "proved",
   "theorems": [
    "C77_inside",
    "C77_stable",
    "C77_comments",
    "C77_lookups",
    "C77_values"
   ],
   "note": ""
  },
  {
   "property": "C78",
   "status": "proved",
   "theorems": [
    "C78_same_as_linux",
    "C78_outcome",
    "C78_accept_sound",
    "C78_valid_accepted",
    "C78_static_exact",
    "C78_failure_codes",
    "C78_module_path",
    "C78_nonempty",
    "C78_returns_refuted"
   ],
   "note": "The statement in properties.jsonl is proved in full; the stronger natural claim it mentions is false of the code and its negation is proved by C78_returns_refuted."
  },
  {
   "property": "C79",
   "status": "proved",
   "theorems": [
    "C79_returns_or_hazard",
    "C79_returns_when_calm",
    "C79_accepts_total",
    "C79_exceptions_explained",
    "C79_null_explained",
    "C79_bad_signature_blocks",
    "C79_cases_refuted"
   ],
   "note": "The statement in properties.jsonl is proved in full; the stronger natural claim it mentions is false of the code and its negation is proved by C79_cases_refuted."
  },
  {
   "property": "C80",
   "status": "proved",
   "theorems": [
    "C80_entries",
    "C80_text_layout",
    "C80_file_layout",
    "C80_file_layout_windows",
    "C80_text_layout_windows"
   ],
   "note": ""
  },
  {
   "property": "C81",
   "status": "proved",
   "theorems": [
    "C81_issued_verdict",
    "C81_unlicensed"
   ],
   "note": ""
  },
  {
   "property": "C82",
   "status": "proved",
   "theorems": [
    "C82_repeatable",
    "C82_repeatable_windows",
    "C82_code_without_out"
   ],
   "note": ""
  },
  {
   "property": "C83",
   "status": "proved",
   "theorems": [
    "C83_case_insensitive",
    "C83_case_insensitive_windows"
   ],
   "note": ""
  },
  {
   "property": "C84",
   "status": "proved",
   "theorems": [
    "C84_clock",
    "C84_machine",
    "C84_key",
    "C84_clock_windows",
    "C84_machine_windows",
    "C84_key_windows"
   ],
   "note": ""
  },
  {
   "property": "C85",
   "status": "proved",
   "theorems": [
    "C85_accesses",
    "C85_no_others",
    "C85_files_touched",
    "C85_hardware_private",
    "C85_bounded",
    "C85_duration"
   ],
   "note": ""
  },
  {
   "property": "C86",
   "status": "proved",
   "theorems": [
    "C86_as_if_alone",
    "C86_order",
    "C86_sound",
    "C86_independent",
    "C86_wait_free",
    "C86_no_new_faults"
   ],
   "note": ""
  },
  {
   "property": "C87",
   "status": "proved",
   "theorems": [
    "C87_accepted_at_home",
    "C87_expired_at_home",
    "C87_refused_elsewhere"
   ],
   "note": ""
  },
  {
   "property": "C88",
   "status": "proved",
   "theorems": [
    "C88_refused_for_good",
    "C88_days_never_grow",
    "C88_days_reliable",
    "C88_days_exhausted",
    "C88_refused_for_good_windows",
    "C88_days_never_grow_windows",
    "C88_days_reliable_windows",
    "C88_days_exhausted_windows"
   ],
   "note": ""
  },
  {
   "property": "C89",
   "status": "proved",
   "theorems": [
    "C89_same",
    "C89_disks",
    "C89_container",
    "C89_adapters",
    "C89_windows_adapters",
    "C89_for_ever",
    "C89_at_most_two"
   ],
   "note": ""
  },
  {
   "property": "C90",
   "status": "proved",
   "theorems": [
    "C90_told",
    "C90_only_valid_matter",
    "C90_one_more",
    "C90_told_windows",
    "C90_only_valid_matter_windows",
    "C90_one_more_windows"
   ],
   "note": ""
  },
  {
   "property": "C91",
   "status": "proved",
   "theorems": [
    "C91_utf8_utf16",
    "C91_utf8_utf32",
    "C91_utf16_utf32",
    "C91_utf16_utf8",
    "C91_utf32_utf16",
    "C91_utf32_utf8"
   ],
   "note": ""
  },
  {
   "property": "C92",
   "status": "proved",
   "theorems": [
    "C92_from_utf8",
    "C92_from_utf16",
    "C92_from_utf32",
    "C92_round_trip"
   ],
   "note": ""
  },
  {
   "property": "C93",
   "status": "proved",
   "theorems": [
    "C93_legal",
    "C93_proper",
    "C93_improper_accepted",
    "C93_strict_ignored",
    "C93_strict_drops"
   ],
   "note": ""
  },
  {
   "property": "C94",
   "status": "proved",
   "theorems": [
    "C94_load",
    "C94_store",
    "C94_stored",
    "C94_round_trip"
   ],
   "note": ""
  },
  {
   "property": "C95",
   "status": "proved",
   "theorems": [
    "C95_output",
    "C95_identifiers",
    "C95_addresses_readable",
    "C95_quiet"
   ],
   "note": ""
  },
  {
   "property": "C96",
   "status": "proved",
   "theorems": [
    "C96_disks",
    "C96_validate",
    "C96_acquire",
    "C96_identify",
    "C96_opened",
    "C96_container",
    "C96_text_has_lines",
    "C96_cgroup_lines",
    "C96_systemd_lines"
   ],
   "note": ""
  },
  {
   "property": "C97",
   "status": "proved",
   "theorems": [
    "C97_issued_verdict",
    "C97_unlicensed",
    "C97_way_irrelevant",
    "C97_told_same",
    "C97_enrolled"
   ],
   "note": ""
  },
  {
   "property": "C98",
   "status": "proved",
   "theorems": [
    "C98_issued_verdict",
    "C98_unlicensed",
    "C98_way_irrelevant",
    "C98_told_same",
    "C98_enrolled"
   ],
   "note": ""
  },
  {
   "property": "C99",
   "status": "proved",
   "theorems": [
    "C99_issued_verdict",
    "C99_unlicensed",
    "C99_as_if_alone",
    "C99_told_same",
    "C99_windows_verdict",
    "C99_windows_unlicensed",
    "C99_windows_as_if_alone"
   ],
   "note": ""
  },
  {
   "property": "C100",
   "status": "proved",
   "theorems": [
    "C100_one_environment",
    "C100_found",
    "C100_order",
    "C100_independent",
    "C100_no_deadlock",
    "C100_no_new_faults",
    "C100_can_finish"
   ],
   "note": ""
  },
  {
   "property": "C101",
   "status": "proved",
   "theorems": [
    "C101_one_thread",
    "C101_after_first",
    "C101_messages_arrive",
    "C101_race_refuted",
    "C101_prepared_refuted",
    "C101_once_refuted",
    "C101_one_stream_refuted",
    "C101_prints_refuted",
    "C101_shutdown_prints_refuted",
    "C101_closes_refuted"
   ],
   "note": "The statement in properties.jsonl is proved in full; the stronger natural claim it mentions is false of the code and its negation is proved by C101_race_refuted, C101_prepared_refuted, C101_once_refuted, C101_one_stream_refuted, C101_prints_refuted, C101_shutdown_prints_refuted, C101_closes_refuted."
  },
  {
   "property": "C102",
   "status": "proved",
   "theorems": [
    "C102_document",
    "C102_set_get",
    "C102_replace",
    "C102_append",
    "C102_frame",
    "C102_delete",
    "C102_delete_section",
    "C102_reset"
   ],
   "note": ""
  },
  {
   "property": "C103",
   "status": "proved",
   "theorems": [
    "C103_pointers_stay",
    "C103_pass_back",
    "C103_delete_sections",
    "C103_delete_key_uaf",
    "C103_replace_key_uaf",
    "C103_replace_value_uaf",
    "C103_growth",
    "C103_reset_frees"
   ],
   "note": ""
  },
  {
   "property": "C104",
   "status": "proved",
   "theorems": [
    "C104_long",
    "C104_hex",
    "C104_bool",
    "C104_flag",
    "C104_double_overflow",
    "C104_double_fits"
   ],
   "note": ""
  },
  {
   "property": "C105",
   "status": "proved",
   "theorems": [
    "C105_reloaded",
    "C105_written",
    "C105_library_reads",
    "C105_unnamed_lost"
   ],
   "note": ""
  },
  {
   "property": "C106",
   "status": "proved",
   "theorems": [
    "C106_inside",
    "C106_off",
    "C106_loads",
    "C106_plain",
    "C106_empty_value",
    "C106_empty_tag"
   ],
   "note": ""
  },
  {
   "property": "C107",
   "status": "proved",
   "theorems": [
    "C107_written",
    "C107_reloaded",
    "C107_cut"
   ],
   "note": ""
  },
  {
   "property": "C108",
   "status": "proved",
   "theorems": [
    "C108_same",
    "C108_text_again",
    "C108_single_values"
   ],
   "note": ""
  },
  {
   "property": "C109",
   "status": "proved",
   "theorems": [
    "C109_text",
    "C109_grows",
    "C109_atomic",
    "C109_accept_sound",
    "C109_prefix",
    "C109_replace_safe"
   ],
   "note": ""
  },
  {
   "property": "C110",
   "status": "proved",
   "theorems": [
    "C110_one_number",
    "C110_read",
    "C110_missing",
    "C110_given",
    "C110_round_trip"
   ],
   "note": ""
  },
  {
   "property": "C111",
   "status": "proved",
   "theorems": [
    "C111_items",
    "C111_entries",
    "C111_lookup",
    "C111_value",
    "C111_never_better",
    "C111_call"
   ],
   "note": ""
  },
  {
   "property": "C112",
   "status": "proved",
   "theorems": [
    "C112_code",
    "C112_complete",
    "C112_prefix",
    "C112_load",
    "C112_inspector",
    "C112_round_trip",
    "C112_values",
    "C112_hole_refuted"
   ],
   "note": "The statement in properties.jsonl is proved in full; the stronger natural claim it mentions is false of the code and its negation is proved by C112_hole_refuted."
  },
  {
   "property": "C113",
   "status": "proved",
   "theorems": [
    "C113_read",
    "C113_too_late",
    "C113_switch",
    "C113_saved",
    "C113_round_trip",
    "C113_harmless",
    "C113_section_lost",
    "C113_refused"
   ],
   "note": ""
  },
  {
   "property": "C114",
   "status": "proved",
   "theorems": [
    "C114_undisturbed",
    "C114_wait_free",
    "C114_alone",
    "C114_turns",
    "C114_only_marks",
    "C114_same_identifiers",
    "C114_race_refuted",
    "C114_throws_refuted",
    "C114_first_identifier_refuted"
   ],
   "note": "The statement in properties.jsonl is proved in full; the stronger natural claim it mentions is false of the code and its negation is proved by C114_race_refuted, C114_throws_refuted, C114_first_identifier_refuted."
  },
  {
   "property": "C115",
   "status": "proved",
   "theorems": [
    "C115_loads",
    "C115_get",
    "C115_all",
    "C115_section",
    "C115_texts",
    "C115_texts_all",
    "C115_one_load",
    "C115_again",
    "C115_again_refuted"
   ],
   "note": "The statement in properties.jsonl is proved in full; the stronger natural claim it mentions is false of the code and its negation is proved by C115_again_refuted."
  },
  {
   "property": "C116",
   "status": "proved",
   "theorems": [
    "C116_patterns",
    "C116_matcher",
    "C116_format",
    "C116_same",
    "C116_stack",
    "C116_stack_license",
    "C116_stack_enough",
    "C116_stack_format"
   ],
   "note": ""
  },
  {
   "property": "C117",
   "status": "proved",
   "theorems": [
    "C117_same",
    "C117_outcome",
    "C117_accept_sound",
    "C117_never_better",
    "C117_blind",
    "C117_valid_accepted",
    "C117_returns_refuted",
    "C117_any_scheme_refuted"
   ],
   "note": "The statement in properties.jsonl is proved in full; the stronger natural claim it mentions is false of the code and its negation is proved by C117_returns_refuted, C117_any_scheme_refuted."
  },
  {
   "property": "C118",
   "status": "proved",
   "theorems": [
    "C118_vfprintf",
    "C118_one_text",
    "C118_line",
    "C118_release",
    "C118_faulty",
    "C118_defined_refuted",
    "C118_verbatim",
    "C118_one_line_refuted"
   ],
   "note": "The statement in properties.jsonl is proved in full; the stronger natural claim it mentions is false of the code and its negation is proved by C118_defined_refuted, C118_one_line_refuted."
  },
  {
   "property": "C119",
   "status": "proved",
   "theorems": [
    "C119_same",
    "C119_outcome",
    "C119_accept_sound",
    "C119_never_better",
    "C119_blind",
    "C119_valid_accepted",
    "C119_returns_refuted"
   ],
   "note": "The statement in properties.jsonl is proved in full; the stronger natural claim it mentions is false of the code and its negation is proved by C119_returns_refuted."
  },
  {
   "property": "C120",
   "status": "proved",
   "theorems": [
    "C120_value",
    "C120_ends_iff",
    "C120_result",
    "C120_no_buffer",
    "C120_fits",
    "C120_short_texts_differ",
    "C120_one_character",
    "C120_places_exchanged",
    "C120_repeated_part",
    "C120_no_overrun"
   ],
   "note": ""
  }
 ]
}