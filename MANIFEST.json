{
 "claims": [
  {
   "property": "C01",
   "status": "proved",
   "theorems": [
    "C01_append",
    "C01_create",
    "C01_create_in_list",
    "C01_history"
   ],
   "note": ""
  },
  {
   "property": "C02",
   "status": "proved",
   "theorems": [
    "C02_first",
    "C02_second",
    "C02_history"
   ],
   "note": ""
  },
  {
   "property": "C03",
   "status": "proved",
   "theorems": [
    "C03_history",
    "C03_step"
   ],
   "note": ""
  },
  {
   "property": "C04",
   "status": "proved",
   "theorems": [
    "C04_frame",
    "C04_total",
    "C04_blocked",
    "C04_merge_dict",
    "C04_merge_list",
    "C04_history",
    "C04_limits"
   ],
   "note": ""
  },
  {
   "property": "C05",
   "status": "proved",
   "theorems": [
    "C05_first_match_wins"
   ],
   "note": ""
  },
  {
   "property": "C06",
   "status": "proved",
   "theorems": [
    "C06_muted",
    "C06_others_unaffected"
   ],
   "note": ""
  },
  {
   "property": "C07",
   "status": "proved",
   "theorems": [
    "C07_end"
   ],
   "note": ""
  },
  {
   "property": "C08",
   "status": "proved",
   "theorems": [
    "C08_chain",
    "C08_false_discards",
    "C08_true_saves"
   ],
   "note": ""
  },
  {
   "property": "C09",
   "status": "proved",
   "theorems": [
    "C09_flush",
    "C09_order",
    "C09_remembered",
    "C09_unknown_discards",
    "C09_limits"
   ],
   "note": ""
  },
  {
   "property": "C10",
   "status": "proved",
   "theorems": [
    "C10_verbatim",
    "C10_own",
    "C10_borrowed",
    "C10_one_key",
    "C10_plain_key",
    "C10_limits",
    "C10_raises_limits"
   ],
   "note": ""
  },
  {
   "property": "C11",
   "status": "proved",
   "theorems": [
    "C11_skipped",
    "C11_trailing",
    "C11_trailing_list",
    "C11_missing",
    "C11_limits"
   ],
   "note": ""
  },
  {
   "property": "C12",
   "status": "proved",
   "theorems": [
    "C12_no_digits",
    "C12_same_up_to_numbers",
    "C12_second_lost",
    "C12_limits",
    "C12_raises_limits",
    "C12_collide_limits"
   ],
   "note": ""
  },
  {
   "property": "C13",
   "status": "proved",
   "theorems": [
    "C13_strings",
    "C13_strings_absent",
    "C13_lists",
    "C13_joined",
    "C13_total",
    "C13_limits"
   ],
   "note": ""
  },
  {
   "property": "C14",
   "status": "proved",
   "theorems": [
    "C14_tail_starts",
    "C14_into_list",
    "C14_into_dict",
    "C14_nested_list",
    "C14_nested_dict",
    "C14_empty",
    "C14_missing",
    "C14_limits",
    "C14_overrides_limits"
   ],
   "note": ""
  },
  {
   "property": "C15",
   "status": "proved",
   "theorems": [
    "C15_list_group",
    "C15_plain_group"
   ],
   "note": ""
  },
  {
   "property": "C16",
   "status": "proved",
   "theorems": [
    "C16_choice"
   ],
   "note": ""
  },
  {
   "property": "C17",
   "status": "proved",
   "theorems": [
    "C17_chain_in_order",
    "C17_first_false_stops",
    "C17_value",
    "C17_line",
    "C17_rejected_iff",
    "C17_values_independent"
   ],
   "note": ""
  },
  {
   "property": "C18",
   "status": "proved",
   "theorems": [
    "C18_text_order",
    "C18_all_matches"
   ],
   "note": ""
  },
  {
   "property": "C19",
   "status": "proved",
   "theorems": [
    "C19_after_first_start",
    "C19_no_start"
   ],
   "note": ""
  },
  {
   "property": "C20",
   "status": "proved",
   "theorems": [
    "C20_one_default_record",
    "C20_defaults_last",
    "C20_default_after_matches",
    "C20_defaults_saved"
   ],
   "note": ""
  },
  {
   "property": "C21",
   "status": "proved",
   "theorems": [
    "C21_after_end",
    "C21_limits_offset",
    "C21_limits_same_place",
    "C21_limits_next_line"
   ],
   "note": ""
  },
  {
   "property": "C22",
   "status": "proved",
   "theorems": [
    "C22_inputs_isolated",
    "C22_variables_of_an_input"
   ],
   "note": ""
  },
  {
   "property": "C23",
   "status": "proved",
   "theorems": [
    "C23_parse_in_one_process",
    "C23_per_input",
    "C23_shape"
   ],
   "note": ""
  },
  {
   "property": "C24",
   "status": "proved",
   "theorems": [
    "C24_per_template"
   ],
   "note": ""
  },
  {
   "property": "C25",
   "status": "proved",
   "theorems": [
    "C25_parse_again",
    "C25_clear_then_parse",
    "C25_clear_selected"
   ],
   "note": ""
  },
  {
   "property": "C26",
   "status": "proved",
   "theorems": [
    "C26_structures_agree",
    "C26_selection"
   ],
   "note": ""
  },
  {
   "property": "C27",
   "status": "proved",
   "theorems": [
    "C27_data_of_inputs",
    "C27_add_again"
   ],
   "note": ""
  },
  {
   "property": "C28",
   "status": "proved",
   "theorems": [
    "C28_process_mode"
   ],
   "note": ""
  },
  {
   "property": "C29",
   "status": "proved",
   "theorems": [
    "C29_permutation",
    "C29_same_success",
    "C29_sessions",
    "C29_fits_C25"
   ],
   "note": ""
  },
  {
   "property": "C30",
   "status": "proved",
   "theorems": [
    "C30_no_deadlock",
    "C30_bounded",
    "C30_completes"
   ],
   "note": ""
  },
  {
   "property": "C31",
   "status": "proved",
   "theorems": [
    "C31_outcomes",
    "C31_one_worker",
    "C31_one_datum",
    "C31_limits"
   ],
   "note": ""
  },
  {
   "property": "C32",
   "status": "proved",
   "theorems": [
    "C32_custom_functions",
    "C32_known_scopes"
   ],
   "note": ""
  },
  {
   "property": "C33",
   "status": "proved",
   "theorems": [
    "C33_every_tag_is_a_group",
    "C33_absolute_path",
    "C33_relative_path"
   ],
   "note": ""
  },
  {
   "property": "C34",
   "status": "proved",
   "theorems": [
    "C34_one_role",
    "C34_lists",
    "C34_variable_marks",
    "C34_line_marks"
   ],
   "note": ""
  },
  {
   "property": "C35",
   "status": "proved",
   "theorems": [
    "C35_identifier",
    "C35_same_id",
    "C35_siblings",
    "C35_tops",
    "C35_limits"
   ],
   "note": ""
  },
  {
   "property": "C36",
   "status": "proved",
   "theorems": [
    "C36_settled",
    "C36_exact",
    "C36_known",
    "C36_limits"
   ],
   "note": ""
  },
  {
   "property": "C37",
   "status": "proved",
   "theorems": [
    "C37_first_add",
    "C37_next_add"
   ],
   "note": ""
  },
  {
   "property": "C38",
   "status": "proved",
   "theorems": [
    "C38_line",
    "C38_search",
    "C38_blank_run",
    "C38_exact"
   ],
   "note": ""
  },
  {
   "property": "C39",
   "status": "proved",
   "theorems": [
    "C39_limits",
    "C39_exact",
    "C39_exact_space"
   ],
   "note": ""
  },
  {
   "property": "C40",
   "status": "proved",
   "theorems": [
    "C40_filters"
   ],
   "note": ""
  },
  {
   "property": "C41",
   "status": "proved",
   "theorems": [
    "C41_unrange",
    "C41_range",
    "C41_no_range"
   ],
   "note": ""
  },
  {
   "property": "C42",
   "status": "proved",
   "theorems": [
    "C42_canonical",
    "C42_idempotent",
    "C42_other_text"
   ],
   "note": ""
  },
  {
   "property": "C43",
   "status": "proved",
   "theorems": [
    "C43_mask",
    "C43_bits",
    "C43_not_numbers"
   ],
   "note": ""
  },
  {
   "property": "C44",
   "status": "proved",
   "theorems": [
    "C44_list",
    "C44_str"
   ],
   "note": ""
  },
  {
   "property": "C45",
   "status": "proved",
   "theorems": [
    "C45_truncate",
    "C45_words"
   ],
   "note": ""
  },
  {
   "property": "C46",
   "status": "proved",
   "theorems": [
    "C46_greaterthan",
    "C46_lessthan",
    "C46_not_digits",
    "C46_isdigit_notdigit",
    "C46_contains",
    "C46_exclude",
    "C46_re_complements",
    "C46_re",
    "C46_equal"
   ],
   "note": ""
  },
  {
   "property": "C47",
   "status": "proved",
   "theorems": [
    "C47_append",
    "C47_prepend",
    "C47_join"
   ],
   "note": ""
  },
  {
   "property": "C48",
   "status": "proved",
   "theorems": [
    "C48_replaceall",
    "C48_one_argument"
   ],
   "note": ""
  },
  {
   "property": "C49",
   "status": "proved",
   "theorems": [
    "C49_lookup_found",
    "C49_lookup_missing",
    "C49_lookup_no_table",
    "C49_add_field_keeps",
    "C49_rlookup",
    "C49_gpvlookup"
   ],
   "note": ""
  },
  {
   "property": "C50",
   "status": "proved",
   "theorems": [
    "C50_record",
    "C50_set_reads_recorded",
    "C50_set_global",
    "C50_set_other_line",
    "C50_count",
    "C50_count_var_only"
   ],
   "note": ""
  },
  {
   "property": "C51",
   "status": "proved",
   "theorems": [
    "C51_containsall",
    "C51_contains",
    "C51_exclude",
    "C51_excludeall",
    "C51_run"
   ],
   "note": ""
  },
  {
   "property": "C52",
   "status": "proved",
   "theorems": [
    "C52_equal",
    "C52_exclude_val",
    "C52_contains_val_text",
    "C52_contains_val_list",
    "C52_contains_val_missing"
   ],
   "note": ""
  },
  {
   "property": "C53",
   "status": "proved",
   "theorems": [
    "C53_del",
    "C53_items2dict",
    "C53_items2dict_missing",
    "C53_set",
    "C53_record",
    "C53_record_missing",
    "C53_to_int",
    "C53_to_int_all",
    "C53_to_int_text"
   ],
   "note": ""
  },
  {
   "property": "C54",
   "status": "proved",
   "theorems": [
    "C54_expand"
   ],
   "note": ""
  },
  {
   "property": "C55",
   "status": "proved",
   "theorems": [
    "C55_itemize",
    "C55_no_key"
   ],
   "note": ""
  },
  {
   "property": "C56",
   "status": "proved",
   "theorems": [
    "C56_rows",
    "C56_total"
   ],
   "note": ""
  },
  {
   "property": "C57",
   "status": "proved",
   "theorems": [
    "C57_limits_quote",
    "C57_rows",
    "C57_load",
    "C57_limits_empty",
    "C57_limits_header"
   ],
   "note": ""
  },
  {
   "property": "C58",
   "status": "proved",
   "theorems": [
    "C58_selects",
    "C58_unique"
   ],
   "note": ""
  },
  {
   "property": "C59",
   "status": "proved",
   "theorems": [
    "C59_dict",
    "C59_list",
    "C59_path"
   ],
   "note": ""
  },
  {
   "property": "C60",
   "status": "proved",
   "theorems": [
    "C60_runs",
    "C60_skipped",
    "C60_condition",
    "C60_data_kept"
   ],
   "note": ""
  },
  {
   "property": "C61",
   "status": "proved",
   "theorems": [
    "C61_is_equal"
   ],
   "note": ""
  },
  {
   "property": "C62",
   "status": "proved",
   "theorems": [
    "C62_rows",
    "C62_load",
    "C62_unknown_key"
   ],
   "note": ""
  },
  {
   "property": "C63",
   "status": "proved",
   "theorems": [
    "C63_history",
    "C63_scan"
   ],
   "note": ""
  },
  {
   "property": "C64",
   "status": "proved",
   "theorems": [
    "C64_no_invention",
    "C64_reads",
    "C64_limits"
   ],
   "note": ""
  },
  {
   "property": "C65",
   "status": "proved",
   "theorems": [
    "C65_exactly",
    "C65_limits"
   ],
   "note": ""
  },
  {
   "property": "C66",
   "status": "proved",
   "theorems": [
    "C66_raises",
    "C66_limits"
   ],
   "note": ""
  },
  {
   "property": "C67",
   "status": "proved",
   "theorems": [
    "C67_any",
    "C67_unchanged",
    "C67_limits"
   ],
   "note": ""
  },
  {
   "property": "C68",
   "status": "proved",
   "theorems": [
    "C68_unchanged",
    "C68_converted",
    "C68_not_text",
    "C68_limits"
   ],
   "note": ""
  },
  {
   "property": "C69",
   "status": "proved",
   "theorems": [
    "C69_empty",
    "C69_fails",
    "C69_dictionary",
    "C69_other"
   ],
   "note": ""
  },
  {
   "property": "C70",
   "status": "proved",
   "theorems": [
    "C70_raises",
    "C70_not_text"
   ],
   "note": ""
  },
  {
   "property": "C71",
   "status": "proved",
   "theorems": [
    "C71_globals_ignored",
    "C71_name",
    "C71_limits"
   ],
   "note": ""
  },
  {
   "property": "C72",
   "status": "proved",
   "theorems": [
    "C72_ignored",
    "C72_limits"
   ],
   "note": ""
  },
  {
   "property": "C73",
   "status": "proved",
   "theorems": [
    "C73_place",
    "C73_limits"
   ],
   "note": ""
  },
  {
   "property": "C74",
   "status": "proved",
   "theorems": [
    "C74_contains",
    "C74_exclude",
    "C74_excludeall",
    "C74_contains_limits",
    "C74_exclude_limits",
    "C74_excludeall_limits"
   ],
   "note": ""
  },
  {
   "property": "C75",
   "status": "proved",
   "theorems": [
    "C75_answers",
    "C75_equal"
   ],
   "note": ""
  },
  {
   "property": "C76",
   "status": "proved",
   "theorems": [
    "C76_gives_back",
    "C76_loses_limits",
    "C76_raises_limits"
   ],
   "note": ""
  },
  {
   "property": "C77",
   "status": "proved",
   "theorems": [
    "C77_lookup_found",
    "C77_lookup_missing"
   ],
   "note": ""
  },
  {
   "property": "C78",
   "status": "proved",
   "theorems": [
    "C78_nowhere",
    "C78_none",
    "C78_raises",
    "C78_limits"
   ],
   "note": ""
  },
  {
   "property": "C79",
   "status": "proved",
   "theorems": [
    "C79_sformat",
    "C79_precedence"
   ],
   "note": ""
  },
  {
   "property": "C80",
   "status": "proved",
   "theorems": [
    "C80_macro"
   ],
   "note": ""
  },
  {
   "property": "C81",
   "status": "proved",
   "theorems": [
    "C81_parse_again_limits",
    "C81_clear_limits",
    "C81_tame_outputs"
   ],
   "note": ""
  },
  {
   "property": "C82",
   "status": "proved",
   "theorems": [
    "C82_after_parse",
    "C82_after_clear",
    "C82_per_template",
    "C82_limits"
   ],
   "note": ""
  },
  {
   "property": "C83",
   "status": "proved",
   "theorems": [
    "C83_last_of_name",
    "C83_limits"
   ],
   "note": ""
  },
  {
   "property": "C84",
   "status": "proved",
   "theorems": [
    "C84_other_spellings",
    "C84_limits"
   ],
   "note": ""
  },
  {
   "property": "C85",
   "status": "proved",
   "theorems": [
    "C85_small_templates",
    "C85_limits"
   ],
   "note": ""
  },
  {
   "property": "C86",
   "status": "proved",
   "theorems": [
    "C86_ends_iff",
    "C86_raise_hangs",
    "C86_limits"
   ],
   "note": ""
  },
  {
   "property": "C87",
   "status": "proved",
   "theorems": [
    "C87_scope_replaced",
    "C87_limits"
   ],
   "note": ""
  },
  {
   "property": "C88",
   "status": "proved",
   "theorems": [
    "C88_expanded",
    "C88_nothing_to_do",
    "C88_limits"
   ],
   "note": ""
  },
  {
   "property": "C89",
   "status": "proved",
   "theorems": [
    "C89_values",
    "C89_round_trip"
   ],
   "note": ""
  },
  {
   "property": "C90",
   "status": "proved",
   "theorems": [
    "C90_distinct_names"
   ],
   "note": ""
  },
  {
   "property": "C91",
   "status": "proved",
   "theorems": [
    "C91_step",
    "C91_exact",
    "C91_lineage",
    "C91_dropped"
   ],
   "note": ""
  },
  {
   "property": "C92",
   "status": "proved",
   "theorems": [
    "C92_line",
    "C92_open",
    "C92_open_line",
    "C92_limits"
   ],
   "note": ""
  },
  {
   "property": "C93",
   "status": "proved",
   "theorems": [
    "C93_limits",
    "C93_raises"
   ],
   "note": ""
  },
  {
   "property": "C94",
   "status": "proved",
   "theorems": [
    "C94_dict",
    "C94_other",
    "C94_limits_lost",
    "C94_limits_unchanged"
   ],
   "note": ""
  },
  {
   "property": "C95",
   "status": "proved",
   "theorems": [
    "C95_changed",
    "C95_output",
    "C95_kept",
    "C95_limits"
   ],
   "note": ""
  },
  {
   "property": "C96",
   "status": "proved",
   "theorems": [
    "C96_verdict",
    "C96_one_value",
    "C96_limits_ignored",
    "C96_limits_raises"
   ],
   "note": ""
  },
  {
   "property": "C97",
   "status": "proved",
   "theorems": [
    "C97_limits",
    "C97_fits"
   ],
   "note": ""
  },
  {
   "property": "C98",
   "status": "proved",
   "theorems": [
    "C98_raises_limits",
    "C98_stale_limits",
    "C98_exactly"
   ],
   "note": ""
  },
  {
   "property": "C99",
   "status": "proved",
   "theorems": [
    "C99_limits",
    "C99_second",
    "C99_third",
    "C99_exactly"
   ],
   "note": ""
  },
  {
   "property": "C100",
   "status": "proved",
   "theorems": [
    "C100_call",
    "C100_unknown"
   ],
   "note": ""
  },
  {
   "property": "C101",
   "status": "proved",
   "theorems": [
    "C101_limits",
    "C101_new_name",
    "C101_after_call",
    "C101_exactly"
   ],
   "note": ""
  },
  {
   "property": "C102",
   "status": "proved",
   "theorems": [
    "C102_limits",
    "C102_sees",
    "C102_one_parser"
   ],
   "note": ""
  },
  {
   "property": "C103",
   "status": "proved",
   "theorems": [
    "C103_record"
   ],
   "note": ""
  },
  {
   "property": "C104",
   "status": "proved",
   "theorems": [
    "C104_let_value",
    "C104_let_field",
    "C104_copy",
    "C104_void",
    "C104_line"
   ],
   "note": ""
  },
  {
   "property": "C105",
   "status": "proved",
   "theorems": [
    "C105_answers",
    "C105_unknown",
    "C105_raises",
    "C105_fields"
   ],
   "note": ""
  },
  {
   "property": "C106",
   "status": "proved",
   "theorems": [
    "C106_attribute",
    "C106_match_function"
   ],
   "note": ""
  },
  {
   "property": "C107",
   "status": "proved",
   "theorems": [
    "C107_to_int",
    "C107_to_int_other",
    "C107_to_int_inverse",
    "C107_to_str",
    "C107_resub",
    "C107_resuball",
    "C107_resuball_one"
   ],
   "note": ""
  },
  {
   "property": "C108",
   "status": "proved",
   "theorems": [
    "C108_add_input",
    "C108_clear_input",
    "C108_set_input"
   ],
   "note": ""
  },
  {
   "property": "C109",
   "status": "proved",
   "theorems": [
    "C109_WORD",
    "C109_DIGIT",
    "C109_line",
    "C109_PHRASE",
    "C109_ORPHRASE",
    "C109_ROW",
    "C109_IP",
    "C109_PREFIX",
    "C109_IPV6",
    "C109_PREFIXV6",
    "C109_MAC",
    "C109_names"
   ],
   "note": ""
  },
  {
   "property": "C110",
   "status": "proved",
   "theorems": [
    "C110_class"
   ],
   "note": ""
  },
  {
   "property": "C111",
   "status": "proved",
   "theorems": [
    "C111_orders",
    "C111_one_worker",
    "C111_any_last"
   ],
   "note": ""
  },
  {
   "property": "C112",
   "status": "proved",
   "theorems": [
    "C112_tree_survives",
    "C112_unchanged",
    "C112_write_read",
    "C112_read_is_writable"
   ],
   "note": ""
  },
  {
   "property": "C113",
   "status": "proved",
   "theorems": [
    "C113_plain_text",
    "C113_template_element",
    "C113_no_template_element",
    "C113_malformed"
   ],
   "note": ""
  },
  {
   "property": "C114",
   "status": "proved",
   "theorems": [
    "C114_plain_program",
    "C114_named_program",
    "C114_determined"
   ],
   "note": ""
  },
  {
   "property": "C115",
   "status": "proved",
   "theorems": [
    "C115_isolated",
    "C115_append"
   ],
   "note": ""
  },
  {
   "property": "C116",
   "status": "proved",
   "theorems": [
    "C116_filter",
    "C116_filters",
    "C116_transformer",
    "C116_transformers"
   ],
   "note": ""
  },
  {
   "property": "C117",
   "status": "proved",
   "theorems": [
    "C117_vars_first",
    "C117_one_order",
    "C117_keys",
    "C117_no_match",
    "C117_tags"
   ],
   "note": ""
  },
  {
   "property": "C118",
   "status": "proved",
   "theorems": [
    "C118_no_name",
    "C118_name",
    "C118_functions",
    "C118_group"
   ],
   "note": ""
  },
  {
   "property": "C119",
   "status": "proved",
   "theorems": [
    "C119_groups",
    "C119_roles",
    "C119_regex",
    "C119_template"
   ],
   "note": ""
  },
  {
   "property": "C120",
   "status": "proved",
   "theorems": [
    "C120_line",
    "C120_exit",
    "C120_one_meaning",
    "C120_round_trip"
   ],
   "note": ""
  },
  {
   "property": "C121",
   "status": "proved",
   "theorems": [
    "C121_variable",
    "C121_name",
    "C121_name_good",
    "C121_name_kept",
    "C121_endless",
    "C121_source"
   ],
   "note": ""
  },
  {
   "property": "C122",
   "status": "proved",
   "theorems": [
    "C122_when",
    "C122_rows",
    "C122_nothing_lost",
    "C122_variables",
    "C122_column"
   ],
   "note": ""
  },
  {
   "property": "C123",
   "status": "proved",
   "theorems": [
    "C123_used",
    "C123_line",
    "C123_group",
    "C123_groups",
    "C123_defaults",
    "C123_joins"
   ],
   "note": ""
  },
  {
   "property": "C124",
   "status": "proved",
   "theorems": [
    "C124_arguments",
    "C124_by_name",
    "C124_match",
    "C124_group",
    "C124_unknown",
    "C124_misfit"
   ],
   "note": ""
  },
  {
   "property": "C125",
   "status": "proved",
   "theorems": [
    "C125_methods",
    "C125_no_method",
    "C125_format",
    "C125_wildcard",
    "C125_search",
    "C125_substitute"
   ],
   "note": ""
  },
  {
   "property": "C126",
   "status": "proved",
   "theorems": [
    "C126_files",
    "C126_json",
    "C126_json_error",
    "C126_python",
    "C126_load",
    "C126_unknown"
   ],
   "note": ""
  },
  {
   "property": "C127",
   "status": "proved",
   "theorems": [
    "C127_tag",
    "C127_attributes",
    "C127_same_name",
    "C127_inputs"
   ],
   "note": ""
  },
  {
   "property": "C128",
   "status": "proved",
   "theorems": [
    "C128_hostname",
    "C128_no_hostname",
    "C128_commands",
    "C128_variables"
   ],
   "note": ""
  },
  {
   "property": "C129",
   "status": "proved",
   "theorems": [
    "C129_text",
    "C129_total",
    "C129_read",
    "C129_same",
    "C129_limits"
   ],
   "note": ""
  },
  {
   "property": "C130",
   "status": "proved",
   "theorems": [
    "C130_tag",
    "C130_arguments",
    "C130_function",
    "C130_format",
    "C130_run",
    "C130_outputs",
    "C130_result"
   ],
   "note": ""
  },
  {
   "property": "C131",
   "status": "proved",
   "theorems": [
    "C131_bytes",
    "C131_tree",
    "C131_vars",
    "C131_lookups",
    "C131_macros",
    "C131_template",
    "C131_child",
    "C131_load"
   ],
   "note": ""
  },
  {
   "property": "C132",
   "status": "proved",
   "theorems": [
    "C132_match",
    "C132_group",
    "C132_input",
    "C132_inputs",
    "C132_outputs"
   ],
   "note": ""
  },
  {
   "property": "C133",
   "status": "proved",
   "theorems": [
    "C133_exclude",
    "C133_contains",
    "C133_join",
    "C133_append",
    "C133_prepend",
    "C133_replaceall",
    "C133_resuball",
    "C133_resub",
    "C133_search",
    "C133_truncate",
    "C133_unrange",
    "C133_lookup",
    "C133_rlookup",
    "C133_gpvlookup",
    "C133_count",
    "C133_set",
    "C133_let",
    "C133_isdigit",
    "C133_notdigit",
    "C133_greaterthan",
    "C133_lessthan",
    "C133_to_int",
    "C133_plain",
    "C133_limits"
   ],
   "note": ""
  },
  {
   "property": "C134",
   "status": "proved",
   "theorems": [
    "C134_contains",
    "C134_containsall",
    "C134_exclude",
    "C134_excludeall",
    "C134_equal",
    "C134_exclude_val",
    "C134_contains_val",
    "C134_del",
    "C134_items2dict",
    "C134_set",
    "C134_record",
    "C134_to_int",
    "C134_expand",
    "C134_itemize",
    "C134_macro",
    "C134_sformat",
    "C134_to_ip",
    "C134_lookup",
    "C134_void",
    "C134_str_to_unicode"
   ],
   "note": ""
  },
  {
   "property": "C135",
   "status": "proved",
   "theorems": [
    "C135_refines",
    "C135_session",
    "C135_match_template",
    "C135_match_group",
    "C135_group_template",
    "C135_group_group",
    "C135_group_own"
   ],
   "note": ""
  },
  {
   "property": "C136",
   "status": "proved",
   "theorems": [
    "C136_is_ip",
    "C136_cidr_match",
    "C136_one_reading",
    "C136_member"
   ],
   "note": ""
  },
  {
   "property": "C137",
   "status": "proved",
   "theorems": [
    "C137_history",
    "C137_accepted",
    "C137_vars",
    "C137_template_vars",
    "C137_given",
    "C137_lookups",
    "C137_frame",
    "C137_parse",
    "C137_path",
    "C137_one_parse"
   ],
   "note": ""
  },
  {
   "property": "C138",
   "status": "proved",
   "theorems": [
    "C138_uptimeparse",
    "C138_one_way",
    "C138_exact",
    "C138_written",
    "C138_no_text"
   ],
   "note": ""
  },
  {
   "property": "C139",
   "status": "proved",
   "theorems": [
    "C139_tag",
    "C139_plain",
    "C139_template",
    "C139_template_when",
    "C139_names",
    "C139_get",
    "C139_inputs",
    "C139_calls",
    "C139_program"
   ],
   "note": ""
  },
  {
   "property": "C140",
   "status": "proved",
   "theorems": [
    "C140_add",
    "C140_default",
    "C140_root_not_wanted",
    "C140_set"
   ],
   "note": ""
  }
 ]
}