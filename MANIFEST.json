{
 "claims": [
  {
   "property": "C01",
   "status": "proved",
   "theorems": [
    "C01_is_power_of_two"
   ],
   "note": ""
  },
  {
   "property": "C02",
   "status": "proved",
   "theorems": [
    "C02_align_forward",
    "C02_align_forward_asserts",
    "C02_align_forward_i64",
    "C02_align_forward_u64",
    "C02_aligned_fixpoint",
    "C02_align_forward_wrap_refuted"
   ],
   "note": ""
  },
  {
   "property": "C03",
   "status": "proved",
   "theorems": [
    "C03_endian_swap16",
    "C03_endian_swap32",
    "C03_endian_swap64"
   ],
   "note": ""
  },
  {
   "property": "C04",
   "status": "proved",
   "theorems": [
    "C04_memset",
    "C04_memset_null"
   ],
   "note": ""
  },
  {
   "property": "C05",
   "status": "proved",
   "theorems": [
    "C05_memmove",
    "C05_memcopy",
    "C05_memmove_null",
    "C05_memcopy_null",
    "C05_memcopy_overlap_refuted"
   ],
   "note": ""
  },
  {
   "property": "C06",
   "status": "proved",
   "theorems": [
    "C06_memswap",
    "C06_memswap_same",
    "C06_memswap_overlap_refuted"
   ],
   "note": ""
  },
  {
   "property": "C07",
   "status": "proved",
   "theorems": [
    "C07_memchr",
    "C07_memrchr",
    "C07_has_zero"
   ],
   "note": ""
  },
  {
   "property": "C08",
   "status": "proved",
   "theorems": [
    "C08_memcompare",
    "C08_memcompare_null"
   ],
   "note": ""
  },
  {
   "property": "C09",
   "status": "proved",
   "theorems": [
    "C09_next_pow2",
    "C09_count_set_bits",
    "C09_bit_set",
    "C09_bit_reset",
    "C09_bit_get_low",
    "C09_bit_get_high",
    "C09_bit_get_refuted"
   ],
   "note": ""
  },
  {
   "property": "C10",
   "status": "proved",
   "theorems": [
    "C10_arena_blocks",
    "C10_arena_serves",
    "C10_mixed_overlap_refuted",
    "C10_mixed_bounds_refuted",
    "C10_unaligned_start_refuted"
   ],
   "note": ""
  },
  {
   "property": "C11",
   "status": "proved",
   "theorems": [
    "C11_snapshot_restores",
    "C11_reset_inside_refuted"
   ],
   "note": ""
  },
  {
   "property": "C12",
   "status": "proved",
   "theorems": [
    "C12_pool_blocks",
    "C12_pool_serves",
    "C12_pool_total",
    "C12_pool_aligned",
    "C12_pool_misaligned_refuted",
    "C12_pool_zero_refuted"
   ],
   "note": ""
  },
  {
   "property": "C13",
   "status": "proved",
   "theorems": [
    "C13_stack_lifo",
    "C13_stack_blocks",
    "C13_stack_serves",
    "C13_stack_small_alignment",
    "C13_stack_large_alignment_refuted",
    "C13_stack_growth_refuted"
   ],
   "note": ""
  },
  {
   "property": "C14",
   "status": "proved",
   "theorems": [
    "C14_scratch_first",
    "C14_scratch_release",
    "C14_scratch_release_refuted",
    "C14_scratch_foreign",
    "C14_scratch_overlap_refuted",
    "C14_scratch_bounds_refuted"
   ],
   "note": ""
  },
  {
   "property": "C15",
   "status": "proved",
   "theorems": [
    "C15_resize_grow",
    "C15_resize_fail",
    "C15_resize_shrink",
    "C15_resize_zero",
    "C15_resize_null"
   ],
   "note": ""
  },
  {
   "property": "C16",
   "status": "proved",
   "theorems": [
    "C16_array_refines_list",
    "C16_array_refines_list_from",
    "C16_step",
    "C16_index",
    "C16_copy",
    "C16_append_at_out_of_range_refuted",
    "C16_remove_at_negative_refuted",
    "C16_buffer_append",
    "C16_buffer_appendv"
   ],
   "note": ""
  },
  {
   "property": "C17",
   "status": "proved",
   "theorems": [
    "C17_growth",
    "C17_append_failure",
    "C17_failure",
    "C17_set_capacity_failure_loses_elements_refuted"
   ],
   "note": ""
  },
  {
   "property": "C18",
   "status": "proved",
   "theorems": [
    "C18_ring_is_bounded_queue",
    "C18_full_empty_exact",
    "C18_appends_keep_newest",
    "C18_readable_unique"
   ],
   "note": ""
  },
  {
   "property": "C19",
   "status": "proved",
   "theorems": [
    "C19_get_array_short_by_one",
    "C19_get_array_exact_refuted",
    "C19_get_array_zero_drains"
   ],
   "note": ""
  },
  {
   "property": "C20",
   "status": "proved",
   "theorems": [
    "C20_table_refines_map",
    "C20_get_after_set",
    "C20_get_after_remove",
    "C20_slot",
    "C20_load_factor"
   ],
   "note": ""
  },
  {
   "property": "C21",
   "status": "proved",
   "theorems": [
    "C21_remove_entry_refuted",
    "C21_remove_entry_out_of_bounds_refuted",
    "C21_rehash_fast_repairs",
    "C21_repaired_history"
   ],
   "note": ""
  },
  {
   "property": "C22",
   "status": "proved",
   "theorems": [
    "C22_map_visits_once",
    "C22_map_mut"
   ],
   "note": ""
  },
  {
   "property": "C23",
   "status": "proved",
   "theorems": [
    "C23_add_tail",
    "C23_add_inserts_forward",
    "C23_add_middle_breaks_back_link",
    "C23_remove_unlinks",
    "C23_remove_tail",
    "C23_add_add_remove_loses_refuted",
    "C23_remove_remove_keeps_refuted",
    "C23_init",
    "C23_payloads"
   ],
   "note": ""
  },
  {
   "property": "C24",
   "status": "proved",
   "theorems": [
    "C24_sorts",
    "C24_num_cmp_preorder",
    "C24_sorts_numbers"
   ],
   "note": ""
  },
  {
   "property": "C25",
   "status": "proved",
   "theorems": [
    "C25_in_bounds",
    "C25_small_any_comparator",
    "C25_permutation_any_comparator",
    "C25_inconsistent_comparator_refuted"
   ],
   "note": ""
  },
  {
   "property": "C26",
   "status": "proved",
   "theorems": [
    "C26_radix_u16",
    "C26_radix_u32",
    "C26_radix_u64",
    "C26_radix_u8_leaves_items_refuted"
   ],
   "note": ""
  },
  {
   "property": "C27",
   "status": "proved",
   "theorems": [
    "C27_found_or_miss",
    "C27_any_array"
   ],
   "note": ""
  },
  {
   "property": "C28",
   "status": "proved",
   "theorems": [
    "C28_shuffle_exact",
    "C28_shuffle_every_order",
    "C28_shuffle_negative_refuted",
    "C28_reverse_refuted",
    "C28_reverse_small"
   ],
   "note": ""
  },
  {
   "property": "C29",
   "status": "proved",
   "theorems": [
    "C29_crc32",
    "C29_crc32_burst"
   ],
   "note": ""
  },
  {
   "property": "C30",
   "status": "proved",
   "theorems": [
    "C30_crc64",
    "C30_linear",
    "C30_burst",
    "C30_zero_prefix_undetected"
   ],
   "note": ""
  },
  {
   "property": "C31",
   "status": "proved",
   "theorems": [
    "C31_adler32",
    "C31_no_overflow"
   ],
   "note": ""
  },
  {
   "property": "C32",
   "status": "proved",
   "theorems": [
    "C32_fnv1",
    "C32_fnv1a",
    "C32_prefix_determines",
    "C32_one_byte"
   ],
   "note": ""
  },
  {
   "property": "C33",
   "status": "proved",
   "theorems": [
    "C33_murmur64_published",
    "C33_murmur64_default",
    "C33_murmur64_tail_refuted",
    "C33_murmur64_collision_refuted"
   ],
   "note": ""
  },
  {
   "property": "C34",
   "status": "proved",
   "theorems": [
    "C34_base64_encode",
    "C34_base64_round_trip",
    "C34_base64_empty"
   ],
   "note": ""
  },
  {
   "property": "C35",
   "status": "proved",
   "theorems": [
    "C35_base64_decode_bounds",
    "C35_base64_decode_foreign",
    "C35_base64_decode_refuted"
   ],
   "note": ""
  },
  {
   "property": "C36",
   "status": "proved",
   "theorems": [
    "C36_utf8_encode",
    "C36_utf8_round_trip"
   ],
   "note": ""
  },
  {
   "property": "C37",
   "status": "proved",
   "theorems": [
    "C37_utf8_decode_exact",
    "C37_utf8_decode_empty"
   ],
   "note": ""
  },
  {
   "property": "C38",
   "status": "proved",
   "theorems": [
    "C38_ucs2_round_trip",
    "C38_ucs2_small_buffer"
   ],
   "note": ""
  },
  {
   "property": "C39",
   "status": "proved",
   "theorems": [
    "C39_utf8_strlen",
    "C39_utf8_strlen_malformed",
    "C39_utf8_strnlen",
    "C39_utf8_strlen_truncated_refuted",
    "C39_utf8_strnlen_overread_refuted"
   ],
   "note": ""
  },
  {
   "property": "C40",
   "status": "proved",
   "theorems": [
    "C40_digits_unique",
    "C40_u64_print",
    "C40_u64_parse",
    "C40_u64_parse_0x",
    "C40_u64_parse_auto",
    "C40_u64_round_trip",
    "C40_u64_round_trip_refuted"
   ],
   "note": ""
  },
  {
   "property": "C41",
   "status": "proved",
   "theorems": [
    "C41_i64_print",
    "C41_i64_print_min_refuted",
    "C41_i64_parse",
    "C41_i64_parse_0x",
    "C41_i64_round_trip",
    "C41_i64_parse_refuted"
   ],
   "note": ""
  },
  {
   "property": "C42",
   "status": "proved",
   "theorems": [
    "C42_strcmp",
    "C42_strncmp",
    "C42_strncmp_order_refuted"
   ],
   "note": ""
  },
  {
   "property": "C43",
   "status": "proved",
   "theorems": [
    "C43_strncpy",
    "C43_strlcpy",
    "C43_strlcpy_terminated",
    "C43_strcpy",
    "C43_strcat",
    "C43_strcpy_terminator_refuted",
    "C43_strcat_terminator_refuted"
   ],
   "note": ""
  },
  {
   "property": "C44",
   "status": "proved",
   "theorems": [
    "C44_length",
    "C44_first_occurence",
    "C44_last_occurence",
    "C44_strtok",
    "C44_strntok",
    "C44_strntok_long_refuted",
    "C44_strrev",
    "C44_has_prefix",
    "C44_has_suffix",
    "C44_trim",
    "C44_skip",
    "C44_skip_any",
    "C44_skip_literal",
    "C44_concat",
    "C44_strdup",
    "C44_case"
   ],
   "note": ""
  },
  {
   "property": "C45",
   "status": "proved",
   "theorems": [
    "C45_make",
    "C45_make_cstring",
    "C45_make_reserve",
    "C45_duplicate",
    "C45_history",
    "C45_history_total",
    "C45_trim_space",
    "C45_join",
    "C45_are_equal"
   ],
   "note": ""
  },
  {
   "property": "C46",
   "status": "proved",
   "theorems": [
    "C46_range",
    "C46_range_onto",
    "C46_range_wide_refuted"
   ],
   "note": ""
  },
  {
   "property": "C47",
   "status": "proved",
   "theorems": [
    "C47_unique_pairs_refuted",
    "C47_unique_first_refuted",
    "C47_unique_state"
   ],
   "note": ""
  },
  {
   "property": "C48",
   "status": "proved",
   "theorems": [
    "C48_history_new",
    "C48_history_open",
    "C48_read_past_end_refuted",
    "C48_read_of_nothing_refuted",
    "C48_write_beyond_refuted"
   ],
   "note": ""
  },
  {
   "property": "C49",
   "status": "proved",
   "theorems": [
    "C49_pack",
    "C49_round_trip",
    "C49_long_name_refuted",
    "C49_size_refuted",
    "C49_missing",
    "C49_missing_file",
    "C49_not_writable",
    "C49_not_writable_stops",
    "C49_lost_entry_refuted",
    "C49_callback_stops"
   ],
   "note": ""
  },
  {
   "property": "C50",
   "status": "proved",
   "theorems": [
    "C50_extracts",
    "C50_unpack_dir",
    "C50_inside",
    "C50_skips",
    "C50_escape_refuted",
    "C50_refused_refuted",
    "C50_overrun_refuted"
   ],
   "note": ""
  },
  {
   "property": "C51",
   "status": "proved",
   "theorems": [
    "C51_encode",
    "C51_alphabet",
    "C51_decode",
    "C51_decode_long_refuted",
    "C51_write",
    "C51_query_exists",
    "C51_round_trip",
    "C51_truncated_refuted",
    "C51_hex_text_refuted",
    "C51_empty_flag_refuted",
    "C51_origin_format_refuted"
   ],
   "note": ""
  },
  {
   "property": "C52",
   "status": "proved",
   "theorems": [
    "C52_write",
    "C52_write_header",
    "C52_parse",
    "C52_round_trip",
    "C52_round_trip_header",
    "C52_empty_quoted_refuted",
    "C52_trailing_empty_refuted",
    "C52_tab_refuted",
    "C52_hex_text_refuted",
    "C52_ragged_refuted",
    "C52_after_quote_refuted",
    "C52_only_names_refuted",
    "C52_blank_text",
    "C52_unmatched_quote",
    "C52_short_row"
   ],
   "note": ""
  },
  {
   "property": "C53",
   "status": "proved",
   "theorems": [
    "C53_parse",
    "C53_write",
    "C53_round_trip",
    "C53_rewrite",
    "C53_same_data",
    "C53_compact_exact"
   ],
   "note": ""
  },
  {
   "property": "C54",
   "status": "proved",
   "theorems": [
    "C54_no_brace_refuted",
    "C54_block_comment_refuted",
    "C54_block_at_end_refuted",
    "C54_quotes_refuted",
    "C54_newline_refuted",
    "C54_overrun_refuted",
    "C54_accepted_refuted",
    "C54_changed_refuted",
    "C54_array_left_open",
    "C54_array_ends",
    "C54_unknown_word",
    "C54_mismatched",
    "C54_invalid_name",
    "C54_unassigned"
   ],
   "note": ""
  },
  {
   "property": "C55",
   "status": "proved",
   "theorems": [
    "C55_fits",
    "C55_literal_overflow_refuted",
    "C55_exact_field_refuted",
    "C55_long_field_dropped_refuted",
    "C55_repeat_overflow_refuted",
    "C55_hex_overrun_refuted",
    "C55_zero_limit_refuted",
    "C55_null",
    "C55_null_refuted",
    "C55_wide_field",
    "C55_wide_field_refuted"
   ],
   "note": ""
  },
  {
   "property": "C56",
   "status": "proved",
   "theorems": [
    "C56_match",
    "C56_unique",
    "C56_match_all",
    "C56_program",
    "C56_empty"
   ],
   "note": ""
  },
  {
   "property": "C57",
   "status": "proved",
   "theorems": [
    "C57_branch_refuted",
    "C57_group_branch_refuted",
    "C57_zero_repetitions_refuted",
    "C57_one_repetition_refuted",
    "C57_optional_refuted",
    "C57_optional_any_refuted",
    "C57_bracket_refuted",
    "C57_open_set_refuted",
    "C57_open_group_refuted",
    "C57_class_refuted",
    "C57_long_refuted",
    "C57_end_refuted",
    "C57_buffer_refuted",
    "C57_overflow_refuted",
    "C57_match_all_refuted",
    "C57_class_at_end",
    "C57_repetition_then_any",
    "C57_shortest_repetition",
    "C57_repeated_last"
   ],
   "note": ""
  },
  {
   "property": "C58",
   "status": "proved",
   "theorems": [
    "C58_history",
    "C58_flat",
    "C58_start",
    "C58_find",
    "C58_find_first",
    "C58_destroy",
    "C58_grandchild_refuted",
    "C58_move_within_parent_refuted",
    "C58_remove_leak_refuted"
   ],
   "note": ""
  },
  {
   "property": "C59",
   "status": "proved",
   "theorems": [
    "C59_at_most_once",
    "C59_fifo",
    "C59_done_means_done",
    "C59_dispatcher_total"
   ],
   "note": ""
  },
  {
   "property": "C60",
   "status": "proved",
   "theorems": [
    "C60_realtime_never_served",
    "C60_starvation_refuted"
   ],
   "note": ""
  },
  {
   "property": "C61",
   "status": "proved",
   "theorems": [
    "C61_no_early_return",
    "C61_reach_number",
    "C61_never_overfull",
    "C61_all_can_return",
    "C61_only_reach_aborts",
    "C61_zero_target_refuted",
    "C61_reuse_refuted"
   ],
   "note": ""
  },
  {
   "property": "C62",
   "status": "proved",
   "theorems": [
    "C62_exclusion_refuted",
    "C62_never_refuses",
    "C62_steals_refuted",
    "C62_swapped_excludes",
    "C62_swapped_can_enter",
    "C62_swapped_generic_refuted"
   ],
   "note": ""
  },
  {
   "property": "C63",
   "status": "proved",
   "theorems": [
    "C63_trim_effect",
    "C63_trim_right_iff",
    "C63_trim_refuted",
    "C63_trim_misaligned_refuted",
    "C63_alloc_free",
    "C63_trim_beyond",
    "C63_purge_inverted"
   ],
   "note": ""
  },
  {
   "property": "C64",
   "status": "proved",
   "theorems": [
    "C64_epoch",
    "C64_epoch_constant"
   ],
   "note": ""
  },
  {
   "property": "C65",
   "status": "proved",
   "theorems": [
    "C65_widening_exact",
    "C65_nearest",
    "C65_overflow",
    "C65_nan",
    "C65_round_trip"
   ],
   "note": ""
  },
  {
   "property": "C66",
   "status": "proved",
   "theorems": [
    "C66_determinate",
    "C66_mat2_inverse",
    "C66_mat4_inverse",
    "C66_mat3_inverse_transposed",
    "C66_products",
    "C66_transposes",
    "C66_mat4_monoid",
    "C66_mul_vec4",
    "C66_mul_vec4_compatible",
    "C66_mul_vec2_vec3_transposed",
    "C66_mul_vec3_order",
    "C66_translate_scale",
    "C66_look_at",
    "C66_mat3_inverse_refuted",
    "C66_in_place_refuted",
    "C66_mul_vec3_refuted"
   ],
   "note": ""
  },
  {
   "property": "C67",
   "status": "proved",
   "theorems": [
    "C67_mul_assoc",
    "C67_hamilton",
    "C67_norm_multiplicative",
    "C67_inverse",
    "C67_div",
    "C67_rotate_is_conjugation",
    "C67_rotate_dot",
    "C67_rotate_cross",
    "C67_rotate_mul",
    "C67_from_quat",
    "C67_inverse_nonzero"
   ],
   "note": ""
  },
  {
   "property": "C68",
   "status": "proved",
   "theorems": [
    "C68_scratch_free_diverges_refuted"
   ],
   "note": ""
  },
  {
   "property": "C69",
   "status": "proved",
   "theorems": [
    "C69_latest_offset",
    "C69_shared_offset_refuted"
   ],
   "note": ""
  },
  {
   "property": "C70",
   "status": "proved",
   "theorems": [
    "C70_murmur32_published",
    "C70_murmur32_word",
    "C70_murmur32_default"
   ],
   "note": ""
  },
  {
   "property": "C71",
   "status": "proved",
   "theorems": [
    "C71_utf8_to_ucs2_exact",
    "C71_ucs2_to_utf8_lone_surrogate_refuted",
    "C71_ucs2_to_utf8_low_surrogate",
    "C71_ucs2_to_utf8_output_refuted"
   ],
   "note": ""
  },
  {
   "property": "C72",
   "status": "proved",
   "theorems": [
    "C72_utf8_codepoint_size_refuted"
   ],
   "note": ""
  },
  {
   "property": "C73",
   "status": "proved",
   "theorems": [
    "C73_split_lines",
    "C73_split_lines_unterminated_refuted",
    "C73_split_lines_leading_newline_refuted"
   ],
   "note": ""
  },
  {
   "property": "C74",
   "status": "proved",
   "theorems": [
    "C74_hex_digit_to_int",
    "C74_digit_to_int",
    "C74_char_to_hex_digit_refuted",
    "C74_char_to_hex_digit_decimal"
   ],
   "note": ""
  },
  {
   "property": "C75",
   "status": "proved",
   "theorems": [
    "C75_append_self",
    "C75_append_self_refuted",
    "C75_allocation_size_refuted",
    "C75_join_refuted"
   ],
   "note": ""
  },
  {
   "property": "C76",
   "status": "proved",
   "theorems": [
    "C76_gen_u32",
    "C76_period",
    "C76_gen_u64",
    "C76_gen_u64_words",
    "C76_gen_isize"
   ],
   "note": ""
  },
  {
   "property": "C77",
   "status": "proved",
   "theorems": [
    "C77_zero_before_sign_refuted",
    "C77_zero_width_refuted",
    "C77_precision_cuts_refuted",
    "C77_flags_ignored_refuted",
    "C77_signs_refuted",
    "C77_nul_and_exact_refuted"
   ],
   "note": ""
  },
  {
   "property": "C78",
   "status": "proved",
   "theorems": [
    "C78_never_ends_refuted",
    "C78_truncated_refuted"
   ],
   "note": ""
  },
  {
   "property": "C79",
   "status": "proved",
   "theorems": [
    "C79_free_hangs_refuted",
    "C79_free_drops_refuted",
    "C79_free_ends_when_idle",
    "C79_done_means_idle",
    "C79_free_waits_for_job"
   ],
   "note": ""
  },
  {
   "property": "C80",
   "status": "proved",
   "theorems": [
    "C80_done_reachable"
   ],
   "note": ""
  },
  {
   "property": "C81",
   "status": "proved",
   "theorems": [
    "C81_floor",
    "C81_ceil",
    "C81_round",
    "C81_floor_ceil_refuted",
    "C81_mod",
    "C81_mod_refuted"
   ],
   "note": ""
  },
  {
   "property": "C82",
   "status": "proved",
   "theorems": [
    "C82_reflect",
    "C82_refract_exact",
    "C82_refract_refuted"
   ],
   "note": ""
  },
  {
   "property": "C83",
   "status": "proved",
   "theorems": [
    "C83_frustum",
    "C83_frustum_refuted",
    "C83_third_plane_refuted",
    "C83_box_corners",
    "C83_box_refuted"
   ],
   "note": ""
  },
  {
   "property": "C84",
   "status": "proved",
   "theorems": [
    "C84_rect_contains",
    "C84_rect_intersection",
    "C84_aabb",
    "C84_cut",
    "C84_contract",
    "C84_expand",
    "C84_contract_refuted"
   ],
   "note": ""
  },
  {
   "property": "C85",
   "status": "proved",
   "theorems": [
    "C85_lerp",
    "C85_smooth_step",
    "C85_cslerp"
   ],
   "note": ""
  },
  {
   "property": "C86",
   "status": "proved",
   "theorems": [
    "C86_total",
    "C86_exact",
    "C86_nearest",
    "C86_error",
    "C86_exponent_capped",
    "C86_nearest_refuted",
    "C86_exponents_refuted"
   ],
   "note": ""
  },
  {
   "property": "C87",
   "status": "proved",
   "theorems": [
    "C87_fits",
    "C87_plain",
    "C87_range_refuted",
    "C87_places_refuted",
    "C87_sixteen_refuted",
    "C87_digits_refuted",
    "C87_no_room_refuted",
    "C87_flags_refuted"
   ],
   "note": ""
  },
  {
   "property": "C88",
   "status": "proved",
   "theorems": [
    "C88_integer",
    "C88_hex",
    "C88_integer_long",
    "C88_real",
    "C88_real_undefined",
    "C88_value",
    "C88_round_trip_decimal",
    "C88_round_trip_hex",
    "C88_round_trip_point",
    "C88_exp_written",
    "C88_round_trip_exp",
    "C88_exponent_refuted",
    "C88_real_written",
    "C88_negative_fraction_refuted",
    "C88_two_minuses",
    "C88_texts_refuted",
    "C88_negative_exponent_refuted"
   ],
   "note": ""
  },
  {
   "property": "C89",
   "status": "proved",
   "theorems": [
    "C89_query",
    "C89_word_refuted",
    "C89_unclosed_refuted",
    "C89_object_value_refuted",
    "C89_nameless_refuted",
    "C89_paths_refuted"
   ],
   "note": ""
  },
  {
   "property": "C90",
   "status": "proved",
   "theorems": [
    "C90_compile",
    "C90_meaning",
    "C90_lookup",
    "C90_setup",
    "C90_help",
    "C90_negative_refuted",
    "C90_backslash_refuted",
    "C90_empty_refuted",
    "C90_switch_refuted",
    "C90_stuck_refuted",
    "C90_moved_refuted",
    "C90_help_refuted",
    "C90_order_refuted"
   ],
   "note": ""
  },
  {
   "property": "C91",
   "status": "proved",
   "theorems": [
    "C91_absolute",
    "C91_base_name",
    "C91_extension",
    "C91_extension_refuted",
    "C91_mkdir_recursive",
    "C91_mkdir_recursive_long",
    "C91_spelling",
    "C91_mkdir_recursive_refuted",
    "C91_dirlist",
    "C91_dirlist_nothing",
    "C91_dirlist_flat",
    "C91_dirlist_leak_refuted",
    "C91_dirlist_hidden_refuted",
    "C91_dirlist_newline_refuted",
    "C91_dirinfo_names",
    "C91_dirinfo_return_refuted",
    "C91_dirinfo_fullpath_refuted",
    "C91_step",
    "C91_step_first",
    "C91_step_stale_refuted",
    "C91_step_no_slash_refuted"
   ],
   "note": ""
  },
  {
   "property": "C92",
   "status": "proved",
   "theorems": [
    "C92_open",
    "C92_read_at",
    "C92_read",
    "C92_read_end_refuted",
    "C92_write_at",
    "C92_write",
    "C92_write_read",
    "C92_append",
    "C92_append_tell_refuted",
    "C92_size",
    "C92_truncate",
    "C92_write_contents",
    "C92_read_contents",
    "C92_read_contents_empty",
    "C92_write_contents_short_refuted",
    "C92_read_lines",
    "C92_read_lines_missing",
    "C92_exists",
    "C92_read_lines_refuted",
    "C92_copy",
    "C92_copy_refuted",
    "C92_copy_missing_refuted",
    "C92_copy_large_refuted",
    "C92_move",
    "C92_remove",
    "C92_last_write_time_refuted",
    "C92_has_changed_refuted"
   ],
   "note": ""
  },
  {
   "property": "C93",
   "status": "proved",
   "theorems": [
    "C93_join",
    "C93_meanwhile",
    "C93_running",
    "C93_returns",
    "C93_start_result_refuted",
    "C93_start_running",
    "C93_failed_join_refuted",
    "C93_nowait_running_refuted",
    "C93_nowait_twice_refuted",
    "C93_twice_refuted"
   ],
   "note": ""
  },
  {
   "property": "C95",
   "status": "proved",
   "theorems": [
    "C95_norm",
    "C95_quat_axis_angle",
    "C95_mat4_axis_angle",
    "C95_add_angles",
    "C95_euler",
    "C95_from_mat4",
    "C95_opposite",
    "C95_angle",
    "C95_axis",
    "C95_axis_angle_of",
    "C95_axis_unit_iff",
    "C95_axis_refuted",
    "C95_yaw",
    "C95_roll_pitch",
    "C95_roll_pitch_refuted",
    "C95_roll_pitch_half_turn"
   ],
   "note": ""
  },
  {
   "property": "C96",
   "status": "proved",
   "theorems": [
    "C96_lerp",
    "C96_nlerp",
    "C96_nlerp_ends",
    "C96_nlerp_unit",
    "C96_slerp",
    "C96_nearer",
    "C96_slerp_same_refuted",
    "C96_slerp_long_refuted",
    "C96_slerp_approx",
    "C96_slerp_approx_unit",
    "C96_slerp_approx_sym",
    "C96_nquad",
    "C96_squad_approx",
    "C96_squad",
    "C96_squad_refuted",
    "C96_slerp_approx_lags",
    "C96_slerp_approx_refuted",
    "C96_slerp_approx_quarter",
    "C96_nquad_mid",
    "C96_nquad_sym",
    "C96_squad_approx_mid",
    "C96_squad_mid"
   ],
   "note": ""
  },
  {
   "property": "C97",
   "status": "proved",
   "theorems": [
    "C97_look_at",
    "C97_look_at_lh",
    "C97_ortho3d",
    "C97_ortho3d_dx",
    "C97_ortho2d",
    "C97_perspective",
    "C97_infinite_perspective",
    "C97_infinite_perspective_dx",
    "C97_perspective_dx",
    "C97_perspective_dx_refuted"
   ],
   "note": ""
  },
  {
   "property": "C94",
   "status": "proved",
   "theorems": [
    "C94_sleep",
    "C94_gettime",
    "C94_gettime_exact",
    "C94_gettime_ahead",
    "C94_gettime_refuted",
    "C94_gettime_mono",
    "C94_rel",
    "C94_rel_refuted",
    "C94_utc",
    "C94_utc_refuted",
    "C94_tz",
    "C94_conversions"
   ],
   "note": ""
  },
  {
   "property": "C98",
   "status": "proved",
   "theorems": [
    "C98_floor",
    "C98_floor_whole_refuted",
    "C98_floor_tiny_refuted",
    "C98_floor_iff",
    "C98_floor_undefined",
    "C98_not_finite",
    "C98_ceil",
    "C98_ceil_whole_refuted",
    "C98_round",
    "C98_round_half_refuted",
    "C98_round_odd_refuted",
    "C98_abs",
    "C98_sign",
    "C98_copy_sign",
    "C98_remainder",
    "C98_mod",
    "C98_mod_iff"
   ],
   "note": ""
  },
  {
   "property": "C99",
   "status": "proved",
   "theorems": [
    "C99_range",
    "C99_within",
    "C99_ends",
    "C99_monotone",
    "C99_range_refuted",
    "C99_overflow_refuted",
    "C99_generator"
   ],
   "note": ""
  },
  {
   "property": "C100",
   "status": "proved",
   "theorems": [
    "C100_quake_rsqrt",
    "C100_bound_is_near",
    "C100_subnormal_refuted",
    "C100_zero_refuted",
    "C100_infinity_refuted",
    "C100_negative",
    "C100_minus_zero_undefined",
    "C100_bits"
   ],
   "note": ""
  },
  {
   "property": "C101",
   "status": "proved",
   "theorems": [
    "C101_floor",
    "C101_floor_whole_refuted",
    "C101_floor_even_refuted",
    "C101_floor_next_refuted",
    "C101_floor_iff",
    "C101_floor_undefined",
    "C101_not_finite",
    "C101_ceil",
    "C101_ceil_whole_refuted",
    "C101_ceil_four",
    "C101_ceil_even_refuted",
    "C101_ceil_iff",
    "C101_round",
    "C101_round_half_refuted",
    "C101_round_odd_refuted",
    "C101_abs",
    "C101_sign",
    "C101_copy_sign",
    "C101_remainder",
    "C101_mod",
    "C101_mod_iff"
   ],
   "note": ""
  },
  {
   "property": "C102",
   "status": "proved",
   "theorems": [
    "C102_fast_exp",
    "C102_bound_is_near",
    "C102_zero",
    "C102_range_refuted"
   ],
   "note": ""
  },
  {
   "property": "C103",
   "status": "proved",
   "theorems": [
    "C103_angle_diff",
    "C103_leads",
    "C103_shortest",
    "C103_small_refuted",
    "C103_covers",
    "C103_degrees",
    "C103_degrees_turns",
    "C103_degrees_linear",
    "C103_single_refuted",
    "C103_tau",
    "C103_single_turns",
    "C103_single_wraps"
   ],
   "note": ""
  },
  {
   "property": "C104",
   "status": "proved",
   "theorems": [
    "C104_mag",
    "C104_mag2d",
    "C104_mag3d",
    "C104_mag4d",
    "C104_norm",
    "C104_norm0",
    "C104_max",
    "C104_side",
    "C104_side_left",
    "C104_side_moved",
    "C104_side_between",
    "C104_cross",
    "C104_reflect",
    "C104_refract",
    "C104_refract_refuted",
    "C104_refract_straight_refuted",
    "C104_refract_three",
    "C104_aspect_ratio",
    "C104_lerp2",
    "C104_lerp3",
    "C104_lerp4",
    "C104_curve"
   ],
   "note": ""
  },
  {
   "property": "C105",
   "status": "proved",
   "theorems": [
    "C105_contains3",
    "C105_convert",
    "C105_convert_inside",
    "C105_contains_vec2",
    "C105_intersects",
    "C105_get_cut",
    "C105_get",
    "C105_add",
    "C105_add_joined"
   ],
   "note": ""
  },
  {
   "property": "C106",
   "status": "proved",
   "theorems": [
    "C106_mat3_copy",
    "C106_mat4_copy",
    "C106_mat2_copy_refuted",
    "C106_mat2_copy_objects_refuted"
   ],
   "note": ""
  },
  {
   "property": "C107",
   "status": "proved",
   "theorems": [
    "C107_defined",
    "C107_stats",
    "C107_check",
    "C107_blocks",
    "C107_aligned",
    "C107_aligned_refuted",
    "C107_shrink",
    "C107_no_memory_refuted"
   ],
   "note": ""
  },
  {
   "property": "C108",
   "status": "proved",
   "theorems": [
    "C108_history",
    "C108_improper",
    "C108_copies",
    "C108_no_memory_refuted"
   ],
   "note": ""
  },
  {
   "property": "C109",
   "status": "proved",
   "theorems": [
    "C109_command",
    "C109_terminator_refuted",
    "C109_short_buffer",
    "C109_command_str"
   ],
   "note": ""
  },
  {
   "property": "C110",
   "status": "proved",
   "theorems": [
    "C110_close",
    "C110_balanced",
    "C110_temp_refuted",
    "C110_distinct",
    "C110_failed_open",
    "C110_modes",
    "C110_shortcuts",
    "C110_twice_refuted",
    "C110_failed_temp_refuted",
    "C110_standard_refuted"
   ],
   "note": ""
  },
  {
   "property": "C111",
   "status": "proved",
   "theorems": [
    "C111_type",
    "C111_type_refuted"
   ],
   "note": ""
  },
  {
   "property": "C112",
   "status": "proved",
   "theorems": [
    "C112_append_fmt",
    "C112_sprintf",
    "C112_static_start",
    "C112_sprintf_buf",
    "C112_bprintf",
    "C112_bprintf_history",
    "C112_alloc_str",
    "C112_asprintf",
    "C112_asprintf_out_of_memory_refuted",
    "C112_dropped_refuted"
   ],
   "note": ""
  },
  {
   "property": "C113",
   "status": "proved",
   "theorems": [
    "C113_json",
    "C113_json_not_opened",
    "C113_csv_uri",
    "C113_csv_not_opened_refuted",
    "C113_all_written",
    "C113_json_round_trip",
    "C113_csv_round_trip",
    "C113_uri_round_trip",
    "C113_out_of_memory_refuted"
   ],
   "note": ""
  },
  {
   "property": "C114",
   "status": "proved",
   "theorems": [
    "C114_paths",
    "C114_flat",
    "C114_nothing",
    "C114_subdirectory_refuted",
    "C114_directory_size_refuted",
    "C114_unpack_folders"
   ],
   "note": ""
  },
  {
   "property": "C115",
   "status": "proved",
   "theorems": [
    "C115_blocks",
    "C115_own_memory",
    "C115_contents",
    "C115_rest",
    "C115_sub_serves",
    "C115_release_keeps",
    "C115_release_frees",
    "C115_sub_failed_refuted",
    "C115_check",
    "C115_copy",
    "C115_copy_align"
   ],
   "note": ""
  },
  {
   "property": "C116",
   "status": "proved",
   "theorems": [
    "C116_atomic",
    "C116_memory",
    "C116_stores",
    "C116_store_late_refuted",
    "C116_counter",
    "C116_tickets",
    "C116_finishes"
   ],
   "note": ""
  },
  {
   "property": "C117",
   "status": "proved",
   "theorems": [
    "C117_exclusion",
    "C117_lock",
    "C117_try_lock",
    "C117_try_lock_refuted",
    "C117_unlock",
    "C117_semaphore_safe",
    "C117_semaphore",
    "C117_signals",
    "C117_post",
    "C117_post_refuted"
   ],
   "note": ""
  },
  {
   "property": "C118",
   "status": "proved",
   "theorems": [
    "C118_mkdir",
    "C118_rmdir",
    "C118_round_trip",
    "C118_too_long",
    "C118_long_name",
    "C118_empty_path",
    "C118_unknown_refuted"
   ],
   "note": ""
  },
  {
   "property": "C119",
   "status": "proved",
   "theorems": [
    "C119_copy",
    "C119_no_memory",
    "C119_arena_refuted",
    "C119_pool_refuted"
   ],
   "note": ""
  },
  {
   "property": "C120",
   "status": "proved",
   "theorems": [
    "C120_create",
    "C120_failure",
    "C120_leak_refuted",
    "C120_first_only_refuted",
    "C120_balanced",
    "C120_close",
    "C120_accept",
    "C120_receive",
    "C120_receive_from_refuted"
   ],
   "note": ""
  },
  {
   "property": "C121",
   "status": "proved",
   "theorems": [
    "C121_time",
    "C121_negative",
    "C121_undefined",
    "C121_select",
    "C121_multi",
    "C121_one",
    "C121_below_refuted",
    "C121_which_refuted"
   ],
   "note": ""
  },
  {
   "property": "C122",
   "status": "proved",
   "theorems": [
    "C122_sin",
    "C122_cos",
    "C122_turn_refuted",
    "C122_tan",
    "C122_arctan",
    "C122_arctan_refuted",
    "C122_arctan2",
    "C122_arctan2_refuted",
    "C122_arcsin",
    "C122_arccos",
    "C122_arccos_refuted",
    "C122_exp_inverse",
    "C122_exp",
    "C122_log",
    "C122_exp2",
    "C122_log2",
    "C122_log2_refuted",
    "C122_pow",
    "C122_pow_negative",
    "C122_pow_whole",
    "C122_pow_refuted"
   ],
   "note": ""
  }
 ]
}