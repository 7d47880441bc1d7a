{
 "claims": [
  {
   "property": "C01",
   "status": "proved",
   "theorems": [
    "C01_header_round_trip"
   ],
   "note": ""
  },
  {
   "property": "C02",
   "status": "proved",
   "theorems": [
    "C02_header_acceptance"
   ],
   "note": ""
  },
  {
   "property": "C03",
   "status": "proved",
   "theorems": [
    "C03_header_layout"
   ],
   "note": ""
  },
  {
   "property": "C04",
   "status": "proved",
   "theorems": [
    "C04_header_wkt_limit",
    "C04_file_wkt_limit",
    "C04_bypass"
   ],
   "note": ""
  },
  {
   "property": "C05",
   "status": "proved",
   "theorems": [
    "C05_truncated_headers_accepted",
    "C05_empty_stream_accepted"
   ],
   "note": ""
  },
  {
   "property": "C06",
   "status": "proved",
   "theorems": [
    "C06_header_equality",
    "C06_header_equivalence"
   ],
   "note": ""
  },
  {
   "property": "C07",
   "status": "proved",
   "theorems": [
    "C07_record_round_trip"
   ],
   "note": ""
  },
  {
   "property": "C08",
   "status": "proved",
   "theorems": [
    "C08_record_layout"
   ],
   "note": ""
  },
  {
   "property": "C09",
   "status": "proved",
   "theorems": [
    "C09_bulk_equals_streaming"
   ],
   "note": ""
  },
  {
   "property": "C10",
   "status": "proved",
   "theorems": [
    "C10_uncompressed_round_trip"
   ],
   "note": ""
  },
  {
   "property": "C11",
   "status": "proved",
   "theorems": [
    "C11_read_terminates_iff",
    "C11_loop_never_ends",
    "C11_written_files_hang"
   ],
   "note": ""
  },
  {
   "property": "C12",
   "status": "proved",
   "theorems": [
    "C12_header_extra_count",
    "C12_extra_count_lost"
   ],
   "note": ""
  },
  {
   "property": "C13",
   "status": "proved",
   "theorems": [
    "C13_compressed_round_trip"
   ],
   "note": ""
  },
  {
   "property": "C14",
   "status": "proved",
   "theorems": [
    "C14_bit_exact_iff"
   ],
   "note": ""
  },
  {
   "property": "C15",
   "status": "proved",
   "theorems": [
    "C15_readers_check_kind",
    "C15_writers_check_kind"
   ],
   "note": ""
  },
  {
   "property": "C16",
   "status": "proved",
   "theorems": [
    "C16_reading_is_safe"
   ],
   "note": ""
  },
  {
   "property": "C17",
   "status": "proved",
   "theorems": [
    "C17_concatenated_files"
   ],
   "note": ""
  },
  {
   "property": "C18",
   "status": "proved",
   "theorems": [
    "C18_cut_uncompressed_accepted",
    "C18_cut_compressed_accepted"
   ],
   "note": ""
  },
  {
   "property": "C19",
   "status": "proved",
   "theorems": [
    "C19_full_device"
   ],
   "note": ""
  },
  {
   "property": "C20",
   "status": "proved",
   "theorems": [
    "C20_tools_inverse"
   ],
   "note": ""
  },
  {
   "property": "C21",
   "status": "proved",
   "theorems": [
    "C21_uniform",
    "C21_out_of_memory"
   ],
   "note": ""
  },
  {
   "property": "C22",
   "status": "proved",
   "theorems": [
    "C22_refused_unchanged",
    "C22_refused_iff"
   ],
   "note": ""
  },
  {
   "property": "C23",
   "status": "proved",
   "theorems": [
    "C23_objects_are_lists",
    "C23_get_point_record"
   ],
   "note": ""
  },
  {
   "property": "C24",
   "status": "proved",
   "theorems": [
    "C24_get_header"
   ],
   "note": ""
  },
  {
   "property": "C25",
   "status": "proved",
   "theorems": [
    "C25_columns",
    "C25_extra_column",
    "C25_extra_missing",
    "C25_zero_tests",
    "C25_zero_rgb",
    "C25_zero_extra"
   ],
   "note": ""
  },
  {
   "property": "C26",
   "status": "proved",
   "theorems": [
    "C26_point_hash",
    "C26_record_hash",
    "C26_voxel_hash",
    "C26_equality",
    "C26_point_equality"
   ],
   "note": ""
  },
  {
   "property": "C27",
   "status": "proved",
   "theorems": [
    "C27_comparisons",
    "C27_strict_order",
    "C27_lexicographic"
   ],
   "note": ""
  },
  {
   "property": "C28",
   "status": "proved",
   "theorems": [
    "C28_memory_lossless",
    "C28_bad_level"
   ],
   "note": ""
  },
  {
   "property": "C29",
   "status": "proved",
   "theorems": [
    "C29_large_input_truncated",
    "C29_large_input_lost",
    "C29_nonvacuous"
   ],
   "note": ""
  },
  {
   "property": "C30",
   "status": "proved",
   "theorems": [
    "C30_stream_lossless",
    "C30_stream_and_memory_agree",
    "C30_failed_stream_hangs",
    "C30_output_errors_reported"
   ],
   "note": ""
  },
  {
   "property": "C31",
   "status": "proved",
   "theorems": [
    "C31_sized_decompress",
    "C31_truncated_accepted",
    "C31_truncation_detected_with_size",
    "C31_stream_ends",
    "C31_memory_exact",
    "C31_stream_exact",
    "C31_stream_total"
   ],
   "note": ""
  },
  {
   "property": "C32",
   "status": "proved",
   "theorems": [
    "C32_extent_contains",
    "C32_extent_attained",
    "C32_order_independent",
    "C32_ordered"
   ],
   "note": ""
  },
  {
   "property": "C33",
   "status": "proved",
   "theorems": [
    "C33_nan_forgets",
    "C33_nan_last",
    "C33_point_outside"
   ],
   "note": ""
  },
  {
   "property": "C34",
   "status": "proved",
   "theorems": [
    "C34_total_extent",
    "C34_total_extent_many"
   ],
   "note": ""
  },
  {
   "property": "C35",
   "status": "proved",
   "theorems": [
    "C35_point",
    "C35_point_short",
    "C35_extent",
    "C35_points"
   ],
   "note": ""
  },
  {
   "property": "C36",
   "status": "proved",
   "theorems": [
    "C36_crop",
    "C36_in_box",
    "C36_idempotent"
   ],
   "note": ""
  },
  {
   "property": "C37",
   "status": "proved",
   "theorems": [
    "C37_value",
    "C37_multiple",
    "C37_large_undefined",
    "C37_list",
    "C37_power_of_two",
    "C37_not_idempotent",
    "C37_zero_precision"
   ],
   "note": ""
  },
  {
   "property": "C38",
   "status": "proved",
   "theorems": [
    "C38_add",
    "C38_add_vector",
    "C38_scale",
    "C38_rotate",
    "C38_neutral",
    "C38_rotate_by_zero"
   ],
   "note": ""
  },
  {
   "property": "C39",
   "status": "proved",
   "theorems": [
    "C39_value",
    "C39_else_undefined",
    "C39_zero_at_minimum",
    "C39_monotone",
    "C39_cloud",
    "C39_not_finite"
   ],
   "note": ""
  },
  {
   "property": "C40",
   "status": "proved",
   "theorems": [
    "C40_own_voxel",
    "C40_shape",
    "C40_permutation",
    "C40_set"
   ],
   "note": ""
  },
  {
   "property": "C41",
   "status": "proved",
   "theorems": [
    "C41_succeeds",
    "C41_one_per_voxel",
    "C41_seed_zero",
    "C41_points"
   ],
   "note": ""
  },
  {
   "property": "C42",
   "status": "proved",
   "theorems": [
    "C42_one_per_location",
    "C42_nan_kept",
    "C42_seed_zero"
   ],
   "note": ""
  },
  {
   "property": "C43",
   "status": "proved",
   "theorems": [
    "C43_keep_classes",
    "C43_remove_classes",
    "C43_remove_coords",
    "C43_unique_xyz",
    "C43_subsample_not_idempotent"
   ],
   "note": ""
  },
  {
   "property": "C44",
   "status": "proved",
   "theorems": [
    "C44_draws",
    "C44_exhaustive",
    "C44_touching",
    "C44_int_limits",
    "C44_exhausted"
   ],
   "note": ""
  },
  {
   "property": "C45",
   "status": "proved",
   "theorems": [
    "C45_defined",
    "C45_true_distance",
    "C45_sound",
    "C45_returns",
    "C45_get_neighbors"
   ],
   "note": ""
  },
  {
   "property": "C46",
   "status": "proved",
   "theorems": [
    "C46_complete",
    "C46_touching_voxels",
    "C46_misses"
   ],
   "note": ""
  },
  {
   "property": "C47",
   "status": "proved",
   "theorems": [
    "C47_voxels",
    "C47_voxels_of_indexes",
    "C47_radius_search",
    "C47_compress_columns",
    "C47_quantize",
    "C47_read_records"
   ],
   "note": ""
  },
  {
   "property": "C48",
   "status": "proved",
   "theorems": [
    "C48_restore",
    "C48_in_range",
    "C48_bounds",
    "C48_flat_undefined",
    "C48_single_point"
   ],
   "note": ""
  },
  {
   "property": "C49",
   "status": "proved",
   "theorems": [
    "C49_class_filters",
    "C49_partition",
    "C49_classes_as_int"
   ],
   "note": ""
  },
  {
   "property": "C50",
   "status": "proved",
   "theorems": [
    "C50_removes_matching",
    "C50_refuses_others"
   ],
   "note": ""
  },
  {
   "property": "C51",
   "status": "proved",
   "theorems": [
    "C51_concatenates",
    "C51_mismatch",
    "C51_unreadable",
    "C51_file_to_file",
    "C51_unreadable_result"
   ],
   "note": ""
  },
  {
   "property": "C52",
   "status": "proved",
   "theorems": [
    "C52_partition",
    "C52_succeeds",
    "C52_empty_undefined"
   ],
   "note": ""
  },
  {
   "property": "C53",
   "status": "proved",
   "theorems": [
    "C53_cells",
    "C53_program",
    "C53_exclusive"
   ],
   "note": ""
  },
  {
   "property": "C54",
   "status": "proved",
   "theorems": [
    "C54_small",
    "C54_large",
    "C54_one_too_many"
   ],
   "note": ""
  },
  {
   "property": "C55",
   "status": "proved",
   "theorems": [
    "C55_distinct_names",
    "C55_existing_kept",
    "C55_none_removed",
    "C55_unreadable_overwritten"
   ],
   "note": ""
  },
  {
   "property": "C56",
   "status": "proved",
   "theorems": [
    "C56_copy_field",
    "C56_numbers",
    "C56_quantize",
    "C56_noise",
    "C56_noise_axis",
    "C56_frame",
    "C56_file",
    "C56_two_runs",
    "C56_ends"
   ],
   "note": ""
  },
  {
   "property": "C57",
   "status": "proved",
   "theorems": [
    "C57_replace",
    "C57_replace_in_range"
   ],
   "note": ""
  },
  {
   "property": "C58",
   "status": "proved",
   "theorems": [
    "C58_replace_not",
    "C58_one_value"
   ],
   "note": ""
  },
  {
   "property": "C59",
   "status": "proved",
   "theorems": [
    "C59_bad_command",
    "C59_bad_record",
    "C59_nothing_written"
   ],
   "note": ""
  },
  {
   "property": "C60",
   "status": "proved",
   "theorems": [
    "C60_set"
   ],
   "note": ""
  },
  {
   "property": "C61",
   "status": "proved",
   "theorems": [
    "C61_diff",
    "C61_symmetric",
    "C61_reflexive",
    "C61_transitive",
    "C61_files",
    "C61_unreadable"
   ],
   "note": ""
  },
  {
   "property": "C62",
   "status": "proved",
   "theorems": [
    "C62_fields",
    "C62_missing_extra_is_equal",
    "C62_unknown_letter",
    "C62_reverse",
    "C62_conflicts"
   ],
   "note": ""
  },
  {
   "property": "C63",
   "status": "proved",
   "theorems": [
    "C63_resize",
    "C63_up_and_back",
    "C63_command"
   ],
   "note": ""
  },
  {
   "property": "C64",
   "status": "proved",
   "theorems": [
    "C64_text",
    "C64_text_coordinate",
    "C64_missing_extra",
    "C64_round_trip",
    "C64_coordinates",
    "C64_only",
    "C64_coordinates_lossy"
   ],
   "note": ""
  },
  {
   "property": "C65",
   "status": "proved",
   "theorems": [
    "C65_exact",
    "C65_accepts",
    "C65_garbage",
    "C65_too_few"
   ],
   "note": ""
  },
  {
   "property": "C66",
   "status": "proved",
   "theorems": [
    "C66_subtract_min",
    "C66_order",
    "C66_again"
   ],
   "note": ""
  },
  {
   "property": "C67",
   "status": "proved",
   "theorems": [
    "C67_recenter"
   ],
   "note": ""
  },
  {
   "property": "C68",
   "status": "proved",
   "theorems": [
    "C68_upsample",
    "C68_undefined",
    "C68_below",
    "C68_inside",
    "C68_empty",
    "C68_subsampled"
   ],
   "note": ""
  },
  {
   "property": "C69",
   "status": "proved",
   "theorems": [
    "C69_set",
    "C69_get",
    "C69_get_stops",
    "C69_set_get",
    "C69_same",
    "C69_stdin",
    "C69_too_long",
    "C69_untouched",
    "C69_stdin_too_long",
    "C69_header_only"
   ],
   "note": ""
  },
  {
   "property": "C70",
   "status": "proved",
   "theorems": [
    "C70_counts",
    "C70_only",
    "C70_total",
    "C70_in_order",
    "C70_labels",
    "C70_order",
    "C70_hash_order",
    "C70_lines"
   ],
   "note": ""
  },
  {
   "property": "C71",
   "status": "proved",
   "theorems": [
    "C71_quartiles",
    "C71_range",
    "C71_empty",
    "C71_order_integers",
    "C71_order_doubles",
    "C71_nan_quartiles",
    "C71_nan_first",
    "C71_nan_later"
   ],
   "note": ""
  },
  {
   "property": "C72",
   "status": "proved",
   "theorems": [
    "C72_white_space",
    "C72_readable",
    "C72_unreadable",
    "C72_report",
    "C72_summary_unreadable"
   ],
   "note": ""
  },
  {
   "property": "C73",
   "status": "proved",
   "theorems": [
    "C73_extra_index",
    "C73_accepted",
    "C73_consume"
   ],
   "note": ""
  },
  {
   "property": "C74",
   "status": "proved",
   "theorems": [
    "C74_number",
    "C74_no_number",
    "C74_reads_the_list",
    "C74_terminates",
    "C74_large_refused"
   ],
   "note": ""
  },
  {
   "property": "C75",
   "status": "proved",
   "theorems": [
    "C75_names",
    "C75_defined",
    "C75_codes"
   ],
   "note": ""
  },
  {
   "property": "C76",
   "status": "proved",
   "theorems": [
    "C76_not_uniform",
    "C76_never_picked"
   ],
   "note": ""
  },
  {
   "property": "C77",
   "status": "proved",
   "theorems": [
    "C77_add_alias_races",
    "C77_add_alias_order"
   ],
   "note": ""
  },
  {
   "property": "C78",
   "status": "proved",
   "theorems": [
    "C78_only_selects",
    "C78_file_to_file",
    "C78_succeeds"
   ],
   "note": ""
  },
  {
   "property": "C79",
   "status": "proved",
   "theorems": [
    "C79_result",
    "C79_storable",
    "C79_always_storable",
    "C79_file_to_file",
    "C79_get_field",
    "C79_round_trip",
    "C79_refused",
    "C79_too_many_extras",
    "C79_moves"
   ],
   "note": ""
  },
  {
   "property": "C81",
   "status": "proved",
   "theorems": [
    "C81_densities",
    "C81_extent",
    "C81_defined",
    "C81_undefined",
    "C81_not_finite",
    "C81_empty",
    "C81_order",
    "C81_lines"
   ],
   "note": ""
  },
  {
   "property": "C80",
   "status": "proved",
   "theorems": [
    "C80_program_stdin",
    "C80_program_files",
    "C80_header",
    "C80_summary",
    "C80_sections",
    "C80_files",
    "C80_stdin",
    "C80_stops",
    "C80_stored"
   ],
   "note": ""
  },
  {
   "property": "C82",
   "status": "proved",
   "theorems": [
    "C82_center",
    "C82_finite",
    "C82_empty"
   ],
   "note": ""
  },
  {
   "property": "C83",
   "status": "proved",
   "theorems": [
    "C83_accepts",
    "C83_order",
    "C83_unambiguous",
    "C83_help"
   ],
   "note": ""
  },
  {
   "property": "C84",
   "status": "proved",
   "theorems": [
    "C84_convert",
    "C84_filter",
    "C84_transform",
    "C84_diff",
    "C84_tool",
    "C84_tile",
    "C84_merge",
    "C84_srs",
    "C84_info",
    "C84_numbers",
    "C84_no_number",
    "C84_file_name"
   ],
   "note": ""
  },
  {
   "property": "C85",
   "status": "proved",
   "theorems": [
    "C85_only_output",
    "C85_nothing",
    "C85_tiles",
    "C85_silent"
   ],
   "note": ""
  },
  {
   "property": "C86",
   "status": "proved",
   "theorems": [
    "C86_clean"
   ],
   "note": ""
  },
  {
   "property": "C87",
   "status": "proved",
   "theorems": [
    "C87_pipes"
   ],
   "note": ""
  },
  {
   "property": "C88",
   "status": "proved",
   "theorems": [
    "C88_compress_decompress"
   ],
   "note": ""
  },
  {
   "property": "C89",
   "status": "proved",
   "theorems": [
    "C89_stored",
    "C89_filter",
    "C89_classes",
    "C89_diff",
    "C89_srs",
    "C89_merge",
    "C89_fields"
   ],
   "note": ""
  },
  {
   "property": "C90",
   "status": "proved",
   "theorems": [
    "C90_transform",
    "C90_in_place",
    "C90_compressed"
   ],
   "note": ""
  },
  {
   "property": "C91",
   "status": "proved",
   "theorems": [
    "C91_status",
    "C91_version",
    "C91_help",
    "C91_mistakes"
   ],
   "note": ""
  },
  {
   "property": "C92",
   "status": "proved",
   "theorems": [
    "C92_upsample",
    "C92_restores"
   ],
   "note": ""
  },
  {
   "property": "C93",
   "status": "proved",
   "theorems": [
    "C93_tile_merge"
   ],
   "note": ""
  },
  {
   "property": "C94",
   "status": "proved",
   "theorems": [
    "C94_lists",
    "C94_understood",
    "C94_spellings",
    "C94_transform_letter",
    "C94_noise"
   ],
   "note": ""
  },
  {
   "property": "C95",
   "status": "proved",
   "theorems": [
    "C95_noop",
    "C95_refused",
    "C95_copy",
    "C95_file"
   ],
   "note": ""
  },
  {
   "property": "C96",
   "status": "proved",
   "theorems": [
    "C96_averages",
    "C96_mean",
    "C96_refused",
    "C96_generate",
    "C96_pipe"
   ],
   "note": ""
  },
  {
   "property": "C97",
   "status": "proved",
   "theorems": [
    "C97_objects",
    "C97_copies",
    "C97_refused",
    "C97_assign",
    "C97_assign_extra",
    "C97_new",
    "C97_set_all",
    "C97_set_one",
    "C97_safe",
    "C97_write",
    "C97_long_wkt",
    "C97_write_read"
   ],
   "note": ""
  },
  {
   "property": "C98",
   "status": "proved",
   "theorems": [
    "C98_warns",
    "C98_covered",
    "C98_empty_input"
   ],
   "note": ""
  },
  {
   "property": "C99",
   "status": "proved",
   "theorems": [
    "C99_bulk",
    "C99_repeats",
    "C99_stream"
   ],
   "note": ""
  },
  {
   "property": "C100",
   "status": "proved",
   "theorems": [
    "C100_cut",
    "C100_written"
   ],
   "note": ""
  },
  {
   "property": "C101",
   "status": "proved",
   "theorems": [
    "C101_one_voxel",
    "C101_indexes",
    "C101_filter"
   ],
   "note": ""
  },
  {
   "property": "C102",
   "status": "proved",
   "theorems": [
    "C102_error",
    "C102_defined",
    "C102_points",
    "C102_transform"
   ],
   "note": ""
  },
  {
   "property": "C103",
   "status": "proved",
   "theorems": [
    "C103_commands",
    "C103_library",
    "C103_back"
   ],
   "note": ""
  },
  {
   "property": "C104",
   "status": "proved",
   "theorems": [
    "C104_sizes",
    "C104_tiles",
    "C104_files"
   ],
   "note": ""
  },
  {
   "property": "C105",
   "status": "proved",
   "theorems": [
    "C105_agree",
    "C105_exception",
    "C105_inconsistent",
    "C105_resized",
    "C105_bump"
   ],
   "note": ""
  },
  {
   "property": "C106",
   "status": "proved",
   "theorems": [
    "C106_any_records",
    "C106_any_cloud",
    "C106_any_points",
    "C106_any_name",
    "C106_records",
    "C106_file",
    "C106_cloud",
    "C106_points",
    "C106_tmp"
   ],
   "note": ""
  },
  {
   "property": "C107",
   "status": "proved",
   "theorems": [
    "C107_defined",
    "C107_undefined",
    "C107_near",
    "C107_equivalence"
   ],
   "note": ""
  },
  {
   "property": "C108",
   "status": "proved",
   "theorems": [
    "C108_add_extent",
    "C108_scale_extent",
    "C108_add_back",
    "C108_add_back_near",
    "C108_add_back_exact",
    "C108_scale_back",
    "C108_commands"
   ],
   "note": ""
  },
  {
   "property": "C109",
   "status": "proved",
   "theorems": [
    "C109_commute",
    "C109_unique_coords",
    "C109_order_matters",
    "C109_split",
    "C109_runs"
   ],
   "note": ""
  },
  {
   "property": "C110",
   "status": "proved",
   "theorems": [
    "C110_distance",
    "C110_zero",
    "C110_mutual",
    "C110_self",
    "C110_indexes",
    "C110_all_neighbors",
    "C110_lists",
    "C110_cut_off",
    "C110_random"
   ],
   "note": ""
  },
  {
   "property": "C111",
   "status": "proved",
   "theorems": [
    "C111_header_valid",
    "C111_headers",
    "C111_builds",
    "C111_tool",
    "C111_not_a_number"
   ],
   "note": ""
  },
  {
   "property": "C112",
   "status": "proved",
   "theorems": [
    "C112_area",
    "C112_volume",
    "C112_inside",
    "C112_cloud",
    "C112_flat",
    "C112_finite",
    "C112_empty"
   ],
   "note": ""
  },
  {
   "property": "C113",
   "status": "proved",
   "theorems": [
    "C113_columns",
    "C113_extra",
    "C113_versions",
    "C113_set_get",
    "C113_records",
    "C113_header",
    "C113_header_attributes"
   ],
   "note": ""
  },
  {
   "property": "C114",
   "status": "proved",
   "theorems": [
    "C114_transform",
    "C114_noop",
    "C114_averages",
    "C114_generated"
   ],
   "note": ""
  },
  {
   "property": "C115",
   "status": "proved",
   "theorems": [
    "C115_info",
    "C115_subsample",
    "C115_unique",
    "C115_classes",
    "C115_tiles",
    "C115_subtract_min",
    "C115_recenter_differs",
    "C115_zeros_differ"
   ],
   "note": ""
  },
  {
   "property": "C116",
   "status": "proved",
   "theorems": [
    "C116_filter",
    "C116_tool",
    "C116_tool_same",
    "C116_info"
   ],
   "note": ""
  },
  {
   "property": "C117",
   "status": "proved",
   "theorems": [
    "C117_stages"
   ],
   "note": ""
  },
  {
   "property": "C118",
   "status": "proved",
   "theorems": [
    "C118_running",
    "C118_stopped",
    "C118_clock_set_back"
   ],
   "note": ""
  },
  {
   "property": "C119",
   "status": "proved",
   "theorems": [
    "C119_uncompressed",
    "C119_compressed",
    "C119_program",
    "C119_no_access"
   ],
   "note": ""
  },
  {
   "property": "C120",
   "status": "proved",
   "theorems": [
    "C120_cloud",
    "C120_zero_draw",
    "C120_any_cloud"
   ],
   "note": ""
  },
  {
   "property": "C121",
   "status": "proved",
   "theorems": [
    "C121_bytes",
    "C121_empty",
    "C121_unique",
    "C121_stable"
   ],
   "note": ""
  },
  {
   "property": "C122",
   "status": "proved",
   "theorems": [
    "C122_merge",
    "C122_unique_differs"
   ],
   "note": ""
  },
  {
   "property": "C123",
   "status": "proved",
   "theorems": [
    "C123_merge",
    "C123_tiles",
    "C123_filters"
   ],
   "note": ""
  },
  {
   "property": "C124",
   "status": "proved",
   "theorems": [
    "C124_commute",
    "C124_random_differs",
    "C124_replace_not_differs"
   ],
   "note": ""
  },
  {
   "property": "C125",
   "status": "proved",
   "theorems": [
    "C125_transform",
    "C125_resize"
   ],
   "note": ""
  },
  {
   "property": "C126",
   "status": "proved",
   "theorems": [
    "C126_report"
   ],
   "note": ""
  },
  {
   "property": "C127",
   "status": "proved",
   "theorems": [
    "C127_classify"
   ],
   "note": ""
  },
  {
   "property": "C128",
   "status": "proved",
   "theorems": [
    "C128_columns",
    "C128_merge",
    "C128_filter",
    "C128_tiles"
   ],
   "note": ""
  }
 ]
}