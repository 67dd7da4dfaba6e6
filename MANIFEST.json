{
 "claims": [
  {
   "property": "C01",
   "status": "proved",
   "theorems": [
    "C01_normalize_roundtrip",
    "C01_full_scale",
    "C01_unknown_depth"
   ],
   "note": ""
  },
  {
   "property": "C02",
   "status": "proved",
   "theorems": [
    "C02_range_stays_inside",
    "C02_ieee_range_stays_inside"
   ],
   "note": ""
  },
  {
   "property": "C03",
   "status": "proved",
   "theorems": [
    "C03_affine",
    "C03_clamping",
    "C03_exchanged_is_inverse",
    "C03_reversed_clamp_is_constant"
   ],
   "note": ""
  },
  {
   "property": "C04",
   "status": "proved",
   "theorems": [
    "C04_only_minimum",
    "C04_only_maximum",
    "C04_no_pair_only_converts",
    "C04_default_range"
   ],
   "note": ""
  },
  {
   "property": "C05",
   "status": "proved",
   "theorems": [
    "C05_range_elementwise"
   ],
   "note": ""
  },
  {
   "property": "C06",
   "status": "proved",
   "theorems": [
    "C06_range_fails"
   ],
   "note": ""
  },
  {
   "property": "C07",
   "status": "proved",
   "theorems": [
    "C07_matrix_is_affine"
   ],
   "note": ""
  },
  {
   "property": "C08",
   "status": "proved",
   "theorems": [
    "C08_matrices_compose",
    "C08_identity_matrix"
   ],
   "note": ""
  },
  {
   "property": "C09",
   "status": "proved",
   "theorems": [
    "C09_matrix_fails"
   ],
   "note": ""
  },
  {
   "property": "C10",
   "status": "proved",
   "theorems": [
    "C10_list_pixels_independent",
    "C10_node_pixels_independent"
   ],
   "note": ""
  },
  {
   "property": "C11",
   "status": "proved",
   "theorems": [
    "C11_extra_channels",
    "C11_extra_channels_exposure_contrast"
   ],
   "note": ""
  },
  {
   "property": "C12",
   "status": "proved",
   "theorems": [
    "C12_list_length",
    "C12_node_length",
    "C12_leftover_is_zero"
   ],
   "note": ""
  },
  {
   "property": "C13",
   "status": "proved",
   "theorems": [
    "C13_list_leaves_input",
    "C13_node_overwrites_input",
    "C13_matrix_leaves_input"
   ],
   "note": ""
  },
  {
   "property": "C14",
   "status": "proved",
   "theorems": [
    "C14_list_is_composition",
    "C14_ieee_list_is_composition",
    "C14_empty_list"
   ],
   "note": ""
  },
  {
   "property": "C15",
   "status": "proved",
   "theorems": [
    "C15_bypassed_node_is_skipped",
    "C15_bypass_without_feature"
   ],
   "note": ""
  },
  {
   "property": "C16",
   "status": "proved",
   "theorems": [
    "C16_bypassed_run_in_list",
    "C16_bypassed_run_in_group",
    "C16_rescale_is_linear"
   ],
   "note": ""
  },
  {
   "property": "C17",
   "status": "proved",
   "theorems": [
    "C17_group_is_inline",
    "C17_group_is_inline_without_feature_refuted"
   ],
   "note": ""
  },
  {
   "property": "C18",
   "status": "proved",
   "theorems": [
    "C18_resolved_reference",
    "C18_missing_reference_is_silent"
   ],
   "note": ""
  },
  {
   "property": "C19",
   "status": "proved",
   "theorems": [
    "C19_entries_at_samples",
    "C19_single_entry",
    "C19_entries_at_mapped_positions"
   ],
   "note": ""
  },
  {
   "property": "C20",
   "status": "proved",
   "theorems": [
    "C20_between_and_monotone"
   ],
   "note": ""
  },
  {
   "property": "C21",
   "status": "proved",
   "theorems": [
    "C21_channels_independent",
    "C21_flat_table"
   ],
   "note": ""
  },
  {
   "property": "C22",
   "status": "proved",
   "theorems": [
    "C22_sampled_function",
    "C22_one_sample_fails"
   ],
   "note": ""
  },
  {
   "property": "C23",
   "status": "proved",
   "theorems": [
    "C23_ieee_nonfinite",
    "C23_lut1d_never_fails",
    "C23_ieee_lut1d_never_fails"
   ],
   "note": ""
  },
  {
   "property": "C24",
   "status": "proved",
   "theorems": [
    "C24_cubic_never_works",
    "C24_cubic_name_error"
   ],
   "note": ""
  },
  {
   "property": "C25",
   "status": "proved",
   "theorems": [
    "C25_index_map"
   ],
   "note": ""
  },
  {
   "property": "C26",
   "status": "proved",
   "theorems": [
    "C26_half_domain",
    "C26_exact_halfs",
    "C26_exact_halfs_refuted"
   ],
   "note": ""
  },
  {
   "property": "C27",
   "status": "proved",
   "theorems": [
    "C27_entries_at_lattice_points",
    "C27_mapped_positions"
   ],
   "note": ""
  },
  {
   "property": "C28",
   "status": "proved",
   "theorems": [
    "C28_within_corners"
   ],
   "note": ""
  },
  {
   "property": "C29",
   "status": "proved",
   "theorems": [
    "C29_affine_tables",
    "C29_sampled_function"
   ],
   "note": ""
  },
  {
   "property": "C30",
   "status": "proved",
   "theorems": [
    "C30_tetrahedra_agree"
   ],
   "note": ""
  },
  {
   "property": "C31",
   "status": "proved",
   "theorems": [
    "C31_address_read",
    "C31_noncubic_refuted"
   ],
   "note": ""
  },
  {
   "property": "C32",
   "status": "proved",
   "theorems": [
    "C32_lut3d_never_fails",
    "C32_ieee_lut3d_never_fails",
    "C32_unknown_interpolation"
   ],
   "note": ""
  },
  {
   "property": "C33",
   "status": "proved",
   "theorems": [
    "C33_in_range",
    "C33_ieee_in_range"
   ],
   "note": ""
  },
  {
   "property": "C34",
   "status": "proved",
   "theorems": [
    "C34_luma",
    "C34_neutral"
   ],
   "note": ""
  },
  {
   "property": "C35",
   "status": "proved",
   "theorems": [
    "C35_rev_undoes_fwd",
    "C35_noclamp_clamps",
    "C35_noclamp_refuted"
   ],
   "note": ""
  },
  {
   "property": "C36",
   "status": "proved",
   "theorems": [
    "C36_style_gate",
    "C36_unknown_style",
    "C36_color_correction_fails"
   ],
   "note": ""
  },
  {
   "property": "C37",
   "status": "proved",
   "theorems": [
    "C37_basic_gamma"
   ],
   "note": ""
  },
  {
   "property": "C38",
   "status": "proved",
   "theorems": [
    "C38_moncurve",
    "C38_forward_curve"
   ],
   "note": ""
  },
  {
   "property": "C39",
   "status": "proved",
   "theorems": [
    "C39_log_antilog",
    "C39_cineon"
   ],
   "note": ""
  },
  {
   "property": "C40",
   "status": "proved",
   "theorems": [
    "C40_linear",
    "C40_pivot",
    "C40_video_fails",
    "C40_video_always_fails",
    "C40_log_fails"
   ],
   "note": ""
  },
  {
   "property": "C41",
   "status": "proved",
   "theorems": [
    "C41_needs_three_channels",
    "C41_cdl_accepts_short_pixels",
    "C41_matrix_accepts_short_pixels"
   ],
   "note": ""
  },
  {
   "property": "C42",
   "status": "proved",
   "theorems": [
    "C42_array_round_trip",
    "C42_writable"
   ],
   "note": ""
  },
  {
   "property": "C43",
   "status": "proved",
   "theorems": [
    "C43_integer_flag_ignored",
    "C43_nonfinite_raises"
   ],
   "note": ""
  },
  {
   "property": "C44",
   "status": "proved",
   "theorems": [
    "C44_set_encoding",
    "C44_writing_refused",
    "C44_empty_written",
    "C44_reading_ungated"
   ],
   "note": ""
  },
  {
   "property": "C45",
   "status": "proved",
   "theorems": [
    "C45_save_and_open",
    "C45_round_trip",
    "C45_writable",
    "C45_numbers",
    "C45_processing",
    "C45_matrix_refuted"
   ],
   "note": ""
  },
  {
   "property": "C46",
   "status": "proved",
   "theorems": [
    "C46_lenient_skips_unknown",
    "C46_strict_rejects_unknown",
    "C46_group_skips_unknown"
   ],
   "note": ""
  },
  {
   "property": "C47",
   "status": "proved",
   "theorems": [
    "C47_strict_features",
    "C47_lenient_features",
    "C47_dynamic_dropped",
    "C47_dynamic_refused"
   ],
   "note": ""
  },
  {
   "property": "C48",
   "status": "proved",
   "theorems": [
    "C48_namespace_ignored",
    "C48_separators_ignored",
    "C48_plain_tag_kept",
    "C48_read_alike",
    "C48_documents_alike"
   ],
   "note": ""
  },
  {
   "property": "C49",
   "status": "proved",
   "theorems": [
    "C49_gzip_alike",
    "C49_feature_off",
    "C49_plain"
   ],
   "note": ""
  },
  {
   "property": "C50",
   "status": "proved",
   "theorems": [
    "C50_untouched",
    "C50_emptied_first",
    "C50_crash"
   ],
   "note": ""
  },
  {
   "property": "C51",
   "status": "proved",
   "theorems": [
    "C51_self_contained",
    "C51_processes_the_same",
    "C51_unresolved",
    "C51_grouped_reference"
   ],
   "note": ""
  },
  {
   "property": "C52",
   "status": "proved",
   "theorems": [
    "C52_cycle",
    "C52_acyclic",
    "C52_acyclic_opens"
   ],
   "note": ""
  },
  {
   "property": "C53",
   "status": "proved",
   "theorems": [
    "C53_numbers",
    "C53_round_trip",
    "C53_inverse",
    "C53_blank_line",
    "C53_line_ends",
    "C53_trailing_blanks"
   ],
   "note": ""
  },
  {
   "property": "C54",
   "status": "proved",
   "theorems": [
    "C54_round_trip",
    "C54_range_lost"
   ],
   "note": ""
  },
  {
   "property": "C55",
   "status": "proved",
   "theorems": [
    "C55_1d",
    "C55_1d_one",
    "C55_1d_two",
    "C55_3d",
    "C55_noncubic_refuted"
   ],
   "note": ""
  },
  {
   "property": "C56",
   "status": "proved",
   "theorems": [
    "C56_tables",
    "C56_lost",
    "C56_cube",
    "C56_program"
   ],
   "note": ""
  },
  {
   "property": "C57",
   "status": "proved",
   "theorems": [
    "C57_index_map_inverse"
   ],
   "note": ""
  },
  {
   "property": "C58",
   "status": "proved",
   "theorems": [
    "C58_range_not_used",
    "C58_entries_are_positions",
    "C58_one_range_at_most"
   ],
   "note": ""
  },
  {
   "property": "C59",
   "status": "proved",
   "theorems": [
    "C59_samples_1d",
    "C59_samples_3d",
    "C59_grid_covers_interval",
    "C59_uneven_resolution_fails",
    "C59_one_sample_fails"
   ],
   "note": ""
  },
  {
   "property": "C60",
   "status": "proved",
   "theorems": [
    "C60_shapers_undone",
    "C60_other_shapers_are_empty",
    "C60_tables",
    "C60_output_table_right_iff_same"
   ],
   "note": ""
  },
  {
   "property": "C61",
   "status": "proved",
   "theorems": [
    "C61_exported_linear",
    "C61_unit_range_agrees",
    "C61_other_range_refuted"
   ],
   "note": ""
  },
  {
   "property": "C62",
   "status": "proved",
   "theorems": [
    "C62_read_dispatch",
    "C62_write_dispatch",
    "C62_extension_of_path",
    "C62_extension_of_file"
   ],
   "note": ""
  },
  {
   "property": "C63",
   "status": "proved",
   "theorems": [
    "C63_rows",
    "C63_pixels",
    "C63_every_run",
    "C63_pool_terminates"
   ],
   "note": ""
  },
  {
   "property": "C64",
   "status": "proved",
   "theorems": [
    "C64_single_thread_one_row",
    "C64_single_thread_short",
    "C64_one_row_fails",
    "C64_same_result_refuted"
   ],
   "note": ""
  },
  {
   "property": "C65",
   "status": "proved",
   "theorems": [
    "C65_codes_round_trip",
    "C65_stored_round_trip",
    "C65_truncates_and_wraps",
    "C65_no_rounding",
    "C65_nonfinite_fails",
    "C65_tagged_float_fails"
   ],
   "note": ""
  },
  {
   "property": "C66",
   "status": "proved",
   "theorems": [
    "C66_reduced",
    "C66_reduced_exact",
    "C66_kept",
    "C66_small",
    "C66_rejected"
   ],
   "note": ""
  },
  {
   "property": "C67",
   "status": "proved",
   "theorems": [
    "C67_dropped_parts",
    "C67_groups_flatten",
    "C67_logs"
   ],
   "note": ""
  },
  {
   "property": "C68",
   "status": "proved",
   "theorems": [
    "C68_default_stride",
    "C68_default_stride_node"
   ],
   "note": ""
  },
  {
   "property": "C69",
   "status": "proved",
   "theorems": [
    "C69_resampled_inverse",
    "C69_between_points_refuted"
   ],
   "note": ""
  },
  {
   "property": "C70",
   "status": "proved",
   "theorems": [
    "C70_expanded",
    "C70_starts_differ",
    "C70_two_points"
   ],
   "note": ""
  },
  {
   "property": "C71",
   "status": "proved",
   "theorems": [
    "C71_round_trip",
    "C71_no_shaper",
    "C71_output_shaper_dropped",
    "C71_close_inputs_refuted"
   ],
   "note": ""
  },
  {
   "property": "C72",
   "status": "proved",
   "theorems": [
    "C72_inverse_ignored",
    "C72_read_only"
   ],
   "note": ""
  },
  {
   "property": "C73",
   "status": "proved",
   "theorems": [
    "C73_options_that_count",
    "C73_nothing_written",
    "C73_spi1d",
    "C73_spi3d",
    "C73_clf",
    "C73_how_it_ends"
   ],
   "note": ""
  },
  {
   "property": "C74",
   "status": "proved",
   "theorems": [
    "C74_spi1d",
    "C74_spi3d",
    "C74_csp_1d",
    "C74_csp_3d"
   ],
   "note": ""
  },
  {
   "property": "C75",
   "status": "proved",
   "theorems": [
    "C75_converted",
    "C75_spi1d",
    "C75_nothing_written",
    "C75_how_it_ends"
   ],
   "note": ""
  },
  {
   "property": "C78",
   "status": "proved",
   "theorems": [
    "C78_nodes",
    "C78_files",
    "C78_transforms",
    "C78_search_path",
    "C78_written",
    "C78_nothing_written",
    "C78_main"
   ],
   "note": ""
  },
  {
   "property": "C79",
   "status": "proved",
   "theorems": [
    "C79_depths_are_set",
    "C79_empty_list",
    "C79_get_process",
    "C79_input_depth_unused",
    "C79_output_depth_unused",
    "C79_range",
    "C79_input_depth",
    "C79_output_depth"
   ],
   "note": ""
  },
  {
   "property": "C76",
   "status": "proved",
   "theorems": [
    "C76_cached_values",
    "C76_exact_halfs",
    "C76_same_results_refuted",
    "C76_late_cache",
    "C76_new_values_ignored",
    "C76_set_values_fails",
    "C76_no_values",
    "C76_constructor",
    "C76_constructor_succeeds"
   ],
   "note": ""
  },
  {
   "property": "C77",
   "status": "proved",
   "theorems": [
    "C77_saved_again",
    "C77_numbers_again",
    "C77_decimals_again",
    "C77_can_save_again",
    "C77_always_again_refuted",
    "C77_first_file_refuted",
    "C77_without_dimension",
    "C77_opened_refuted"
   ],
   "note": ""
  },
  {
   "property": "C80",
   "status": "proved",
   "theorems": [
    "C80_succeeds",
    "C80_types",
    "C80_blocks",
    "C80_table",
    "C80_index_map",
    "C80_comments",
    "C80_saved_can_be_shown",
    "C80_cdl",
    "C80_gamma",
    "C80_log",
    "C80_contrast_shown",
    "C80_contrast_refuted",
    "C80_tool",
    "C80_tool_on_saved"
   ],
   "note": ""
  },
  {
   "property": "C82",
   "status": "proved",
   "theorems": [
    "C82_codes_kept",
    "C82_codes_survive",
    "C82_8_to_16",
    "C82_narrower_refuted"
   ],
   "note": ""
  },
  {
   "property": "C81",
   "status": "proved",
   "theorems": [
    "C81_matrix",
    "C81_lut1d",
    "C81_lut3d",
    "C81_depth_change",
    "C81_range_order"
   ],
   "note": ""
  },
  {
   "property": "C85",
   "status": "proved",
   "theorems": [
    "C85_metadata_is_inert",
    "C85_metadata_setters",
    "C85_set_and_get",
    "C85_list_names",
    "C85_order_added",
    "C85_elements_added",
    "C85_items",
    "C85_add_process",
    "C85_group_add",
    "C85_group_find",
    "C85_order_of_setters_refuted"
   ],
   "note": ""
  },
  {
   "property": "C83",
   "status": "proved",
   "theorems": [
    "C83_integer_images",
    "C83_same_depth",
    "C83_other_bits",
    "C83_rounds_down_refuted",
    "C83_no_image",
    "C83_other_types",
    "C83_too_many_bits",
    "C83_unknown_depth",
    "C83_main_unknown_depth",
    "C83_main_missing_path",
    "C83_main_unread_list",
    "C83_main_runs"
   ],
   "note": ""
  },
  {
   "property": "C84",
   "status": "proved",
   "theorems": [
    "C84_matrix",
    "C84_lut1d",
    "C84_lut3d",
    "C84_lut1d_refuted"
   ],
   "note": ""
  },
  {
   "property": "C86",
   "status": "proved",
   "theorems": [
    "C86_kept",
    "C86_float_to_half",
    "C86_codes_to_float",
    "C86_float_and_back",
    "C86_half_and_back_refuted",
    "C86_nearest_half_refuted",
    "C86_numbers_to_codes",
    "C86_no_code",
    "C86_tagged",
    "C86_packing",
    "C86_pairs"
   ],
   "note": ""
  },
  {
   "property": "C87",
   "status": "proved",
   "theorems": [
    "C87_twelve_digits",
    "C87_spi1d",
    "C87_spi3d",
    "C87_spi1d_and_back",
    "C87_spi3d_and_back"
   ],
   "note": ""
  },
  {
   "property": "C88",
   "status": "proved",
   "theorems": [
    "C88_list",
    "C88_matrix",
    "C88_lut1d",
    "C88_lut3d",
    "C88_range",
    "C88_cdl",
    "C88_group",
    "C88_reference",
    "C88_depth_change"
   ],
   "note": ""
  },
  {
   "property": "C89",
   "status": "proved",
   "theorems": [
    "C89_text_back",
    "C89_saved",
    "C89_save_and_open",
    "C89_refused",
    "C89_attribute_refuted",
    "C89_return_refuted",
    "C89_empty_text_refuted",
    "C89_empty_map_refuted"
   ],
   "note": ""
  },
  {
   "property": "C90",
   "status": "proved",
   "theorems": [
    "C90_cdl",
    "C90_color_correction",
    "C90_range",
    "C90_gamma",
    "C90_log",
    "C90_exposure_contrast",
    "C90_lut1d",
    "C90_lut3d",
    "C90_shared_size"
   ],
   "note": ""
  },
  {
   "property": "C91",
   "status": "proved",
   "theorems": [
    "C91_half_table",
    "C91_half_sampled",
    "C91_half_identity",
    "C91_linear_table",
    "C91_sampled_error",
    "C91_identity_error",
    "C91_cube_table",
    "C91_cube_error",
    "C91_cube_identity_error",
    "C91_uneven_place_refuted",
    "C91_uneven_length_refuted"
   ],
   "note": ""
  },
  {
   "property": "C92",
   "status": "proved",
   "theorems": [
    "C92_floats",
    "C92_codes",
    "C92_saved"
   ],
   "note": ""
  },
  {
   "property": "C93",
   "status": "proved",
   "theorems": [
    "C93_parsed",
    "C93_line_ends",
    "C93_opened"
   ],
   "note": ""
  },
  {
   "property": "C94",
   "status": "proved",
   "theorems": [
    "C94_refused",
    "C94_cut"
   ],
   "note": ""
  },
  {
   "property": "C95",
   "status": "proved",
   "theorems": [
    "C95_attributes",
    "C95_limits",
    "C95_parameters",
    "C95_cdl",
    "C95_tables",
    "C95_order",
    "C95_order_files"
   ],
   "note": ""
  },
  {
   "property": "C96",
   "status": "proved",
   "theorems": [
    "C96_lut1d",
    "C96_lut3d",
    "C96_outside",
    "C96_list_end",
    "C96_order",
    "C96_steps",
    "C96_lut1d_local",
    "C96_lut3d_local",
    "C96_doubles_refuted"
   ],
   "note": ""
  }
 ]
}