{
 "claims": [
  {
   "property": "C01",
   "status": "proved",
   "theorems": [
    "C01_number_accepts",
    "C01_number_errors",
    "C01_number_in_range"
   ],
   "note": ""
  },
  {
   "property": "C02",
   "status": "proved",
   "theorems": [
    "C02_nan_accepted",
    "C02_accepted_is_inside_refuted",
    "C02_only_nan",
    "C02_array_nan_invisible"
   ],
   "note": ""
  },
  {
   "property": "C03",
   "status": "proved",
   "theorems": [
    "C03_array_on_ndarray",
    "C03_array_on_others",
    "C03_one_bad_entry"
   ],
   "note": ""
  },
  {
   "property": "C04",
   "status": "proved",
   "theorems": [
    "C04_same_shape"
   ],
   "note": ""
  },
  {
   "property": "C05",
   "status": "proved",
   "theorems": [
    "C05_ring_invariant"
   ],
   "note": ""
  },
  {
   "property": "C06",
   "status": "proved",
   "theorems": [
    "C06_failed_assignment_changes_nothing",
    "C06_assignment",
    "C06_not_a_number"
   ],
   "note": ""
  },
  {
   "property": "C07",
   "status": "proved",
   "theorems": [
    "C07_nan_ring_accepted",
    "C07_inner_below_outer_refuted",
    "C07_only_nan"
   ],
   "note": ""
  },
  {
   "property": "C08",
   "status": "proved",
   "theorems": [
    "C08_patch_outlines",
    "C08_ellipse",
    "C08_affine",
    "C08_opacity"
   ],
   "note": ""
  },
  {
   "property": "C09",
   "status": "proved",
   "theorems": [
    "C09_history_ordered",
    "C09_history_ordered_with_split"
   ],
   "note": ""
  },
  {
   "property": "C10",
   "status": "proved",
   "theorems": [
    "C10_add_ring",
    "C10_remove_ring",
    "C10_replace_ring",
    "C10_remove_after_add"
   ],
   "note": ""
  },
  {
   "property": "C11",
   "status": "proved",
   "theorems": [
    "C11_failed_operation_changes_nothing"
   ],
   "note": ""
  },
  {
   "property": "C12",
   "status": "proved",
   "theorems": [
    "C12_constructor_accepts",
    "C12_rings_disjoint_refuted"
   ],
   "note": ""
  },
  {
   "property": "C13",
   "status": "proved",
   "theorems": [
    "C13_split_exact",
    "C13_split_profile"
   ],
   "note": ""
  },
  {
   "property": "C14",
   "status": "proved",
   "theorems": [
    "C14_split_counts",
    "C14_split_ordered_refuted",
    "C14_split_end_refuted",
    "C14_split_succeeds_refuted"
   ],
   "note": ""
  },
  {
   "property": "C15",
   "status": "proved",
   "theorems": [
    "C15_merge_profile"
   ],
   "note": ""
  },
  {
   "property": "C16",
   "status": "proved",
   "theorems": [
    "C16_merge_after_split",
    "C16_merge_after_split_id"
   ],
   "note": ""
  },
  {
   "property": "C17",
   "status": "proved",
   "theorems": [
    "C17_merge_empty",
    "C17_merge_bad_tolerance",
    "C17_index_error_only_empty"
   ],
   "note": ""
  },
  {
   "property": "C18",
   "status": "proved",
   "theorems": [
    "C18_own_geometry",
    "C18_geometry_refuted"
   ],
   "note": ""
  },
  {
   "property": "C19",
   "status": "proved",
   "theorems": [
    "C19_plot_fails_iff_empty",
    "C19_plot_window"
   ],
   "note": ""
  },
  {
   "property": "C20",
   "status": "proved",
   "theorems": [
    "C20_accepted",
    "C20_sizes",
    "C20_rf_array",
    "C20_spacing",
    "C20_first_binary64"
   ],
   "note": ""
  },
  {
   "property": "C21",
   "status": "proved",
   "theorems": [
    "C21_extend_mirrors",
    "C21_not_extendable"
   ],
   "note": ""
  },
  {
   "property": "C22",
   "status": "proved",
   "theorems": [
    "C22_one_column",
    "C22_one_row",
    "C22_extendable_refuted"
   ],
   "note": ""
  },
  {
   "property": "C23",
   "status": "proved",
   "theorems": [
    "C23_extended_grid_contains_zero_refuted"
   ],
   "note": ""
  },
  {
   "property": "C24",
   "status": "proved",
   "theorems": [
    "C24_load_after_save",
    "C24_save_succeeds",
    "C24_other_files_untouched",
    "C24_load_error",
    "C24_half_extended_refuted"
   ],
   "note": ""
  },
  {
   "property": "C25",
   "status": "proved",
   "theorems": [
    "C25_get_returns_latest_save",
    "C25_get_errors",
    "C25_extended_refuses_saves",
    "C25_bool_index_refuted"
   ],
   "note": ""
  },
  {
   "property": "C26",
   "status": "proved",
   "theorems": [
    "C26_extended_lookup",
    "C26_mirror_lookup_refuted"
   ],
   "note": ""
  },
  {
   "property": "C27",
   "status": "proved",
   "theorems": [
    "C27_load_after_save",
    "C27_save_succeeds",
    "C27_flag_lost_refuted"
   ],
   "note": ""
  },
  {
   "property": "C28",
   "status": "proved",
   "theorems": [
    "C28_masked",
    "C28_unmasked"
   ],
   "note": ""
  },
  {
   "property": "C29",
   "status": "proved",
   "theorems": [
    "C29_destroyed",
    "C29_nan_stays",
    "C29_unmasked_kept",
    "C29_only_reads",
    "C29_pure_read_refuted"
   ],
   "note": ""
  },
  {
   "property": "C30",
   "status": "proved",
   "theorems": [
    "C30_constructed",
    "C30_fields",
    "C30_set_mask",
    "C30_set_mask_refused",
    "C30_shapes",
    "C30_extended_refuted"
   ],
   "note": ""
  },
  {
   "property": "C31",
   "status": "proved",
   "theorems": [
    "C31_limits",
    "C31_colors"
   ],
   "note": ""
  },
  {
   "property": "C32",
   "status": "proved",
   "theorems": [
    "C32_mask",
    "C32_accepted",
    "C32_real"
   ],
   "note": ""
  },
  {
   "property": "C33",
   "status": "proved",
   "theorems": [
    "C33_rejected",
    "C33_mask_kept",
    "C33_repaired",
    "C33_atomic_refuted"
   ],
   "note": ""
  },
  {
   "property": "C34",
   "status": "proved",
   "theorems": [
    "C34_survives",
    "C34_save_succeeds",
    "C34_bool_position_refuted"
   ],
   "note": ""
  },
  {
   "property": "C35",
   "status": "proved",
   "theorems": [
    "C35_contact_fx",
    "C35_contact_fy",
    "C35_radius",
    "C35_inverse_fy",
    "C35_inverse_fx"
   ],
   "note": ""
  },
  {
   "property": "C36",
   "status": "proved",
   "theorems": [
    "C36_disk"
   ],
   "note": ""
  },
  {
   "property": "C37",
   "status": "proved",
   "theorems": [
    "C37_fill",
    "C37_fill_mismatch",
    "C37_constructor",
    "C37_mirror",
    "C37_shear",
    "C37_scale"
   ],
   "note": ""
  },
  {
   "property": "C38",
   "status": "proved",
   "theorems": [
    "C38_tangent",
    "C38_concentric",
    "C38_range",
    "C38_nan",
    "C38_vertical_refuted",
    "C38_formula"
   ],
   "note": ""
  },
  {
   "property": "C39",
   "status": "proved",
   "theorems": [
    "C39_positive",
    "C39_velocity",
    "C39_limb",
    "C39_zero_velocity",
    "C39_zero_accepted"
   ],
   "note": ""
  },
  {
   "property": "C40",
   "status": "proved",
   "theorems": [
    "C40_terminates",
    "C40_rounds",
    "C40_reaches",
    "C40_small",
    "C40_small_grid",
    "C40_succeeds"
   ],
   "note": ""
  },
  {
   "property": "C41",
   "status": "proved",
   "theorems": [
    "C41_middle",
    "C41_least",
    "C41_lines",
    "C41_range",
    "C41_search",
    "C41_diagnostic"
   ],
   "note": ""
  },
  {
   "property": "C42",
   "status": "proved",
   "theorems": [
    "C42_shear",
    "C42_shear_binary64",
    "C42_columns",
    "C42_degenerate"
   ],
   "note": ""
  },
  {
   "property": "C43",
   "status": "proved",
   "theorems": [
    "C43_union"
   ],
   "note": ""
  },
  {
   "property": "C44",
   "status": "proved",
   "theorems": [
    "C44_exact",
    "C44_stays",
    "C44_refuted"
   ],
   "note": ""
  },
  {
   "property": "C45",
   "status": "proved",
   "theorems": [
    "C45_added",
    "C45_nothing",
    "C45_removed"
   ],
   "note": ""
  },
  {
   "property": "C46",
   "status": "proved",
   "theorems": [
    "C46_repeated",
    "C46_refuted"
   ],
   "note": ""
  },
  {
   "property": "C47",
   "status": "proved",
   "theorems": [
    "C47_cleared",
    "C47_later",
    "C47_gradients"
   ],
   "note": ""
  },
  {
   "property": "C48",
   "status": "proved",
   "theorems": [
    "C48_sum",
    "C48_total",
    "C48_failed",
    "C48_reals"
   ],
   "note": ""
  },
  {
   "property": "C49",
   "status": "proved",
   "theorems": [
    "C49_best",
    "C49_refused",
    "C49_nofit"
   ],
   "note": ""
  },
  {
   "property": "C50",
   "status": "proved",
   "theorems": [
    "C50_continues",
    "C50_all_again",
    "C50_refuted"
   ],
   "note": ""
  },
  {
   "property": "C51",
   "status": "proved",
   "theorems": [
    "C51_least",
    "C51_found",
    "C51_rows",
    "C51_refuted"
   ],
   "note": ""
  },
  {
   "property": "C52",
   "status": "proved",
   "theorems": [
    "C52_inside",
    "C52_outside",
    "C52_edge",
    "C52_refuted"
   ],
   "note": ""
  },
  {
   "property": "C53",
   "status": "proved",
   "theorems": [
    "C53_read",
    "C53_destroyed",
    "C53_plain",
    "C53_only_lost",
    "C53_refuted"
   ],
   "note": ""
  },
  {
   "property": "C54",
   "status": "proved",
   "theorems": [
    "C54_outcome",
    "C54_scaling",
    "C54_refuted",
    "C54_scaling_refuted"
   ],
   "note": ""
  },
  {
   "property": "C55",
   "status": "proved",
   "theorems": [
    "C55_save_load"
   ],
   "note": ""
  },
  {
   "property": "C56",
   "status": "proved",
   "theorems": [
    "C56_no_gradients",
    "C56_refuted",
    "C56_overwritten",
    "C56_not_finite"
   ],
   "note": ""
  },
  {
   "property": "C57",
   "status": "proved",
   "theorems": [
    "C57_intermittent",
    "C57_files_written",
    "C57_never",
    "C57_refuted"
   ],
   "note": ""
  },
  {
   "property": "C58",
   "status": "proved",
   "theorems": [
    "C58_resume",
    "C58_crash",
    "C58_bool_refuted"
   ],
   "note": "num_fxfy must be an int that is not a bool (True makes the resumed build raise: C58_bool_refuted); num_fxfy comes back as numpy integer. C58_crash also covers torn writes and a half-removed directory."
  },
  {
   "property": "C59",
   "status": "proved",
   "theorems": [
    "C59_load_temp",
    "C59_load_temp_deletes",
    "C59_load_deletes",
    "C59_construct_deletes",
    "C59_refuted"
   ],
   "note": ""
  },
  {
   "property": "C60",
   "status": "proved",
   "theorems": [
    "C60_range",
    "C60_slice",
    "C60_walk",
    "C60_step",
    "C60_many",
    "C60_frozen",
    "C60_frame"
   ],
   "note": ""
  },
  {
   "property": "C61",
   "status": "proved",
   "theorems": [
    "C61_shown",
    "C61_current",
    "C61_points",
    "C61_current_only_refuted"
   ],
   "note": ""
  },
  {
   "property": "C62",
   "status": "proved",
   "theorems": [
    "C62_distinct",
    "C62_distinct_caseless",
    "C62_display",
    "C62_display_units"
   ],
   "note": ""
  },
  {
   "property": "C63",
   "status": "proved",
   "theorems": [
    "C63_interrupted_save",
    "C63_interrupted_overwrite_refuted"
   ],
   "note": ""
  },
  {
   "property": "C64",
   "status": "proved",
   "theorems": [
    "C64_survives",
    "C64_save_succeeds"
   ],
   "note": ""
  },
  {
   "property": "C65",
   "status": "proved",
   "theorems": [
    "C65_stale_mask",
    "C65_stale_measurement"
   ],
   "note": ""
  },
  {
   "property": "C66",
   "status": "proved",
   "theorems": [
    "C66_property",
    "C66_gradient",
    "C66_gradient_refuted"
   ],
   "note": ""
  },
  {
   "property": "C67",
   "status": "proved",
   "theorems": [
    "C67_constructor",
    "C67_viewing_pure_refuted",
    "C67_one_slice_refuted"
   ],
   "note": ""
  },
  {
   "property": "C68",
   "status": "proved",
   "theorems": [
    "C68_title_rf",
    "C68_title_xy",
    "C68_extent",
    "C68_ticks",
    "C68_own_pixel",
    "C68_plot_slice",
    "C68_plot_cube"
   ],
   "note": ""
  },
  {
   "property": "C69",
   "status": "proved",
   "theorems": [
    "C69_drawn_at",
    "C69_reading",
    "C69_place_refuted",
    "C69_both_halves"
   ],
   "note": ""
  },
  {
   "property": "C70",
   "status": "proved",
   "theorems": [
    "C70_rounded",
    "C70_special",
    "C70_same",
    "C70_apart"
   ],
   "note": ""
  },
  {
   "property": "C71",
   "status": "proved",
   "theorems": [
    "C71_directory",
    "C71_apart",
    "C71_last",
    "C71_mixed",
    "C71_names",
    "C71_distinct_refuted",
    "C71_own_measurement_refuted"
   ],
   "note": ""
  },
  {
   "property": "C72",
   "status": "proved",
   "theorems": [
    "C72_property",
    "C72_property_str",
    "C72_new",
    "C72_forever",
    "C72_contrast",
    "C72_gradient",
    "C72_grid",
    "C72_built",
    "C72_grid_forever",
    "C72_property_refuted",
    "C72_gradient_refuted",
    "C72_grid_refuted"
   ],
   "note": ""
  },
  {
   "property": "C73",
   "status": "proved",
   "theorems": [
    "C73_ring",
    "C73_system"
   ],
   "note": ""
  },
  {
   "property": "C74",
   "status": "proved",
   "theorems": [
    "C74_edge",
    "C74_grid"
   ],
   "note": ""
  },
  {
   "property": "C75",
   "status": "proved",
   "theorems": [
    "C75_origin",
    "C75_refuted"
   ],
   "note": ""
  },
  {
   "property": "C76",
   "status": "proved",
   "theorems": [
    "C76_axis",
    "C76_vanishes"
   ],
   "note": ""
  },
  {
   "property": "C77",
   "status": "proved",
   "theorems": [
    "C77_family",
    "C77_smallest",
    "C77_origin"
   ],
   "note": ""
  },
  {
   "property": "C78",
   "status": "proved",
   "theorems": [
    "C78_listed",
    "C78_returns",
    "C78_raises",
    "C78_none"
   ],
   "note": ""
  },
  {
   "property": "C79",
   "status": "proved",
   "theorems": [
    "C79_failed",
    "C79_no_fit",
    "C79_refuted"
   ],
   "note": ""
  },
  {
   "property": "C80",
   "status": "proved",
   "theorems": [
    "C80_rescaled",
    "C80_same"
   ],
   "note": ""
  },
  {
   "property": "C81",
   "status": "proved",
   "theorems": [
    "C81_built",
    "C81_loaded",
    "C81_refuted"
   ],
   "note": ""
  },
  {
   "property": "C82",
   "status": "proved",
   "theorems": [
    "C82_tangent_exists",
    "C82_gradient_is_sine",
    "C82_grid_gradients"
   ],
   "note": ""
  },
  {
   "property": "C83",
   "status": "proved",
   "theorems": [
    "C83_built",
    "C83_search",
    "C83_vertical_refuted"
   ],
   "note": ""
  },
  {
   "property": "C84",
   "status": "proved",
   "theorems": [
    "C84_same",
    "C84_lookup",
    "C84_lookup_refuted"
   ],
   "note": ""
  },
  {
   "property": "C85",
   "status": "proved",
   "theorems": [
    "C85_number",
    "C85_array",
    "C85_shapes",
    "C85_both",
    "C85_written",
    "C85_printed_refuted",
    "C85_integers",
    "C85_tuples",
    "C85_misuse",
    "C85_outcome"
   ],
   "note": ""
  },
  {
   "property": "C86",
   "status": "proved",
   "theorems": [
    "C86_ring",
    "C86_setter",
    "C86_system",
    "C86_add",
    "C86_remove",
    "C86_replace",
    "C86_split",
    "C86_empty",
    "C86_merge",
    "C86_equal_radii_refuted",
    "C86_demand_refuted",
    "C86_outcome"
   ],
   "note": ""
  },
  {
   "property": "C87",
   "status": "proved",
   "theorems": [
    "C87_params",
    "C87_extend",
    "C87_property",
    "C87_gradient",
    "C87_mask",
    "C87_contrast",
    "C87_measure",
    "C87_keep",
    "C87_missing",
    "C87_missing_refuted",
    "C87_load",
    "C87_load_distinct",
    "C87_outcome"
   ],
   "note": ""
  },
  {
   "property": "C88",
   "status": "proved",
   "theorems": [
    "C88_contact_fx",
    "C88_contact_fy",
    "C88_fx_defined",
    "C88_fx_undefined",
    "C88_fy_defined",
    "C88_fy_undefined",
    "C88_circle_refuted",
    "C88_circle_lost_refuted"
   ],
   "note": ""
  },
  {
   "property": "C89",
   "status": "proved",
   "theorems": [
    "C89_disk",
    "C89_radius",
    "C89_accurate"
   ],
   "note": ""
  },
  {
   "property": "C90",
   "status": "proved",
   "theorems": [
    "C90_diagnostics",
    "C90_parameters",
    "C90_property",
    "C90_gradient",
    "C90_grid",
    "C90_changes",
    "C90_title",
    "C90_labels",
    "C90_minimum_refuted",
    "C90_full_share_refuted"
   ],
   "note": ""
  },
  {
   "property": "C91",
   "status": "proved",
   "theorems": [
    "C91_axes",
    "C91_extended",
    "C91_increasing_refuted",
    "C91_ordered_refuted",
    "C91_number_refuted"
   ],
   "note": ""
  },
  {
   "property": "C92",
   "status": "proved",
   "theorems": [
    "C92_gradient",
    "C92_grid_point",
    "C92_upright",
    "C92_axis",
    "C92_upright_refuted",
    "C92_functions"
   ],
   "note": ""
  },
  {
   "property": "C93",
   "status": "proved",
   "theorems": [
    "C93_edge",
    "C93_contact",
    "C93_grid",
    "C93_mirrored",
    "C93_flat_refuted"
   ],
   "note": ""
  },
  {
   "property": "C94",
   "status": "proved",
   "theorems": [
    "C94_viewer",
    "C94_getters",
    "C94_hill",
    "C94_point",
    "C94_extract",
    "C94_closest",
    "C94_gradients",
    "C94_eclipse",
    "C94_removal",
    "C94_addition",
    "C94_addition_refused",
    "C94_scaling",
    "C94_construct",
    "C94_construct_later",
    "C94_save",
    "C94_load",
    "C94_quadrants",
    "C94_outcome",
    "C94_named_refuted"
   ],
   "note": ""
  },
  {
   "property": "C95",
   "status": "proved",
   "theorems": [
    "C95_add",
    "C95_replace",
    "C95_remove",
    "C95_split",
    "C95_merge",
    "C95_error",
    "C95_history",
    "C95_levels",
    "C95_outcome",
    "C95_numeral_refuted"
   ],
   "note": ""
  },
  {
   "property": "C96",
   "status": "proved",
   "theorems": [
    "C96_cleared",
    "C96_dropped",
    "C96_history",
    "C96_refusals",
    "C96_refused",
    "C96_add",
    "C96_edits",
    "C96_extract",
    "C96_closest",
    "C96_impact_refuted",
    "C96_error",
    "C96_announced_refuted",
    "C96_quiet",
    "C96_built",
    "C96_resumed",
    "C96_outcome"
   ],
   "note": ""
  },
  {
   "property": "C97",
   "status": "proved",
   "theorems": [
    "C97_scale",
    "C97_added",
    "C97_fit",
    "C97_zero",
    "C97_order",
    "C97_best",
    "C97_perfect_refuted",
    "C97_tiny_refuted"
   ],
   "note": ""
  },
  {
   "property": "C98",
   "status": "proved",
   "theorems": [
    "C98_near",
    "C98_reported",
    "C98_axis_refuted"
   ],
   "note": ""
  },
  {
   "property": "C99",
   "status": "proved",
   "theorems": [
    "C99_valid",
    "C99_narrowing",
    "C99_fits",
    "C99_order_refuted",
    "C99_plane_refuted",
    "C99_split_plane",
    "C99_merge_plane"
   ],
   "note": ""
  },
  {
   "property": "C100",
   "status": "proved",
   "theorems": [
    "C100_patches",
    "C100_patches_fail",
    "C100_drawn",
    "C100_refused",
    "C100_empty",
    "C100_atomic_refuted",
    "C100_shown",
    "C100_top_refuted",
    "C100_planet",
    "C100_planet_refuted"
   ],
   "note": ""
  },
  {
   "property": "C101",
   "status": "proved",
   "theorems": [
    "C101_inclination",
    "C101_grid",
    "C101_circle_refuted"
   ],
   "note": ""
  },
  {
   "property": "C102",
   "status": "proved",
   "theorems": [
    "C102_tilt",
    "C102_grid",
    "C102_flat_refuted",
    "C102_round_refuted"
   ],
   "note": ""
  },
  {
   "property": "C103",
   "status": "proved",
   "theorems": [
    "C103_radius",
    "C103_hill"
   ],
   "note": ""
  },
  {
   "property": "C104",
   "status": "proved",
   "theorems": [
    "C104_outlines",
    "C104_vertex",
    "C104_shared"
   ],
   "note": ""
  },
  {
   "property": "C105",
   "status": "proved",
   "theorems": [
    "C105_split",
    "C105_merge",
    "C105_gaps"
   ],
   "note": ""
  },
  {
   "property": "C106",
   "status": "proved",
   "theorems": [
    "C106_steps",
    "C106_back",
    "C106_fewer",
    "C106_apart",
    "C106_closed",
    "C106_closed_refuted"
   ],
   "note": ""
  },
  {
   "property": "C107",
   "status": "proved",
   "theorems": [
    "C107_steps",
    "C107_steps_refuted"
   ],
   "note": ""
  }
 ]
}