## Assumptions of each theorem

As printed by `Print Assumptions` beneath the theorems.

**No axioms** (63 theorems): C40_terminates, C40_reaches, C68_title_xy, C21_not_extendable, C24_load_after_save, C24_save_succeeds, C24_other_files_untouched, C24_load_error, C25_get_returns_latest_save, C25_get_errors, C25_extended_refuses_saves, C26_extended_lookup, C27_load_after_save, C27_save_succeeds, C27_flag_lost_refuted, C63_interrupted_save, C28_unmasked, C29_only_reads, C30_set_mask, C30_set_mask_refused, C33_mask_kept, C34_save_succeeds, C62_distinct, C62_distinct_caseless, C62_display, C62_display_units, C64_save_succeeds, C95_remove, C95_merge, C95_levels, C95_outcome, C96_outcome, C85_shapes, C85_integers, C85_tuples, C85_misuse, C85_outcome, C86_outcome, C87_extend, C87_load, C87_load_distinct, C87_outcome, C94_addition_refused, C94_load, C94_quadrants, C94_outcome, C45_nothing, C54_scaling, C78_none, C57_intermittent, C06_failed_assignment_changes_nothing, C06_not_a_number, C10_remove_ring, C17_merge_empty, C19_plot_fails_iff_empty, C57_never, C90_diagnostics, C90_title, C70_special, C03_array_on_others, C60_slice, C60_frozen, C60_frame.

**`ClassicalDedekindReals.sig_forall_dec`** (1 theorems): C08_opacity.

**`ClassicalDedekindReals.sig_forall_dec`, `FunctionalExtensionality.functional_extensionality_dep`** (209 theorems): C99_valid, C99_narrowing, C99_fits, C99_split_plane, C99_merge_plane, C37_fill, C37_fill_mismatch, C37_constructor, C40_small, C41_middle, C41_range, C42_columns, C84_same, C68_title_rf, C68_own_pixel, C68_plot_slice, C68_plot_cube, C69_drawn_at, C69_both_halves, C20_accepted, C20_sizes, C20_rf_array, C22_one_column, C22_one_row, C28_masked, C29_destroyed, C29_nan_stays, C29_unmasked_kept, C29_pure_read_refuted, C30_constructed, C30_fields, C30_shapes, C30_extended_refuted, C31_limits, C31_colors, C32_mask, C32_accepted, C33_rejected, C33_repaired, C34_survives, C34_bool_position_refuted, C64_survives, C65_stale_mask, C65_stale_measurement, C66_property, C66_gradient, C66_gradient_refuted, C95_add, C95_replace, C95_split, C95_error, C95_history, C96_cleared, C96_dropped, C96_history, C96_refusals, C96_refused, C96_add, C96_edits, C96_extract, C96_closest, C96_error, C96_quiet, C96_built, C96_resumed, C85_number, C85_array, C85_both, C86_ring, C86_setter, C86_system, C86_add, C86_remove, C86_replace, C86_split, C86_empty, C87_params, C87_property, C87_gradient, C87_mask, C87_contrast, C87_measure, C87_keep, C87_missing, C87_missing_refuted, C94_viewer, C94_getters, C94_hill, C94_point, C94_extract, C94_closest, C94_gradients, C94_eclipse, C94_removal, C94_addition, C94_scaling, C94_construct, C94_construct_later, C94_save, C39_zero_velocity, C39_zero_accepted, C43_union, C44_exact, C44_stays, C45_added, C45_removed, C46_repeated, C47_cleared, C47_later, C47_gradients, C48_sum, C48_total, C48_failed, C49_best, C49_refused, C49_nofit, C50_continues, C50_all_again, C51_least, C51_found, C52_inside, C52_outside, C52_edge, C53_read, C53_destroyed, C53_plain, C53_only_lost, C54_outcome, C78_listed, C78_returns, C78_raises, C79_failed, C79_no_fit, C80_rescaled, C80_same, C58_resume, C58_crash, C05_ring_invariant, C06_assignment, C07_nan_ring_accepted, C07_only_nan, C100_patches, C100_patches_fail, C100_drawn, C100_refused, C100_empty, C09_history_ordered, C10_add_ring, C10_replace_ring, C10_remove_after_add, C11_failed_operation_changes_nothing, C12_constructor_accepts, C14_split_counts, C15_merge_profile, C17_merge_bad_tolerance, C17_index_error_only_empty, C18_own_geometry, C55_save_load, C56_no_gradients, C56_overwritten, C56_not_finite, C57_files_written, C59_load_temp, C59_load_temp_deletes, C59_load_deletes, C59_construct_deletes, C81_built, C81_loaded, C70_rounded, C70_same, C70_apart, C71_last, C71_mixed, C72_property, C72_property_str, C72_new, C72_forever, C72_contrast, C72_gradient, C72_grid, C72_built, C72_grid_forever, C72_property_refuted, C72_gradient_refuted, C73_ring, C01_number_accepts, C01_number_errors, C01_number_in_range, C02_nan_accepted, C02_only_nan, C02_array_nan_invisible, C03_array_on_ndarray, C03_one_bad_entry, C04_same_shape, C60_range, C60_walk, C60_step, C60_many, C61_shown, C61_current, C61_points, C67_constructor, C67_viewing_pure_refuted, C67_one_slice_refuted, C86_merge, C106_steps, C106_back, C106_fewer, C106_apart.

**`ClassicalDedekindReals.sig_forall_dec`, `ClassicalDedekindReals.sig_not_dec`, `FunctionalExtensionality.functional_extensionality_dep`** (34 theorems): C40_rounds, C40_small_grid, C41_lines, C42_shear, C68_extent, C68_ticks, C69_reading, C69_place_refuted, C35_contact_fx, C35_contact_fy, C35_inverse_fy, C35_inverse_fx, C37_shear, C92_axis, C20_spacing, C21_extend_mirrors, C32_real, C33_atomic_refuted, C48_reals, C51_rows, C08_ellipse, C100_planet, C100_planet_refuted, C09_history_ordered_with_split, C13_split_exact, C13_split_profile, C16_merge_after_split, C16_merge_after_split_id, C19_plot_window, C61_current_only_refuted, C76_vanishes, C77_origin, C106_closed, C107_steps.

**`ClassicalDedekindReals.sig_forall_dec`, `ClassicalDedekindReals.sig_not_dec`, `Classical_Prop.classic`, `FunctionalExtensionality.functional_extensionality_dep`** (156 theorems): C99_order_refuted, C99_plane_refuted, C91_axes, C91_extended, C91_increasing_refuted, C91_ordered_refuted, C91_number_refuted, C40_succeeds, C41_least, C41_search, C41_diagnostic, C42_shear_binary64, C42_degenerate, C98_near, C98_reported, C98_axis_refuted, C84_lookup, C84_lookup_refuted, C93_edge, C93_contact, C93_grid, C93_mirrored, C93_flat_refuted, C93_ex_edge, C93_ex_contact, C93_ex_grid, C93_ex_mirrored, C88_contact_fx, C88_contact_fy, C88_fx_defined, C88_fx_undefined, C88_fy_defined, C88_fy_undefined, C88_circle_refuted, C88_circle_lost_refuted, C89_disk, C89_radius, C89_accurate, C97_scale, C97_added, C97_fit, C97_zero, C97_order, C97_best, C97_perfect_refuted, C97_tiny_refuted, C35_radius, C36_disk, C37_mirror, C37_scale, C38_tangent, C38_concentric, C38_range, C38_nan, C38_vertical_refuted, C38_formula, C39_positive, C39_velocity, C39_limb, C92_gradient, C92_grid_point, C92_upright, C92_upright_refuted, C92_functions, C20_first_binary64, C22_extendable_refuted, C23_extended_grid_contains_zero_refuted, C24_half_extended_refuted, C25_bool_index_refuted, C26_mirror_lookup_refuted, C63_interrupted_overwrite_refuted, C103_radius, C103_hill, C103_ex, C101_inclination, C101_grid, C101_circle_refuted, C101_ex, C101_ex_grid, C95_numeral_refuted, C96_impact_refuted, C96_announced_refuted, C85_written, C85_printed_refuted, C86_equal_radii_refuted, C86_demand_refuted, C94_named_refuted, C44_refuted, C46_refuted, C50_refuted, C51_refuted, C52_refuted, C53_refuted, C54_refuted, C54_scaling_refuted, C79_refuted, C58_bool_refuted, C07_inner_below_outer_refuted, C08_patch_outlines, C08_affine, C100_atomic_refuted, C100_shown, C100_top_refuted, C100_ex, C12_rings_disjoint_refuted, C14_split_ordered_refuted, C14_split_end_refuted, C14_split_succeeds_refuted, C18_geometry_refuted, C56_refuted, C57_refuted, C59_refuted, C81_refuted, C82_tangent_exists, C82_gradient_is_sine, C82_grid_gradients, C83_built, C83_search, C83_vertical_refuted, C90_parameters, C90_property, C90_gradient, C90_grid, C90_changes, C90_labels, C90_minimum_refuted, C90_full_share_refuted, C71_directory, C71_apart, C71_names, C71_distinct_refuted, C71_own_measurement_refuted, C72_grid_refuted, C73_system, C102_tilt, C102_grid, C102_flat_refuted, C102_round_refuted, C102_ex, C102_ex_grid, C02_accepted_is_inside_refuted, C74_edge, C74_grid, C75_origin, C75_refuted, C76_axis, C77_family, C77_smallest, C104_outlines, C104_vertex, C104_shared, C105_split, C105_merge, C105_gaps, C106_closed_refuted, C107_steps_refuted.
