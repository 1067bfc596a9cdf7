# Print Assumptions of every theorem named in MANIFEST.json

Generated by running `Print Assumptions` on each theorem (Coq 8.16.1). Abbreviations:

* D = `ClassicalDedekindReals.sig_not_dec`
* F = `ClassicalDedekindReals.sig_forall_dec`
* E = `FunctionalExtensionality.functional_extensionality_dep`
* C = `Classical_Prop.classic`

All four are axioms of the Coq standard library. No other axiom occurs.

| theorem | axioms |
|---|---|
| `C01_derivatives_of_V` | D F E C |
| `C01_nonvacuous` | D F E C |
| `C02_feature_derivatives` | D F E C |
| `C02_feature_off` | D F E C |
| `C02_nonvacuous` | D F E C |
| `C03_refuted` | D F E C |
| `C03_partial` | D F E C |
| `C03_missing_term` | D F E C |
| `C03_nonvacuous` | D F E C |
| `C04_slow_roll_hierarchy` | D F E C |
| `C04_nonvacuous` | D F E C |
| `C05_inv_V_right` | D F E C |
| `C05_inv_V_left` | D F E C |
| `C05_nonvacuous` | F E |
| `C06_phi_end` | D F E C |
| `C06_phi_end_total` | D F E C |
| `C06_nonvacuous` | F E |
| `C07_sr_phi2N` | D F E C |
| `C07_nonvacuous` | D F E C |
| `C08_right` | D F E C |
| `C08_left` | D F E C |
| `C08_total` | D F E C |
| `C08_double_well_partial` | D F E C |
| `C08_nonvacuous` | D F E C |
| `C08_double_well_nonvacuous` | D F E C |
| `C09_monomial` | F E |
| `C09_starobinsky` | D F E |
| `C09_natural` | D F E C |
| `C09_natural_boundary` | D F E C |
| `C09_r_is_16_epsilon` | D F E C |
| `C10_amplitude` | D F E C |
| `C10_nonvacuous` | D F E C |
| `C11_only_accepted` | D F E C |
| `C11_without_As` | D F E C |
| `C11_with_As` | D F E C |
| `C11_lookup` | none (closed under the global context) |
| `C11_exceptions` | D F E C |
| `C11_nonvacuous` | F |
| `C11_exceptions_nonvacuous` | F |
| `C12_phi2efolds` | D F E C |
| `C12_phi_end_squared` | D F E C |
| `C12_nonvacuous` | D F E C |
| `C13_friedmann` | D F E C |
| `C13_potentials_are_smooth` | D F E C |
| `C13_nonvacuous` | D F E C |
| `C14_time_derivatives` | D F E C |
| `C14_nonvacuous` | D F E C |
| `C15_refuted` | D F E C |
| `C15_partial` | D F E C |
| `C15_nonvacuous` | D F E C |
| `C16_efold_derivatives` | D F E C |
| `C16_C17_nonvacuous` | D F E C |
| `C17_same_observables` | D F E |
| `C17_same_observables_back` | D F E |
| `C17_time_to_efolds` | D F E C |
| `C17_efolds_to_time` | D F E C |
| `C17_tracked_time_is_time` | D F E C |
| `C18_time` | D F E C |
| `C18_efolds` | D F E C |
| `C18_same_numbers` | D F E C |
| `C18_nonvacuous` | D F E C |
| `C18_same_numbers_nonvacuous` | D F E C |
| `C19_deltas` | D F E C |
| `C19_nonvacuous` | D F E C |
| `C20_inflating_time` | D F E C |
| `C20_inflating_efolds` | D F E C |
| `C20_sign_time` | F E |
| `C20_sign_efolds` | D F E |
| `C20_C21_nonvacuous` | D F E C |
| `C21_time` | F E |
| `C21_efolds` | D F E |
| `C22_registry_is_bijection` | none (closed under the global context) |
| `C22_repeated_name` | none (closed under the global context) |
| `C22_unknown_name` | none (closed under the global context) |
| `C22_nonvacuous` | none (closed under the global context) |
| `C23_relabelling` | F |
| `C23_package_classes` | none (closed under the global context) |
| `C23_field_samples` | D F E C |
| `C23_nonvacuous` | F E |
| `C24_refuted` | F E |
| `C24_last_wins_partial` | none (closed under the global context) |
| `C24_names` | none (closed under the global context) |
| `C24_names_nonvacuous` | F |
| `C25_event_zeros` | D F E C |
| `C25_class_quantities` | D F E |
| `C26_refuted` | D F E C |
| `C26_partial` | D F E C |
| `C27_start` | D F E C |
| `C27_C28_nonvacuous` | D F E |
| `C28_refuted` | D F E C |
| `C28_partial` | D F E C |
| `C29_end` | D F E C |
| `C30_from_N` | D F E C |
| `C30_from_Omega` | D F E C |
| `C30_velocity` | D F E C |
| `C30_nonvacuous` | D F E C |
| `C31_start_data` | D F E C |
| `C31_interchange` | D F E C |
| `C31_time` | D F E C |
| `C31_efolds` | D F E C |
| `C31_nonvacuous` | D F E C |
| `C32_slow_roll` | D F E C |
| `C32_inflation_start` | D F E C |
| `C32_other_equations` | D F E |
| `C32_nonvacuous` | F |
| `C33_keywords` | D F E C |
| `C33_guards` | D F E C |
| `C33_refuted` | D F E C |
| `C33_partial` | D F E C |
| `C33_slow_roll_partial` | D F E C |
| `C33_inflation_start_partial` | D F E C |
| `C33_invalid_start_refuted` | D F E C |
| `C33_not_integrated` | D F E C |
| `C33_not_integrated_trial` | D F E C |
| `C33_flat_curvature_rejected` | D F E C |
| `C33_start_nonvacuous` | D F E |
| `C34_objective` | D F E C |
| `C34_zero` | D F E C |
| `C34_nonvacuous` | D F E C |
| `C35_shooting` | D F E C |
| `C35_shooting_N_star` | D F E C |
| `C35_nonvacuous` | D F E C |
| `C35_N_star_nonvacuous` | D F E C |
| `C36_pivot_crossing` | D F E C |
| `C36_nonvacuous` | D F E C |
| `C37_bookkeeping` | D F E C |
| `C37_nonvacuous` | D F E C |
| `C37_after_solve` | D F E C |
| `C37_after_solve_nonvacuous` | D F E |
| `C38_wavenumbers` | D F E C |
| `C38_nonvacuous` | D F E C |
| `C39_flat_parametrisations` | D F E C |
| `C39_nonvacuous` | D F E C |
| `C40_curved_round_trip` | D F E C |
| `C40_nonvacuous` | D F E C |
| `C41_partial` | D F E C |
| `C41_value` | D F E C |
| `C41_refuted` | D F E C |
| `C42_curvature_radius` | D F E C |
| `C42_nonvacuous` | D F E C |
| `C63_matches_calibration` | D F E |
| `C86_scale` | D F E C |
| `C43_rejected` | D F E C |
| `C43_exact` | D F E C |
| `C43_unambiguous` | D F E C |
| `C43_after_solve` | D F E C |
| `C43_nonvacuous` | D F E C |
| `C44_no_duplicates` | D F E C |
| `C44_recalibration` | D F E C |
| `C44_nonvacuous` | D F E C |
| `C45_instant_reheating` | F E |
| `C45_nonvacuous` | F E |
| `C46_partial` | D F E C |
| `C46_refuted` | D F E C |
| `C46_nonvacuous` | D F E C |
| `C47_queries_pure` | D F E C |
| `C47_CGS` | D F E C |
| `C47_nonvacuous` | F |
| `C48_curved` | D F E C |
| `C48_bracket` | D F E C |
| `C48_success` | D F E C |
| `C48_nonvacuous` | D F E C |
| `C49_leading` | D F E |
| `C49_LLMS` | D F E C |
| `C49_STE` | D F E C |
| `C49_ARBDS` | D F E C |
| `C49_CGS` | D F E C |
| `C50_LLMS_STE` | D F E C |
| `C50_CGS` | D F E C |
| `C50_flow_relations` | D F E |
| `C50_scaled_relations` | F E |
| `C50_ARBDS_shifted` | D F E C |
| `C50_index_partial` | D F E |
| `C50_ARBDS_difference` | D F E |
| `C50_ARBDS_refuted` | D F E |
| `C50_constants` | D F E C |
| `C50_nonvacuous` | D F E |
| `C50_methods` | D F E C |
| `C51_coefficients_match` | F E |
| `C51_nonvacuous` | F E |
| `C52_scalar_equivalent` | D F E C |
| `C52_tensor_equivalent` | D F E C |
| `C52_frequency_is_square_root` | D F E |
| `C52_nonvacuous` | D F E C |
| `C53_flat_scalar` | D F E C |
| `C53_flat_tensor` | D F E C |
| `C53_curved_scalar` | D F E C |
| `C53_tensor_wronskian` | D F E C |
| `C53_nonvacuous` | D F E C |
| `C54_scalar_normalisation` | D F E |
| `C54_tensor_normalisation` | D F E |
| `C54_nonvacuous` | D F E C |
| `C55_vacua_agree` | D F E C |
| `C55_curved_HD_refuted` | D F E C |
| `C55_nonvacuous` | D F E C |
| `C56_HD_efolds` | D F E C |
| `C56_HD_tensor` | D F E C |
| `C56_HD_time_partial` | D F E C |
| `C56_HD_time_refuted` | D F E C |
| `C56_time_nonvacuous` | D F E C |
| `C56_efolds_nonvacuous` | D F E C |
| `C57_window` | D F E C |
| `C57_window_ordered` | D F E C |
| `C57_window_error` | D F E C |
| `C57_integration_range` | D F E C |
| `C57_nonvacuous` | D F E C |
| `C58_pointwise` | D F E C |
| `C58_succeeds` | D F E C |
| `C58_closed_large_scales_partial` | D F E C |
| `C58_closed_large_scales_refuted` | D F E C |
| `C58_nonvacuous` | D F E C |
| `C58_defaults` | D F E C |
| `C58_physical_wavenumbers` | D F E C |
| `C58_unknown_vacuum` | D F E C |
| `C58_unknown_nonvacuous` | F |
| `C59_today` | D F E C |
| `C59_friedmann` | D F E C |
| `C65_nonvacuous` | D F E C |
| `C59_critical_density` | D F E C |
| `C60_no_big_bang_line` | D F E C |
| `C60_negative_matter` | D F E C |
| `C60_nonvacuous` | D F E C |
| `C61_recollapse_line` | D F E C |
| `C61_negative_matter` | D F E C |
| `C61_nonvacuous` | D F E C |
| `C62_real_in_the_past` | D F E C |
| `C63_scale_factor_today` | D F E |
| `C63_H0_units` | D F E |
| `C63_unknown_units` | D F E |
| `C63_flat` | D F E |
| `C63_N_BBN` | D F E C |
| `C64_horizon_units` | D F E C |
| `C64_definition` | D F E C |
| `C64_unknown_units` | D F E C |
| `C64_nonvacuous` | D F E C |
| `C65_conformal_time` | D F E C |
| `C65_array` | D F E C |
| `C65_type_error` | none (closed under the global context) |
| `C65_error_estimate` | D F E C |
| `C66_inverts` | F E |
| `C66_unique` | F E |
| `C66_constant_w_epoch` | D F E C |
| `C66_nonvacuous` | F E |
| `C67_planck_units` | D F E |
| `C67_GeV_units` | D F E |
| `C67_density_conversion` | D F E C |
| `C67_calibration_constants` | D F E C |
| `C67_radiation_constant` | D F E |
| `C67_neutrino_temperature` | D F E C |
| `C67_radiation_today` | D F E C |
| `C67_megaparsec` | D F E |
| `C67_radiation_nonvacuous` | F E |
| `C68_scalar_log_derivatives` | D F E C |
| `C68_tensor_log_derivatives` | D F E C |
| `C69_spectra` | D F E C |
| `C69_ratio_at_pivot` | D F E C |
| `C69_errors` | D F E C |
| `C69_nonvacuous` | D F E C |
| `C70_feature_off_partial` | D F E C |
| `C70_accepted_partial` | D F E C |
| `C70_accepted_refuted` | D F E C |
| `C70_nonvacuous` | D F E C |
| `C71_verified_amplitude` | D F E C |
| `C71_terminates` | D F E C |
| `C71_scaling_law` | D F E C |
| `C71_nonvacuous` | D F E C |
| `C71_rejections` | D F E C |
| `C71_unrealistic` | D F E C |
| `C71_calibration` | D F E C |
| `C72_bumps_accepted` | none (closed under the global context) |
| `C72_nothing_else` | none (closed under the global context) |
| `C72_bump_is_later` | none (closed under the global context) |
| `C72_nonvacuous` | none (closed under the global context) |
| `C73_prerelease_partial` | none (closed under the global context) |
| `C73_prerelease_refuted` | none (closed under the global context) |
| `C73_release_after_prerelease` | none (closed under the global context) |
| `C73_next_prerelease` | none (closed under the global context) |
| `C73_nonvacuous` | none (closed under the global context) |
| `C74_refuted` | D F E C |
| `C74_inv_V_partial` | D F E C |
| `C74_epsilon_1_partial` | D F E C |
| `C74_nonvacuous` | D F E C |
| `C75_copied_partial` | D F E C |
| `C75_copied_refuted` | D F E C |
| `C75_copied_without_end` | D F E C |
| `C75_copied_without_end_nonvacuous` | F E |
| `C76_difference` | D F E C |
| `C76_refuted` | D F E C |
| `C76_partial` | D F E C |
| `C76_differ` | D F E C |
| `C76_nonvacuous` | D F E C |
| `C77_mukhanov_sasaki_from_einstein` | D F E C |
| `C77_nonvacuous` | D F E C |
| `C78_spectrum_independent_of_start` | D F E |
| `C78_nonvacuous` | F |
| `C78_default_start` | D F E C |
| `C78_default_nonvacuous` | D F E C |
| `C79_stops_outside_horizon_partial` | D F E C |
| `C79_stops_outside_horizon_refuted` | D F E C |
| `C79_nonvacuous` | F E |
| `C79_inflating_time` | D F E C |
| `C79_inflating_efolds` | D F E C |
| `C80_big_bang_partial` | D F E C |
| `C80_big_bang_refuted` | D F E C |
| `C80_exact_partial` | D F E C |
| `C80_rejected_margin` | D F E C |
| `C80_nonvacuous` | D F E C |
| `C80_margin_nonvacuous` | D F E C |
| `C81_recollapse_warning_partial` | D F E C |
| `C81_recollapse_warning_refuted` | D F E C |
| `C81_exact_partial` | D F E C |
| `C81_nonvacuous` | D F E C |
| `C82_ratio_partial` | D F E C |
| `C82_flat_refuted` | D F E C |
| `C82_nonvacuous` | D F E C |
| `C83_feature_factors` | D F E C |
| `C83_positive` | D F E C |
| `C83_cutoff_monotone` | D F E C |
| `C83_nonvacuous` | D F E C |
| `C84_grid` | D F E C |
| `C85_exact_relation` | D F E |
| `C85_third_order` | D F E C |
| `C85_higher_parameters` | D F E C |
| `C85_exact_nonvacuous` | D F E |
| `C85_nonvacuous` | D F E C |
| `C86_objective` | D F E C |
| `C86_zero` | D F E C |
| `C86_constructor` | D F E C |
| `C86_constructor_nonvacuous` | D F E C |
| `C86_nonvacuous` | D F E C |
| `C87_root_finder_exists` | D F E C |
| `C87_double_well` | D F E C |
| `C87_radion` | D F E C |
| `C87_radion_N2phi` | D F E C |
| `C87_nonvacuous` | D F E C |
| `C88_phi_end_is_boundary` | D F E C |
| `C88_nonvacuous` | D F E C |
| `C89_mode_power` | D F E C |
| `C89_dense_output` | D F E |
| `C89_nonvacuous` | D F E C |
| `C90_time` | D F E C |
| `C90_efolds` | D F E C |
| `C90_nonvacuous` | D F E C |
| `C91_settings` | D F E C |
| `C91_trials` | D F E C |
| `C91_total_efolds_partial` | D F E C |
| `C91_method_refuted` | D F E C |
| `C91_arguments` | D F E C |
| `C92_time` | D F E C |
| `C92_efolds` | D F E C |
| `C92_trial_time` | D F E C |
| `C92_trial_efolds` | D F E C |
| `C92_collapse` | D F E C |
| `C92_no_collapse` | D F E C |
| `C92_nonvacuous` | D F E C |
| `C92_defaults` | D F E C |
| `C93_spectrum_on_grid` | D F E C |
| `C93_local_table` | D F E C |
| `C93_pivot_table` | D F E C |
| `C93_pivot_on_grid` | D F E C |
| `C93_consistency` | D F E C |
| `C93_nonvacuous` | D F E C |
| `C94_LLMS_parameters` | D F E C |
| `C94_nonvacuous` | D F E C |
| `C95_time_grid` | D F E C |
| `C95_efolds_grid` | D F E C |
| `C95_zero_time` | D F E C |
| `C95_same_spectrum` | D F E C |
| `C95_off` | D F E C |
| `C95_eval_power` | D F E C |
| `C95_nonvacuous` | D F E C |
| `C96_tensor_time` | D F E C |
| `C96_scalar_time` | D F E C |
| `C96_tensor_efolds` | D F E C |
| `C96_scalar_efolds` | D F E C |
| `C96_outside_time` | D F E C |
| `C96_outside_efolds` | D F E C |
| `C96_nonvacuous` | D F E C |
| `C97_scalar_time` | D F E C |
| `C97_scalar_efolds` | D F E C |
| `C97_tensor_time` | D F E C |
| `C97_tensor_efolds` | D F E C |
| `C97_nonvacuous` | D F E C |
| `C98_calibration` | D F E C |
| `C98_output` | D F E C |
| `C98_solved` | D F E C |
| `C98_wrapper` | D F E C |
| `C98_nonvacuous` | D F E C |
| `C98_reheating` | D F E C |
| `C98_reheating_nonvacuous` | D F E C |
| `C99_efolds` | D F E C |
| `C99_time` | D F E C |
| `C99_same_numbers` | D F E |
| `C99_nonvacuous` | D F E C |
| `C99_same_nonvacuous` | D F E |
| `C100_potential` | D F E C |
| `C100_slow_roll` | D F E C |
| `C100_amplitude` | D F E C |
| `C100_time` | D F E C |
| `C100_efolds` | D F E C |
| `C100_flow_efolds` | D F E |
| `C100_flow_time` | D F E |
| `C100_spectra` | D F E C |
| `C100_mode` | D F E C |
| `C100_oscode` | D F E C |
| `C100_flat` | D F E C |
| `C100_nonvacuous` | D F E C |
| `C101_inputs` | D F E C |
| `C101_parameters` | D F E C |
| `C101_names` | D F E C |
| `C101_setup` | D F E C |
| `C101_ninety` | D F E C |
| `C101_nonvacuous` | D F E C |
| `C101_run` | D F E C |
| `C102_origin` | D F E C |
| `C102_nonvacuous` | D F E C |
| `C103_same_calibration` | D F E C |
| `C103_nonvacuous` | D F E C |
| `C104_history` | D F E C |
| `C104_refuted` | D F E C |
| `C104_nonvacuous` | D F E C |
| `C105_events` | D F E C |
| `C105_order` | D F E C |
| `C105_extra` | D F E C |
| `C105_nonvacuous` | D F E |
| `C106_time` | D F E |
| `C106_efolds` | D F E |
| `C106_time_background` | D F E C |
| `C106_efolds_background` | D F E C |
| `C106_events` | D F E C |
| `C106_flow` | D F E |
| `C106_mode` | D F E C |
| `C106_oscode` | D F E C |
| `C106_symmetric` | D F E C |
| `C106_other_side` | D F E C |
| `C106_nonvacuous` | D F E C |
| `C107_flat_time` | D F E C |
| `C107_flat_efolds` | D F E C |
| `C107_closed_efolds_sign` | D F E C |
| `C107_closed_time_refuted` | D F E C |
| `C107_faithful_nonvacuous` | D F E C |
| `C107_nonvacuous` | D F E C |
| `C107_open_time` | D F E C |
| `C107_open_efolds` | D F E C |
| `C107_no_overflow` | D F E C |
| `C107_accurate_nonvacuous` | D F E C |
| `C108_w_time` | D F E C |
| `C108_w_efolds` | D F E C |
| `C108_nonvacuous` | D F E C |
| `C109_time` | D F E C |
| `C109_efolds` | D F E C |
| `C109_nonvacuous` | D F E C |
| `C110_time` | D F E C |
| `C110_efolds` | D F E C |
| `C110_time_origin` | D F E C |
| `C110_options` | D F E C |
| `C110_both` | D F E C |
| `C110_nonvacuous` | D F E C |
| `C111_bump` | none (closed under the global context) |
| `C111_history` | none (closed under the global context) |
| `C111_other_lines` | none (closed under the global context) |
| `C111_only_declaration_refuted` | none (closed under the global context) |
| `C111_nonvacuous` | none (closed under the global context) |
| `C112_unique_time` | D F E C |
| `C112_unique_efolds` | D F E C |
| `C112_superposition_time` | D F E C |
| `C112_superposition_efolds` | D F E C |
| `C112_same_mode` | D F E C |
| `C112_nonvacuous` | D F E C |
| `C113_reuse` | D F E C |
| `C113_twice` | D F E C |
| `C113_construct` | D F E C |
| `C113_nonvacuous` | D F E C |
| `C113_targets_kept` | D F E C |
| `C113_attributes` | D F E C |
| `C114_warnings` | D F E C |
| `C114_verbosity_partial` | D F E C |
| `C114_verbosity_refuted` | D F E C |
| `C114_trials` | D F E C |
| `C115_same_power` | D F E C |
| `C115_nonvacuous` | D F E C |
| `C116_end_message` | D F E C |
| `C116_still_inflating_time` | D F E |
| `C116_still_inflating_efolds` | D F E |
| `C116_other_messages` | D F E C |
| `C116_nonvacuous` | D F E |
| `C117_time` | D F E C |
| `C117_efolds` | D F E C |
| `C117_time_continuous` | D F E C |
| `C117_efolds_continuous` | D F E C |
| `C117_end_of_inflation` | D F E C |
| `C117_nonvacuous` | D F E C |
| `C118_time` | D F E C |
| `C118_efolds` | D F E C |
| `C118_nonvacuous` | D F E C |
| `C118_open_time` | D F E C |
| `C118_open_efolds` | D F E C |
| `C119_time` | D F E C |
| `C119_efolds` | D F E C |
| `C119_time_continues` | D F E C |
| `C119_efolds_continues` | D F E C |
| `C119_time_state` | D F E C |
| `C119_efolds_state` | D F E C |
| `C119_slow_roll_start` | D F E C |
| `C119_inflation_start` | D F E C |
| `C119_nonvacuous` | D F E C |
| `C120_efolds` | D F E C |
| `C120_every_evolution` | D F E C |
| `C120_time` | D F E C |
| `C120_nonvacuous` | D F E C |
| `C120_open_efolds` | D F E C |
| `C120_open_every_evolution` | D F E C |
| `C120_open_time` | D F E C |
| `C120_open_nonvacuous` | D F E C |
| `C121_time` | D F E C |
| `C121_efolds` | D F E C |
| `C121_integrator_time` | D F E C |
| `C121_integrator_efolds` | D F E C |
| `C121_slow_roll` | D F E C |
| `C121_nonvacuous` | D F E C |
| `C122_time` | D F E C |
| `C122_efolds` | D F E C |
| `C122_mode_time` | D F E C |
| `C122_mode_efolds` | D F E C |
| `C122_nonvacuous` | D F E C |
| `C123_tensor_time` | D F E C |
| `C123_tensor_efolds` | D F E C |
| `C123_scalar_time` | D F E C |
| `C123_scalar_efolds` | D F E C |
| `C123_slow_roll` | D F E C |
| `C123_nonvacuous` | D F E C |
| `C124_raised` | D F E C |
| `C124_closed` | D F E |
| `C124_open` | D F E |
| `C124_more_efolds` | D F E C |
| `C124_larger_field` | D F E C |
| `C124_geometry_refuted` | D F E C |
| `C124_field_advice_refuted` | D F E C |
| `C124_nonvacuous` | D F E C |
| `C124_printed` | D F E |
| `C124_direct` | none (closed under the global context) |
| `C125_efolds` | D F E C |
| `C125_every_evolution` | D F E C |
| `C125_time` | D F E C |
| `C125_bracket` | D F E C |
| `C125_onset` | D F E C |
| `C125_not_a_start` | D F E C |
| `C125_nonvacuous` | D F E C |
| `C126_continuous` | D F E C |
| `C126_exact_start` | D F E C |
| `C126_increasing` | D F E C |
| `C126_unique_start` | D F E C |
| `C126_nonvacuous` | D F E C |
| `C127_objective` | D F E C |
| `C127_shooting` | D F E C |
| `C127_nonvacuous` | D F E C |
| `C127_time_objective` | D F E C |
| `C127_time_shooting` | D F E C |
| `C127_time_nonvacuous` | D F E C |
| `C128_duration` | D F E C |
| `C128_nonvacuous` | D F E C |
| `C128_slow_roll` | D F E C |
| `C129_reports` | D F E C |
| `C129_start` | D F E C |
| `C129_slow_roll` | D F E C |
| `C129_nonvacuous` | D F E C |
| `C129_time_reports` | D F E C |
| `C129_time_start` | D F E C |
| `C129_time_nonvacuous` | D F E C |
| `C129_time_slow_roll` | D F E C |
| `C129_time_slow_roll_nonvacuous` | D F E C |
| `C130_comoving_hubble` | D F E C |
| `C130_pivot_exit` | D F E C |
| `C130_nonvacuous` | D F E C |
| `C130_any_method` | D F E C |
| `C130_wavenumbers` | D F E C |
| `C130_time_comoving_hubble` | D F E C |
| `C130_time` | D F E C |
| `C130_time_nonvacuous` | D F E C |
