{
 "claims": [
  {
   "property": "C01",
   "status": "proved",
   "theorems": [
    "C01_derivatives_of_V",
    "C01_nonvacuous"
   ],
   "note": "all classes, all parameters"
  },
  {
   "property": "C02",
   "status": "proved",
   "theorems": [
    "C02_feature_derivatives",
    "C02_feature_off",
    "C02_nonvacuous"
   ],
   "note": "all classes, all parameters"
  },
  {
   "property": "C03",
   "status": "partial",
   "theorems": [
    "C03_refuted",
    "C03_partial",
    "C03_missing_term",
    "C03_nonvacuous"
   ],
   "note": "False of the code: FeaturePotential inherits d4V from the base class (C03_refuted); the missing term is exactly the fourth derivative of base*feature, and d4V is right iff that vanishes (C03_missing_term), e.g. for height 0 (C03_partial). Potentials without a feature: C01."
  },
  {
   "property": "C04",
   "status": "proved",
   "theorems": [
    "C04_slow_roll_hierarchy",
    "C04_nonvacuous"
   ],
   "note": "all classes, all parameters"
  },
  {
   "property": "C05",
   "status": "proved",
   "theorems": [
    "C05_inv_V_right",
    "C05_inv_V_left",
    "C05_nonvacuous"
   ],
   "note": "all featureless classes; feature classes see C74"
  },
  {
   "property": "C06",
   "status": "proved",
   "theorems": [
    "C06_phi_end",
    "C06_phi_end_total",
    "C06_nonvacuous"
   ],
   "note": "all classes, all parameters"
  },
  {
   "property": "C07",
   "status": "proved",
   "theorems": [
    "C07_sr_phi2N",
    "C07_nonvacuous"
   ],
   "note": "all featureless classes; excludes only DoubleWell p=1 phi0=sqrt 2, where epsilon_1V=1 at the hilltop"
  },
  {
   "property": "C08",
   "status": "partial",
   "theorems": [
    "C08_right",
    "C08_left",
    "C08_total",
    "C08_double_well_partial",
    "C08_nonvacuous",
    "C08_double_well_nonvacuous"
   ],
   "note": "Exact for all classes but the double wells; the double wells interpolate a table: exact at nodes, within one grid step otherwise, ValueError outside the table."
  },
  {
   "property": "C09",
   "status": "proved",
   "theorems": [
    "C09_monomial",
    "C09_starobinsky",
    "C09_natural",
    "C09_natural_boundary",
    "C09_r_is_16_epsilon"
   ],
   "note": ""
  },
  {
   "property": "C10",
   "status": "proved",
   "theorems": [
    "C10_amplitude",
    "C10_nonvacuous"
   ],
   "note": ""
  },
  {
   "property": "C11",
   "status": "proved",
   "theorems": [
    "C11_only_accepted",
    "C11_without_As",
    "C11_with_As",
    "C11_lookup",
    "C11_exceptions",
    "C11_nonvacuous",
    "C11_exceptions_nonvacuous"
   ],
   "note": "keyword values are real numbers (an explicit None value is not modelled)"
  },
  {
   "property": "C12",
   "status": "proved",
   "theorems": [
    "C12_phi2efolds",
    "C12_phi_end_squared",
    "C12_nonvacuous"
   ],
   "note": ""
  },
  {
   "property": "C13",
   "status": "proved",
   "theorems": [
    "C13_friedmann",
    "C13_potentials_are_smooth",
    "C13_nonvacuous"
   ],
   "note": "all K, potentials, solutions"
  },
  {
   "property": "C14",
   "status": "proved",
   "theorems": [
    "C14_time_derivatives",
    "C14_nonvacuous"
   ],
   "note": "fed the true third derivative of the field"
  },
  {
   "property": "C15",
   "status": "partial",
   "theorems": [
    "C15_refuted",
    "C15_partial",
    "C15_nonvacuous"
   ],
   "note": "false of the code for K<>0: exact closed-universe counterexample; partial: exact for K=0 and the exact missing term for K<>0"
  },
  {
   "property": "C16",
   "status": "proved",
   "theorems": [
    "C16_efold_derivatives",
    "C16_C17_nonvacuous"
   ],
   "note": ""
  },
  {
   "property": "C17",
   "status": "proved",
   "theorems": [
    "C17_same_observables",
    "C17_same_observables_back",
    "C17_time_to_efolds",
    "C17_efolds_to_time",
    "C17_tracked_time_is_time",
    "C16_C17_nonvacuous"
   ],
   "note": "the e-fold equations have a removable 0/0 where V = 3K/a^2 (dphidN^2=6); excluded by hypothesis"
  },
  {
   "property": "C18",
   "status": "proved",
   "theorems": [
    "C18_time",
    "C18_efolds",
    "C18_same_numbers",
    "C18_nonvacuous",
    "C18_same_numbers_nonvacuous"
   ],
   "note": ""
  },
  {
   "property": "C19",
   "status": "proved",
   "theorems": [
    "C19_deltas",
    "C19_nonvacuous"
   ],
   "note": ""
  },
  {
   "property": "C20",
   "status": "proved",
   "theorems": [
    "C20_inflating_time",
    "C20_inflating_efolds",
    "C20_sign_time",
    "C20_sign_efolds",
    "C20_C21_nonvacuous"
   ],
   "note": ""
  },
  {
   "property": "C21",
   "status": "proved",
   "theorems": [
    "C21_time",
    "C21_efolds",
    "C20_C21_nonvacuous"
   ],
   "note": ""
  },
  {
   "property": "C22",
   "status": "proved",
   "theorems": [
    "C22_registry_is_bijection",
    "C22_repeated_name",
    "C22_unknown_name",
    "C22_nonvacuous"
   ],
   "note": "add_variable model; repeated name: index out of range"
  },
  {
   "property": "C23",
   "status": "proved",
   "theorems": [
    "C23_relabelling",
    "C23_package_classes",
    "C23_field_samples",
    "C23_nonvacuous"
   ],
   "note": "scipy solve_ivp result is an arbitrary raw_sol"
  },
  {
   "property": "C24",
   "status": "partial",
   "theorems": [
    "C24_refuted",
    "C24_last_wins_partial",
    "C24_names",
    "C24_names_nonvacuous"
   ],
   "note": "False of the code: two events with equal names share one dictionary slot (dict(zip)); proved: the last one wins, and with distinct names every record is retrievable (C23_relabelling)"
  },
  {
   "property": "C25",
   "status": "proved",
   "theorems": [
    "C25_event_zeros",
    "C25_class_quantities"
   ],
   "note": "all event __call__ bodies"
  },
  {
   "property": "C26",
   "status": "partial",
   "theorems": [
    "C26_refuted",
    "C26_partial"
   ],
   "note": "False of the code: key mismatch makes the start warning always claim the event is untracked; proved: what the warnings say for every run"
  },
  {
   "property": "C27",
   "status": "proved",
   "theorems": [
    "C27_start",
    "C27_C28_nonvacuous"
   ],
   "note": "postprocessing_inflation_start, any solver output"
  },
  {
   "property": "C28",
   "status": "partial",
   "theorems": [
    "C28_refuted",
    "C28_partial",
    "C27_C28_nonvacuous"
   ],
   "note": "False of the code: only Inflation_dir1_term0 is consulted; proved for terminal=False"
  },
  {
   "property": "C29",
   "status": "proved",
   "theorems": [
    "C29_end",
    "C27_C28_nonvacuous"
   ],
   "note": "postprocessing_inflation_end, N_tot and inflation_mask"
  },
  {
   "property": "C30",
   "status": "proved",
   "theorems": [
    "C30_from_N",
    "C30_from_Omega",
    "C30_velocity",
    "C30_nonvacuous"
   ],
   "note": "SlowRollIC.__init__/__call__ over floats with NaN/inf"
  },
  {
   "property": "C31",
   "status": "proved",
   "theorems": [
    "C31_start_data",
    "C31_interchange",
    "C31_time",
    "C31_efolds",
    "C31_nonvacuous"
   ],
   "note": "both equation classes; C31_efolds also shows the singular point Omega_Ki=-2"
  },
  {
   "property": "C32",
   "status": "proved",
   "theorems": [
    "C32_slow_roll",
    "C32_inflation_start",
    "C32_other_equations",
    "C32_nonvacuous"
   ],
   "note": "result independent of the previous contents of y0"
  },
  {
   "property": "C33",
   "status": "partial",
   "theorems": [
    "C33_keywords",
    "C33_guards",
    "C33_refuted",
    "C33_partial",
    "C33_slow_roll_partial",
    "C33_inflation_start_partial",
    "C33_invalid_start_refuted",
    "C33_not_integrated",
    "C33_not_integrated_trial",
    "C33_flat_curvature_rejected",
    "C33_start_nonvacuous"
   ],
   "note": "False of the code: (aH)^2=0 and wrong-sign Omega_Ki pass the guards and give inf/NaN; proved: exact characterisation of the accepted inputs with finite results"
  },
  {
   "property": "C34",
   "status": "proved",
   "theorems": [
    "C34_objective",
    "C34_zero",
    "C34_nonvacuous"
   ],
   "note": "every solver outcome; scipy's terminal-event contract is a hypothesis"
  },
  {
   "property": "C35",
   "status": "proved",
   "theorems": [
    "C35_shooting",
    "C35_shooting_N_star",
    "C35_nonvacuous",
    "C35_N_star_nonvacuous"
   ],
   "note": "ISIC_Nt and ISIC_NsOk, for every root finder oracle."
  },
  {
   "property": "C36",
   "status": "proved",
   "theorems": [
    "C36_pivot_crossing",
    "C36_nonvacuous"
   ],
   "note": "flat N_star calibration"
  },
  {
   "property": "C37",
   "status": "proved",
   "theorems": [
    "C37_bookkeeping",
    "C37_nonvacuous",
    "C37_after_solve",
    "C37_after_solve_nonvacuous"
   ],
   "note": "calibration of the object's own background; C37_after_solve starts from the raw integrator output"
  },
  {
   "property": "C38",
   "status": "proved",
   "theorems": [
    "C38_wavenumbers",
    "C38_nonvacuous"
   ],
   "note": "k_iMpc=1/cHH_Mpc and conversion factor"
  },
  {
   "property": "C39",
   "status": "proved",
   "theorems": [
    "C39_flat_parametrisations",
    "C39_nonvacuous"
   ],
   "note": ""
  },
  {
   "property": "C40",
   "status": "proved",
   "theorems": [
    "C40_curved_round_trip",
    "C40_nonvacuous"
   ],
   "note": ""
  },
  {
   "property": "C41",
   "status": "partial",
   "theorems": [
    "C41_partial",
    "C41_value",
    "C41_refuted"
   ],
   "note": "false as stated: code obtains (1+w)^2 DeltaN_reh; holds for w_reh=0"
  },
  {
   "property": "C42",
   "status": "proved",
   "theorems": [
    "C42_curvature_radius",
    "C42_nonvacuous",
    "C63_matches_calibration",
    "C86_scale"
   ],
   "note": ""
  },
  {
   "property": "C43",
   "status": "proved",
   "theorems": [
    "C43_rejected",
    "C43_exact",
    "C43_unambiguous",
    "C43_after_solve",
    "C43_nonvacuous"
   ],
   "note": "declarative rules in Spec/CalibErrorSpec.v; includes two undocumented ValueError cases (pivot inside inflation but outside the sampled range); C43_after_solve composes it with solve()"
  },
  {
   "property": "C44",
   "status": "proved",
   "theorems": [
    "C44_no_duplicates",
    "C44_recalibration",
    "C44_nonvacuous"
   ],
   "note": ""
  },
  {
   "property": "C45",
   "status": "proved",
   "theorems": [
    "C45_instant_reheating",
    "C45_nonvacuous"
   ],
   "note": ""
  },
  {
   "property": "C46",
   "status": "partial",
   "theorems": [
    "C46_partial",
    "C46_refuted",
    "C46_nonvacuous"
   ],
   "note": "Proved for every history for ARBDS, for the method the calibration used, and for LLMS/STE not queried before this calibration; refuted in general: LLMS/STE closures cached by a query before a re-calibration are returned stale (inflation.py:1468-1475, 1522-1529)."
  },
  {
   "property": "C47",
   "status": "proved",
   "theorems": [
    "C47_queries_pure",
    "C47_CGS",
    "C47_nonvacuous"
   ],
   "note": "any list of queries leaves the derived parameters, calibration and background attributes unchanged"
  },
  {
   "property": "C48",
   "status": "proved",
   "theorems": [
    "C48_curved",
    "C48_bracket",
    "C48_success",
    "C48_nonvacuous"
   ],
   "note": "root finder is an oracle with an explicit contract (it acts on the object only through the objective and returns a point where the objective was within tol of zero)"
  },
  {
   "property": "C49",
   "status": "proved",
   "theorems": [
    "C49_leading",
    "C49_LLMS",
    "C49_STE",
    "C49_ARBDS",
    "C49_CGS"
   ],
   "note": "exact at order 0; limit of the ratio for uniformly small flow parameters for all methods and orders"
  },
  {
   "property": "C50",
   "status": "partial",
   "theorems": [
    "C50_LLMS_STE",
    "C50_CGS",
    "C50_flow_relations",
    "C50_scaled_relations",
    "C50_ARBDS_shifted",
    "C50_index_partial",
    "C50_ARBDS_difference",
    "C50_ARBDS_refuted",
    "C50_constants",
    "C50_nonvacuous",
    "C50_methods"
   ],
   "note": "CGS, LLMS and STE agree; ARBDS index/running agree, but its pivot amplitude is off by 2e1^2+e1e2 (scalar), 2e1^2 (tensor): the series is evaluated at k=aH instead of -k eta=1 (agreement proved after that shift)"
  },
  {
   "property": "C51",
   "status": "proved",
   "theorems": [
    "C51_coefficients_match",
    "C51_nonvacuous"
   ],
   "note": "complex coefficients, uniqueness"
  },
  {
   "property": "C52",
   "status": "proved",
   "theorems": [
    "C52_scalar_equivalent",
    "C52_tensor_equivalent",
    "C52_frequency_is_square_root",
    "C52_nonvacuous"
   ],
   "note": "real-valued mode components (coefficients are real); clock = bijection t <-> N; division by zero excluded by hypotheses"
  },
  {
   "property": "C53",
   "status": "proved",
   "theorems": [
    "C53_flat_scalar",
    "C53_flat_tensor",
    "C53_curved_scalar",
    "C53_tensor_wronskian",
    "C53_nonvacuous"
   ],
   "note": "also curved generalisation with Z^2 and conserved Wronskian"
  },
  {
   "property": "C54",
   "status": "proved",
   "theorems": [
    "C54_scalar_normalisation",
    "C54_tensor_normalisation",
    "C54_nonvacuous"
   ],
   "note": "both clocks; HD under positive frequency"
  },
  {
   "property": "C55",
   "status": "proved",
   "theorems": [
    "C55_vacua_agree",
    "C55_curved_HD_refuted",
    "C55_nonvacuous"
   ],
   "note": "holds in the stated range; C55_curved_HD_refuted shows that the scalar HD vacuum in curved space (excluded by the quantifier) disagrees because get_d3phi (time) lacks -3K exp(-2N) dphi"
  },
  {
   "property": "C56",
   "status": "partial",
   "theorems": [
    "C56_HD_efolds",
    "C56_HD_tensor",
    "C56_HD_time_partial",
    "C56_HD_time_refuted",
    "C56_time_nonvacuous",
    "C56_efolds_nonvacuous"
   ],
   "note": "e-folds (any K), tensors (any K) and cosmic time K=0 as claimed; cosmic time scalar uses k^2 - z''/z - 3K, so the claim is refuted for K != 0 (get_d3phi bug)"
  },
  {
   "property": "C57",
   "status": "proved",
   "theorems": [
    "C57_window",
    "C57_window_ordered",
    "C57_window_error",
    "C57_integration_range",
    "C57_nonvacuous"
   ],
   "note": "Index arithmetic of solve_oscode over arbitrary arrays; the range and arrays handed to pyoscode. Statement in terms of OscodeSpec (outside_by, ten_after)."
  },
  {
   "property": "C58",
   "status": "partial",
   "theorems": [
    "C58_pointwise",
    "C58_succeeds",
    "C58_closed_large_scales_partial",
    "C58_closed_large_scales_refuted",
    "C58_nonvacuous",
    "C58_defaults",
    "C58_physical_wavenumbers",
    "C58_unknown_vacuum",
    "C58_unknown_nonvacuous"
   ],
   "note": "Pointwise filling and success criterion proved in full for every oscillatory solver oracle. The suppression clause is false of the code: only P_s_RST is set to 1e-30 (refuted for vacuum k); proved for RST."
  },
  {
   "property": "C59",
   "status": "proved",
   "theorems": [
    "C59_today",
    "C59_friedmann",
    "C65_nonvacuous",
    "C59_critical_density"
   ],
   "note": "Hubble_parameter at ln(a0) is get_H0 in the same units; H^2 = H0^2 E^2(a0/a) whenever the value is a number."
  },
  {
   "property": "C60",
   "status": "proved",
   "theorems": [
    "C60_no_big_bang_line",
    "C60_negative_matter",
    "C60_nonvacuous"
   ],
   "note": "Iff characterisation of the line for every Omega_m0 >= 0 (cosh and cos branches), via the double root of E^2."
  },
  {
   "property": "C61",
   "status": "proved",
   "theorems": [
    "C61_recollapse_line",
    "C61_negative_matter",
    "C61_nonvacuous"
   ],
   "note": "Iff characterisation of the recollapse line for every Omega_m0 >= 0."
  },
  {
   "property": "C62",
   "status": "proved",
   "theorems": [
    "C62_real_in_the_past",
    "C65_nonvacuous"
   ],
   "note": "Radiation included; strict positivity of H at every N <= ln a0."
  },
  {
   "property": "C63",
   "status": "proved",
   "theorems": [
    "C63_scale_factor_today",
    "C63_H0_units",
    "C63_unknown_units",
    "C63_flat",
    "C63_matches_calibration",
    "C63_N_BBN"
   ],
   "note": "get_a0/get_H0 units; agreement with calibrate_scale_factor's a0. Flat universes return 1 for any unit string."
  },
  {
   "property": "C64",
   "status": "proved",
   "theorems": [
    "C64_horizon_units",
    "C64_definition",
    "C64_unknown_units",
    "C64_nonvacuous"
   ],
   "note": "comoving_Hubble_horizon in planck, SI and Mpc."
  },
  {
   "property": "C65",
   "status": "proved",
   "theorems": [
    "C65_conformal_time",
    "C65_array",
    "C65_type_error",
    "C65_nonvacuous",
    "C65_error_estimate"
   ],
   "note": "scipy's quad is an oracle assumed exact on continuous integrands. A scalar N returns scipy's (value, error) pair, contrary to the docstring; the theorem is about the value."
  },
  {
   "property": "C66",
   "status": "proved",
   "theorems": [
    "C66_inverts",
    "C66_unique",
    "C66_constant_w_epoch",
    "C66_nonvacuous"
   ],
   "note": "get_w_delta_reh."
  },
  {
   "property": "C67",
   "status": "proved",
   "theorems": [
    "C67_planck_units",
    "C67_GeV_units",
    "C67_density_conversion",
    "C67_calibration_constants",
    "C67_radiation_constant",
    "C67_neutrino_temperature",
    "C67_radiation_today",
    "C67_megaparsec",
    "C67_radiation_nonvacuous"
   ],
   "note": "For arbitrary positive fundamental constants; the derived constants meet the hypothesis consts_ok of all calibration theorems."
  },
  {
   "property": "C68",
   "status": "proved",
   "theorems": [
    "C68_scalar_log_derivatives",
    "C68_tensor_log_derivatives"
   ],
   "note": "As functions of ln k, for all parameter values."
  },
  {
   "property": "C69",
   "status": "proved",
   "theorems": [
    "C69_spectra",
    "C69_ratio_at_pivot",
    "C69_errors",
    "C69_nonvacuous"
   ],
   "note": "For A_s > 0, A_t >= 0, r >= 0: full formula of both spectra, ratio at the pivot, and the rejected dictionaries."
  },
  {
   "property": "C70",
   "status": "partial",
   "theorems": [
    "C70_feature_off_partial",
    "C70_accepted_partial",
    "C70_accepted_refuted",
    "C70_nonvacuous"
   ],
   "note": "With amplitude 0 an accepted dictionary gives the power-law spectra; acceptance needs w, p and (with n_t) n_t_run to be given, so 'any set accepted by PowerLawPPS is accepted' is refuted twice."
  },
  {
   "property": "C71",
   "status": "proved",
   "theorems": [
    "C71_verified_amplitude",
    "C71_terminates",
    "C71_scaling_law",
    "C71_nonvacuous",
    "C71_rejections",
    "C71_unrealistic",
    "C71_calibration"
   ],
   "note": "Background solution and calibration are arbitrary oracles."
  },
  {
   "property": "C72",
   "status": "proved",
   "theorems": [
    "C72_bumps_accepted",
    "C72_nothing_else",
    "C72_bump_is_later",
    "C72_nonvacuous"
   ],
   "note": "Three-component release versions."
  },
  {
   "property": "C73",
   "status": "partial",
   "theorems": [
    "C73_prerelease_partial",
    "C73_prerelease_refuted",
    "C73_release_after_prerelease",
    "C73_next_prerelease",
    "C73_nonvacuous"
   ],
   "note": "base_version is compared as a string: correct for one-digit components (proved), wrong for 2.10.0a0 vs 2.9.0 in both directions (refuted)."
  },
  {
   "property": "C74",
   "status": "partial",
   "theorems": [
    "C74_refuted",
    "C74_inv_V_partial",
    "C74_epsilon_1_partial",
    "C74_nonvacuous"
   ],
   "note": "False of the code; exact discrepancy proved: V(inv_V v)=v(1+F)."
  },
  {
   "property": "C75",
   "status": "partial",
   "theorems": [
    "C75_copied_partial",
    "C75_copied_refuted",
    "C75_copied_without_end",
    "C75_copied_without_end_nonvacuous"
   ],
   "note": "N_star+N_dagg=N_end-N_beg proved; N_tot is not updated (refuted by a concrete pair) and a run without its own end of inflation raises AttributeError (proved)"
  },
  {
   "property": "C76",
   "status": "partial",
   "theorems": [
    "C76_difference",
    "C76_refuted",
    "C76_partial",
    "C76_differ",
    "C76_nonvacuous"
   ],
   "note": "the third-order terms differ by the polynomials gap_s, gap_t (zeta(3) weights of ARBDS, truncated alpha_star of CGS): refuted; agreement exactly when the gaps vanish"
  },
  {
   "property": "C77",
   "status": "proved",
   "theorems": [
    "C77_mukhanov_sasaki_from_einstein",
    "C77_nonvacuous"
   ],
   "note": ""
  },
  {
   "property": "C78",
   "status": "proved",
   "theorems": [
    "C78_spectrum_independent_of_start",
    "C78_nonvacuous",
    "C78_default_start",
    "C78_default_nonvacuous"
   ],
   "note": "pyoscode and np.nanmedian are oracles with the stated contracts"
  },
  {
   "property": "C79",
   "status": "partial",
   "theorems": [
    "C79_stops_outside_horizon_partial",
    "C79_stops_outside_horizon_refuted",
    "C79_nonvacuous",
    "C79_inflating_time",
    "C79_inflating_efolds"
   ],
   "note": "Holds when logaH is non-decreasing along the samples; refuted for a kinetically dominated start (horizon grows first): the 10 e-fold rule replaces fac_end and can stop inside the horizon."
  },
  {
   "property": "C80",
   "status": "partial",
   "theorems": [
    "C80_big_bang_partial",
    "C80_big_bang_refuted",
    "C80_exact_partial",
    "C80_rejected_margin",
    "C80_nonvacuous",
    "C80_margin_nonvacuous"
   ],
   "note": "A bouncing universe is always rejected; the converse is false because the dividing line neglects radiation (refuted for every set of positive constants). Exact criterion proved: rejected iff E^2(x) < r x^2 (x^2-1) at some x=a0/a>1."
  },
  {
   "property": "C81",
   "status": "partial",
   "theorems": [
    "C81_recollapse_warning_partial",
    "C81_recollapse_warning_refuted",
    "C81_exact_partial",
    "C81_nonvacuous"
   ],
   "note": "A warning implies recollapse; a recollapsing universe without warning exists (radiation neglected in the line). Exact criterion proved: warned iff E^2(x) < -r x^2 (1-x^2) at some 0<x<1."
  },
  {
   "property": "C82",
   "status": "partial",
   "theorems": [
    "C82_ratio_partial",
    "C82_flat_refuted",
    "C82_nonvacuous"
   ],
   "note": "Correct for backgrounds whose N is ln(a) in Planck units (curved); refuted for flat universes, where the uncalibrated _N_end is combined with a0=1."
  },
  {
   "property": "C83",
   "status": "proved",
   "theorems": [
    "C83_feature_factors",
    "C83_positive",
    "C83_cutoff_monotone",
    "C83_nonvacuous"
   ],
   "note": "Feature wrappers multiply scalar and tensor power laws by the same factor."
  },
  {
   "property": "C84",
   "status": "proved",
   "theorems": [
    "C84_grid"
   ],
   "note": "In real arithmetic (np.log10 rounding could change int(...) in floats)."
  },
  {
   "property": "C85",
   "status": "proved",
   "theorems": [
    "C85_exact_relation",
    "C85_third_order",
    "C85_higher_parameters",
    "C85_exact_nonvacuous",
    "C85_nonvacuous"
   ],
   "note": "Exact relation between the two hierarchies derived from the modelled background equations; residuals of the approximations in the exact relation and in the flow equations bounded explicitly; get_epsilon_3/4 accurate to one order less than their printed order because the code sets e5V=0 (exact defect stated)."
  },
  {
   "property": "C86",
   "status": "proved",
   "theorems": [
    "C86_objective",
    "C86_zero",
    "C86_scale",
    "C86_constructor",
    "C86_constructor_nonvacuous",
    "C86_nonvacuous"
   ],
   "note": "scipy's solve_ivp (contract shoot_contract) and root_scalar are oracles; positivity of the over-long branch needs a0 > 1 in Planck units (hypothesis 0 < N0)."
  },
  {
   "property": "C87",
   "status": "proved",
   "theorems": [
    "C87_root_finder_exists",
    "C87_double_well",
    "C87_radion",
    "C87_radion_N2phi",
    "C87_nonvacuous"
   ],
   "note": "root_scalar is an oracle with two assumptions (returns a root in the bracket; returns whenever the function is continuous with opposite signs); C87_root_finder_exists shows they are satisfiable"
  },
  {
   "property": "C88",
   "status": "proved",
   "theorems": [
    "C88_phi_end_is_boundary",
    "C88_nonvacuous"
   ],
   "note": ""
  },
  {
   "property": "C89",
   "status": "proved",
   "theorems": [
    "C89_mode_power",
    "C89_dense_output",
    "C89_nonvacuous"
   ],
   "note": "Integrator is an oracle assumed to propagate linearly over the window; the closed large-scale override of P_s_RST is excluded explicitly."
  },
  {
   "property": "C90",
   "status": "proved",
   "theorems": [
    "C90_time",
    "C90_efolds",
    "C90_nonvacuous"
   ],
   "note": "Monotonicity of the clocks, of energy density, H and aH along exact solutions of the modelled right-hand sides."
  },
  {
   "property": "C91",
   "status": "partial",
   "theorems": [
    "C91_settings",
    "C91_trials",
    "C91_total_efolds_partial",
    "C91_method_refuted",
    "C91_arguments"
   ],
   "note": "Refuted for method: solve() pops method and does not hand it to ic(), so the trial runs of the shooting classes always use RK45 whatever method the user asked for (C91_method_refuted: for every other method name the returned N_tot can be anything although the root finder is exact). Everything else (events, rtol, atol, other keywords, defaults, rejected arguments) is proved; with method RK45 the returned N_tot is the requested one provided the final run records the same start/end events as the trial run."
  },
  {
   "property": "C92",
   "status": "proved",
   "theorems": [
    "C92_time",
    "C92_efolds",
    "C92_trial_time",
    "C92_trial_efolds",
    "C92_collapse",
    "C92_no_collapse",
    "C92_nonvacuous",
    "C92_defaults"
   ],
   "note": "scipy's activity rule (find_active_events) is the specification Spec/EventSpec.v. In e-folds acceleration is expressed as growth of aH (a'' = H d(aH)/dN)."
  },
  {
   "property": "C93",
   "status": "proved",
   "theorems": [
    "C93_spectrum_on_grid",
    "C93_local_table",
    "C93_pivot_table",
    "C93_pivot_on_grid",
    "C93_consistency",
    "C93_nonvacuous"
   ],
   "note": "Splines are assumed to pass through their knots (distinct abscissae); entries must be positive (numpy's log of a non-positive power is dropped by the code)."
  },
  {
   "property": "C94",
   "status": "proved",
   "theorems": [
    "C94_LLMS_parameters",
    "C94_nonvacuous"
   ],
   "note": "Splines are assumed exact on parabolas between the outermost knots, which holds for interpolating splines of degree >= 2 by uniqueness."
  },
  {
   "property": "C95",
   "status": "proved",
   "theorems": [
    "C95_time_grid",
    "C95_efolds_grid",
    "C95_zero_time",
    "C95_same_spectrum",
    "C95_off",
    "C95_eval_power",
    "C95_nonvacuous"
   ],
   "note": "pyoscode is an oracle whose solutions do not depend on the requested output points (C95_same_spectrum) and that evaluates the linear combination of the two fundamental solutions at them (C95_eval_power). The closed-universe suppression of P_s_RST is not applied to P_s_RST_eval."
  },
  {
   "property": "C96",
   "status": "proved",
   "theorems": [
    "C96_tensor_time",
    "C96_scalar_time",
    "C96_tensor_efolds",
    "C96_scalar_efolds",
    "C96_outside_time",
    "C96_outside_efolds",
    "C96_nonvacuous"
   ],
   "note": "about exact solutions of the coded mode equations along exact backgrounds; curved scalar modes are not covered (only their conserved Wronskian, C53); witness C96_nonvacuous (exact mode on a power law)"
  },
  {
   "property": "C97",
   "status": "proved",
   "theorems": [
    "C97_scalar_time",
    "C97_scalar_efolds",
    "C97_tensor_time",
    "C97_tensor_efolds",
    "C97_nonvacuous"
   ],
   "note": "added after seeded bug Perturbations.cderiv (sign of the z'/z term) survived; the HD frequency itself is C56; witness C97_nonvacuous"
  },
  {
   "property": "C98",
   "status": "proved",
   "theorems": [
    "C98_calibration",
    "C98_output",
    "C98_solved",
    "C98_wrapper",
    "C98_nonvacuous",
    "C98_reheating",
    "C98_reheating_nonvacuous"
   ],
   "note": "root finder in set_ns assumed to reach the object only through its function argument (acts_through); splines and constants arbitrary"
  },
  {
   "property": "C99",
   "status": "proved",
   "theorems": [
    "C99_efolds",
    "C99_time",
    "C99_same_numbers",
    "C99_nonvacuous",
    "C99_same_nonvacuous"
   ],
   "note": "curved cosmic time: delta_2 off by 3K/(aH)^2, stated exactly; higher orders only for K=0 there"
  },
  {
   "property": "C100",
   "status": "proved",
   "theorems": [
    "C100_potential",
    "C100_slow_roll",
    "C100_amplitude",
    "C100_time",
    "C100_efolds",
    "C100_flow_efolds",
    "C100_flow_time",
    "C100_spectra",
    "C100_mode",
    "C100_oscode",
    "C100_flat",
    "C100_nonvacuous"
   ],
   "note": "exact spectra: e-fold equations, flat universes for every c (C100_flat, no assumption on the solver); curved universes in units that keep K, where the solver must not depend on the e-fold origin (C100_oscode)"
  },
  {
   "property": "C101",
   "status": "proved",
   "theorems": [
    "C101_inputs",
    "C101_parameters",
    "C101_names",
    "C101_setup",
    "C101_ninety",
    "C101_nonvacuous",
    "C101_run"
   ],
   "note": "Background solution and calibration are oracles that see the potential object, its amplitude and the initial field. C101_ninety excludes the double wells, whose inverse is tabulated (C08)."
  },
  {
   "property": "C102",
   "status": "proved",
   "theorems": [
    "C102_origin",
    "C102_nonvacuous"
   ],
   "note": "flat universes; a0_Mpc refers to the origin too (flat universes fix a0 = 1)"
  },
  {
   "property": "C103",
   "status": "proved",
   "theorems": [
    "C103_same_calibration",
    "C103_nonvacuous"
   ],
   "note": "epsilon_2 != 0 on the samples in use: otherwise epsilon_3 is 0/0 in both classes"
  },
  {
   "property": "C104",
   "status": "partial",
   "theorems": [
    "C104_history",
    "C104_refuted",
    "C104_nonvacuous"
   ],
   "note": "false in general: a sample in use that repeats an earlier value of aH is used only by the first calibration (C104_refuted); proved for all histories when no sample in use repeats an earlier value (C104_history). Calibrations with an earlier background as argument are not part of the histories."
  },
  {
   "property": "C105",
   "status": "proved",
   "theorems": [
    "C105_events",
    "C105_order",
    "C105_extra",
    "C105_nonvacuous"
   ],
   "note": "Distinct event names are required (C24_refuted shows what happens otherwise). That an additional non-terminal event does not change the samples is a property of scipy's solve_ivp and part of the hypothesis."
  },
  {
   "property": "C106",
   "status": "proved",
   "theorems": [
    "C106_time",
    "C106_efolds",
    "C106_time_background",
    "C106_efolds_background",
    "C106_events",
    "C106_flow",
    "C106_mode",
    "C106_oscode",
    "C106_symmetric",
    "C106_other_side",
    "C106_nonvacuous"
   ],
   "note": "For every sign g and shift c; pyoscode and nanmedian arbitrary. The Starobinsky-type potentials have no centre of symmetry and are covered only by the general statement."
  },
  {
   "property": "C107",
   "status": "proved",
   "theorems": [
    "C107_flat_time",
    "C107_flat_efolds",
    "C107_closed_efolds_sign",
    "C107_closed_time_refuted",
    "C107_faithful_nonvacuous",
    "C107_nonvacuous",
    "C107_open_time",
    "C107_open_efolds",
    "C107_no_overflow",
    "C107_accurate_nonvacuous"
   ],
   "note": "x**2 is any faithful rounding; overflow not modelled; exp arbitrary. The closed cosmic-time case is refuted explicitly."
  },
  {
   "property": "C108",
   "status": "proved",
   "theorems": [
    "C108_w_time",
    "C108_w_efolds",
    "C108_nonvacuous"
   ],
   "note": "in e-folds the computed H^2 is required to be non-negative (C107_flat_efolds gives it for flat universes); overflow not modelled"
  },
  {
   "property": "C109",
   "status": "proved",
   "theorems": [
    "C109_time",
    "C109_efolds",
    "C109_nonvacuous"
   ],
   "note": "sharp in cosmic time; within 16 units of roundoff of the threshold in e-folds; overflow not modelled"
  },
  {
   "property": "C110",
   "status": "proved",
   "theorems": [
    "C110_time",
    "C110_efolds",
    "C110_time_origin",
    "C110_options",
    "C110_both",
    "C110_nonvacuous"
   ],
   "note": "Gronwall's lemma on compact subintervals; C110_both composes C17_time_to_efolds with C110_efolds and assumes V <> 3K exp(-2N) along the cosmic-time run (i.e. (dphi/dN)^2 <> 6, where the e-fold form of H^2 divides by zero)."
  },
  {
   "property": "C111",
   "status": "proved",
   "theorems": [
    "C111_bump",
    "C111_history",
    "C111_other_lines",
    "C111_only_declaration_refuted",
    "C111_nonvacuous"
   ],
   "note": "sed and the Python string functions are modelled on lists of characters; versions in normalised three-number spelling. C111_only_declaration_refuted records that other mentions of the version string are rewritten as well."
  },
  {
   "property": "C112",
   "status": "proved",
   "theorems": [
    "C112_unique_time",
    "C112_unique_efolds",
    "C112_superposition_time",
    "C112_superposition_efolds",
    "C112_same_mode",
    "C112_nonvacuous"
   ],
   "note": "regular_T / regular_N exclude the moments at which the scalar damping term divides by zero (dphi = 0 in curved space); the code divides by the same quantity there"
  },
  {
   "property": "C113",
   "status": "proved",
   "theorems": [
    "C113_reuse",
    "C113_twice",
    "C113_construct",
    "C113_nonvacuous",
    "C113_targets_kept",
    "C113_attributes"
   ],
   "note": "solve_ivp and root_scalar are deterministic oracles; the session does not include calibration of solutions (C104)"
  },
  {
   "property": "C114",
   "status": "partial",
   "theorems": [
    "C114_warnings",
    "C114_verbosity_partial",
    "C114_verbosity_refuted",
    "C114_trials"
   ],
   "note": "results do not depend on verbosity (C113_reuse quantifies over all flags); the request made at construction of the equations counts only if no shooting object is built on them: C114_verbosity_refuted is a session in which it is ignored"
  },
  {
   "property": "C115",
   "status": "proved",
   "theorems": [
    "C115_same_power",
    "C115_nonvacuous"
   ],
   "note": "composes C110 (same background), C112 (same mode) and C89 (power of one mode) for two runs of solve_oscode; the integrator is assumed exact and frozen over its last five steps (spec integrates_exactly); witness: the closed universe a=t over 11 e-folds with scalar and tensor modes in closed form"
  },
  {
   "property": "C116",
   "status": "proved",
   "theorems": [
    "C116_end_message",
    "C116_still_inflating_time",
    "C116_still_inflating_efolds",
    "C116_other_messages",
    "C116_nonvacuous"
   ],
   "note": "texts modelled as strings; %g and %s formatting are arbitrary functions"
  },
  {
   "property": "C117",
   "status": "proved",
   "theorems": [
    "C117_time",
    "C117_efolds",
    "C117_time_continuous",
    "C117_efolds_continuous",
    "C117_end_of_inflation",
    "C117_nonvacuous"
   ],
   "note": "Gronwall estimate plus a continuation argument; no assumption on the neighbouring run other than that it exists on the stretch. Statement is about exact solutions of the coded ODEs, not about the integrator's numerical error."
  },
  {
   "property": "C118",
   "status": "proved",
   "theorems": [
    "C118_time",
    "C118_efolds",
    "C118_nonvacuous",
    "C118_open_time",
    "C118_open_efolds"
   ],
   "note": "Double wells need p >= 1 (for p < 1 the branch is not log-concave up to the hilltop); P = DoubleWell 1 (sqrt 2) is excluded because phi_end is not on its branch. Evolutions over the reals; the integrator's error is not modelled."
  },
  {
   "property": "C119",
   "status": "proved",
   "theorems": [
    "C119_time",
    "C119_efolds",
    "C119_time_continues",
    "C119_efolds_continues",
    "C119_time_state",
    "C119_efolds_state",
    "C119_slow_roll_start",
    "C119_inflation_start",
    "C119_nonvacuous"
   ],
   "note": "Real-number evolutions of the coded right-hand sides."
  },
  {
   "property": "C120",
   "status": "proved",
   "theorems": [
    "C120_efolds",
    "C120_every_evolution",
    "C120_time",
    "C120_nonvacuous",
    "C120_open_efolds",
    "C120_open_every_evolution",
    "C120_open_time",
    "C120_open_nonvacuous"
   ],
   "note": "Same potentials as C118. Real-number evolutions of the coded right-hand sides."
  },
  {
   "property": "C121",
   "status": "proved",
   "theorems": [
    "C121_time",
    "C121_efolds",
    "C121_integrator_time",
    "C121_integrator_efolds",
    "C121_slow_roll",
    "C121_nonvacuous"
   ],
   "note": "Existence and uniqueness of modes for arbitrary data at any moment, time and e-folds; an exact integrator in the sense of C89/C115 exists for scalar and tensor together whenever the sampled coefficients tell them apart; on slow-roll runs with K=0 or -1 the coefficients are regular from the start to the end of inflation."
  },
  {
   "property": "C122",
   "status": "proved",
   "theorems": [
    "C122_time",
    "C122_efolds",
    "C122_mode_time",
    "C122_mode_efolds",
    "C122_nonvacuous"
   ],
   "note": "Integrator exact over the window in the sense of C115 (its existence is C121); the HD vacuum needs a real positive conformal frequency (otherwise the code takes sqrt of a negative number)."
  },
  {
   "property": "C123",
   "status": "proved",
   "theorems": [
    "C123_tensor_time",
    "C123_tensor_efolds",
    "C123_scalar_time",
    "C123_scalar_efolds",
    "C123_slow_roll",
    "C123_nonvacuous"
   ],
   "note": "RST vacuum; exact integrator as in C115; scalar bound flat only. C123_slow_roll needs no hypothesis on z."
  },
  {
   "property": "C124",
   "status": "partial",
   "theorems": [
    "C124_raised",
    "C124_closed",
    "C124_open",
    "C124_more_efolds",
    "C124_larger_field",
    "C124_geometry_refuted",
    "C124_field_advice_refuted",
    "C124_nonvacuous",
    "C124_printed",
    "C124_direct"
   ],
   "note": "Two clauses are false of the code: with Omega_Ki>=1 the error names open universes also in closed and flat ones (C124_geometry_refuted), and for every bounded potential an early enough start is rejected for all field values on the branch although the text advises to increase phi_i (C124_field_advice_refuted). The rest is proved."
  },
  {
   "property": "C125",
   "status": "proved",
   "theorems": [
    "C125_efolds",
    "C125_every_evolution",
    "C125_time",
    "C125_bracket",
    "C125_onset",
    "C125_not_a_start",
    "C125_nonvacuous"
   ],
   "note": "K=0 for the e-fold count and existence, every K for the onset criterion; the pole sr_phi_end is that of the model's phi_end; ODE solvers are not modelled, the statement is about exact solutions of the coded right-hand sides. C125_not_a_start exhibits two accepted starts at which inflation ends (finding 27)."
  },
  {
   "property": "C126",
   "status": "proved",
   "theorems": [
    "C126_continuous",
    "C126_exact_start",
    "C126_increasing",
    "C126_unique_start",
    "C126_nonvacuous"
   ],
   "note": "Exact solutions of the coded e-fold equations, K=0; the ODE solver and root_scalar are not modelled here (C34/C35 tie the code's objective to the end of inflation)."
  },
  {
   "property": "C127",
   "status": "proved",
   "theorems": [
    "C127_objective",
    "C127_shooting",
    "C127_nonvacuous",
    "C127_time_objective",
    "C127_time_shooting",
    "C127_time_nonvacuous"
   ],
   "note": "K=0, e-folds and cosmic time; exact integrator (Spec/ExactRun.v, Spec/ExactRunT.v) and bracketing root finder with absolute tolerance (brackets_to) are hypotheses about scipy; the nonvacuity theorems construct both. In cosmic time x_end must exceed an explicit bound."
  },
  {
   "property": "C128",
   "status": "proved",
   "theorems": [
    "C128_duration",
    "C128_nonvacuous",
    "C128_slow_roll"
   ],
   "note": "K=0, cosmic time; the bound on the time uses that during inflation V falls at most by exp(-(1+2 N_max)), so H^2 >= V_i exp(-(1+2 N_max))/3, and H <= H_i."
  },
  {
   "property": "C129",
   "status": "proved",
   "theorems": [
    "C129_reports",
    "C129_start",
    "C129_slow_roll",
    "C129_nonvacuous",
    "C129_time_reports",
    "C129_time_start",
    "C129_time_nonvacuous",
    "C129_time_slow_roll",
    "C129_time_slow_roll_nonvacuous"
   ],
   "note": "Assumes an exact integrator (Spec/ExactRun.v: samples and event records of an exact solution, terminal events stop it). C129_reports: any K, any potential, e-folds. C129_start, C129_slow_roll: flat universe, through solve()'s keyword handling. C129_time_*: cosmic time, the same for any K and potential, and for both initial conditions in a flat universe."
  },
  {
   "property": "C130",
   "status": "proved",
   "theorems": [
    "C130_comoving_hubble",
    "C130_pivot_exit",
    "C130_nonvacuous",
    "C130_any_method",
    "C130_wavenumbers",
    "C130_time_comoving_hubble",
    "C130_time",
    "C130_time_nonvacuous"
   ],
   "note": "For an exact integrator (exact_run of Spec/ExactRun.v: samples and event records of an exact solution). Sampling error enters only through the spacing of the two neighbouring samples. Flat universe for the calibration (both methods in C130_any_method); the comoving Hubble rate statement is for any universe."
  }
 ]
}