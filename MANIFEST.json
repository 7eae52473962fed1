{
 "claims": [
  {
   "property": "C01",
   "status": "proved",
   "theorems": [
    "C01_convert_to_vector",
    "C01_matrix_untouched",
    "C01_interchangeable_wave",
    "C01_interchangeable_spectral",
    "C01_matrix_rejected",
    "C01_matrix_rejected_complex",
    "C01_column_density_refuted"
   ],
   "note": "In EngineProps.v. The statement includes the deviation(s) from the documented behaviour that were found; C01_column_density_refuted proves that the undeviating claim is false of the code."
  },
  {
   "property": "C02",
   "status": "proved",
   "theorems": [
    "C02_accepts_iff",
    "C02_uniform_accepted",
    "C02_non_increasing_rejected",
    "C02_accepted_finite",
    "C02_short_axis",
    "C02_nonuniform_rejected_refuted"
   ],
   "note": "In EngineProps.v. The statement includes the deviation(s) from the documented behaviour that were found; C02_nonuniform_rejected_refuted proves that the undeviating claim is false of the code."
  },
  {
   "property": "C03",
   "status": "proved",
   "theorems": [
    "C03_nearest_index",
    "C03_fails_only_when_empty",
    "C03_empty"
   ],
   "note": "In EngineProps.v."
  },
  {
   "property": "C04",
   "status": "proved",
   "theorems": [
    "C04_sorted_same_waves"
   ],
   "note": "In TimeProps.v."
  },
  {
   "property": "C05",
   "status": "proved",
   "theorems": [
    "C05_not_1d_rejected",
    "C05_length_mismatch_rejected",
    "C05_no_waves_refuted",
    "C05_no_waves_raises"
   ],
   "note": "In TimeProps.v. The statement includes the deviation(s) from the documented behaviour that were found; C05_no_waves_refuted proves that the undeviating claim is false of the code."
  },
  {
   "property": "C06",
   "status": "proved",
   "theorems": [
    "C06_exactly_the_crossings",
    "C06_case_insensitive",
    "C06_other_strings_rejected",
    "C06_length_mismatch_rejected"
   ],
   "note": "In TimeProps.v."
  },
  {
   "property": "C07",
   "status": "proved",
   "theorems": [
    "C07_crossing_times"
   ],
   "note": "In TimeProps.v."
  },
  {
   "property": "C08",
   "status": "proved",
   "theorems": [
    "C08_mirror",
    "C08_scale",
    "C08_shift"
   ],
   "note": "In TimeProps.v."
  },
  {
   "property": "C09",
   "status": "proved",
   "theorems": [
    "C09_alternate",
    "C09_some_between_iff",
    "C09_alternate_refuted"
   ],
   "note": "In TimeProps2.v. The statement includes the deviation(s) from the documented behaviour that were found; C09_alternate_refuted proves that the undeviating claim is false of the code."
  },
  {
   "property": "C10",
   "status": "proved",
   "theorems": [
    "C10_highest_waves",
    "C10_bounds",
    "C10_non_increasing_in_p",
    "C10_non_increasing_at_zero_refuted",
    "C10_p_out_of_range_rejected",
    "C10_unsorted_rejected",
    "C10_length_mismatch_rejected"
   ],
   "note": "In TimeProps2.v. The statement includes the deviation(s) from the documented behaviour that were found; C10_non_increasing_at_zero_refuted proves that the undeviating claim is false of the code."
  },
  {
   "property": "C11",
   "status": "proved",
   "theorems": [
    "C11_exceedance_value",
    "C11_exceedance_meaning",
    "C11_small_sample_zero",
    "C11_non_increasing_in_p",
    "C11_p_out_of_range_rejected",
    "C11_unsorted_rejected"
   ],
   "note": "In TimeProps2.v."
  },
  {
   "property": "C12",
   "status": "proved",
   "theorems": [
    "C12_wave_parameters",
    "C12_periods_add_up",
    "C12_no_crossings"
   ],
   "note": "In TimeProps3.v."
  },
  {
   "property": "C13",
   "status": "proved",
   "theorems": [
    "C13_regular_axis",
    "C13_analysis_never_fails"
   ],
   "note": "In AxisProps.v, TimeProps3.v."
  },
  {
   "property": "C14",
   "status": "proved",
   "theorems": [
    "C14_waves_preserved",
    "C14_answers_history_independent",
    "C14_Hs_meaning",
    "C14_values"
   ],
   "note": "In WHProps.v, WHStats.v."
  },
  {
   "property": "C15",
   "status": "proved",
   "theorems": [
    "C15_Ts",
    "C15_Ts_distinct",
    "C15_Ts_refuted"
   ],
   "note": "In WHProps.v. The statement includes the deviation(s) from the documented behaviour that were found; C15_Ts_refuted proves that the undeviating claim is false of the code."
  },
  {
   "property": "C16",
   "status": "proved",
   "theorems": [
    "C16_regular_accepted",
    "C16_close_to_uniform_accepted",
    "C16_increasing_accepted_refuted",
    "C16_non_finite_axis_rejected",
    "C16_length_mismatch_rejected",
    "C16_axis_check",
    "C16_not_advancing_rejected",
    "C16_single_sample_rejected",
    "C16_uniform_accepted",
    "C16_non_increasing_rejected_refuted"
   ],
   "note": "In AxisProps.v, GapProps.v, SeriesProps.v. The statement includes the deviation(s) from the documented behaviour that were found; C16_increasing_accepted_refuted, C16_non_increasing_rejected_refuted prove that the undeviating claim is false of the code."
  },
  {
   "property": "C17",
   "status": "proved",
   "theorems": [
    "C17_minimum_wave",
    "C17_stored_crossings",
    "C17_failure_keeps_object",
    "C17_uniform"
   ],
   "note": "In SeriesProps.v."
  },
  {
   "property": "C18",
   "status": "proved",
   "theorems": [
    "C18_no_waves_raises",
    "C18_no_waves_zero_refuted"
   ],
   "note": "In SeriesProps.v. The statement includes the deviation(s) from the documented behaviour that were found; C18_no_waves_zero_refuted proves that the undeviating claim is false of the code."
  },
  {
   "property": "C19",
   "status": "proved",
   "theorems": [
    "C19_order",
    "C19_skewness_value",
    "C19_skewness_invariance",
    "C19_mean_var_affine"
   ],
   "note": "In SeriesProps.v."
  },
  {
   "property": "C20",
   "status": "proved",
   "theorems": [
    "C20_time2freq",
    "C20_time2freq_nyquist",
    "C20_length_mismatch_rejected",
    "C20_bad_axis_rejected"
   ],
   "note": "In FourierProps.v."
  },
  {
   "property": "C21",
   "status": "proved",
   "theorems": [
    "C21_round_trip",
    "C21_inverse_round_trip",
    "C21_linear"
   ],
   "note": "In FourierProps.v."
  },
  {
   "property": "C22",
   "status": "proved",
   "theorems": [
    "C22_round_trip"
   ],
   "note": "In FourierProps.v."
  },
  {
   "property": "C23",
   "status": "proved",
   "theorems": [
    "C23_unfold",
    "C23_nyquist_kept_refuted"
   ],
   "note": "In FourierProps.v. The statement includes the deviation(s) from the documented behaviour that were found; C23_nyquist_kept_refuted proves that the undeviating claim is false of the code."
  },
  {
   "property": "C24",
   "status": "proved",
   "theorems": [
    "C24_blocks",
    "C24_identity",
    "C24_variance_conserved",
    "C24_bounds",
    "C24_uniform_axis",
    "C24_length_check_refuted"
   ],
   "note": "In AvgProps.v. The statement includes the deviation(s) from the documented behaviour that were found; C24_length_check_refuted proves that the undeviating claim is false of the code."
  },
  {
   "property": "C25",
   "status": "proved",
   "theorems": [
    "C25_variance",
    "C25_even_variance_refuted"
   ],
   "note": "In DensityProps.v. The statement includes the deviation(s) from the documented behaviour that were found; C25_even_variance_refuted proves that the undeviating claim is false of the code."
  },
  {
   "property": "C26",
   "status": "proved",
   "theorems": [
    "C26_nonneg",
    "C26_routes_agree"
   ],
   "note": "In DensityProps.v."
  },
  {
   "property": "C27",
   "status": "proved",
   "theorems": [
    "C27_range",
    "C27_symmetric",
    "C27_unaveraged_one",
    "C27_phase_blind"
   ],
   "note": "In DensityProps.v."
  },
  {
   "property": "C28",
   "status": "proved",
   "theorems": [
    "C28_pass_band",
    "C28_nan_limit_rejected",
    "C28_pass_band_refuted"
   ],
   "note": "In BandProps.v. The statement includes the deviation(s) from the documented behaviour that were found; C28_pass_band_refuted proves that the undeviating claim is false of the code."
  },
  {
   "property": "C29",
   "status": "proved",
   "theorems": [
    "C29_coefficients",
    "C29_linear",
    "C29_idempotent",
    "C29_zero_mean",
    "C29_energy"
   ],
   "note": "In BandProps.v."
  },
  {
   "property": "C30",
   "status": "proved",
   "theorems": [
    "C30_synthesis",
    "C30_seed_decides",
    "C30_length_mismatch_rejected",
    "C30_no_samples_rejected",
    "C30_column_rejected"
   ],
   "note": "In SynthProps.v."
  },
  {
   "property": "C31",
   "status": "proved",
   "theorems": [
    "C31_wrapper",
    "C31_desired_resolution",
    "C31_explicit_segments"
   ],
   "note": "In SeriesProps2.v."
  },
  {
   "property": "C32",
   "status": "proved",
   "theorems": [
    "C32_linear",
    "C32_quadratic_exact",
    "C32_nonneg",
    "C32_nonneg_accepted_axis_refuted",
    "C32_crossed_limits",
    "C32_default_limits",
    "C32_composite_rule"
   ],
   "note": "In MomentProps.v. The statement includes the deviation(s) from the documented behaviour that were found; C32_nonneg_accepted_axis_refuted proves that the undeviating claim is false of the code."
  },
  {
   "property": "C33",
   "status": "proved",
   "theorems": [
    "C33_tail_finite",
    "C33_tail_infinite",
    "C33_order_four"
   ],
   "note": "In MomentProps.v."
  },
  {
   "property": "C34",
   "status": "proved",
   "theorems": [
    "C34_parameters",
    "C34_empty_band",
    "C34_ordering",
    "C34_ordering_with_zero_refuted",
    "C34_narrow_band_refuted",
    "C34_scaling"
   ],
   "note": "In ParamProps.v. The statement includes the deviation(s) from the documented behaviour that were found; C34_ordering_with_zero_refuted, C34_narrow_band_refuted prove that the undeviating claim is false of the code."
  },
  {
   "property": "C35",
   "status": "proved",
   "theorems": [
    "C35_peak_period",
    "C35_empty_band",
    "C35_default_limits"
   ],
   "note": "In PeakProps.v."
  },
  {
   "property": "C36",
   "status": "proved",
   "theorems": [
    "C36_peak_unique",
    "C36_value",
    "C36_no_energy",
    "C36_within_half_step",
    "C36_exact_for_parabola",
    "C36_interior_positive",
    "C36_positive_refuted",
    "C36_axis_check_refuted",
    "C36_get_Tps"
   ],
   "note": "In ParamProps.v, PeakProps.v. The statement includes the deviation(s) from the documented behaviour that were found; C36_positive_refuted, C36_axis_check_refuted prove that the undeviating claim is false of the code."
  },
  {
   "property": "C37",
   "status": "proved",
   "theorems": [
    "C37_energy_general",
    "C37_energy",
    "C37_peak",
    "C37_object",
    "C37_l_fmax",
    "C37_empty_axis"
   ],
   "note": "In JonswapProps.v."
  },
  {
   "property": "C38",
   "status": "proved",
   "theorems": [
    "C38_is_jonswap",
    "C38_shape"
   ],
   "note": "In JonswapProps.v."
  },
  {
   "property": "C39",
   "status": "proved",
   "theorems": [
    "C39_between",
    "C39_single_frequency",
    "C39_between_refuted"
   ],
   "note": "In JonswapProps.v. The statement includes the deviation(s) from the documented behaviour that were found; C39_between_refuted proves that the undeviating claim is false of the code."
  },
  {
   "property": "C40",
   "status": "proved",
   "theorems": [
    "C40_distribution",
    "C40_converges",
    "C40_deep_water",
    "C40_probabilities",
    "C40_rayleigh_cap",
    "C40_large_tolerance_error",
    "C40_negative_tolerance_diverges"
   ],
   "note": "In BGGamma.v."
  },
  {
   "property": "C41",
   "status": "proved",
   "theorems": [
    "C41_history_independent",
    "C41_object_unchanged"
   ],
   "note": "In HistProps.v."
  },
  {
   "property": "C42",
   "status": "proved",
   "theorems": [
    "C42_s0p",
    "C42_smm10",
    "C42_smm10_HF",
    "C42_new_object_s0p",
    "C42_new_object_smm10",
    "C42_new_object_smm10_HF",
    "C42_cutoff_after",
    "C42_cutoff_new",
    "C42_arguments_ignored_refuted"
   ],
   "note": "In HistProps.v. The statement includes the deviation(s) from the documented behaviour that were found; C42_arguments_ignored_refuted proves that the undeviating claim is false of the code."
  },
  {
   "property": "C43",
   "status": "proved",
   "theorems": [
    "C43_deep_water_refuted",
    "C43_shallow_water_refuted"
   ],
   "note": "In DisperProps.v. The statement includes the deviation(s) from the documented behaviour that were found; C43_deep_water_refuted, C43_shallow_water_refuted prove that the undeviating claim is false of the code."
  },
  {
   "property": "C44",
   "status": "proved",
   "theorems": [
    "C44_structure",
    "C44_dimensionless",
    "C44_fixed_point",
    "C44_zero_depth"
   ],
   "note": "In DisperProps.v."
  },
  {
   "property": "C45",
   "status": "proved",
   "theorems": [
    "C45_accuracy",
    "C45_low_frequency",
    "C45_low_frequency_refuted",
    "C45_documented_accuracy_refuted"
   ],
   "note": "In DisperProps.v, DisperRefute.v. The statement includes the deviation(s) from the documented behaviour that were found; C45_low_frequency_refuted, C45_documented_accuracy_refuted prove that the undeviating claim is false of the code."
  },
  {
   "property": "C46",
   "status": "proved",
   "theorems": [
    "C46_recovers",
    "C46_recovers_exactly",
    "C46_least_squares",
    "C46_linear",
    "C46_mean_discarded",
    "C46_shift",
    "C46_plane_waves"
   ],
   "note": "In DecompClaims.v."
  },
  {
   "property": "C47",
   "status": "proved",
   "theorems": [
    "C47_assertion_iff",
    "C47_not_2d",
    "C47_passing",
    "C47_bad_axis",
    "C47_weight_range_refuted"
   ],
   "note": "In DecompChecks.v. The statement includes the deviation(s) from the documented behaviour that were found; C47_weight_range_refuted proves that the undeviating claim is false of the code."
  },
  {
   "property": "C48",
   "status": "proved",
   "theorems": [
    "C48_two_gauges",
    "C48_two_gauges_exact",
    "C48_mean_lost_refuted"
   ],
   "note": "In DecompClaims.v. The statement includes the deviation(s) from the documented behaviour that were found; C48_mean_lost_refuted proves that the undeviating claim is false of the code."
  },
  {
   "property": "C49",
   "status": "proved",
   "theorems": [
    "C49_same_as_core",
    "C49_too_many",
    "C49_no_series",
    "C49_length_mismatch",
    "C49_uniform",
    "C49_too_few_rejected_refuted"
   ],
   "note": "In DecompChecks.v. The statement includes the deviation(s) from the documented behaviour that were found; C49_too_few_rejected_refuted proves that the undeviating claim is false of the code."
  },
  {
   "property": "C50",
   "status": "proved",
   "theorems": [
    "C50_H2p_Rayleigh"
   ],
   "note": "In WHProps.v."
  },
  {
   "property": "C51",
   "status": "proved",
   "theorems": [
    "C51_plotted_points",
    "C51_plotted_one_wave",
    "C51_plotted_probability_refuted"
   ],
   "note": "In WHProps.v. The statement includes the deviation(s) from the documented behaviour that were found; C51_plotted_probability_refuted proves that the undeviating claim is false of the code."
  },
  {
   "property": "C52",
   "status": "proved",
   "theorems": [
    "C52_asymmetry_invariance",
    "C52_time_reversal",
    "C52_analytic_real_part"
   ],
   "note": "In SeriesProps2.v."
  },
  {
   "property": "C53",
   "status": "proved",
   "theorems": [
    "C53_signal_untouched",
    "C53_answers_history_independent",
    "C53_reanalysis_resets",
    "C53_default_restores"
   ],
   "note": "In SeriesProps2.v."
  },
  {
   "property": "C54",
   "status": "proved",
   "theorems": [
    "C54_analysis_returns_spectrum"
   ],
   "note": "In SynthProps.v."
  },
  {
   "property": "C55",
   "status": "proved",
   "theorems": [
    "C55_rayleigh_plot",
    "C55_battjes_groenendijk",
    "C55_hm0_required",
    "C55_common_scale_refuted"
   ],
   "note": "In PlotProps.v. The statement includes the deviation(s) from the documented behaviour that were found; C55_common_scale_refuted proves that the undeviating claim is false of the code."
  },
  {
   "property": "C56",
   "status": "proved",
   "theorems": [
    "C56_statistics_order",
    "C56_highest_order"
   ],
   "note": "In WHStats.v."
  },
  {
   "property": "C57",
   "status": "proved",
   "theorems": [
    "C57_scale",
    "C57_mirror",
    "C57_shift",
    "C57_statistics_scale"
   ],
   "note": "In WaveSym.v."
  },
  {
   "property": "C58",
   "status": "proved",
   "theorems": [
    "C58_density",
    "C58_scaling",
    "C58_offset",
    "C58_reversal",
    "C58_rotation",
    "C58_time_origin",
    "C58_time_scale"
   ],
   "note": "In SpecSym.v."
  },
  {
   "property": "C59",
   "status": "proved",
   "theorems": [
    "C59_cutoff",
    "C59_small_cutoff",
    "C59_trough_negative_refuted"
   ],
   "note": "In CutoffProps.v. The statement includes the deviation(s) from the documented behaviour that were found; C59_trough_negative_refuted proves that the undeviating claim is false of the code."
  },
  {
   "property": "C60",
   "status": "proved",
   "theorems": [
    "C60_near_uniform_accepted",
    "C60_computed_axis_accepted",
    "C60_unix_time_rejected_refuted"
   ],
   "note": "In RoundProps.v. The statement includes the deviation(s) from the documented behaviour that were found; C60_unix_time_rejected_refuted proves that the undeviating claim is false of the code."
  },
  {
   "property": "C61",
   "status": "proved",
   "theorems": [
    "C61_significant_waves",
    "C61_exceedance",
    "C61_mean_error",
    "C61_significant_height_error",
    "C61_decimal_fraction_refuted",
    "C61_order_matters"
   ],
   "note": "In RoundProps.v. The statement includes the deviation(s) from the documented behaviour that were found; C61_decimal_fraction_refuted proves that the undeviating claim is false of the code."
  },
  {
   "property": "C62",
   "status": "proved",
   "theorems": [
    "C62_never_fails",
    "C62_positive_height_refuted"
   ],
   "note": "In RoundWave.v. The statement includes the deviation(s) from the documented behaviour that were found; C62_positive_height_refuted proves that the undeviating claim is false of the code."
  },
  {
   "property": "C63",
   "status": "proved",
   "theorems": [
    "C63_getters",
    "C63_explicit_band",
    "C63_parameters_agree",
    "C63_object"
   ],
   "note": "In GetterProps.v."
  },
  {
   "property": "C64",
   "status": "proved",
   "theorems": [
    "C64_split",
    "C64_wave_heights",
    "C64_odd_split_refuted",
    "C64_beyond_axis_refuted"
   ],
   "note": "In GetterProps.v. The statement includes the deviation(s) from the documented behaviour that were found; C64_odd_split_refuted, C64_beyond_axis_refuted prove that the undeviating claim is false of the code."
  },
  {
   "property": "C65",
   "status": "proved",
   "theorems": [
    "C65_single_peak",
    "C65_peak_on_grid",
    "C65_height_scaling",
    "C65_pierson_moskowitz_object"
   ],
   "note": "In JonswapShape.v."
  },
  {
   "property": "C66",
   "status": "proved",
   "theorems": [
    "C66_moment",
    "C66_parameters"
   ],
   "note": "In UnitProps.v."
  },
  {
   "property": "C67",
   "status": "proved",
   "theorems": [
    "C67_weight_ratios",
    "C67_zero_weight",
    "C67_froude",
    "C67_mirrored_flume",
    "C67_rotation",
    "C67_time_reversal"
   ],
   "note": "In DecompSym.v."
  },
  {
   "property": "C68",
   "status": "proved",
   "theorems": [
    "C68_goda_suzuki",
    "C68_mansard_funke"
   ],
   "note": "In DecompClassic.v."
  },
  {
   "property": "C69",
   "status": "proved",
   "theorems": [
    "C69_weights",
    "C69_weights_negative",
    "C69_record",
    "C69_sine",
    "C69_four_sigma_refuted",
    "C69_Tmm10_of_sine_refuted"
   ],
   "note": "In HeightProps.v. The statement includes the deviation(s) from the documented behaviour that were found; C69_four_sigma_refuted, C69_Tmm10_of_sine_refuted prove that the undeviating claim is false of the code."
  },
  {
   "property": "C70",
   "status": "proved",
   "theorems": [
    "C70_crossings",
    "C70_waves",
    "C70_object",
    "C70_statistics",
    "C70_spectrum"
   ],
   "note": "In GapProps.v."
  },
  {
   "property": "C71",
   "status": "proved",
   "theorems": [
    "C71_moment",
    "C71_parameters",
    "C71_getters",
    "C71_jonswap",
    "C71_averaging",
    "C71_variance_conserved_refuted",
    "C71_variance_not_created",
    "C71_witness"
   ],
   "note": "In DtypeProps.v. The statement includes the deviation(s) from the documented behaviour that were found; C71_variance_conserved_refuted proves that the undeviating claim is false of the code."
  },
  {
   "property": "C72",
   "status": "proved",
   "theorems": [
    "C72_crossings",
    "C72_waves",
    "C72_statistics",
    "C72_twelve_samples",
    "C72_slow_sampling_refuted",
    "C72_witness"
   ],
   "note": "In RegularProps.v. The statement includes the deviation(s) from the documented behaviour that were found; C72_slow_sampling_refuted proves that the undeviating claim is false of the code."
  },
  {
   "property": "C73",
   "status": "proved",
   "theorems": [
    "C73_waves",
    "C73_spectrum",
    "C73_parameters",
    "C73_uniformity_check_refuted",
    "C73_series_check_refuted"
   ],
   "note": "In TimeUnit.v. The statement includes the deviation(s) from the documented behaviour that were found; C73_uniformity_check_refuted, C73_series_check_refuted prove that the undeviating claim is false of the code."
  },
  {
   "property": "C74",
   "status": "proved",
   "theorems": [
    "C74_create_series",
    "C74_single_sample",
    "C74_seed_decides",
    "C74_recovers_spectrum",
    "C74_bandpass"
   ],
   "note": "In SynthObj.v."
  },
  {
   "property": "C75",
   "status": "proved",
   "theorems": [
    "C75_value_stored",
    "C75_others_kept",
    "C75_failure_keeps",
    "C75_last_value",
    "C75_missing",
    "C75_side_values",
    "C75_created_values"
   ],
   "note": "In AttrProps.v."
  },
  {
   "property": "C76",
   "status": "proved",
   "theorems": [
    "C76_spectra",
    "C76_coefficient"
   ],
   "note": "In ReflectProps.v."
  },
  {
   "property": "C77",
   "status": "proved",
   "theorems": [
    "C77_densities",
    "C77_record",
    "C77_spectrum_returned",
    "C77_series_accepted",
    "C77_whole_chain",
    "C77_moments"
   ],
   "note": "In RoundChain.v, RoundSpec.v."
  },
  {
   "property": "C78",
   "status": "proved",
   "theorems": [
    "C78_spectrum_plot",
    "C78_series_plot",
    "C78_series_plot_after",
    "C78_histogram",
    "C78_text_series",
    "C78_text_waves",
    "C78_text_spectrum",
    "C78_histogram_no_waves",
    "C78_no_directions"
   ],
   "note": "In PlotText.v."
  },
  {
   "property": "C79",
   "status": "proved",
   "theorems": [
    "C79_never_negative",
    "C79_defaults_return",
    "C79_peak_period",
    "C79_record"
   ],
   "note": "In RoundPeriod.v."
  },
  {
   "property": "C80",
   "status": "proved",
   "theorems": [
    "C80_moments",
    "C80_moments_default",
    "C80_getters",
    "C80_moments_any"
   ],
   "note": "In RoundAccuracy.v, RoundMix.v."
  },
  {
   "property": "C81",
   "status": "proved",
   "theorems": [
    "C81_structure",
    "C81_accuracy",
    "C81_against_exact"
   ],
   "note": "In RoundDisper.v."
  },
  {
   "property": "C82",
   "status": "proved",
   "theorems": [
    "C82_bad_axis",
    "C82_unequal_lengths",
    "C82_one_point",
    "C82_accepted_iff",
    "C82_tps",
    "C82_zero_crossing",
    "C82_highest",
    "C82_exceedance",
    "C82_individual_waves",
    "C82_synthesis",
    "C82_synthesis_times",
    "C82_no_components"
   ],
   "note": "In CheckProps.v."
  },
  {
   "property": "C83",
   "status": "proved",
   "theorems": [
    "C83_moment",
    "C83_moment_outside",
    "C83_moment_point",
    "C83_moment_tail",
    "C83_moment_default",
    "C83_parameters",
    "C83_parameters_default",
    "C83_peak",
    "C83_smoothed_peak"
   ],
   "note": "In GapSpectrum.v."
  },
  {
   "property": "C84",
   "status": "proved",
   "theorems": [
    "C84_convert_to_vector",
    "C84_unfold_spectrum",
    "C84_applybandfilter",
    "C84_bandpassfilter",
    "C84_time2freq_nyquist",
    "C84_freq2time",
    "C84_individual_waves",
    "C84_disper",
    "C84_create_spectrum_jonswap",
    "C84_decompose_linear_ZS",
    "C84_frequency_averaging",
    "C84_coherence",
    "C84_spectrum2timeseries",
    "C84_caller_reads_the_same"
   ],
   "note": "In HeapClaims.v."
  },
  {
   "property": "C85",
   "status": "proved",
   "theorems": [
    "C85_series_made",
    "C85_series_history",
    "C85_writes_leave_the_waves",
    "C85_determine_returns_the_objects_arrays",
    "C85_bandpass_shares_the_time",
    "C85_decomposition_shares_the_time",
    "C85_waves_history",
    "C85_spectrum_made",
    "C85_spectrum_history",
    "C85_jonswap_object",
    "C85_raw_spectrum_is_new",
    "C85_fourier_components_are_new",
    "C85_created_series_is_new"
   ],
   "note": "In HeapObjProps.v."
  },
  {
   "property": "C86",
   "status": "proved",
   "theorems": [
    "C86_split",
    "C86_extend",
    "C86_refine",
    "C86_backwards",
    "C86_series_refine",
    "C86_series_split",
    "C86_series_backwards",
    "C86_backwards_touching_refuted",
    "C86_refine_crest_time_refuted"
   ],
   "note": "In RecordProps.v. The statement includes the deviation(s) from the documented behaviour that were found; C86_backwards_touching_refuted, C86_refine_crest_time_refuted prove that the undeviating claim is false of the code."
  },
  {
   "property": "C87",
   "status": "proved",
   "theorems": [
    "C87_adjacent_bands",
    "C87_whole_band",
    "C87_low_and_high",
    "C87_commute",
    "C87_nested",
    "C87_bands_add_up_refuted"
   ],
   "note": "In BandSplit.v. The statement includes the deviation(s) from the documented behaviour that were found; C87_bands_add_up_refuted proves that the undeviating claim is false of the code."
  },
  {
   "property": "C88",
   "status": "proved",
   "theorems": [
    "C88_per_frequency",
    "C88_energy_bounded",
    "C88_noise",
    "C88_limit_needed"
   ],
   "note": "In DecompNoise.v."
  },
  {
   "property": "C89",
   "status": "proved",
   "theorems": [
    "C89_energy",
    "C89_underflow",
    "C89_piersonmoskowitz"
   ],
   "note": "In RoundJonswap.v."
  },
  {
   "property": "C90",
   "status": "proved",
   "theorems": [
    "C90_same_waves",
    "C90_statistics",
    "C90_series"
   ],
   "note": "In RoundStats.v."
  },
  {
   "property": "C91",
   "status": "proved",
   "theorems": [
    "C91_direct_sums",
    "C91_record",
    "C91_spectrum",
    "C91_height"
   ],
   "note": "In RoundFFT.v, RoundRecord.v."
  },
  {
   "property": "C92",
   "status": "proved",
   "theorems": [
    "C92_density",
    "C92_height",
    "C92_noise",
    "C92_resolution"
   ],
   "note": "In NormProps.v."
  },
  {
   "property": "C93",
   "status": "proved",
   "theorems": [
    "C93_coefficients",
    "C93_inverse",
    "C93_round_trip",
    "C93_bandpass"
   ],
   "note": "In RoundTrip.v."
  },
  {
   "property": "C94",
   "status": "proved",
   "theorems": [
    "C94_time_axis",
    "C94_numbers",
    "C94_series",
    "C94_whole_steps",
    "C94_extra_sample_refuted",
    "C94_negative_interpolation_refuted"
   ],
   "note": "In RoundSynth.v. The statement includes the deviation(s) from the documented behaviour that were found; C94_extra_sample_refuted, C94_negative_interpolation_refuted prove that the undeviating claim is false of the code."
  },
  {
   "property": "C95",
   "status": "proved",
   "theorems": [
    "C95_factor",
    "C95_averages",
    "C95_coherence",
    "C95_above_one_refuted",
    "C95_factor_half_refuted"
   ],
   "note": "In RoundAverage.v. The statement includes the deviation(s) from the documented behaviour that were found; C95_above_one_refuted, C95_factor_half_refuted prove that the undeviating claim is false of the code."
  },
  {
   "property": "C96",
   "status": "proved",
   "theorems": [
    "C96_nearest",
    "C96_nearest_refuted",
    "C96_moments",
    "C96_tail",
    "C96_getters",
    "C96_getters_infinite"
   ],
   "note": "In RoundLimits.v. The statement includes the deviation(s) from the documented behaviour that were found; C96_nearest_refuted proves that the undeviating claim is false of the code."
  }
 ]
}