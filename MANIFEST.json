{
 "claims": [
  {
   "property": "C01",
   "status": "proved",
   "theorems": [
    "C01_sfr_value",
    "C01_sfr_floor"
   ],
   "note": ""
  },
  {
   "property": "C02",
   "status": "proved",
   "theorems": [
    "C02_smh_is_integral",
    "C02_same_sfh"
   ],
   "note": ""
  },
  {
   "property": "C03",
   "status": "proved",
   "theorems": [
    "C03_smh_increasing"
   ],
   "note": ""
  },
  {
   "property": "C04",
   "status": "proved",
   "theorems": [
    "C04_smh_causal"
   ],
   "note": ""
  },
  {
   "property": "C05",
   "status": "proved",
   "theorems": [
    "C05_sfh_pointwise"
   ],
   "note": ""
  },
  {
   "property": "C06",
   "status": "proved",
   "theorems": [
    "C06_galpop_sfh",
    "C06_galpop_smh",
    "C06_galpop_accepts_iff"
   ],
   "note": ""
  },
  {
   "property": "C07",
   "status": "proved",
   "theorems": [
    "C07_mgas_galpop_rows",
    "C07_mgas_galpop_total"
   ],
   "note": ""
  },
  {
   "property": "C08",
   "status": "proved",
   "theorems": [
    "C08_fb_monotone",
    "C08_fb_linear"
   ],
   "note": ""
  },
  {
   "property": "C09",
   "status": "proved",
   "theorems": [
    "C09_quenching_shape",
    "C09_quenching_formula"
   ],
   "note": ""
  },
  {
   "property": "C10",
   "status": "proved",
   "theorems": [
    "C10_quenching_C1"
   ],
   "note": ""
  },
  {
   "property": "C11",
   "status": "proved",
   "theorems": [
    "C11_quenching_never_raises",
    "C11_no_effect_before_onset"
   ],
   "note": ""
  },
  {
   "property": "C12",
   "status": "proved",
   "theorems": [
    "C12_efficiency_envelope"
   ],
   "note": ""
  },
  {
   "property": "C13",
   "status": "proved",
   "theorems": [
    "C13_unquenched_inert"
   ],
   "note": ""
  },
  {
   "property": "C14",
   "status": "proved",
   "theorems": [
    "C14_bounded_in_bounds"
   ],
   "note": ""
  },
  {
   "property": "C15",
   "status": "proved",
   "theorems": [
    "C15_unbounded_bounded"
   ],
   "note": ""
  },
  {
   "property": "C16",
   "status": "proved",
   "theorems": [
    "C16_bounded_unbounded"
   ],
   "note": ""
  },
  {
   "property": "C17",
   "status": "proved",
   "theorems": [
    "C17_finite_iff_in_bounds"
   ],
   "note": ""
  },
  {
   "property": "C18",
   "status": "proved",
   "theorems": [
    "C18_bounding_smooth"
   ],
   "note": ""
  },
  {
   "property": "C19",
   "status": "proved",
   "theorems": [
    "C19_gas_balance",
    "C19_same_sfh"
   ],
   "note": ""
  },
  {
   "property": "C20",
   "status": "proved",
   "theorems": [
    "C20_dmgas_slopes"
   ],
   "note": ""
  },
  {
   "property": "C21",
   "status": "proved",
   "theorems": [
    "C21_gas_negative_refuted"
   ],
   "note": ""
  },
  {
   "property": "C22",
   "status": "proved",
   "theorems": [
    "C22_dt_arrays_agree",
    "C22_np_dt_array",
    "C22_np_dt_array_short"
   ],
   "note": ""
  },
  {
   "property": "C23",
   "status": "proved",
   "theorems": [
    "C23_fstar_bounds",
    "C23_fstar_mean"
   ],
   "note": ""
  },
  {
   "property": "C24",
   "status": "proved",
   "theorems": [
    "C24_first_mass",
    "C24_pretable_sfh_refuted"
   ],
   "note": ""
  },
  {
   "property": "C25",
   "status": "proved",
   "theorems": [
    "C25_interp_inside",
    "C25_interp_knots",
    "C25_interp_outside",
    "C25_interp_clamped_refuted"
   ],
   "note": ""
  },
  {
   "property": "C26",
   "status": "proved",
   "theorems": [
    "C26_cumtrapz_shape",
    "C26_cumtrapz_linear",
    "C26_cumtrapz_affine"
   ],
   "note": ""
  },
  {
   "property": "C27",
   "status": "proved",
   "theorems": [
    "C27_broadcast_accepts_iff",
    "C27_broadcast_values"
   ],
   "note": ""
  },
  {
   "property": "C28",
   "status": "proved",
   "theorems": [
    "C28_triweight_third_copy",
    "C28_triweight_bin_third_copy",
    "C28_triweight",
    "C28_triweight_bin"
   ],
   "note": ""
  },
  {
   "property": "C29",
   "status": "proved",
   "theorems": [
    "C29_pop_bounded_in_bounds",
    "C29_pop_bounded_coordinatewise"
   ],
   "note": ""
  },
  {
   "property": "C30",
   "status": "proved",
   "theorems": [
    "C30_unbounded_bounded",
    "C30_bounded_unbounded"
   ],
   "note": ""
  },
  {
   "property": "C31",
   "status": "proved",
   "theorems": [
    "C31_clipped_line_bounds"
   ],
   "note": ""
  },
  {
   "property": "C32",
   "status": "proved",
   "theorems": [
    "C32_clipped_line_overshoot_refuted",
    "C32_zero_slope_refuted",
    "C32_zero_u_slope_refuted"
   ],
   "note": ""
  },
  {
   "property": "C33",
   "status": "proved",
   "theorems": [
    "C33_covariances_positive_definite",
    "C33_scatter_bounds"
   ],
   "note": ""
  },
  {
   "property": "C34",
   "status": "proved",
   "theorems": [
    "C34_quenched_fractions"
   ],
   "note": ""
  },
  {
   "property": "C35",
   "status": "proved",
   "theorems": [
    "C35_satellite_boost",
    "C35_qprob_sat_ge",
    "C35_satellite_ge_central_refuted"
   ],
   "note": ""
  },
  {
   "property": "C36",
   "status": "proved",
   "theorems": [
    "C36_cen_is_upid_m1",
    "C36_upid_switch",
    "C36_upid_same_params"
   ],
   "note": ""
  },
  {
   "property": "C37",
   "status": "proved",
   "theorems": [
    "C37_draws_in_bounds",
    "C37_population_draws_in_bounds"
   ],
   "note": ""
  },
  {
   "property": "C38",
   "status": "proved",
   "theorems": [
    "C38_flag_iff_below",
    "C38_flag_probability"
   ],
   "note": ""
  },
  {
   "property": "C39",
   "status": "proved",
   "theorems": [
    "C39_galpop_u_params",
    "C39_galpop_params",
    "C39_galpop_total"
   ],
   "note": ""
  },
  {
   "property": "C40",
   "status": "proved",
   "theorems": [
    "C40_sfh_singlegal",
    "C40_sfh_galpop",
    "C40_sfh_galpop_total",
    "C40_main_sequence_unquenched",
    "C40_main_sequence_sfr"
   ],
   "note": ""
  },
  {
   "property": "C41",
   "status": "proved",
   "theorems": [
    "C41_select_params"
   ],
   "note": ""
  },
  {
   "property": "C42",
   "status": "proved",
   "theorems": [
    "C42_override",
    "C42_unknown_name",
    "C42_all_u_params"
   ],
   "note": ""
  },
  {
   "property": "C43",
   "status": "proved",
   "theorems": [
    "C43_cov_corr_roundtrip",
    "C43_corr_cov_roundtrip"
   ],
   "note": ""
  },
  {
   "property": "C44",
   "status": "proved",
   "theorems": [
    "C44_calibrations_in_bounds",
    "C44_default_in_bounds"
   ],
   "note": ""
  },
  {
   "property": "C45",
   "status": "proved",
   "theorems": [
    "C45_weight_range",
    "C45_histogram_telescopes",
    "C45_histogram_counts_all",
    "C45_weighted_histogram_counts_all",
    "C45_weighted_histogram_value"
   ],
   "note": ""
  },
  {
   "property": "C46",
   "status": "proved",
   "theorems": [
    "C46_histogram_additive",
    "C46_weighted_histogram_additive",
    "C46_histogram_order_independent",
    "C46_weighted_histogram_order_independent"
   ],
   "note": ""
  },
  {
   "property": "C47",
   "status": "proved",
   "theorems": [
    "C47_smhm_between_extremes",
    "C47_smhm_value"
   ],
   "note": ""
  },
  {
   "property": "C48",
   "status": "proved",
   "theorems": [
    "C48_mstar_pdf",
    "C48_mstar_pdf_undefined",
    "C48_predicted_mstar_pdfs",
    "C48_conditional_pdfs",
    "C48_predicted_ssfr_pdfs"
   ],
   "note": ""
  },
  {
   "property": "C49",
   "status": "proved",
   "theorems": [
    "C49_mse",
    "C49_mstar_loss",
    "C49_ssfr_loss",
    "C49_combined_loss",
    "C49_combined_3loss"
   ],
   "note": ""
  },
  {
   "property": "C50",
   "status": "proved",
   "theorems": [
    "C50_initial_guess",
    "C50_loss_data"
   ],
   "note": ""
  },
  {
   "property": "C51",
   "status": "proved",
   "theorems": [
    "C51_quench_guess_constant",
    "C51_mass_dependent_guess_refuted"
   ],
   "note": ""
  },
  {
   "property": "C52",
   "status": "proved",
   "theorems": [
    "C52_weights",
    "C52_weight_values",
    "C52_early_snapshots_excluded_refuted"
   ],
   "note": ""
  },
  {
   "property": "C53",
   "status": "proved",
   "theorems": [
    "C53_loss_value",
    "C53_loss_ge_prior",
    "C53_loss_zero_residuals",
    "C53_prior_decreasing",
    "C53_loss_positive"
   ],
   "note": ""
  },
  {
   "property": "C54",
   "status": "proved",
   "theorems": [
    "C54_best_attempt",
    "C54_never_nan_refuted",
    "C54_converged_preferred_refuted"
   ],
   "note": ""
  },
  {
   "property": "C55",
   "status": "proved",
   "theorems": [
    "C55_early_exit_refuted"
   ],
   "note": ""
  },
  {
   "property": "C56",
   "status": "proved",
   "theorems": [
    "C56_random_start",
    "C56_finite_gradient_refuted"
   ],
   "note": ""
  },
  {
   "property": "C57",
   "status": "proved",
   "theorems": [
    "C57_adam_run",
    "C57_no_steps_raises",
    "C57_adam_warmup"
   ],
   "note": ""
  },
  {
   "property": "C58",
   "status": "proved",
   "theorems": [
    "C58_row_reads_back",
    "C58_header",
    "C58_printed_precision",
    "C58_six_digits_exact",
    "C58_collated_table"
   ],
   "note": ""
  },
  {
   "property": "C59",
   "status": "proved",
   "theorems": [
    "C59_ranks_partition",
    "C59_galacticus_script",
    "C59_umachine_script",
    "C59_tng_script"
   ],
   "note": ""
  },
  {
   "property": "C60",
   "status": "proved",
   "theorems": [
    "C60_short_rank_refuted",
    "C60_umachine_script_refuted",
    "C60_galacticus_script_refuted",
    "C60_tng_script_refuted"
   ],
   "note": ""
  },
  {
   "property": "C61",
   "status": "proved",
   "theorems": [
    "C61_loaded_rows",
    "C61_placeholder_fitted_refuted"
   ],
   "note": ""
  },
  {
   "property": "C62",
   "status": "proved",
   "theorems": [
    "C62_blocks_stack",
    "C62_halo_blocks",
    "C62_galacticus_block"
   ],
   "note": ""
  },
  {
   "property": "C63",
   "status": "proved",
   "theorems": [
    "C63_extract_from_start",
    "C63_extract_offset_raises_refuted",
    "C63_extract_offset_rows_refuted"
   ],
   "note": ""
  },
  {
   "property": "C64",
   "status": "proved",
   "theorems": [
    "C64_sfr_conserves_mass"
   ],
   "note": ""
  },
  {
   "property": "C65",
   "status": "proved",
   "theorems": [
    "C65_tng_running_max",
    "C65_smdpl_running_max",
    "C65_smdpl_mass_gap",
    "C65_running_max_monotone"
   ],
   "note": ""
  },
  {
   "property": "C66",
   "status": "proved",
   "theorems": [
    "C66_padding_neutral",
    "C66_padded_rectangular",
    "C66_padding_undefined_refuted"
   ],
   "note": ""
  },
  {
   "property": "C67",
   "status": "proved",
   "theorems": [
    "C67_zero_weight_bin_ignored_refuted",
    "C67_empty_bin_poisons"
   ],
   "note": ""
  },
  {
   "property": "C68",
   "status": "proved",
   "theorems": [
    "C68_scipy_success",
    "C68_adam_fallback",
    "C68_extra_args_refuted"
   ],
   "note": ""
  },
  {
   "property": "C69",
   "status": "proved",
   "theorems": [
    "C69_adam_improves",
    "C69_warmup_improves"
   ],
   "note": ""
  },
  {
   "property": "C70",
   "status": "proved",
   "theorems": [
    "C70_truth_is_optimal_refuted"
   ],
   "note": ""
  },
  {
   "property": "C71",
   "status": "proved",
   "theorems": [
    "C71_fitter"
   ],
   "note": ""
  },
  {
   "property": "C72",
   "status": "proved",
   "theorems": [
    "C72_fit_table_unreadable_refuted"
   ],
   "note": ""
  },
  {
   "property": "C73",
   "status": "proved",
   "theorems": [
    "C73_mass_cut_refuted"
   ],
   "note": ""
  },
  {
   "property": "C74",
   "status": "proved",
   "theorems": [
    "C74_snapshot",
    "C74_first_not_before",
    "C74_age_error",
    "C74_high_redshift",
    "C74_too_late"
   ],
   "note": ""
  },
  {
   "property": "C75",
   "status": "proved",
   "theorems": [
    "C75_targets",
    "C75_totals",
    "C75_one_kind_refuted",
    "C75_smdpl_masks",
    "C75_flag_masks",
    "C75_bins"
   ],
   "note": ""
  },
  {
   "property": "C76",
   "status": "proved",
   "theorems": [
    "C76_samples",
    "C76_last_edge_refuted",
    "C76_galacticus_empty"
   ],
   "note": ""
  },
  {
   "property": "C77",
   "status": "proved",
   "theorems": [
    "C77_pdf_targets",
    "C77_marginal",
    "C77_inner_edge_refuted"
   ],
   "note": ""
  },
  {
   "property": "C78",
   "status": "proved",
   "theorems": [
    "C78_pooled_means",
    "C78_totals",
    "C78_smdpl",
    "C78_missing_subvolume_refuted",
    "C78_tng_ranks_refuted",
    "C78_tng",
    "C78_galacticus",
    "C78_mean_bounds"
   ],
   "note": ""
  },
  {
   "property": "C79",
   "status": "proved",
   "theorems": [
    "C79_tables",
    "C79_same_rates_refuted"
   ],
   "note": ""
  },
  {
   "property": "C80",
   "status": "proved",
   "theorems": [
    "C80_mstar_data",
    "C80_empty_cell",
    "C80_simulable"
   ],
   "note": ""
  },
  {
   "property": "C81",
   "status": "proved",
   "theorems": [
    "C81_ssfr_data",
    "C81_no_bin_raises",
    "C81_prediction",
    "C81_consistent",
    "C81_skipped_bin_refuted",
    "C81_simulable"
   ],
   "note": ""
  },
  {
   "property": "C82",
   "status": "proved",
   "theorems": [
    "C82_raises",
    "C82_no_worse",
    "C82_longer",
    "C82_first_best",
    "C82_zeros",
    "C82_never_worse_refuted"
   ],
   "note": ""
  },
  {
   "property": "C83",
   "status": "proved",
   "theorems": [
    "C83_round_trip",
    "C83_wrong_length",
    "C83_long_list_refuted"
   ],
   "note": ""
  },
  {
   "property": "C84",
   "status": "proved",
   "theorems": [
    "C84_infall_blind"
   ],
   "note": ""
  },
  {
   "property": "C85",
   "status": "proved",
   "theorems": [
    "C85_smdpl"
   ],
   "note": ""
  },
  {
   "property": "C86",
   "status": "proved",
   "theorems": [
    "C86_tng",
    "C86_chunks"
   ],
   "note": ""
  },
  {
   "property": "C87",
   "status": "proved",
   "theorems": [
    "C87_galacticus"
   ],
   "note": ""
  },
  {
   "property": "C88",
   "status": "proved",
   "theorems": [
    "C88_smdpl_means",
    "C88_nomerging_means"
   ],
   "note": ""
  },
  {
   "property": "C89",
   "status": "proved",
   "theorems": [
    "C89_tng_means"
   ],
   "note": ""
  },
  {
   "property": "C90",
   "status": "proved",
   "theorems": [
    "C90_galacticus_means"
   ],
   "note": ""
  },
  {
   "property": "C91",
   "status": "proved",
   "theorems": [
    "C91_perfect_fit",
    "C91_ssfr_floor",
    "C91_galacticus_file"
   ],
   "note": ""
  },
  {
   "property": "C92",
   "status": "proved",
   "theorems": [
    "C92_unit_rate_refuted",
    "C92_edges_dropped",
    "C92_empty_bin",
    "C92_default_bins"
   ],
   "note": ""
  },
  {
   "property": "C93",
   "status": "proved",
   "theorems": [
    "C93_raises",
    "C93_nomerging_raises"
   ],
   "note": ""
  },
  {
   "property": "C94",
   "status": "proved",
   "theorems": [
    "C94_listing",
    "C94_loading"
   ],
   "note": ""
  },
  {
   "property": "C95",
   "status": "proved",
   "theorems": [
    "C95_no_single_digit",
    "C95_padded_beside_single_digit",
    "C95_measuring_fails",
    "C95_run_then_load",
    "C95_default_end_fits_nothing"
   ],
   "note": ""
  },
  {
   "property": "C96",
   "status": "proved",
   "theorems": [
    "C96_directories_to_tables",
    "C96_directories_to_quality"
   ],
   "note": ""
  },
  {
   "property": "C97",
   "status": "proved",
   "theorems": [
    "C97_table",
    "C97_any_ranks",
    "C97_few_halos_raise",
    "C97_one_halo_per_rank_refuted"
   ],
   "note": ""
  },
  {
   "property": "C98",
   "status": "proved",
   "theorems": [
    "C98_mass_data",
    "C98_ssfr_data",
    "C98_edge_galaxies_refuted"
   ],
   "note": ""
  },
  {
   "property": "C99",
   "status": "proved",
   "theorems": [
    "C99_mean_data",
    "C99_smdpl",
    "C99_tng",
    "C99_galacticus"
   ],
   "note": ""
  },
  {
   "property": "C100",
   "status": "proved",
   "theorems": [
    "C100_named",
    "C100_default",
    "C100_file",
    "C100_raises"
   ],
   "note": ""
  },
  {
   "property": "C101",
   "status": "proved",
   "theorems": [
    "C101_raises",
    "C101_result",
    "C101_restart",
    "C101_own_name_refuted"
   ],
   "note": ""
  },
  {
   "property": "C102",
   "status": "proved",
   "theorems": [
    "C102_mass_runs",
    "C102_any_runs",
    "C102_edge_galaxies_refuted"
   ],
   "note": ""
  },
  {
   "property": "C103",
   "status": "proved",
   "theorems": [
    "C103_relations",
    "C103_kept_close",
    "C103_bent_close"
   ],
   "note": ""
  },
  {
   "property": "C104",
   "status": "proved",
   "theorems": [
    "C104_draws"
   ],
   "note": ""
  },
  {
   "property": "C105",
   "status": "proved",
   "theorems": [
    "C105_fraction_vs_mass",
    "C105_published_rise",
    "C105_rises_with_mass_refuted"
   ],
   "note": ""
  },
  {
   "property": "C106",
   "status": "proved",
   "theorems": [
    "C106_eight_in_range",
    "C106_population_in_range",
    "C106_qlglgdt_leaves",
    "C106_bounds_kept_refuted",
    "C106_qphi_leaves"
   ],
   "note": ""
  },
  {
   "property": "C107",
   "status": "proved",
   "theorems": [
    "C107_eight_lost",
    "C107_population_lost",
    "C107_roundtrip_refuted"
   ],
   "note": ""
  },
  {
   "property": "C108",
   "status": "proved",
   "theorems": [
    "C108_eight_accurate",
    "C108_population_accurate"
   ],
   "note": ""
  },
  {
   "property": "C109",
   "status": "proved",
   "theorems": [
    "C109_blocks_of_targets",
    "C109_raw_to_fits",
    "C109_bundle"
   ],
   "note": ""
  },
  {
   "property": "C110",
   "status": "proved",
   "theorems": [
    "C110_mass_seen",
    "C110_mass_lags",
    "C110_equal_steps",
    "C110_mass_formed_refuted"
   ],
   "note": ""
  },
  {
   "property": "C111",
   "status": "proved",
   "theorems": [
    "C111_masses_single",
    "C111_grows_refuted"
   ],
   "note": ""
  },
  {
   "property": "C112",
   "status": "proved",
   "theorems": [
    "C112_gradient",
    "C112_first_draw_used"
   ],
   "note": ""
  },
  {
   "property": "C113",
   "status": "proved",
   "theorems": [
    "C113_starved_gradient"
   ],
   "note": ""
  },
  {
   "property": "C114",
   "status": "proved",
   "theorems": [
    "C114_triweight_single",
    "C114_triweight_special",
    "C114_triweight_range_refuted"
   ],
   "note": ""
  },
  {
   "property": "C115",
   "status": "proved",
   "theorems": [
    "C115_quenching_single",
    "C115_never_raises_refuted"
   ],
   "note": ""
  },
  {
   "property": "C116",
   "status": "proved",
   "theorems": [
    "C116_weight_single",
    "C116_weight_utils_single",
    "C116_weight_sign_refuted"
   ],
   "note": ""
  },
  {
   "property": "C117",
   "status": "proved",
   "theorems": [
    "C117_rates_single",
    "C117_starved_single"
   ],
   "note": ""
  },
  {
   "property": "C118",
   "status": "proved",
   "theorems": [
    "C118_masses_single",
    "C118_any_parameters"
   ],
   "note": ""
  },
  {
   "property": "C119",
   "status": "proved",
   "theorems": [
    "C119_smdpl_loading_refuted",
    "C119_galacticus_loading_refuted",
    "C119_smdpl_measuring_refuted",
    "C119_galacticus_measuring_refuted",
    "C119_comparisons_refuted"
   ],
   "note": ""
  },
  {
   "property": "C120",
   "status": "proved",
   "theorems": [
    "C120_mstar_gradient",
    "C120_ssfr_gradient",
    "C120_combined_gradient",
    "C120_combined_3loss_gradient"
   ],
   "note": ""
  },
  {
   "property": "C121",
   "status": "proved",
   "theorems": [
    "C121_draw_covariance",
    "C121_galaxy_draw"
   ],
   "note": ""
  },
  {
   "property": "C122",
   "status": "proved",
   "theorems": [
    "C122_population",
    "C122_mstar_loss",
    "C122_ssfr_loss",
    "C122_mstar_gradient",
    "C122_ssfr_gradient",
    "C122_combined_gradient",
    "C122_combined_3loss_gradient"
   ],
   "note": ""
  },
  {
   "property": "C123",
   "status": "proved",
   "theorems": [
    "C123_mstar_together",
    "C123_ssfr_together",
    "C123_combined_together",
    "C123_combined_3loss_together",
    "C123_empty_redshift"
   ],
   "note": ""
  },
  {
   "property": "C124",
   "status": "proved",
   "theorems": [
    "C124_start",
    "C124_positions",
    "C124_first_step",
    "C124_bounded",
    "C124_zero_gradient"
   ],
   "note": ""
  },
  {
   "property": "C125",
   "status": "proved",
   "theorems": [
    "C125_fallback",
    "C125_starved"
   ],
   "note": ""
  },
  {
   "property": "C126",
   "status": "proved",
   "theorems": [
    "C126_reach",
    "C126_own_gradients",
    "C126_measured"
   ],
   "note": ""
  },
  {
   "property": "C127",
   "status": "proved",
   "theorems": [
    "C127_converges",
    "C127_second_order"
   ],
   "note": ""
  },
  {
   "property": "C128",
   "status": "proved",
   "theorems": [
    "C128_no_less",
    "C128_lgmcrit_below",
    "C128_lgmcrit_above",
    "C128_lgy_scales",
    "C128_later_quenching_refuted"
   ],
   "note": ""
  },
  {
   "property": "C129",
   "status": "proved",
   "theorems": [
    "C129_mstar_scored",
    "C129_ssfr_scored",
    "C129_mstar_finite",
    "C129_ssfr_finite",
    "C129_target_unused",
    "C129_wrong_length"
   ],
   "note": ""
  },
  {
   "property": "C130",
   "status": "proved",
   "theorems": [
    "C130_ms_round_trip",
    "C130_q_round_trip",
    "C130_ms_onto",
    "C130_q_onto",
    "C130_rows_are_single_galaxies",
    "C130_wrong_columns",
    "C130_drop",
    "C130_qt",
    "C130_one_parameter"
   ],
   "note": ""
  },
  {
   "property": "C131",
   "status": "proved",
   "theorems": [
    "C131_fstar_converges",
    "C131_fstar_error",
    "C131_between_refuted"
   ],
   "note": ""
  },
  {
   "property": "C132",
   "status": "proved",
   "theorems": [
    "C132_smdpl",
    "C132_smdpl_refuted",
    "C132_tng",
    "C132_mean"
   ],
   "note": ""
  },
  {
   "property": "C133",
   "status": "proved",
   "theorems": [
    "C133_gradient",
    "C133_never_quenched",
    "C133_same_loss"
   ],
   "note": ""
  },
  {
   "property": "C134",
   "status": "proved",
   "theorems": [
    "C134_mass_units",
    "C134_floor_scales_refuted",
    "C134_efficiency_units",
    "C134_loss",
    "C134_time_units"
   ],
   "note": ""
  },
  {
   "property": "C135",
   "status": "proved",
   "theorems": [
    "C135_identifiable",
    "C135_unbounded_identifiable",
    "C135_one_halo_refuted"
   ],
   "note": ""
  },
  {
   "property": "C136",
   "status": "proved",
   "theorems": [
    "C136_loss_nan",
    "C136_loss_not_finite",
    "C136_never_fitted"
   ],
   "note": ""
  },
  {
   "property": "C137",
   "status": "proved",
   "theorems": [
    "C137_efficiency_peak",
    "C137_sfr_peak"
   ],
   "note": ""
  },
  {
   "property": "C138",
   "status": "proved",
   "theorems": [
    "C138_nan_target",
    "C138_negative_mass"
   ],
   "note": ""
  },
  {
   "property": "C139",
   "status": "proved",
   "theorems": [
    "C139_budget",
    "C139_within_baryons_refuted"
   ],
   "note": ""
  },
  {
   "property": "C140",
   "status": "proved",
   "theorems": [
    "C140_rate_limit",
    "C140_population_limit",
    "C140_unreachable_bins",
    "C140_loss_floor",
    "C140_empty_bins"
   ],
   "note": ""
  },
  {
   "property": "C141",
   "status": "proved",
   "theorems": [
    "C141_shift",
    "C141_halo_error",
    "C141_power_law"
   ],
   "note": ""
  },
  {
   "property": "C142",
   "status": "proved",
   "theorems": [
    "C142_table_history",
    "C142_one_percent"
   ],
   "note": ""
  }
 ]
}