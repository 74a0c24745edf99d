{"id": "C01", "title": "SFR floor and value", "statement": "calc_sfh_singlegal returns, at every requested time t>0, exactly max(1e-14, Q(log10 t) * fb * 10**logM(t) * 10**eff(logM(t))) Msun/yr; in particular no returned SFR is below 1e-14 or non-finite.", "quantifier": "all galaxy parameters, halo mass histories, fb, and time arrays of any length with positive entries", "why_tests_cant": "Ranges over all real-valued inputs (a continuum); a test samples finitely many points.", "anchors": ["diffstar/sfh_model.py: calc_sfh_singlegal", "diffstar/kernels/history_kernel_builders.py: _sfh_singlegal_scalar"]}
{"id": "C02", "title": "Stellar mass history is the integral of the SFH", "statement": "With return_smh=True, smh[i] is 1e9 times the integral, from t=0.001 Gyr to tarr[i], of the straight-line interpolation of the returned sfh (starting from SFR 1e-14 at t=0.001).", "quantifier": "all increasing time arrays of any length, all parameters", "why_tests_cant": "Ranges over all real-valued inputs (a continuum); a test samples finitely many points.", "anchors": ["diffstar/utils.py: cumulative_mstar_formed", "diffstar/utils.py: cumtrapz", "diffstar/sfh_model.py: calc_sfh_singlegal"]}
{"id": "C03", "title": "Stellar mass is positive and strictly increasing", "statement": "smh returned by calc_sfh_singlegal/galpop is positive and strictly increasing in time when tarr is strictly increasing and starts after 0.001 Gyr.", "quantifier": "all parameters and all such time arrays", "why_tests_cant": "Ranges over all real-valued inputs (a continuum); a test samples finitely many points.", "anchors": ["diffstar/sfh_model.py: calc_sfh_singlegal", "diffstar/utils.py: cumulative_mstar_formed"]}
{"id": "C04", "title": "Stellar mass is causal", "statement": "smh[i] depends only on (tarr[j], sfh[j]) for j<=i: truncating the tables truncates the result.", "quantifier": "all tables and all truncation points", "why_tests_cant": "The number of tables and truncation points is unbounded.", "anchors": ["diffstar/utils.py: cumulative_mstar_formed"]}
{"id": "C05", "title": "SFH is pointwise in time", "statement": "The SFR returned for a time does not depend on which other times are requested or on their order: any selection or reordering of tarr selects or reorders sfh the same way.", "quantifier": "all time arrays and all index selections", "why_tests_cant": "All histories of requested time grids cannot be enumerated.", "anchors": ["diffstar/sfh_model.py: calc_sfh_singlegal"]}
{"id": "C06", "title": "Population SFH equals per-galaxy SFH", "statement": "Row i of calc_sfh_galpop (sfh and smh) is what calc_sfh_singlegal returns for galaxy i's parameters; result shape is (ngals, nt).", "quantifier": "all population sizes, parameters, times", "why_tests_cant": "Population size is unbounded.", "anchors": ["diffstar/sfh_model.py: calc_sfh_galpop"]}
{"id": "C07", "title": "Population gas model equals per-galaxy gas model", "statement": "Row i of each array from calc_mgas_galpop is what calc_mgas_singlegal returns for galaxy i.", "quantifier": "all population sizes, parameters, times", "why_tests_cant": "Population size is unbounded.", "anchors": ["diffstar/mgas_model.py: calc_mgas_galpop"]}
{"id": "C08", "title": "Baryon-fraction scaling", "statement": "Raising fb never lowers any SFR or stellar mass; wherever neither evaluation is at the floor SFR is proportional to fb.", "quantifier": "all fb, parameters, times", "why_tests_cant": "Ranges over all real-valued inputs (a continuum); a test samples finitely many points.", "anchors": ["diffstar/sfh_model.py: calc_sfh_singlegal", "diffstar/kernels/main_sequence_kernels.py: sfh_ms_kernel"]}
{"id": "C09", "title": "Shape of the quenching function", "statement": "For lg_drop<=lg_rejuv<=0 the quenching factor is exactly 1 before lg_qt - dt/2, exactly 10**lg_drop at lg_qt (its global minimum), exactly 10**lg_rejuv after lg_qt + dt/2, non-increasing up to lg_qt and non-decreasing afterwards, and always within [10**lg_drop, 1].", "quantifier": "all times and all quenching parameters with positive duration", "why_tests_cant": "Ranges over all real-valued inputs (a continuum); a test samples finitely many points.", "anchors": ["diffstar/kernels/quenching_kernels.py: _quenching_kern", "diffstar/kernels/quenching_kernels.py: _jax_partial_u_tw_kern"]}
{"id": "C10", "title": "Quenching function is continuously differentiable", "statement": "The quenching factor is differentiable with continuous derivative in log-time everywhere, including at the three join points.", "quantifier": "all times and parameters with positive duration", "why_tests_cant": "Ranges over all real-valued inputs (a continuum); a test samples finitely many points.", "anchors": ["diffstar/kernels/quenching_kernels.py: _quenching_kern", "diffstar/kernels/quenching_kernels.py: _jax_tw"]}
{"id": "C11", "title": "Quenching never raises SFR and acts only after onset", "statement": "For bounded parameters, the SFR is at most the main-sequence SFR (or the floor); before 10**(lg_qt - dt/2) Gyr the SFR does not depend on any of the drop/rejuvenation values.", "quantifier": "all parameters in bounds, all times", "why_tests_cant": "Ranges over all real-valued inputs (a continuum); a test samples finitely many points.", "anchors": ["diffstar/kernels/history_kernel_builders.py: _sfh_singlegal_scalar"]}
{"id": "C12", "title": "Star-forming efficiency normalisation and envelope", "statement": "The efficiency is exactly 10**lgy_at_mcrit at the critical mass; and never exceeds lgy_at_mcrit by more than (max of |indx_lo|,|indx_hi|)/27 dex for indx_lo>=0>=indx_hi, at any mass.", "quantifier": "all halo masses and main-sequence parameters", "why_tests_cant": "Ranges over all real-valued inputs (a continuum); a test samples finitely many points.", "anchors": ["diffstar/kernels/main_sequence_kernels.py: _sfr_eff_plaw"]}
{"id": "C13", "title": "Unquenched defaults are inert", "statement": "With DEFAULT_Q_PARAMS_UNQUENCHED the quenching factor is exactly 1 at all cosmic times up to today (13.8 Gyr), so SFH equals the main-sequence SFH.", "quantifier": "all times up to 13.8 Gyr, all main-sequence parameters and halos", "why_tests_cant": "Ranges over all real-valued inputs (a continuum); a test samples finitely many points.", "anchors": ["diffstar/kernels/quenching_kernels.py: DEFAULT_Q_PARAMS_UNQUENCHED", "diffstar/defaults.py: TODAY"]}
{"id": "C14", "title": "Bounded parameters lie in bounds", "statement": "get_bounded_diffstar_params maps any 8 real numbers strictly inside the published bounds, with lg_drop < lg_rejuv < 0.", "quantifier": "all of R^8", "why_tests_cant": "Ranges over all real-valued inputs (a continuum); a test samples finitely many points.", "anchors": ["diffstar/defaults.py: get_bounded_diffstar_params", "diffstar/kernels/quenching_kernels.py: Q_PARAM_BOUNDS_PDICT", "diffstar/kernels/main_sequence_kernels.py: MS_PARAM_BOUNDS_PDICT"]}
{"id": "C15", "title": "Unbounded after bounded is the identity", "statement": "get_unbounded_diffstar_params(get_bounded_diffstar_params(u)) = u.", "quantifier": "all of R^8", "why_tests_cant": "Ranges over all real-valued inputs (a continuum); a test samples finitely many points.", "anchors": ["diffstar/defaults.py: get_unbounded_diffstar_params"]}
{"id": "C16", "title": "Bounded after unbounded is the identity", "statement": "get_bounded_diffstar_params(get_unbounded_diffstar_params(p)) = p for every p strictly inside the bounds with lg_drop<lg_rejuv.", "quantifier": "all in-bounds parameter vectors", "why_tests_cant": "Ranges over all real-valued inputs (a continuum); a test samples finitely many points.", "anchors": ["diffstar/defaults.py: get_unbounded_diffstar_params"]}
{"id": "C17", "title": "Out-of-bounds parameters are flagged by non-finite values", "statement": "The unbounded value of a single parameter is finite exactly when that parameter is strictly inside its bounds; otherwise it is infinite or NaN.", "quantifier": "all real parameter values", "why_tests_cant": "Ranges over all real-valued inputs (a continuum); a test samples finitely many points.", "anchors": ["diffstar/utils.py: _inverse_sigmoid", "diffstar/kernels/quenching_kernels.py: _get_unbounded_q_params", "diffstar/kernels/main_sequence_kernels.py: _get_unbounded_sfr_params"]}
{"id": "C18", "title": "Bounding transform is smooth, strictly increasing, unit slope at centre", "statement": "Each parameter's bounding map is strictly increasing and differentiable with strictly positive derivative (no dead gradients), and derivative 1 at the midpoint of its range.", "quantifier": "all real u", "why_tests_cant": "Ranges over all real-valued inputs (a continuum); a test samples finitely many points.", "anchors": ["diffstar/utils.py: _sigmoid", "diffstar/kernels/quenching_kernels.py: calculate_sigmoid_bounds"]}
{"id": "C19", "title": "Gas mass balance", "statement": "calc_mgas: mgash + smh equals the cumulative integral of fb*dMh/dt at every time; its sfh and smh are those of calc_sfh.", "quantifier": "all parameters, halos, times", "why_tests_cant": "Ranges over all real-valued inputs (a continuum); a test samples finitely many points.", "anchors": ["diffstar/mgas_model.py: calc_mgas_singlegal"]}
{"id": "C20", "title": "Gas accretion-rate estimate", "statement": "dmgash is the local finite-difference slope of mgash: exact when mgash is affine in time, equal to the central difference at interior times, and finite for strictly increasing times.", "quantifier": "all time arrays of length >= 3", "why_tests_cant": "Ranges over all real-valued inputs (a continuum); a test samples finitely many points.", "anchors": ["diffstar/mgas_model.py: calc_mgas_singlegal", "diffstar/utils.py: _jax_get_dt_array"]}
{"id": "C21", "title": "Remaining gas mass can be negative (refutation)", "statement": "The documented 'total remaining gas mass' is not guaranteed to be non-negative: for bounded parameters and a growing halo mgash can be below 0.", "quantifier": "existence of a witness", "why_tests_cant": "It is the negation of a universal claim.", "anchors": ["diffstar/mgas_model.py: calc_mgas_singlegal"]}
{"id": "C22", "title": "Time-interval arrays", "statement": "_get_dt_array and _jax_get_dt_array agree for n>=3; entries are positive for increasing times; they sum to the covered interval; the NumPy version works from n=2 and rejects shorter arrays (the JAX version is only claimed for n>=3: below that its chained index updates rely on JAX out-of-bounds semantics).", "quantifier": "all arrays of all lengths", "why_tests_cant": "Array length unbounded.", "anchors": ["diffstar/utils.py: _get_dt_array", "diffstar/utils.py: _jax_get_dt_array"]}
{"id": "C23", "title": "Time-averaged SFH is within [0, max SFH]", "statement": "compute_fstar of the cumulative mass of a non-negative SFH is finite, at least 0 and never exceeds the maximum tabulated SFR, for any positive averaging time.", "quantifier": "all tables of any length, all positive delays", "why_tests_cant": "Ranges over all real-valued inputs (a continuum); a test samples finitely many points.", "anchors": ["diffstar/utils.py: compute_fstar"]}
{"id": "C24", "title": "Documented pre-table SFH assumption (refutation)", "statement": "cumulative_mstar_formed does not assume SFR=1e-14 before t_table[0] as documented: the first mass is the trapezoid (t0-0.001)*(1e-14+sfh0)/2*1e9.", "quantifier": "all tables", "why_tests_cant": "Universal formula plus witness.", "anchors": ["diffstar/utils.py: cumulative_mstar_formed"]}
{"id": "C25", "title": "Interpolation helper", "statement": "jax_np_interp with indices from np.searchsorted returns linear interpolation inside the table and reproduces knots; for x at or before the first knot it does not clamp as np.interp does (refutation).", "quantifier": "all increasing tables and query points", "why_tests_cant": "Ranges over all real-valued inputs (a continuum); a test samples finitely many points.", "anchors": ["diffstar/utils.py: jax_np_interp"]}
{"id": "C26", "title": "Cumulative trapezoid algebra", "statement": "cumtrapz has the same length as its input, starts at 0, is linear in y, non-decreasing for y>=0 and increasing x, exact for affine y.", "quantifier": "all tables", "why_tests_cant": "Length unbounded.", "anchors": ["diffstar/utils.py: cumtrapz"]}
{"id": "C27", "title": "Argument broadcasting", "statement": "get_1d_arrays succeeds exactly when every argument has length 1 or the maximum length, and then all results have that length and keep their values.", "quantifier": "all argument lists", "why_tests_cant": "Number and length of arguments unbounded.", "anchors": ["diffstar/utils.py: get_1d_arrays"]}
{"id": "C28", "title": "Triweight kernel", "statement": "The triweight CDF is 0 below -3 sigma, 1 above +3 sigma, non-decreasing, in [0,1], symmetric, with derivative (35/96)(1-(y/3)^2)^3 inside; the three copies in the code agree.", "quantifier": "all x, m and h>0", "why_tests_cant": "Ranges over all real-valued inputs (a continuum); a test samples finitely many points.", "anchors": ["diffstar/utils.py: tw_cuml_jax_kern", "diffstar/kernels/quenching_kernels.py: _jax_tw", "diffstar/diffstarpop/utils.py: _tw_cuml_lax_kern"]}
{"id": "C29", "title": "Population parameters in bounds", "statement": "get_bounded_diffstarpop_params maps every real vector strictly into the published bounds of each of the 88 parameters.", "quantifier": "all of R^88", "why_tests_cant": "Ranges over all real-valued inputs (a continuum); a test samples finitely many points.", "anchors": ["diffstar/diffstarpop/kernels/defaults_mgash.py: get_bounded_diffstarpop_params", "diffstar/diffstarpop/kernels/sfh_pdf_mgash.py: SFH_PDF_QUENCH_PBOUNDS", "diffstar/diffstarpop/kernels/satquenchpop_model.py: SATQUENCHPOP_PBOUNDS_PDICT"]}
{"id": "C30", "title": "Population parameter round trips", "statement": "get_unbounded_diffstarpop_params and get_bounded_diffstarpop_params are mutually inverse (on all reals / on in-bounds vectors).", "quantifier": "all vectors", "why_tests_cant": "Ranges over all real-valued inputs (a continuum); a test samples finitely many points.", "anchors": ["diffstar/diffstarpop/kernels/defaults_mgash.py: get_unbounded_diffstarpop_params"]}
{"id": "C31", "title": "Clipped scaling relations respect bounds", "statement": "smoothly_clipped_line with y_lo<y0<y_hi and non-zero slope is finite, above y_lo always, and below y_hi whenever (y0-y_lo) <= 60 (y_hi-y0).", "quantifier": "all x, slopes of either sign, anchors", "why_tests_cant": "Ranges over all real-valued inputs (a continuum); a test samples finitely many points.", "anchors": ["diffstar/diffstarpop/utils.py: smoothly_clipped_line", "diffstar/diffstarpop/kernels/sfh_pdf_mgash.py: line_model"]}
{"id": "C32", "title": "Clipped line overshoot and zero slope (refutation)", "statement": "smoothly_clipped_line exceeds y_hi for some x whenever the anchor is close to y_hi (120 (y_hi-y0) < y0-y_lo), and is NaN everywhere at slope 0; the bounding transform reaches slope 0 at u=0, so an unbounded population vector with u_mean_ul_mseq_slp=0 gives a NaN mean at every halo mass.", "quantifier": "existence of witnesses", "why_tests_cant": "Negation of a universal claim.", "anchors": ["diffstar/diffstarpop/utils.py: smoothly_clipped_line"]}
{"id": "C33", "title": "Population covariances are positive definite", "statement": "For every in-bounds parameter vector with non-zero slopes, the main-sequence and quenched covariance matrices are symmetric positive definite at every halo mass, the means are finite, and every scatter is above 0.01 and below its published maximum up to one part in 6000.", "quantifier": "all masses and parameters", "why_tests_cant": "Ranges over all real-valued inputs (a continuum); a test samples finitely many points.", "anchors": ["diffstar/diffstarpop/kernels/sfh_pdf_mgash.py: _get_covariances", "diffstar/diffstarpop/kernels/sfh_pdf_mgash.py: get_smah_means_and_covs_mseq"]}
{"id": "C34", "title": "Quenched fractions are probabilities", "statement": "The central and satellite quenched fractions lie strictly in (0,1) for all in-bounds parameters.", "quantifier": "all masses, infall times, parameters", "why_tests_cant": "Ranges over all real-valued inputs (a continuum); a test samples finitely many points.", "anchors": ["diffstar/diffstarpop/kernels/sfh_pdf_mgash.py: _frac_quench_cen_kern", "diffstar/diffstarpop/kernels/satquenchpop_model.py: get_qprob_sat"]}
{"id": "C35", "title": "Satellite quenching boost", "statement": "The satellite transformation never lowers the probability it is given, and the satellite quenched fraction increases strictly with time since infall; but the satellite fraction is not always at least the central one of the same halo: with the shipped defaults some satellites are less quenched by more than 0.05 (refutation).", "quantifier": "all in-bounds parameters", "why_tests_cant": "Ranges over all real-valued inputs (a continuum); a test samples finitely many points.", "anchors": ["diffstar/diffstarpop/kernels/satquenchpop_model.py: get_qprob_sat"]}
{"id": "C36", "title": "Central/satellite switch", "statement": "upid == -1 selects the central quenched fraction and anything else the satellite one, without changing the drawn parameters; the *_cen entry points equal the general ones with upid=-1.", "quantifier": "all inputs", "why_tests_cant": "Ranges over all real-valued inputs (a continuum); a test samples finitely many points.", "anchors": ["diffstar/diffstarpop/kernels/diffstarpop_mgash.py: mc_diffstar_u_params_singlegal_kernel", "diffstar/diffstarpop/kernels/diffstarpop_mgash.py: mc_diffstar_u_params_singlegal_kernel_cen"]}
{"id": "C37", "title": "Monte Carlo draws are in bounds", "statement": "Every diffstar parameter set drawn by mc_diffstar_params_* (main-sequence and quenched) is strictly inside the published bounds, for in-bounds population parameters with non-zero slopes.", "quantifier": "all random keys, halos, population parameters", "why_tests_cant": "Ranges over all real-valued inputs (a continuum); a test samples finitely many points.", "anchors": ["diffstar/diffstarpop/mc_diffstarpop_mgash.py: mc_diffstar_params_singlegal", "diffstar/diffstarpop/mc_diffstarpop_mgash.py: mc_diffstar_params_galpop"]}
{"id": "C38", "title": "Quenched flag follows the drawn uniform", "statement": "A galaxy is flagged quenched exactly when its uniform draw is below its quenched fraction; frac_q is the probability of that event for a uniform variate.", "quantifier": "all keys and inputs", "why_tests_cant": "Ranges over all real-valued inputs (a continuum); a test samples finitely many points.", "anchors": ["diffstar/diffstarpop/kernels/diffstarpop_mgash.py: mc_diffstar_u_params_singlegal_kernel"]}
{"id": "C39", "title": "Population draws are per-galaxy draws", "statement": "Galaxy i of a population draw depends only on its own inputs and the i-th sub-key, and equals the single-galaxy draw with that key.", "quantifier": "all population sizes", "why_tests_cant": "Population size unbounded.", "anchors": ["diffstar/diffstarpop/mc_diffstarpop_mgash.py: mc_diffstar_params_galpop", "diffstar/diffstarpop/mc_diffstarpop_mgash.py: mc_diffstar_u_params_galpop"]}
{"id": "C40", "title": "Monte Carlo SFHs are consistent with the returned parameters", "statement": "sfh_ms and sfh_q from mc_diffstar_sfh_* are calc_sfh evaluated on the returned parameters; main-sequence galaxies carry the unquenched defaults and their SFR stays within 0.01 dex of the main sequence (or at the floor) at all times.", "quantifier": "all inputs", "why_tests_cant": "Ranges over all real-valued inputs (a continuum); a test samples finitely many points.", "anchors": ["diffstar/diffstarpop/mc_diffstarpop_mgash.py: mc_diffstar_sfh_singlegal", "diffstar/diffstarpop/mc_diffstarpop_mgash.py: mc_diffstar_sfh_galpop"]}
{"id": "C41", "title": "Selecting parameters by quenched flag", "statement": "mc_select_diffstar_params picks, per galaxy and per parameter, the quenched value when flagged and the main-sequence value otherwise.", "quantifier": "all population sizes", "why_tests_cant": "Population size unbounded.", "anchors": ["diffstar/diffstarpop/param_utils.py: mc_select_diffstar_params"]}
{"id": "C42", "title": "Overriding parameters", "statement": "get_all_params_from_varied changes exactly the varied fields, keeps all others, and fails on unknown names.", "quantifier": "all override sets", "why_tests_cant": "All subsets of names.", "anchors": ["diffstar/diffstarpop/param_utils.py: get_all_params_from_varied", "diffstar/diffstarpop/param_utils.py: get_all_diffstarpop_u_params"]}
{"id": "C43", "title": "Covariance/correlation round trip", "statement": "covariance_from_correlation(correlation_from_covariance(S), sqrt(diag S)) = S for positive diagonals; correlations have unit diagonal.", "quantifier": "all matrices of any size", "why_tests_cant": "Matrix size unbounded.", "anchors": ["diffstar/diffstarpop/utils.py: correlation_from_covariance", "diffstar/diffstarpop/utils.py: covariance_from_correlation"]}
{"id": "C44", "title": "Published calibrations are in bounds", "statement": "Every shipped calibration vector lies strictly inside its bounds, so its unbounded form is finite and round-trips.", "quantifier": "all ten shipped tables", "why_tests_cant": "Finite table but exact strictness in real arithmetic.", "anchors": ["diffstar/diffstarpop/kernels/defaults_mgash.py: DEFAULT_DIFFSTARPOP_PARAMS", "diffstar/diffstarpop/kernels/params: *"]}
{"id": "C45", "title": "Smooth histogram weights", "statement": "Each galaxy's weight in a bin is in [0,1]; weights over contiguous bins telescope; they sum to 1 when the bins cover mean +- 3 sigma in every dimension.", "quantifier": "all data, bin grids, dimensions", "why_tests_cant": "Dimension, number of bins and galaxies unbounded.", "anchors": ["diffstar/diffstarpop/sumstats/diffndhist.py: tw_ndhist", "diffstar/diffstarpop/sumstats/diffndhist.py: tw_ndhist_weighted"]}
{"id": "C46", "title": "Histograms are additive and order independent", "statement": "Histograms of concatenated catalogs add; reordering galaxies does not change them.", "quantifier": "all catalogs", "why_tests_cant": "Catalog size unbounded.", "anchors": ["diffstar/diffstarpop/sumstats/diffndhist.py: tw_ndhist", "diffstar/diffstarpop/sumstats/diffndhist.py: tw_ndhist_weighted"]}
{"id": "C47", "title": "Mean stellar mass lies between extremes", "statement": "compute_smhm returns in each bin a value between the minimum and maximum log stellar mass of the input, or NaN if no galaxy has weight in that bin.", "quantifier": "all catalogs and bins", "why_tests_cant": "Catalog size unbounded.", "anchors": ["diffstar/diffstarpop/sumstats/smhm.py: compute_smhm"]}
{"id": "C48", "title": "Predicted PDFs are normalised", "statement": "The predicted stellar-mass PDF sums to 1 with non-negative entries whenever any galaxy has weight in range; conditional sSFR PDFs sum to 1 per mass bin.", "quantifier": "all catalogs", "why_tests_cant": "Catalog size unbounded.", "anchors": ["diffstar/diffstarpop/loss_kernels/mstar_ssfr_loss_mgash_anyz.py: mstar_kern_tobs", "diffstar/diffstarpop/loss_kernels/mstar_ssfr_loss_mgash_anyz.py: mstar_ssfr_kern_tobs"]}
{"id": "C49", "title": "Loss functions", "statement": "Population losses are non-negative, zero exactly at agreement, and the combined losses are sums of the individual losses.", "quantifier": "all predictions and targets", "why_tests_cant": "Ranges over all real-valued inputs (a continuum); a test samples finitely many points.", "anchors": ["diffstar/diffstarpop/loss_kernels/mstar_ssfr_loss_mgash_anyz.py: _mse", "diffstar/diffstarpop/loss_kernels/mstar_ssfr_loss_mgash_anyz.py: loss_combined"]}
{"id": "C50", "title": "Initial guess and fit targets", "statement": "For every target history get_loss_data_default returns a finite initial guess whose bounded form is a clamped linear function of the final halo mass and lies strictly in bounds, together with the documented targets (mass formed, floored averaged SFR, floored SFR, time of its first peak).", "quantifier": "all target histories", "why_tests_cant": "Ranges over all real-valued inputs (a continuum); a test samples finitely many points.", "anchors": ["diffstar/fitting_helpers/diffstar_fitting_helpers.py: get_loss_data_default"]}
{"id": "C51", "title": "Halo-mass-dependent quenching guess is discarded (refutation)", "statement": "The halo-mass dependent initial quenching parameters computed for the fit never reach the fitter: the initial guess is the default for every halo.", "quantifier": "all halo masses", "why_tests_cant": "Ranges over all real-valued inputs (a continuum); a test samples finitely many points.", "anchors": ["diffstar/fitting_helpers/diffstar_fitting_helpers.py: get_loss_data_default"]}
{"id": "C52", "title": "Fit weights", "statement": "Stellar-mass weights take only the values 0.5, 1, 1e10; snapshots outside the mass/time cut get 1e10 unless within 0.1 dex of the final mass, in which case they get 0.5 even if before the earliest fit time (refutes 'excluded').", "quantifier": "all target histories", "why_tests_cant": "Length unbounded.", "anchors": ["diffstar/fitting_helpers/diffstar_fitting_helpers.py: get_weights"]}
{"id": "C53", "title": "Fitting loss is non-negative", "statement": "loss_default_clipssfrh is finite and at least the quenching-time prior term, which is in (0,100) and decreases with quenching time; it equals that term exactly when every residual vanishes. The same galaxy's loss rises, by less than 100, with the time at which the target peaks.", "quantifier": "all parameters and data", "why_tests_cant": "Ranges over all real-valued inputs (a continuum); a test samples finitely many points.", "anchors": ["diffstar/fitting_helpers/diffstar_fitting_helpers.py: loss_default_clipssfrh"]}
{"id": "C54", "title": "Fitter returns the best attempt", "statement": "minimizer_wrapper makes at most the allowed number of attempts, stops only for a stated reason, and returns an attempted result with the smallest non-NaN loss with its own parameters and success code; but if the only non-NaN losses are infinite it can return a NaN loss as a success, and a failed-start placeholder (999.99) can beat a converged attempt (refutations).", "quantifier": "all attempt histories", "why_tests_cant": "All histories of optimiser outcomes.", "anchors": ["diffstar/fitting_helpers/utils.py: minimizer_wrapper"]}
{"id": "C55", "title": "Early exit of restarts (refutation)", "statement": "The restart loop can stop before reaching tolerance or the maximum number of attempts when one attempt returned NaN and a later start point is invalid.", "quantifier": "existence of a history", "why_tests_cant": "Negation of a universal claim.", "anchors": ["diffstar/fitting_helpers/utils.py: minimizer_wrapper"]}
{"id": "C56", "title": "Random restarts terminate with a valid start or a flag", "statement": "return_random_pinit makes at most 1001 draws, returns the first whose gradient has no NaN (or the last one, flagged); an infinite gradient is accepted without a flag (refutes 'finite gradient').", "quantifier": "all draw histories", "why_tests_cant": "All histories of draws.", "anchors": ["diffstar/fitting_helpers/utils.py: return_random_pinit"]}
{"id": "C57", "title": "Adam wrapper returns its best step", "statement": "The Adam loop returns the parameters of the smallest recorded loss and stops at the first non-finite value; success is reported only if all steps ran.", "quantifier": "all gradient histories", "why_tests_cant": "All histories of the optimiser.", "anchors": ["diffstar/fitting_helpers/utils.py: _jax_adam_wrapper", "diffstar/fitting_helpers/utils.py: jax_adam_wrapper_v2"]}
{"id": "C58", "title": "Fit table rows match the header", "statement": "Rows written for fitted and unfitted galaxies have as many whitespace-separated fields as the header, in the header's order, and parse back to the same id and flag and, to printed precision (six significant digits, exact for numbers with at most six), the same parameters and loss; collated rank files give one table entry per galaxy in order.", "quantifier": "all ids and values", "why_tests_cant": "All strings.", "anchors": ["diffstar/fitting_helpers/diffstar_fitting_helpers.py: get_header", "diffstar/fitting_helpers/diffstar_fitting_helpers.py: get_outline", "diffstar/fitting_helpers/diffstar_fitting_helpers.py: get_outline_nofit", "diffstar/fitting_helpers/diffstar_fitting_helpers.py: write_collated_data"]}
{"id": "C59", "title": "Work partition across ranks", "statement": "Across any number of ranks every galaxy is processed exactly once, rank results concatenated in rank order are in catalog order, and rank loads differ by at most one; with at least two galaxies per rank the table written by each fitting script has one entry per galaxy in catalog order, fitted with its own history and halo exactly when it passes the script's cuts.", "quantifier": "all catalog sizes and rank counts", "why_tests_cant": "Catalog size and rank count unbounded.", "anchors": ["scripts/diffstar_fitting_script_umachine_mgash.py: main", "scripts/galacticus_diffstar_fitter_script_mgash.py: main"]}
{"id": "C60", "title": "Collation with one-galaxy ranks (refutation)", "statement": "Collating rank files fails whenever some rank holds fewer than two galaxies, because such a file is read as a flat array; so the scripts write no table when there are fewer than two galaxies per rank.", "quantifier": "all catalogs and rank counts", "why_tests_cant": "Negation of a universal claim.", "anchors": ["scripts/diffstar_fitting_script_umachine_mgash.py: main", "diffstar/fitting_helpers/diffstar_fitting_helpers.py: write_collated_data"]}
{"id": "C61", "title": "Halos without a usable halo fit (refutation)", "statement": "Halos with too few points in their halo fit get placeholder halo parameters -1, yet are fitted with these placeholders whenever their loss is positive and the default halo passes the mass cut, because only loss and mass are tested.", "quantifier": "all catalogs", "why_tests_cant": "Negation of a universal claim.", "anchors": ["diffstar/data_loaders/load_smah_data.py: load_smdpl_diffmah_fits", "scripts/diffstar_fitting_script_umachine_mgash.py: main"]}
{"id": "C62", "title": "Block loading", "statement": "Loading consecutive row blocks and concatenating equals loading everything.", "quantifier": "all datasets and block boundaries", "why_tests_cant": "Unbounded sizes.", "anchors": ["diffstar/data_loaders/utils.py: load_flat_hdf5", "diffstar/data_loaders/load_galacticus_sfh.py: load_galacticus_sfh_data_block"]}
{"id": "C63", "title": "Galacticus table extraction", "statement": "extract_galacticus_sfh_tables places galaxy i's data in row i for istart=0, but for istart>0 writes row igal instead of igal-istart (refutation).", "quantifier": "all catalogs and slices", "why_tests_cant": "Unbounded sizes.", "anchors": ["diffstar/data_loaders/extract_galacticus_sfh_data.py: extract_galacticus_sfh_tables"]}
{"id": "C64", "title": "Galacticus SFH conserves mass", "statement": "The SFR table times the time intervals recovers the stellar mass formed in each interval.", "quantifier": "all tables", "why_tests_cant": "Unbounded sizes.", "anchors": ["diffstar/data_loaders/load_galacticus_sfh.py: load_galacticus_sfh_data_block", "diffstar/data_loaders/extract_galacticus_sfh_data.py: extract_galacticus_sfh_tables"]}
{"id": "C65", "title": "Loaded halo histories never decrease", "statement": "Loaded log halo mass histories are non-decreasing running maxima that dominate the raw histories. SMDPL's are 0 or at least 7 everywhere.", "quantifier": "all catalogs", "why_tests_cant": "Unbounded sizes.", "anchors": ["diffstar/data_loaders/load_smah_data.py: load_tng_data"]}
{"id": "C66", "title": "Zero-weight padding of ragged mass bins", "statement": "Padding ragged halo-mass bins with zero weight leaves the predicted distributions unchanged when the first histogram is finite, and makes them NaN when it is not (refutation).", "quantifier": "all bin layouts", "why_tests_cant": "Unbounded sizes.", "anchors": ["scripts/diffstarpop_scripts/fit_get_loss_helpers_mgash.py: prepare_ragged"]}
{"id": "C67", "title": "Empty simulated mass bins poison sSFR predictions (refutation)", "statement": "If one referenced simulated halo-mass bin has no galaxy in range of the histogram cells, all predicted conditional sSFR PDFs at that redshift are NaN, even if that bin has zero weight (refutes 'zero-weight bins are ignored').", "quantifier": "all populations and weights", "why_tests_cant": "All populations; existence for the refutation.", "anchors": ["diffstar/diffstarpop/loss_kernels/mstar_ssfr_loss_mgash_anyz.py: mstar_ssfr_kern_tobs"]}
{"id": "C68", "title": "Success codes of the mixed minimizer", "statement": "minimizer returns scipy's result with code 1 when scipy succeeds; otherwise the warmed-up Adam result with code 0 when all steps ran and -1 when not; passing the extra positional arguments its signature accepts makes the fallback raise (refutation).", "quantifier": "all optimiser histories", "why_tests_cant": "All histories of the optimiser.", "anchors": ["diffstar/fitting_helpers/utils.py: minimizer", "diffstar/fitting_helpers/utils.py: jax_adam_wrapper_v2"]}
{"id": "C69", "title": "Adam never returns a loss above its start", "statement": "Started at finite parameters with finite loss and gradient, both Adam wrappers return a loss no larger than the starting loss.", "quantifier": "all losses, gradients, update rules, step counts", "why_tests_cant": "All histories of the optimiser.", "anchors": ["diffstar/fitting_helpers/utils.py: _jax_adam_wrapper", "diffstar/fitting_helpers/utils.py: jax_adam_wrapper_v2"]}
{"id": "C70", "title": "True parameters are not optimal (refutation)", "statement": "When the target is an exact model history, the fit loss at the true parameters is strictly above the prior term, and at least 0.5 above it (so above the 0.1 tolerance) when the last averaged SFR is at most a tenth of the sSFR floor: target and model use floors that differ by a factor 10.", "quantifier": "all histories produced by the model", "why_tests_cant": "Ranges over all real-valued inputs (a continuum); a test samples finitely many points.", "anchors": ["diffstar/fitting_helpers/diffstar_fitting_helpers.py: loss_default_clipssfrh", "diffstar/fitting_helpers/diffstar_fitting_helpers.py: get_loss_data_default"]}
{"id": "C71", "title": "Fitter output", "statement": "diffstar_fitter returns strictly in-bounds parameters with code 1 (result of a minimisation started at a point whose gradient has no NaN) or code -1 (loss 999.99 and the initial guess).", "quantifier": "all target histories, random streams, gradients and minimisers returning finite parameters", "why_tests_cant": "All histories of draws and optimiser outcomes.", "anchors": ["diffstar/fitting_helpers/diffstar_fitting_helpers.py: diffstar_fitter"]}
{"id": "C72", "title": "Fit tables lack a column their loader needs (refutation)", "statement": "load_fit_sfh raises on every table written by the fitting scripts, because it reads a tau_dep column they do not write.", "quantifier": "all tables", "why_tests_cant": "Universal statement about all written tables.", "anchors": ["diffstar/data_loaders/load_smah_data.py: load_fit_sfh", "diffstar/fitting_helpers/diffstar_fitting_helpers.py: write_collated_data"]}
{"id": "C73", "title": "Galacticus mass cut versus formed mass (refutation)", "statement": "The final mass the galacticus script tests against its cut is not the mass formed according to the same table: a galaxy that formed more than 1e8 Msun can be left unfitted by the 1e8 cut.", "quantifier": "existence of a galaxy", "why_tests_cant": "Negation of a universal claim.", "anchors": ["scripts/galacticus_diffstar_fitter_script_mgash.py: main", "diffstar/data_loaders/load_galacticus_sfh.py: load_galacticus_sfh_target_data"]}
{"id": "C74", "title": "Snapshot of a target redshift", "statement": "return_target_redshfit_index gives every target redshift in [0,10) the first table time not before its age, the age being interpolated linearly between 2000 tabulated redshifts (so it lies between the ages of two redshifts 10/1999 apart that bracket the target); redshifts from 10 up all get the first table time; a target after the last table time makes the measurement raise.", "quantifier": "all strictly decreasing age-redshift relations, all increasing time tables", "why_tests_cant": "Table and relation arbitrary.", "anchors": ["scripts/diffstarpop_scripts/smhm_utils_smdpl_mgash.py: return_target_redshfit_index", "scripts/diffstarpop_scripts/smhm_utils_smdpl_mgash.py: get_redshift_from_age", "scripts/diffstarpop_scripts/smhm_utils_smdpl_mgash.py: create_target_data"]}
{"id": "C75", "title": "Target counts and sums", "statement": "create_target_data returns, per target redshift and halo-mass bin, the number of halos in the bin, the sum of their log stellar masses, and the triweight-smoothed versions; every mass between the first and the last edge is in exactly one bin, central and satellite counts add up to the counts, and a row of counts sums to the number of halos between the first and last edges. A catalog without any central, or without any satellite, makes the measurement raise (refutes that the split is always computed).", "quantifier": "all catalogs, bins and target redshifts", "why_tests_cant": "Catalog size unbounded.", "anchors": ["scripts/diffstarpop_scripts/smhm_utils_smdpl_mgash.py: create_target_data", "scripts/diffstarpop_scripts/smhm_utils_smdpl_mgash.py: compute_histograms_atz", "scripts/diffstarpop_scripts/smhm_utils_smdpl_mgash.py: compute_diff_histograms_atz"]}
{"id": "C76", "title": "Halo samples", "statement": "The samples written for the population fits consist of distinct halos of each bin, exactly min(limit, number in the half-open bin) of them per redshift and bin, each with its own halo and galaxy parameters, host id, bin centre, time and redshift; but a halo exactly on the last edge is counted and can never be sampled (refutation), and with Galacticus' sampling a redshift with no halo in any bin raises.", "quantifier": "all catalogs, all outcomes of the random choice", "why_tests_cant": "Catalog size unbounded; all random streams.", "anchors": ["scripts/diffstarpop_scripts/smhm_utils_smdpl_mgash.py: create_target_data", "scripts/diffstarpop_scripts/smhm_utils_smdpl_mgash.py: sample_halos", "scripts/diffstarpop_scripts/smhm_utils_galacticus_mgash.py: sample_halos", "scripts/diffstarpop_scripts/smhm_utils_smdpl_mgash.py: concatenate_samples_haloes"]}
{"id": "C77", "title": "Measured stellar-mass and sSFR distributions", "statement": "create_pdf_target_data returns, per redshift and mass bin, the smooth and plain stellar-mass histograms and the joint smooth histograms of centrals and of satellites with log sSFR clipped at -12; summed over sSFR, centrals plus satellites give the mass histogram when the sSFR bins extend 3 widths past the values; but halos exactly on a mass edge are counted by create_target_data and are in no distribution (refutation).", "quantifier": "all catalogs and bins", "why_tests_cant": "Catalog size unbounded.", "anchors": ["scripts/diffstarpop_scripts/smhm_utils_smdpl_mgash.py: create_pdf_target_data", "scripts/diffstarpop_scripts/smhm_utils_smdpl_mgash.py: compute_diff_histograms_mstar_ssfr_atz", "scripts/diffstarpop_scripts/smhm_utils_smdpl_mgash.py: compute_diff_histograms_mstar_atmobs_z"]}
{"id": "C78", "title": "Measuring scripts pool all subvolumes", "statement": "The files written hold the entrywise totals over subvolumes and the mean of the pooled values, which lies between the least and the greatest of them; the SMDPL result does not depend on the number of ranks and flags exactly the subvolumes used; the Galacticus result does not depend on it either. Refuted: a subvolume with missing files, though passed over by its rank, makes the SMDPL script fail; the TNG script fails for every number of ranks other than 20.", "quantifier": "all subvolume lists and rank counts", "why_tests_cant": "Rank and subvolume counts unbounded.", "anchors": ["scripts/diffstarpop_scripts/measure_smhm_smdpl_script_mpi_mgash.py: *", "scripts/diffstarpop_scripts/measure_smhm_tng_script_mpi_mgash.py: *", "scripts/diffstarpop_scripts/measure_smhm_galacticus_script_mpi_mgash.py: *"]}
{"id": "C79", "title": "Tables behind the targets", "statement": "The tables have 200 evenly spaced times from 0.01 to today and hold, per fitted galaxy, the halo mass, the log of the formed mass and the log specific rate of calc_sfh with the default baryon fraction; since the fits used each simulation's own larger fraction, the tabulated star formation rates are lower than the fitted ones by more than 0.2 percent wherever above the floor (refutes that the targets are measured from the fitted histories). For SMDPL and Galacticus this is of load_diffstar_sfh_tables with fb=FB added to its call of calc_sfh_galpop (C119).", "quantifier": "all catalogs of fits", "why_tests_cant": "Ranges over all real-valued inputs (a continuum); a test samples finitely many points.", "anchors": ["scripts/diffstarpop_scripts/smhm_utils_smdpl_mgash.py: load_diffstar_sfh_tables", "scripts/diffstarpop_scripts/smhm_utils_tng_mgash.py: load_diffstar_sfh_tables", "scripts/diffstarpop_scripts/smhm_utils_galacticus_mgash.py: load_diffstar_sfh_tables"]}
{"id": "C80", "title": "Stellar-mass loss data", "statement": "get_loss_data_pdfs_mstar (and its _cen and _sat variants) use exactly the (time, halo-mass bin) cells with at least 50 sampled halos, in order; each gets nhalos of its own halos (distinct when it has that many) with their own masses and histories, its own random key, and as target its measured stellar-mass counts divided by their sum. A used cell with no counts makes the loss NaN for all parameters. The populations meet the requirements of the population simulation.", "quantifier": "all measured files, random choices and keys", "why_tests_cant": "Catalog size and random stream unbounded.", "anchors": ["scripts/diffstarpop_scripts/fit_get_loss_helpers_mgash.py: get_loss_data_pdfs_mstar", "scripts/diffstarpop_scripts/fit_get_loss_helpers_mgash.py: get_loss_data_pdfs_mstar_cen", "scripts/diffstarpop_scripts/fit_get_loss_helpers_mgash.py: get_loss_data_pdfs_mstar_sat"]}
{"id": "C81", "title": "sSFR loss data", "statement": "get_loss_data_pdfs_ssfr_central/_satellite use the cells with at least 50 sampled halos of that kind and raise when a target time has none; the targets average each mass bin's distribution over all bins with their share of galaxies, while predictions average over the used bins only. So a simulation that reproduces every measured distribution reproduces the targets when the bins left out are empty, and need not otherwise (refutation).", "quantifier": "all measured files, random choices and keys", "why_tests_cant": "Catalog size and random stream unbounded.", "anchors": ["scripts/diffstarpop_scripts/fit_get_loss_helpers_mgash.py: get_loss_data_pdfs_ssfr_central", "scripts/diffstarpop_scripts/fit_get_loss_helpers_mgash.py: get_loss_data_pdfs_ssfr_satellite"]}
{"id": "C82", "title": "Population fit loop", "statement": "The population fit raises exactly when it takes no step or the initial loss is not finite; when initial parameters, loss and gradient are finite its result is finite, its loss is no larger than the initial one, an additional step never makes it worse, and along a finite descent it is the first of the points of smallest loss. When only the initial gradient is not finite it returns the zero vector, which can be worse than the initial parameters (refutation).", "quantifier": "all optimisers, losses, gradients and step counts", "why_tests_cant": "All histories of the optimiser.", "anchors": ["scripts/diffstarpop_scripts/fit_mstar_ssfr_pdfs_mgash.py: *"]}
{"id": "C83", "title": "Saving and loading loss data", "statement": "save_loss_data_h5 followed by load_loss_data_h5 gives back every value in order, lists of equally shaped arrays as one stacked array, as long as no list has more than 10000 arrays; the tuples must have 12, 18 and 18 values. A list of 10001 differently shaped arrays comes back reordered (refutation).", "quantifier": "all loss data", "why_tests_cant": "List lengths unbounded.", "anchors": ["scripts/diffstarpop_scripts/save_loss_data.py: save_loss_data_h5", "scripts/diffstarpop_scripts/save_loss_data.py: load_loss_data_h5", "scripts/diffstarpop_scripts/save_loss_data.py: _save_value"]}
{"id": "C84", "title": "Population fits cannot see infall", "statement": "With the -99 Gyr since infall that the loss helpers give to every halo, the nine parameters describing the dependence of satellite quenching on infall change the satellite quenched fraction by at most exp(-470) and nothing else of the population's statistics.", "quantifier": "all in-bounds parameters, masses and infall masses", "why_tests_cant": "Ranges over all real-valued inputs (a continuum); a test samples finitely many points.", "anchors": ["scripts/diffstarpop_scripts/fit_get_loss_helpers_mgash.py: get_loss_data_pdfs_ssfr_satellite", "diffstar/diffstarpop/kernels/satquenchpop_model.py: get_qprob_sat"]}
{"id": "C85", "title": "SMDPL measurement from fit files to final tables", "statement": "With the fits of any list of subvolumes on file, the SMDPL measuring program writes tables that are statistics of exactly the galaxies with positive halo-fit loss and success flag 1: counts, sums, means and smooth counts per redshift and mass bin (12 edges from 11 to 14.75), counts of centrals (upid -1) and satellites, stellar-mass (7 to 13) and joint sSFR (-13 to -8) distributions, evaluated at the first table time not before the target's age; the samples are distinct selected galaxies with their own parameters, at most 20000 over the number of subvolumes per bin. Rows without a usable fit do not matter. Each subvolume needs a selected central and a selected satellite. Proved of the program with the keyword fb=FB added to its call of calc_sfh_galpop; as committed it omits fb and always raises (C119).", "quantifier": "all catalogs of fits, subvolume lists, rank counts, random choices and target redshifts in [0,10)", "why_tests_cant": "Catalog size, subvolume and rank counts unbounded.", "anchors": ["scripts/diffstarpop_scripts/smhm_utils_smdpl_mgash.py: load_diffstar_sfh_tables", "scripts/diffstarpop_scripts/smhm_utils_smdpl_mgash.py: create_target_data", "scripts/diffstarpop_scripts/smhm_utils_smdpl_mgash.py: create_pdf_target_data", "scripts/diffstarpop_scripts/measure_smhm_smdpl_script_mpi_mgash.py: *"]}
{"id": "C86", "title": "TNG measurement from fit files to final tables", "statement": "With 20 ranks the TNG measuring program shares the rows out over 20 chunks, each row in exactly one, and writes tables that are statistics of exactly the galaxies with positive halo and galaxy losses and success flag 1, centrals being those flagged 1; at most 1000 galaxies per chunk and bin are sampled, with -1 in place of the flag 1.", "quantifier": "all catalogs of fits whose chunks all hold a selected central and a selected satellite", "why_tests_cant": "Catalog size unbounded.", "anchors": ["scripts/diffstarpop_scripts/smhm_utils_tng_mgash.py: load_diffstar_sfh_tables", "scripts/diffstarpop_scripts/smhm_utils_tng_mgash.py: create_target_data", "scripts/diffstarpop_scripts/smhm_utils_tng_mgash.py: create_pdf_target_data", "scripts/diffstarpop_scripts/measure_smhm_tng_script_mpi_mgash.py: *"]}
{"id": "C87", "title": "Galacticus measurement from fit files to final tables", "statement": "The Galacticus measuring program writes, for any number of ranks, tables that are statistics of exactly the galaxies with positive halo and galaxy losses and success flag 1, with mass bins from 11 to 14.5 and at most 20000 sampled galaxies per bin. Proved of the program with the keyword fb=FB added to its call of calc_sfh_galpop; as committed it omits fb and always raises (C119).", "quantifier": "all catalogs of fits with a selected central and satellite and, at every target, a galaxy in some bin", "why_tests_cant": "Catalog size and rank count unbounded.", "anchors": ["scripts/diffstarpop_scripts/smhm_utils_galacticus_mgash.py: load_diffstar_sfh_tables", "scripts/diffstarpop_scripts/smhm_utils_galacticus_mgash.py: create_target_data", "scripts/diffstarpop_scripts/smhm_utils_galacticus_mgash.py: create_pdf_target_data", "scripts/diffstarpop_scripts/measure_smhm_galacticus_script_mpi_mgash.py: *"]}
{"id": "C88", "title": "Quality comparison: SMDPL", "statement": "calculate_plot_smdpl_dr1 (subvolumes found) and calculate_plot_smdpl_nomerging (subvolumes 0 to 575) followed by save_data_plot write, per bin of the largest halo mass ever reached and per simulation time, the means over exactly the galaxies with positive halo loss and success flag 1 of simulated mass and SFR and of fitted mass and SFR interpolated linearly in log between 200 table times, each SFR at least 1e-12 of the mass; values exactly one (and simulated zero rates) count as zero. Proved of the program with the keyword fb=FB added to its call of calc_sfh_galpop; as committed it omits fb and always raises (C119).", "quantifier": "all catalogs, bins and subvolume lists with 117 simulation times", "why_tests_cant": "Catalog size and subvolume count unbounded.", "anchors": ["scripts/diffstarpop_scripts/calculate_quality_diffstar_fits_mgash.py: calculate_plot_smdpl_dr1", "scripts/diffstarpop_scripts/calculate_quality_diffstar_fits_mgash.py: calculate_plot_smdpl_nomerging", "scripts/diffstarpop_scripts/calculate_quality_diffstar_fits_mgash.py: save_data_plot"]}
{"id": "C89", "title": "Quality comparison: TNG", "statement": "calculate_plot_tng, reading the galaxies in 20 parts, writes the same means over all galaxies with positive halo and galaxy losses and success flag 1, whose largest halo mass is corrected for h.", "quantifier": "all catalogs, bins and times", "why_tests_cant": "Catalog size unbounded.", "anchors": ["scripts/diffstarpop_scripts/calculate_quality_diffstar_fits_mgash.py: calculate_plot_tng", "scripts/diffstarpop_scripts/calculate_quality_diffstar_fits_mgash.py: save_data_plot"]}
{"id": "C90", "title": "Quality comparison: Galacticus", "statement": "calculate_plot_galcus_insitu and _inplusexsitu write the same means over all galaxies with positive losses and success flag 1, binned by the last halo mass of one set of halo fits while the histories come from another. Proved of the program with the keyword fb=FB added to its call of calc_sfh_galpop; as committed it omits fb and always raises (C119).", "quantifier": "all catalogs, bins and times", "why_tests_cant": "Catalog size unbounded.", "anchors": ["scripts/diffstarpop_scripts/calculate_quality_diffstar_fits_mgash.py: calculate_plot_galcus_insitu", "scripts/diffstarpop_scripts/calculate_quality_diffstar_fits_mgash.py: calculate_plot_galcus_inplusexsitu", "scripts/diffstarpop_scripts/calculate_quality_diffstar_fits_mgash.py: save_data_plot"]}
{"id": "C91", "title": "Quality comparison: agreement and floor", "statement": "Where the fits of all galaxies of a bin pass through the simulated values, simulated and fitted means are equal; the mean SFR is at least 1e-12 of the mean mass, simulated and fitted, where no rate is exactly one.", "quantifier": "all written files", "why_tests_cant": "Ranges over all real-valued inputs (a continuum); a test samples finitely many points.", "anchors": ["scripts/diffstarpop_scripts/calculate_quality_diffstar_fits_mgash.py: calculate_plot_smdpl_dr1", "scripts/diffstarpop_scripts/calculate_quality_diffstar_fits_mgash.py: calculate_plot_tng"]}
{"id": "C92", "title": "Quality comparison: what is dropped", "statement": "A simulated rate of exactly one solar mass per year is counted as zero (refutes that the data mean averages the floored rates); galaxies exactly on a bin edge or outside the bins change nothing; a bin without galaxies holds NaN; the script's bins are six, from 11.25 to 14.25.", "quantifier": "all written files", "why_tests_cant": "Existence for the refutation; all files otherwise.", "anchors": ["scripts/diffstarpop_scripts/calculate_quality_diffstar_fits_mgash.py: calculate_plot_galcus_insitu", "scripts/diffstarpop_scripts/calculate_quality_diffstar_fits_mgash.py: *"]}
{"id": "C93", "title": "Quality comparison: exceptions", "statement": "The SMDPL comparison raises without any subvolume, with a missing file of a listed subvolume, and when there are other than 117 simulation times; without merging it raises unless all 576 subvolumes are on file.", "quantifier": "all inputs", "why_tests_cant": "All inputs.", "anchors": ["scripts/diffstarpop_scripts/calculate_quality_diffstar_fits_mgash.py: calculate_plot_smdpl_dr1", "scripts/diffstarpop_scripts/calculate_quality_diffstar_fits_mgash.py: calculate_plot_smdpl_nomerging"]}
{"id": "C94", "title": "Subvolume files are found by number", "statement": "The SMDPL programs list exactly the numbers of the diffstar_fits_subvol_NUMBER.hdf5 files with one to three digits, once each, ascending, whatever the order of the directory and whatever else it holds; when the numbers are unpadded with one below ten, or all of one width, load_diffstar_subvolume opens each subvolume's own galaxy fits and halo fits, for both simulation names, even when the halo fits without merging are numbered in the other way.", "quantifier": "all directories and contents", "why_tests_cant": "Directory contents unbounded.", "anchors": ["scripts/diffstarpop_scripts/smhm_utils_smdpl_mgash.py: return_subvol_str", "scripts/diffstarpop_scripts/smhm_utils_smdpl_mgash.py: return_subvol_str_diffmah", "scripts/diffstarpop_scripts/smhm_utils_smdpl_mgash.py: load_diffstar_subvolume", "scripts/diffstarpop_scripts/measure_smhm_smdpl_script_mpi_mgash.py: *"]}
{"id": "C95", "title": "Subvolume numbers that cannot be read", "statement": "Unpadded numbers of two and three digits only make load_diffstar_subvolume raise for every subvolume, and beside a one-digit name a padded one is not found; then, with no file at all, or with another simulation name, the SMDPL measurement fails. A fitting run from a to b leaves files that are listed up to 999 and read back when a<10, b<=100 or a>=100, and none that can be read when 10<=a<100<b; the default iend of -1 fits nothing.", "quantifier": "all directories, ranges and contents", "why_tests_cant": "Ranges and contents unbounded.", "anchors": ["scripts/diffstarpop_scripts/smhm_utils_smdpl_mgash.py: return_subvol_str", "scripts/diffstarpop_scripts/smhm_utils_smdpl_mgash.py: load_diffstar_subvolume", "scripts/diffstar_fitting_script_umachine_mgash.py: *", "scripts/diffstarpop_scripts/measure_smhm_smdpl_script_mpi_mgash.py: *"]}
{"id": "C96", "title": "SMDPL programs from directories to results", "statement": "From a directory of numbered galaxy fits and one of halo fits, the SMDPL measuring program writes the tables of C85 and flags exactly the subvolumes found, and the quality comparison writes the means of C88. Proved of the program with the keyword fb=FB added to its call of calc_sfh_galpop; as committed it omits fb and always raises (C119).", "quantifier": "all directories, catalogs, rank counts and random choices", "why_tests_cant": "Catalog and directory sizes unbounded.", "anchors": ["scripts/diffstarpop_scripts/measure_smhm_smdpl_script_mpi_mgash.py: *", "scripts/diffstarpop_scripts/smhm_utils_smdpl_mgash.py: load_diffstar_subvolume", "scripts/diffstarpop_scripts/calculate_quality_diffstar_fits_mgash.py: calculate_plot_smdpl_dr1"]}
{"id": "C97", "title": "Table of halo-history fits", "statement": "With at least two halos per rank the halo fitting script hands over one row per halo in catalog order, the same for any number of ranks: the fit of the halo's largest mass so far, kept constant up to the latest time of any history, and skipped exactly when the history spans less than the limit. With fewer halos than that it raises, except that one halo per rank gives a single row of all fields instead of a table (refutation).", "quantifier": "all catalogs of halo histories, fitters, row formats and rank counts", "why_tests_cant": "Catalog size and rank count unbounded.", "anchors": ["scripts/galacticus_analysis/galacticus_diffmah_fitter_script.py: *", "diffstar/data_loaders/extract_galacticus_sfh_data.py: extract_galacticus_mah_tables"]}
{"id": "C98", "title": "Fit data from measured galaxies", "statement": "From the measured tables, the stellar-mass fits use exactly the cells with at least 50 galaxies (of the kind, lower mass edge included; when none is over the sampling limit, exactly those with 50 in the catalog), simulate populations of galaxies of that cell and kind with their own halo histories, and aim at the smooth stellar-mass distribution of the galaxies of the kind strictly inside the bin; the sSFR fits likewise, with targets averaged over mass bins by numbers of galaxies. When all galaxies of a used cell lie on its lower edge the loss is NaN for all parameters (refutation).", "quantifier": "all catalogs, bins, random choices and keys", "why_tests_cant": "Catalog size and random stream unbounded.", "anchors": ["scripts/diffstarpop_scripts/fit_get_loss_helpers_mgash.py: get_loss_data_pdfs_mstar", "scripts/diffstarpop_scripts/fit_get_loss_helpers_mgash.py: get_loss_data_pdfs_mstar_cen", "scripts/diffstarpop_scripts/fit_get_loss_helpers_mgash.py: get_loss_data_pdfs_mstar_sat", "scripts/diffstarpop_scripts/fit_get_loss_helpers_mgash.py: get_loss_data_pdfs_ssfr_central", "scripts/diffstarpop_scripts/fit_get_loss_helpers_mgash.py: get_loss_data_pdfs_ssfr_satellite", "scripts/diffstarpop_scripts/smhm_utils_smdpl_mgash.py: create_pdf_target_data"]}
{"id": "C99", "title": "Mean-mass fit data, and all fits from disk", "statement": "get_loss_data_smhm uses exactly the cells with at least nhalos sampled galaxies, gives each nhalos distinct galaxies of its mass bin with their own histories, its own time and as target the mean log stellar mass of all galaxies of the bin; and from the fit files of SMDPL subvolumes, TNG or Galacticus on disk, the measuring program followed by each fit's data preparation yields the data described in C98 and here, for exactly the galaxies with usable fits. For SMDPL and Galacticus this is of the programs with fb=FB added (C119).", "quantifier": "all catalogs of fits, directories, random choices, keys and rank counts", "why_tests_cant": "Catalog size and random stream unbounded.", "anchors": ["scripts/diffstarpop_scripts/fit_get_loss_helpers_mgash.py: get_loss_data_smhm", "scripts/diffstarpop_scripts/measure_smhm_smdpl_script_mpi_mgash.py: *", "scripts/diffstarpop_scripts/measure_smhm_tng_script_mpi_mgash.py: *", "scripts/diffstarpop_scripts/measure_smhm_galacticus_script_mpi_mgash.py: *"]}
{"id": "C100", "title": "Starting point of the population fit", "statement": "With no path the population-fit program starts from the default parameters; with a path starting with diffstarfits it starts from the published fit named by the part after the first underscore, in unbounded form; any other path is read as a file. It has no starting point exactly when a diffstarfits path names none of the five published fits or the file cannot be read.", "quantifier": "all paths and files", "why_tests_cant": "Paths unbounded.", "anchors": ["scripts/diffstarpop_scripts/fit_mstar_ssfr_pdfs_mgash.py: *", "diffstar/diffstarpop/kernels/params/params_diffstarfits_mgash.py: *"]}
{"id": "C101", "title": "Population fit program: result", "statement": "The population-fit program raises exactly when the data or the starting point cannot be loaded, it is to take no step, the print interval is zero or the initial loss is not finite. Otherwise it saves 88 finite unbounded values with their bounded values, within bounds and mapping back to them, with a loss no larger than the start's (all zeros if the start or its gradient is not finite). Restarted from its own file on the same data it runs and is no worse, except that a result saved in the working directory under a name diffstarfits... can never be read back (refutation).", "quantifier": "all data, starts, optimisers, gradients, step counts and names", "why_tests_cant": "All histories of the optimiser.", "anchors": ["scripts/diffstarpop_scripts/fit_mstar_ssfr_pdfs_mgash.py: *", "diffstar/diffstarpop/loss_kernels/mstar_ssfr_loss_mgash_anyz.py: loss_mstar_kern_tobs_grad_wrapper", "diffstar/diffstarpop/loss_kernels/mstar_ssfr_loss_mgash_anyz.py: loss_combined_wrapper", "diffstar/diffstarpop/loss_kernels/mstar_ssfr_loss_mgash_anyz.py: loss_combined_3loss_wrapper"]}
{"id": "C102", "title": "Population fit program: when a fit of measured galaxies runs", "statement": "On the measured galaxies, from any starting point with nonzero slopes, the stellar-mass fit raises exactly when it takes no step, the print interval is zero, no cell has 50 sampled galaxies, a used cell has no counts within its bins, or the simulated galaxies of some used cell are all further than three bin widths from the stellar-mass bins; fits with sSFR never run where this one raises. A used cell with all galaxies on its lower edge makes every fit of every kind raise (refutation).", "quantifier": "all catalogs, bins, random streams, optimisers and starts", "why_tests_cant": "Catalog size and random stream unbounded.", "anchors": ["scripts/diffstarpop_scripts/fit_mstar_ssfr_pdfs_mgash.py: *", "scripts/diffstarpop_scripts/fit_get_loss_helpers_mgash.py: get_loss_data_pdfs_mstar", "diffstar/diffstarpop/loss_kernels/mstar_ssfr_loss_mgash_anyz.py: loss_mstar_kern_tobs"]}
{"id": "C103", "title": "Population scaling relations", "statement": "For in-bounds parameters with non-zero slopes, the distribution a halo's galaxies are drawn from is given, parameter by parameter, by closed formulas: bent lines in halo mass for the critical mass, efficiency and quenching time (the last shifted by a step in peak time), straight lines anchored at 10^12.5 and kept inside fixed ranges for the other means and all scatters, no correlations, and steps in halo mass, peak time and time since infall for the quenched fractions. A kept line agrees with the stopped straight line to 1/6000 of the distance from the lower bound to the anchor, and a bent line with its broken line to a ninth of the change of slope.", "quantifier": "All 88 parameter values in bounds with non-zero slopes, all halo masses, peak times and infall data.", "why_tests_cant": "Ranges over all real-valued inputs (a continuum); a test samples finitely many points.", "anchors": ["diffstar/diffstarpop/kernels/sfh_pdf_mgash.py: _sfh_pdf_scalar_kernel", "diffstar/diffstarpop/kernels/sfh_pdf_mgash.py: _get_mean_u_params_mseq", "diffstar/diffstarpop/kernels/sfh_pdf_mgash.py: _get_mean_u_params_qseq", "diffstar/diffstarpop/kernels/sfh_pdf_mgash.py: _frac_quench_cen", "diffstar/diffstarpop/kernels/sfh_pdf_mgash.py: _frac_quench_sat", "diffstar/diffstarpop/kernels/satquenchpop_model.py: get_qprob_sat", "diffstar/diffstarpop/utils.py: smoothly_clipped_line"]}
{"id": "C104", "title": "Distributions and keys of the draws", "statement": "A galaxy's main-sequence parameters are one normal draw with the main-sequence means and scatters, its quenched parameters two further draws with the quenched ones, each from its own sub-key, and its flag compares a uniform draw from the fourth sub-key with the fraction for its kind; the main-sequence quenching parameters are the fixed value 5 (unbounded). mc_diffstar_params_singlegal returns the bounded form of exactly these.", "quantifier": "All parameters in bounds, all haloes, all keys, all random generators.", "why_tests_cant": "The generator and its keys are arbitrary; a test fixes one generator and a few seeds and cannot tell which key or which distribution produced a value.", "anchors": ["diffstar/diffstarpop/kernels/diffstarpop_mgash.py: mc_diffstar_u_params_singlegal_kernel", "diffstar/diffstarpop/mc_diffstarpop_mgash.py: mc_diffstar_params_singlegal", "diffstar/diffstarpop/mc_diffstarpop_mgash.py: mc_diffstar_u_params_singlegal"]}
{"id": "C105", "title": "Quenched fraction versus halo mass", "statement": "At fixed peak time and infall data the central and satellite quenched fractions strictly rise with halo mass where the floor at that peak time is below the ceiling, strictly fall where it is above and are constant where they agree. With seven of the ten published tables the central fraction rises at every peak time; with the other three it falls for every halo that peaked within 3 Gyr (refutes 'more massive centrals are more often quenched').", "quantifier": "All in-bounds parameters, all halo masses and peak times; the ten published tables.", "why_tests_cant": "Ranges over all real-valued inputs (a continuum); a test samples finitely many points.", "anchors": ["diffstar/diffstarpop/kernels/sfh_pdf_mgash.py: _frac_quench_cen", "diffstar/diffstarpop/kernels/sfh_pdf_mgash.py: _frac_quench_sat", "diffstar/diffstarpop/kernels/diffstarpop_mgash.py: _diffstarpop_means_covs"]}
{"id": "C106", "title": "Bounded parameters in single precision stay in range", "statement": "Computed in single precision as jax does, whatever numbers (infinite ones included) are unbounded, get_bounded_diffstar_params and get_bounded_diffstarpop_params return finite values, all inside the single-precision bounds with lg_drop <= lg_rejuv <= 0, except two: qlglgdt equals -0.00999999 > -0.01 from unbounded 50 on and qphi_lgmu_crit equals -0.09999990 > -0.1 from 250 on, and these are their largest values (refutes 'bounded parameters are within bounds').", "quantifier": "All single-precision inputs, all sigmoid implementations with values in [0, 1] that are 1 from 18 on, with and without fused multiply-add.", "why_tests_cant": "Rounding errors depend on every bit of the input: 2^32 values per parameter; tests compare with tolerances that hide a last-place excess over a bound.", "anchors": ["diffstar/defaults.py: get_bounded_diffstar_params", "diffstar/diffstarpop/kernels/defaults_mgash.py: get_bounded_diffstarpop_params", "diffstar/utils.py: _sigmoid", "diffstar/diffstarpop/kernels/sfh_pdf_mgash.py: _get_p_from_u_p_scalar"]}
{"id": "C107", "title": "Round trip in single precision is lost at saturation", "statement": "In single precision an unbounded parameter of 50 or more (250 or more for population parameters) comes back from get_unbounded after get_bounded as plus infinity, for each of the eight (lg_rejuv when lg_drop is not at its bound) and each of the 88 parameters (refutes the round trip of C15 in single precision).", "quantifier": "All single-precision inputs above the threshold, all sigmoids that are 1 from 18 on, all logarithms that are -inf at zero.", "why_tests_cant": "Rounding errors depend on every bit of the input: 2^32 values per parameter; tests compare with tolerances that hide a last-place excess over a bound.", "anchors": ["diffstar/defaults.py: get_unbounded_diffstar_params", "diffstar/diffstarpop/kernels/defaults_mgash.py: get_unbounded_diffstarpop_params", "diffstar/utils.py: _inverse_sigmoid", "diffstar/utils.py: _sigmoid"]}
{"id": "C108", "title": "Single-precision parameters are accurate", "statement": "For every finite single-precision input the bounded parameters differ from the exact ones by at most 1/30000 (1/8000 for lg_rejuv, 1/5000 for the population parameters), including inputs so large that the argument of the sigmoid overflows.", "quantifier": "All finite single-precision inputs, all sigmoid implementations accurate to 2^-22, with and without fused multiply-add.", "why_tests_cant": "Rounding errors depend on every bit of the input: 2^32 values per parameter; tests compare with tolerances that hide a last-place excess over a bound.", "anchors": ["diffstar/defaults.py: get_bounded_diffstar_params", "diffstar/diffstarpop/kernels/defaults_mgash.py: get_bounded_diffstarpop_params", "diffstar/utils.py: _sigmoid", "diffstar/kernels/quenching_kernels.py: _get_bounded_q_params", "diffstar/kernels/main_sequence_kernels.py: _get_bounded_sfr_params"]}
{"id": "C109", "title": "Galacticus from raw arrays to fits", "statement": "load_galacticus_sfh_target_data gives for every galaxy and step the average rate of bulge and disk together; any block of rows read from the file of write_galacticus_sfh_data_block is that block of the target data with all the times; and the fitting script run on the written file fits exactly the galaxies with a positive halo loss, a halo above the mass cut and more than 1e8 solar masses under the trapezoid rule, each with the average rates of its own in-situ or total mass. load_galacticus_diffstar_data returns the three tables unchanged with the target data.", "quantifier": "all catalogs, times, blocks, halo tables and rank counts", "why_tests_cant": "Catalog sizes, blocks and rank counts are unbounded; the data files are not in the repository.", "anchors": ["diffstar/data_loaders/load_galacticus_sfh.py: load_galacticus_sfh_target_data", "diffstar/data_loaders/load_galacticus_sfh.py: write_galacticus_sfh_data_block", "diffstar/data_loaders/load_galacticus_sfh.py: load_galacticus_diffstar_data"]}
{"id": "C110", "title": "Fitted Galacticus masses lag behind the mass formed", "statement": "The mass history used for a Galacticus galaxy adds, at the end of each step, half of that step's mass and half of the previous step's scaled by the ratio of the step lengths. With steps that never grow it misses at least half of the mass of the latest step (to 5e-6 solar masses per Gyr of the first time), with equal steps exactly that up to the terms of the first step, so a galaxy forming everything in its latest step is given half its mass (refutes that the fitted mass is the mass formed).", "quantifier": "all increasing times and all histories", "why_tests_cant": "Ranges over all real-valued inputs (a continuum); a test samples finitely many points.", "anchors": ["diffstar/data_loaders/load_galacticus_sfh.py: load_galacticus_sfh_target_data", "diffstar/utils.py: cumulative_mstar_formed"]}
{"id": "C111", "title": "Masses formed in single precision", "statement": "In single precision, for every table of up to a million times from 1 Myr on that do not decrease and rates from 0 to 2^40 Msun/yr, cumulative_mstar_formed returns finite masses that are never negative, never decrease, and whose k-th entry (from 0) differs from the exact trapezoid sum by at most a relative (k+8)/2^23 plus 2^-70. The mass may stay exactly the same over a step in which stars form (refutes strict growth in single precision).", "quantifier": "All single-precision tables up to 2^20 entries, with and without fused multiply-add", "why_tests_cant": "Rounding errors depend on every bit of the input: 2^32 values per parameter; tests compare with tolerances that hide a last-place excess over a bound.", "anchors": ["diffstar/utils.py: cumulative_mstar_formed", "diffstar/utils.py: cumtrapz", "diffstar/utils.py: _cumtrapz_scan_func"]}
{"id": "C112", "title": "Gradient of the fit loss", "statement": "For every non-empty increasing table of times from 1 Myr on, halo history, targets and positive weights and floors, loss_grad_default_clipssfrh returns eight finite numbers at every finite parameter vector, also where values sit on a cut-off; and where no SFR before flooring is 1e-14, no SFR or averaged SFR is a tenth of the sSFR floor times the mass and no SFR residual is plus or minus one, their inner product with any direction is the derivative of loss_default_clipssfrh in it. So the test for NaN gradients of return_random_pinit never rejects a finite starting point: the first draw is used.", "quantifier": "All parameter vectors, directions, tables, halo histories, targets, weights, generators.", "why_tests_cant": "Finite differences compare a few points and directions to a tolerance; a wrong rule on a branch or a NaN from a branch not taken shows only at particular inputs.", "anchors": ["diffstar/fitting_helpers/diffstar_fitting_helpers.py: loss_grad_default_clipssfrh", "diffstar/fitting_helpers/diffstar_fitting_helpers.py: loss_grad_default_clipssfrh_np", "diffstar/fitting_helpers/diffstar_fitting_helpers.py: loss_default_clipssfrh", "scripts/diffstar_fitting_script_umachine_mgash.py: return_random_pinit"]}
{"id": "C113", "title": "Starved galaxies give no gradient", "statement": "When every SFR before flooring is below 1e-14, loss_grad_default_clipssfrh is exactly zero in all parameters but lg_qt and strictly negative there, whatever the targets: nothing pulls the efficiency back, and descent only postpones quenching.", "quantifier": "All parameter vectors, tables, halo histories, targets and weights.", "why_tests_cant": "A test would have to start a fit in this regime and could not tell exact zeros from small numbers for all targets.", "anchors": ["diffstar/fitting_helpers/diffstar_fitting_helpers.py: loss_grad_default_clipssfrh", "diffstar/fitting_helpers/diffstar_fitting_helpers.py: loss_default_clipssfrh", "diffstar/kernels/history_kernel_builders.py: *"]}
{"id": "C114", "title": "Triweight kernel in single precision", "statement": "In single precision the triweight cumulative kernel is finite and within 2^-19 of the exact one at every finite argument, exactly 0 below -3 and 1 above 3 and at infinities, and NaN only at NaN. Inside it leaves [0, 1] on both sides near -3 and 3 and is not monotone (refutes both claims in single precision).", "quantifier": "All single-precision arguments; divisions by constants compiled as divisions, reciprocals or folded constants, with and without fused multiply-add.", "why_tests_cant": "Rounding errors depend on every bit of the input: 2^32 values per parameter; tests compare with tolerances that hide a last-place excess over a bound.", "anchors": ["diffstar/kernels/quenching_kernels.py: _jax_tw", "diffstar/diffstarpop/sumstats/diffndhist.py: _tw_cuml_lax_kern", "diffstar/utils.py: tw_cuml_jax_kern"]}
{"id": "C115", "title": "Quenching function in single precision", "statement": "In single precision _quenching_kern is finite, positive, at most 1+2^-14 and within 2^-14 of the exact quenching factor, for every event of 1/1024 to 4 dex, drop down to -3 and rejuvenation between the drop and 0. It can exceed 1 just after the start of the event, so quenching can raise the star formation rate (refutes C11 in single precision).", "quantifier": "All single-precision times and parameters in those ranges, every power of ten accurate to 2^-22, every way of compiling.", "why_tests_cant": "Rounding errors depend on every bit of the input: 2^32 values per parameter; tests compare with tolerances that hide a last-place excess over a bound.", "anchors": ["diffstar/kernels/quenching_kernels.py: _quenching_kern", "diffstar/kernels/quenching_kernels.py: _jax_partial_u_tw_kern", "diffstar/kernels/quenching_kernels.py: _jax_tw"]}
{"id": "C116", "title": "Bin weights in single precision", "statement": "In single precision the weight of a point in a bin (_tw_bin_weight_lax_kern and tw_bin_jax_kern) is finite and within 2^-17 of the exact integral of its kernel over the bin. It can be negative, also for a bin of positive width (refutes non-negative weights and counts in single precision).", "quantifier": "All single-precision points and edges up to 1024 in size and widths from 1/1024 to 1024, every way of compiling.", "why_tests_cant": "Rounding errors depend on every bit of the input: 2^32 values per parameter; tests compare with tolerances that hide a last-place excess over a bound.", "anchors": ["diffstar/diffstarpop/sumstats/diffndhist.py: _tw_bin_weight_lax_kern", "diffstar/diffstarpop/sumstats/diffndhist.py: _tw_cuml_lax_kern", "diffstar/utils.py: tw_bin_jax_kern"]}
{"id": "C117", "title": "Star formation rates in single precision", "statement": "In single precision every rate returned by calc_sfh_singlegal is finite, at least the single-precision 1e-14, and differs from the exact rate by at most 1/1000 plus 1/(16384 dt) of it, dt being the duration of the quenching event in dex. When the exact rate before flooring is at most 9e-15 the result is exactly the single-precision 1e-14, which is below 1e-14 (so the exact floor of C01 is not kept in single precision).", "quantifier": "All parameters within bounds, halo masses up to 1e17, baryon fractions from 0.01 to 1, times from 0.5 Myr to 1024 Gyr, every sigmoid, logarithm and power of ten of stated accuracy, every way of compiling.", "why_tests_cant": "Rounding errors depend on every bit of the input: 2^32 values per parameter; tests compare with tolerances that hide a last-place excess over a bound.", "anchors": ["diffstar/sfh_model.py: calc_sfh_singlegal", "diffstar/kernels/history_kernel_builders.py: *", "diffstar/kernels/main_sequence_kernels.py: _sfr_eff_plaw", "diffstar/kernels/main_sequence_kernels.py: sfh_ms_kernel", "diffstar/kernels/quenching_kernels.py: _quenching_kern"]}
{"id": "C118", "title": "Stellar masses in single precision", "statement": "In single precision calc_sfh_singlegal with return_smh returns masses that are finite, not negative, do not decrease, and differ from the exact trapezoid integral of the exact rates by at most the tolerance of C117 plus (k+8)/2^22 of it (k-th entry, from 0) plus 2^-70. Starting from any unbounded parameters that are numbers, infinities included, nothing overflows or becomes NaN, the rates are within 1/16 of the exact ones and masses do not decrease.", "quantifier": "All parameters, tables of up to 2^20 non-decreasing times from 1 Myr, halo histories up to 1e17 and ways of compiling as in C117.", "why_tests_cant": "Rounding errors depend on every bit of the input: 2^32 values per parameter; tests compare with tolerances that hide a last-place excess over a bound.", "anchors": ["diffstar/sfh_model.py: calc_sfh_singlegal", "diffstar/utils.py: cumulative_mstar_formed", "diffstar/defaults.py: get_bounded_diffstar_params"]}
{"id": "C119", "title": "SMDPL and Galacticus programs raise as committed", "statement": "load_diffstar_sfh_tables of smhm_utils_smdpl_mgash and smhm_utils_galacticus_mgash call calc_sfh_galpop without its required keyword fb, so they raise for every content of the files; hence the SMDPL measuring program writes nothing whatever its directories hold, the Galacticus one writes nothing for any number of ranks, and calculate_plot_smdpl_nomerging, calculate_plot_smdpl_dr1 and both calculate_plot_galcus functions always raise (refutes that these programs run). With fb supplied the same inputs succeed.", "quantifier": "All files, directories, times, bins and numbers of ranks.", "why_tests_cant": "The programs need simulation data and have no tests; a call that fails on every input is invisible to unit tests of calc_sfh_galpop itself.", "anchors": ["scripts/diffstarpop_scripts/smhm_utils_smdpl_mgash.py: load_diffstar_sfh_tables", "scripts/diffstarpop_scripts/smhm_utils_galacticus_mgash.py: load_diffstar_sfh_tables", "diffstar/sfh_model.py: calc_sfh_galpop"]}
{"id": "C120", "title": "Gradients of the population losses", "statement": "Wherever a population loss (stellar mass, mass and specific star formation rate, their sum, or the sum with centrals and satellites apart) is finite, its gradient wrapper returns that same value together with 88 finite numbers; and these are the partial derivatives of the loss in the 88 unbounded parameters, provided that no star formation rate sits exactly on the 1e-14 floor and no specific rate exactly on the 1e-12 clip.", "quantifier": "All unbounded parameters with non-zero slopes, catalogues, observing times, bins, targets and random draws, for normal deviates of any value.", "why_tests_cant": "Finite differences test a few directions at a few points to a few digits; the statement is exact for all of them and includes finiteness of all 88 numbers.", "anchors": ["diffstar/diffstarpop/loss_kernels/mstar_ssfr_loss_mgash_anyz.py: loss_mstar_kern_tobs_grad_wrapper", "diffstar/diffstarpop/loss_kernels/mstar_ssfr_loss_mgash_anyz.py: loss_mstar_ssfr_kern_tobs_grad_wrapper", "diffstar/diffstarpop/loss_kernels/mstar_ssfr_loss_mgash_anyz.py: loss_mstar_ssfr_sat_kern_tobs_grad_wrapper", "diffstar/diffstarpop/loss_kernels/mstar_ssfr_loss_mgash_anyz.py: loss_combined_wrapper", "diffstar/diffstarpop/loss_kernels/mstar_ssfr_loss_mgash_anyz.py: loss_combined_3loss_wrapper"]}
{"id": "C121", "title": "What a Monte Carlo galaxy is made of", "statement": "A draw of the population sampler is the mean plus a lower-triangular matrix with positive diagonal applied to standard normals, where that matrix times its transpose is the covariance. For population parameters within bounds every drawn unbounded parameter is its mean plus its standard deviation times one normal deviate: four for the main sequence, four and four for quenched galaxies, from three different sub-keys; the quenching parameters of a main-sequence galaxy are fixed at 5.", "quantifier": "All population parameters within bounds and with non-zero slopes, all halo masses, peak times and keys; any dimension for the first part.", "why_tests_cant": "Ranges over all real-valued inputs (a continuum); a test samples finitely many points.", "anchors": ["diffstar/diffstarpop/kernels/diffstarpop_mgash.py: mc_diffstar_u_params_singlegal_kernel", "diffstar/diffstarpop/kernels/sfh_pdf_mgash.py: _get_covariance_mseq_ms_block"]}
{"id": "C122", "title": "Parameters of absent galaxies do not matter", "statement": "For a population of centrals only, every simulated history and both losses do not depend on the 17 parameters of satellite quenching; for a population of satellites only they do not depend on the 8 parameters of the quenched fraction of centrals. The corresponding entries of the gradient returned with a finite loss, by any of the four wrappers, are exactly zero, also where the loss has a kink.", "quantifier": "All parameters, catalogues of any size, keys, random generators and times.", "why_tests_cant": "Tests use one catalogue and one parameter vector.", "anchors": ["diffstar/diffstarpop/mc_diffstarpop_mgash.py: mc_diffstar_sfh_galpop", "diffstar/diffstarpop/loss_kernels/mstar_ssfr_loss_mgash_anyz.py: loss_mstar_kern_tobs_grad_wrapper", "diffstar/diffstarpop/loss_kernels/mstar_ssfr_loss_mgash_anyz.py: loss_mstar_ssfr_kern_tobs_grad_wrapper", "diffstar/diffstarpop/kernels/satquenchpop_model.py: get_qprob_sat"]}
{"id": "C123", "title": "Population losses are finite, NaN or raise", "statement": "Each of the four population losses (stellar mass, mass and specific star formation rate, their sum, the sum with centrals and satellites apart) either raises, is a finite number or is NaN; it is never infinite. Its gradient wrapper raises exactly when the loss does, returns the same value, and 88 finite numbers whenever that value is finite. If at one redshift no simulated mass lies within three mean bin widths of the mass bins, the stellar-mass loss is NaN unless it raises, whatever the other redshifts contain. Nothing is claimed about the derivatives returned with a NaN.", "quantifier": "All unbounded parameters with non-zero slopes, catalogues, bins, targets, non-negative halo counts and random draws.", "why_tests_cant": "Division by an empty histogram happens only for catalogues a test does not contain; infinity and NaN must be told apart for all of them.", "anchors": ["diffstar/diffstarpop/loss_kernels/mstar_ssfr_loss_mgash_anyz.py: loss_mstar_kern_tobs_grad_wrapper", "diffstar/diffstarpop/loss_kernels/mstar_ssfr_loss_mgash_anyz.py: loss_mstar_ssfr_kern_tobs_grad_wrapper", "diffstar/diffstarpop/loss_kernels/mstar_ssfr_loss_mgash_anyz.py: loss_combined_wrapper", "diffstar/diffstarpop/loss_kernels/mstar_ssfr_loss_mgash_anyz.py: loss_combined_3loss_wrapper", "diffstar/diffstarpop/loss_kernels/mstar_ssfr_loss_mgash_anyz.py: mstar_kern_tobs"]}
{"id": "C124", "title": "What Adam does to the parameters", "statement": "The Adam optimiser the fits run starts at the given parameters; after any sequence of finite gradients each parameter has moved by the sum, over the steps, of step size times the recent mean of its own gradients (each gradient counting 0.9 times as much as the next) over the root of the recent mean of their squares (0.999) plus 1e-8. The first step is step size times g/(|g|+1e-8), so its length does not depend on the scale of the loss. No single update, with any index and after any history, moves a parameter by as much as 7.28 step sizes, and a parameter whose gradient is always zero never moves.", "quantifier": "All step sizes, numbers of parameters, starting points, gradient sequences of any length and indices.", "why_tests_cant": "The history of gradients is unbounded; a run shows one trajectory.", "anchors": ["diffstar/fitting_helpers/utils.py: _jax_adam_wrapper", "scripts/diffstarpop_scripts/fit_mstar_ssfr_pdfs_mgash.py: *"]}
{"id": "C125", "title": "How far the fallback fit can go", "statement": "When scipy's minimiser reports failure, minimizer with the fit's own loss and gradient always returns status 0, a loss no larger than the one at its starting point, and parameters of which none is further than 7.28*(4.9 + (nstep-1)/100) from its starting value (two warm-ups of 50 steps of 0.05 and nstep steps of 0.01). Started at a galaxy whose main-sequence star formation rate is below 1e-14 at all times it can change no parameter but the quenching time, and this only upwards.", "quantifier": "All loss data with positive target masses and weights, halo histories, starting points, numbers of steps and minimisers that fail.", "why_tests_cant": "The fallback runs only when scipy fails; its reach is a statement about every trajectory.", "anchors": ["diffstar/fitting_helpers/utils.py: minimizer", "diffstar/fitting_helpers/utils.py: jax_adam_wrapper_v2", "diffstar/fitting_helpers/utils.py: _jax_adam_wrapper", "diffstar/fitting_helpers/diffstar_fitting_helpers.py: loss_default_clipssfrh", "diffstar/fitting_helpers/diffstar_fitting_helpers.py: loss_grad_default_clipssfrh_np"]}
{"id": "C126", "title": "How far the population fit can go", "statement": "The population-fit program saves unbounded parameters each of which is within 0.0728 per step of its starting value, if the gradient at the start is finite. With the gradients of its own wrappers and a start without a zero slope that gradient is finite whenever the program runs at all (so the all-zero result of C101 does not occur), the saved loss is no larger than the one at the start, and parameters that the galaxies of the data do not depend on (satellite quenching for centrals only, central quenched fraction for satellites only) are saved exactly as they were. The data of a stellar-mass fit of measured galaxies meet what this needs.", "quantifier": "All data files, kinds of loss, starting points, numbers of steps, random draws; all gradients that are the wrappers' wherever the loss is finite and no slope is exactly zero, and not finite at a zero slope.", "why_tests_cant": "A fit takes hours on simulation data; the claim is about every trajectory.", "anchors": ["scripts/diffstarpop_scripts/fit_mstar_ssfr_pdfs_mgash.py: *", "diffstar/diffstarpop/loss_kernels/mstar_ssfr_loss_mgash_anyz.py: loss_mstar_kern_tobs_grad_wrapper", "diffstar/diffstarpop/loss_kernels/mstar_ssfr_loss_mgash_anyz.py: loss_combined_wrapper", "diffstar/diffstarpop/loss_kernels/mstar_ssfr_loss_mgash_anyz.py: loss_combined_3loss_wrapper"]}
{"id": "C127", "title": "Stellar mass converges to the integral of the star formation rate", "statement": "On any interval of times where the halo mass history is continuous, for every tolerance there is a spacing such that on every time table at most that widely spaced, the stellar mass returned by calc_sfh_singlegal with return_smh grows between any two of its times by the integral of the star formation rate over them, up to the tolerance per Gyr. For rates with second derivative at most K and spacing h, cumulative_mstar_formed is off by at most 1e9 K h^2/12 per Gyr, and this constant is attained.", "quantifier": "All parameters, halo histories, intervals, tolerances and tables of any length.", "why_tests_cant": "A test compares one table with a finer one; the claim is a limit over all tables.", "anchors": ["diffstar/sfh_model.py: calc_sfh_singlegal", "diffstar/utils.py: cumulative_mstar_formed", "diffstar/utils.py: cumtrapz"]}
{"id": "C128", "title": "Direction in which each parameter moves a history", "statement": "No star formation rate or stellar mass gets smaller when lgy_at_mcrit, lg_drop or lg_rejuv is raised, nor when indx_lo and indx_hi are raised for halos above the critical mass or lowered for halos below it. With indx_hi <= indx_lo, raising lgmcrit makes none larger in halos below it if indx_lo + indx_hi >= 0, and none smaller in halos above it if indx_lo + indx_hi <= 0. Raising lgy_at_mcrit by d multiplies every rate above the floor by 10^d. A later quenching time can lower a rate, with all parameters within bounds: a galaxy quenched earlier may have recovered already (refutes that later quenching never lowers a rate).", "quantifier": "All parameters, halo histories, time tables and non-negative baryon fractions.", "why_tests_cant": "Ranges over all real-valued inputs (a continuum); a test samples finitely many points.", "anchors": ["diffstar/sfh_model.py: calc_sfh_singlegal", "diffstar/kernels/main_sequence_kernels.py: _sfr_eff_plaw", "diffstar/kernels/quenching_kernels.py: _quenching_kern", "diffstar/utils.py: cumulative_mstar_formed"]}
{"id": "C129", "title": "Predictions and losses of the population agree", "statement": "When loss_mstar_kern_tobs_grad_wrapper or loss_mstar_ssfr_kern_tobs_grad_wrapper (centrals or satellites) returns a finite loss, the prediction wrapper called with the same arguments returns finite numbers in the shape of the target, and the loss is 1000 times their mean squared difference from the target, zero exactly when they equal it. Conversely a finite, non-empty prediction of the target's shape has a finite loss and 88 finite derivatives. Predictions do not depend on the target, and any number of parameters but 88 raises.", "quantifier": "All unbounded parameters with non-zero slopes, catalogues, bins, targets, non-negative halo counts and random draws.", "why_tests_cant": "The two wrappers are separate programs; tests compare them on one catalogue.", "anchors": ["diffstar/diffstarpop/loss_kernels/mstar_ssfr_loss_mgash_anyz.py: get_pred_mstar_data_wrapper", "diffstar/diffstarpop/loss_kernels/mstar_ssfr_loss_mgash_anyz.py: get_pred_mstar_ssfr_data_wrapper", "diffstar/diffstarpop/loss_kernels/mstar_ssfr_loss_mgash_anyz.py: get_pred_mstar_ssfr_sat_data_wrapper", "diffstar/diffstarpop/loss_kernels/mstar_ssfr_loss_mgash_anyz.py: loss_mstar_kern_tobs_grad_wrapper", "diffstar/diffstarpop/loss_kernels/mstar_ssfr_loss_mgash_anyz.py: loss_mstar_ssfr_kern_tobs_grad_wrapper"]}
{"id": "C130", "title": "Transforms of arrays of galaxies", "statement": "_get_bounded_sfr_params_vmap and _get_bounded_q_params_vmap map any array of finite rows to one with the same number of rows, all strictly within the bounds, and their _get_unbounded_ counterparts give the original array back; conversely every array within the bounds is recovered from its unbounded one. Side by side the two arrays hold, row by row, what get_bounded_diffstar_params gives for each galaxy. Rows of any length but four raise. _get_bounded_lg_drop, _get_unbounded_lg_drop and _get_bounded_qt agree with the transforms of all four quenching parameters, and the first two are inverse.", "quantifier": "Arrays of any number of rows with any finite entries.", "why_tests_cant": "Ranges over all real-valued inputs (a continuum); a test samples finitely many points.", "anchors": ["diffstar/kernels/main_sequence_kernels.py: _get_bounded_sfr_params_vmap", "diffstar/kernels/main_sequence_kernels.py: _get_unbounded_sfr_params_vmap", "diffstar/kernels/quenching_kernels.py: _get_bounded_q_params_vmap", "diffstar/kernels/quenching_kernels.py: _get_unbounded_q_params_vmap", "diffstar/kernels/quenching_kernels.py: _get_bounded_lg_drop", "diffstar/kernels/quenching_kernels.py: _get_unbounded_lg_drop", "diffstar/kernels/quenching_kernels.py: _get_bounded_qt"]}
{"id": "C131", "title": "Averaged star formation rates converge to the mean over the last tau Gyr", "statement": "On any interval of times where the halo mass history is continuous, for every averaging time tau and tolerance there is a spacing such that on every time table at most that widely spaced, compute_fstar of the stellar masses of calc_sfh_singlegal is at each time, up to the tolerance, the integral of the star formation rate over the preceding tau Gyr (or since the first table time, if later) divided by tau. An explicit error is given for any masses that grow by the integral of a bounded non-negative rate. On a given table it is not the mean of the tabulated (piecewise linear) history when the time tau ago falls between two entries: an example gives 3 instead of 7/2.", "quantifier": "All parameters, halo histories, intervals, averaging times, tolerances and tables of any length.", "why_tests_cant": "A test compares one table with a finer one; the claim is a limit over all tables.", "anchors": ["diffstar/utils.py: compute_fstar", "diffstar/sfh_model.py: calc_sfh_singlegal", "diffstar/utils.py: cumulative_mstar_formed"]}
{"id": "C132", "title": "Halo-mass histograms of fitted galaxies today", "statement": "compute_weighted_histograms_z0 (SMDPL, given the baryon fraction, and TNG) returns, for the galaxies with usable halo and star formation fits, the sum over galaxies of the smooth (triweight) probability of each halo-mass bin at the last table time, and of that probability times the log10 stellar mass that calc_sfh_galpop gives there. Each sum of weights is between 0 and the number of galaxies, and the weighted mean lies between the least and the greatest log stellar mass. The TNG tables of the 20 chunks add up to those of all fitted galaxies. As committed the SMDPL version raises on all data, because it leaves out the baryon fraction.", "quantifier": "All fit files, numbers of galaxies, parameters and increasing bin edges.", "why_tests_cant": "Needs simulation fit files that are not in the repository; the sums are over any number of galaxies.", "anchors": ["scripts/diffstarpop_scripts/smhm_utils_smdpl_mgash.py: compute_weighted_histograms_z0", "scripts/diffstarpop_scripts/smhm_utils_tng_mgash.py: compute_weighted_histograms_z0", "scripts/diffstarpop_scripts/smhm_utils_smdpl_mgash.py: load_diffstar_sfh_tables", "scripts/diffstarpop_scripts/smhm_utils_tng_mgash.py: load_diffstar_sfh_tables"]}
{"id": "C133", "title": "A fit started at a galaxy that quenches after the data end never finds quenching", "statement": "At parameters whose quenching starts after the last table time the gradient of the fit loss, loss_grad_default_clipssfrh_np, is exactly zero in the width, depth and rejuvenation of quenching and strictly negative in the time of quenching, also where the loss has a kink. Hence when scipy's minimiser fails, minimizer returns those three parameters exactly as they were and a quenching time no earlier, whatever the data: the fitted galaxy quenches after the data end too and forms stars at its main-sequence rate at every table time. Two such galaxies that differ only in those three parameters have the same loss.", "quantifier": "All loss data with positive target masses and weights, halo histories, starting points with quenching after the data, numbers of steps and minimisers that fail.", "why_tests_cant": "A statement about every trajectory of the optimiser and about all data, quenched galaxies included.", "anchors": ["diffstar/fitting_helpers/utils.py: minimizer", "diffstar/fitting_helpers/utils.py: jax_adam_wrapper_v2", "diffstar/fitting_helpers/diffstar_fitting_helpers.py: loss_default_clipssfrh", "diffstar/fitting_helpers/diffstar_fitting_helpers.py: loss_grad_default_clipssfrh_np", "diffstar/kernels/quenching_kernels.py: _quenching_kern"]}
{"id": "C134", "title": "Changes of units of a history", "statement": "Raising lgmcrit and all log halo masses by c >= 0 multiplies every star formation rate above the 1e-14 floor by 10^c, and the stellar masses too up to a constant given by the floor at the start of the table; a rate at the floor stays there (refutes exact scaling). Raising lgy_at_mcrit by c and dividing the baryon fraction by 10^c changes no rate, no mass and no value of the fit loss. Raising lg_qt by c and stretching all times and the halo history by 10^c changes no rate and multiplies the masses by 10^c up to a constant.", "quantifier": "All parameters, halo histories, time tables, baryon fractions, targets and shifts.", "why_tests_cant": "Tests compare values at one parameter set; an invariance is a statement about pairs of runs at all of them.", "anchors": ["diffstar/sfh_model.py: calc_sfh_singlegal", "diffstar/utils.py: cumulative_mstar_formed", "diffstar/fitting_helpers/diffstar_fitting_helpers.py: loss_default_clipssfrh", "diffstar/kernels/main_sequence_kernels.py: _sfr_eff_plaw", "diffstar/kernels/quenching_kernels.py: _quenching_kern"]}
{"id": "C135", "title": "Histories determine the parameters", "statement": "If two galaxies with parameters within bounds have the same star formation rate from calc_sfh_singlegal for every halo of constant mass, every time and every positive baryon fraction, all eight parameters are equal; so are any two unbounded parameter vectors with this property. A single halo of constant mass is not enough: at mass lgmcrit the slope indx_lo changes nothing at any time (refutes that one history determines the parameters).", "quantifier": "All pairs of parameters within bounds; all pairs of unbounded parameters.", "why_tests_cant": "Injectivity quantifies over all pairs of parameters; a test compares finitely many.", "anchors": ["diffstar/sfh_model.py: calc_sfh_singlegal", "diffstar/kernels/main_sequence_kernels.py: _sfr_eff_plaw", "diffstar/kernels/quenching_kernels.py: _quenching_kern", "diffstar/defaults.py: get_bounded_diffstar_params"]}
{"id": "C136", "title": "Tables that start before 1 Myr are never fitted", "statement": "If the first time of the table is positive but below 1 Myr, loss_default_clipssfrh is NaN at every finite parameter vector; if it is exactly 1 Myr the loss is never finite. Given a table that starts before 1 Myr, diffstar_fitter returns the initial guess with loss 999.99 and flag -1, whatever the target history, cuts, random draws, gradients, and whatever an optimiser that reports the loss at the point it returns does.", "quantifier": "All tables, targets, halo histories, parameters, generators and optimisers that report the loss of their result.", "why_tests_cant": "The failure is silent and hidden behind a random restart loop; the claim is about every run.", "anchors": ["diffstar/fitting_helpers/diffstar_fitting_helpers.py: diffstar_fitter", "diffstar/fitting_helpers/diffstar_fitting_helpers.py: loss_default_clipssfrh", "diffstar/fitting_helpers/diffstar_fitting_helpers.py: get_loss_data_default", "diffstar/fitting_helpers/utils.py: minimizer_wrapper", "diffstar/utils.py: cumulative_mstar_formed"]}
{"id": "C137", "title": "The star-forming efficiency has one peak", "statement": "For indx_lo > 0 >= indx_hi the efficiency strictly rises with halo mass up to one mass and strictly falls beyond it. This mass is within 0.145 dex of lgmcrit, above it when indx_lo + indx_hi > 0, below it when the sum is negative, and equal to it only when the slopes are opposite (refutes that lgmcrit is the mass of peak efficiency). With indx_hi <= -1, the default included, the star formation rate of halos of constant mass at any time also rises up to one mass within 0.145 dex of lgmcrit and falls beyond it, strictly above the floor.", "quantifier": "All slopes in the stated ranges, all pairs of halo masses, times and baryon fractions.", "why_tests_cant": "Ranges over all real-valued inputs (a continuum); a test samples finitely many points.", "anchors": ["diffstar/kernels/main_sequence_kernels.py: _sfr_eff_plaw", "diffstar/sfh_model.py: calc_sfh_singlegal"]}
{"id": "C138", "title": "Targets with a NaN or a negative mass are never fitted", "statement": "If the target star formation history given to diffstar_fitter contains a NaN, or the mass formed along it is negative at some table time, it returns the initial guess with loss 999.99 and flag -1, whatever the rest of the target, the cuts, random draws and gradients, and whatever an optimiser that reports the loss at the point it returns does.", "quantifier": "All tables, targets, halo histories, cuts, generators and optimisers that report the loss of their result.", "why_tests_cant": "The failure is silent and hidden behind a random restart loop; the claim is about every run.", "anchors": ["diffstar/fitting_helpers/diffstar_fitting_helpers.py: diffstar_fitter", "diffstar/fitting_helpers/diffstar_fitting_helpers.py: get_loss_data_default", "diffstar/fitting_helpers/diffstar_fitting_helpers.py: loss_default_clipssfrh", "diffstar/fitting_helpers/utils.py: minimizer_wrapper", "diffstar/utils.py: cumulative_mstar_formed"]}
{"id": "C139", "title": "Stars formed against the baryons of the halo", "statement": "With return_smh=True and indx_hi <= 0 <= indx_lo, lg_drop <= lg_rejuv <= 0, fb >= 0 and a halo that does not shrink, the stellar mass returned at each time t is at most 1e9*t*max(1e-14, fb*10**(logM(t) + lgy_at_mcrit + max(indx_lo, -indx_hi)/27)). So it is at most fb*10**logM(t), the baryons of the halo, whenever t times 10**(9 + lgy_at_mcrit + max(indx_lo, -indx_hi)/27) is at most 1 and the floor does not matter. In general it is not (refutation): with the default main-sequence parameters and no quenching, a halo of constant mass 1e12 forms over 5/4 of its baryons by 13.8 Gyr, whatever fb > 0.", "quantifier": "All parameters in the stated ranges, halo histories, baryon fractions and increasing tables that start after 1 Myr.", "why_tests_cant": "Ranges over all real-valued inputs (a continuum); a test samples finitely many points.", "anchors": ["diffstar/sfh_model.py: calc_sfh_singlegal", "diffstar/utils.py: cumulative_mstar_formed", "diffstar/kernels/main_sequence_kernels.py: _sfr_eff_plaw", "diffstar/kernels/quenching_kernels.py: _quenching_kern"]}
{"id": "C140", "title": "Specific rates are limited by the time grid", "statement": "Whatever the galaxy, each sfh[i]/smh[i] returned by calc_sfh_singlegal is below 2/(1e9*(t[i]-t[i-1])) per year, with t[-1] = 0.001; the first is also at least half of that. The log sSFRs of a population simulated by the loss kernels (20 log-spaced times up to t_obs) are between -12 and the limit of the last time step. Hence mstar_ssfr_kern_tobs never predicts a positive number in an sSFR bin that starts more than three mean bin widths above the limit or ends more than three below -12, and a target entry y there keeps every finite loss at or above 1000*y**2/N, N being the number of target entries. Of the 29 sSFR bins of the measured targets these are the lowest 2 at every t_obs, and the top 3 at t_obs = 13.8, where the limit is below -9.1.", "quantifier": "All parameters, halo histories, random draws, population sizes, redshifts, stellar-mass bins, sSFR bins and targets.", "why_tests_cant": "Ranges over all real-valued inputs (a continuum); a test samples finitely many points.", "anchors": ["diffstar/sfh_model.py: calc_sfh_singlegal", "diffstar/utils.py: cumulative_mstar_formed", "diffstar/diffstarpop/loss_kernels/mstar_ssfr_loss_mgash_anyz.py: mstar_ssfr_kern_tobs", "diffstar/diffstarpop/loss_kernels/mstar_ssfr_loss_mgash_anyz.py: loss_mstar_ssfr_kern_tobs", "diffstar/diffstarpop/loss_kernels/mstar_ssfr_loss_mgash_anyz.py: _mc_diffstar_sfh_galpop_vmap_kern"]}
{"id": "C141", "title": "Errors of the inputs move a history by a bounded factor", "statement": "Take two galaxies in halos whose log masses differ by at most e at every time, the second never further than X from its lgmcrit. Each sfh and smh entry calc_sfh_singlegal returns for the second is within D dex of the first, D being the sum of (max(|1+indx_lo|, |1+indx_hi|) + |indx_hi-indx_lo|/4)*e, (max(|indx_lo|, |indx_hi|) + |indx_hi-indx_lo|/4)*|change of lgmcrit|, X times the larger change of the indices, |change of lgy_at_mcrit|, the larger change of lg_drop and lg_rejuv, and (|lg_drop| + |lg_rejuv-lg_drop|) times 35/8*|change of lg_qt|/10**qlglgdt + 35/27*ln(10)*|change of qlglgdt|, the coefficients being those of the first galaxy. For one galaxy with parameters in bounds, a halo-mass error of e dex moves rates and masses by at most 8.5*e dex. When both indices are k, a change of the halo mass by x dex changes rates above the floor by exactly (1+k)*x dex.", "quantifier": "All parameters, halo histories, times, fb >= 0 and sizes of the errors.", "why_tests_cant": "Ranges over all real-valued inputs (a continuum); a test samples finitely many points.", "anchors": ["diffstar/sfh_model.py: calc_sfh_singlegal", "diffstar/kernels/main_sequence_kernels.py: _sfr_eff_plaw", "diffstar/kernels/quenching_kernels.py: _quenching_kern", "diffstar/utils.py: cumulative_mstar_formed"]}
{"id": "C142", "title": "Rounding in a fit table barely moves the histories computed from it", "statement": "Write fitted parameters in bounds with get_outline and collate the rank files with write_collated_data. Calling calc_sfh_singlegal on the table's columns gives sfh and smh entries within 0.0011 + 0.00003*X + 0.0003/10**qlglgdt dex of those from the fitted parameters, X being the largest distance in dex of the halo mass from lgmcrit. When qlglgdt is at least -1 and X at most 3 this is at most 0.005 dex, about one percent. For the shortest quenching durations in bounds (0.001 dex) the same bound only guarantees about 0.3 dex.", "quantifier": "All numbers of ranks with at least two galaxies each, fitted parameters in bounds, halo histories, times and fb >= 0, for any rounding to single precision accurate to 2**-24 relative plus 1e-40.", "why_tests_cant": "Ranges over all real-valued parameters and all tables (a continuum); a test samples finitely many points.", "anchors": ["diffstar/fitting_helpers/diffstar_fitting_helpers.py: get_outline", "diffstar/fitting_helpers/diffstar_fitting_helpers.py: write_collated_data", "diffstar/sfh_model.py: calc_sfh_singlegal"]}
