{
 "claims": [
  {
   "property": "C01",
   "status": "proved",
   "theorems": [
    "C01_min",
    "C01_max",
    "C01_order_laws_binary64",
    "C01_order_laws_exact"
   ],
   "note": "For every number type satisfying the order laws; laws proved for binary64 (any libm) and for exact arithmetic. Integers beyond 2^53 mixed with floats are modelled through conversion."
  },
  {
   "property": "C02",
   "status": "proved",
   "theorems": [
    "C02_mean_numeric",
    "C02_mean_exact",
    "C02_mean_number",
    "C02_mean_empty"
   ],
   "note": "Generic in the number type (sum / count with whatever np.sum computes) and exact over the reals."
  },
  {
   "property": "C03",
   "status": "proved",
   "theorems": [
    "C03_all_strings_parse",
    "C03_first_unparseable",
    "C03_documented_refuted"
   ],
   "note": "REFUTED as documented; proved: exact result in both cases (all strings parse / first unparseable string) plus witnesses. float(str) is an oracle."
  },
  {
   "property": "C04",
   "status": "proved",
   "theorems": [
    "C04_median",
    "C04_median_halves",
    "C04_median_order_free",
    "C04_median_errors"
   ],
   "note": "Exact reals."
  },
  {
   "property": "C05",
   "status": "proved",
   "theorems": [
    "C05_mode",
    "C05_mode_empty"
   ],
   "note": "For every number type satisfying the order laws (binary64 included), NaNs grouped as np.unique does."
  },
  {
   "property": "C06",
   "status": "proved",
   "theorems": [
    "C06_variance",
    "C06_affine",
    "C06_errors"
   ],
   "note": "Exact reals; error order for every number type."
  },
  {
   "property": "C07",
   "status": "proved",
   "theorems": [
    "C07_skewness",
    "C07_skewness_affine",
    "C07_skewness_symmetric",
    "C07_skewness_constant"
   ],
   "note": "Exact reals; constant data give NaN (0/0)."
  },
  {
   "property": "C08",
   "status": "proved",
   "theorems": [
    "C08_kurtosis",
    "C08_kurtosis_affine",
    "C08_pearson"
   ],
   "note": "Exact reals; Pearson's inequality by Cauchy-Schwarz."
  },
  {
   "property": "C09",
   "status": "proved",
   "theorems": [
    "C09_tke",
    "C09_tke_mean_flow",
    "C09_reynolds",
    "C09_covariance",
    "C09_errors"
   ],
   "note": "Exact reals."
  },
  {
   "property": "C10",
   "status": "proved",
   "theorems": [
    "C10_moving_average",
    "C10_errors",
    "C10_binary64_drift_refuted"
   ],
   "note": "Exact reals; error behaviour for every number type. In binary64 the incremental update drifts: refuting witness on [1e17,1,0,0]."
  },
  {
   "property": "C11",
   "status": "proved",
   "theorems": [
    "C11_nan_spreads_refuted",
    "C11_refuted",
    "C11_nan_laws_exact",
    "C11_nan_laws_binary64"
   ],
   "note": "REFUTED as documented: for every number type that propagates NaN (exact and binary64) every average from the NaN onwards is NaN."
  },
  {
   "property": "C12",
   "status": "proved",
   "theorems": [
    "C12_recurrence",
    "C12_closed_form_and_range",
    "C12_alpha_rejected",
    "C12_alpha_rejected_any_number",
    "C12_empty"
   ],
   "note": "Recurrence for every number type (binary64 included); closed form and range over exact reals."
  },
  {
   "property": "C13",
   "status": "proved",
   "theorems": [
    "C13_integer_truncation",
    "C13_refuted"
   ],
   "note": "REFUTED: integer records follow the recurrence with truncation at each step; family of witnesses of every length."
  },
  {
   "property": "C14",
   "status": "proved",
   "theorems": [
    "C14_weighted_moving_average",
    "C14_errors",
    "C14_last_sample_ignored"
   ],
   "note": "Exact reals; errors and independence of the last sample for every number type."
  },
  {
   "property": "C15",
   "status": "proved",
   "theorems": [
    "C15_diagonal_average"
   ],
   "note": "Exact reals, all shapes L x K."
  },
  {
   "property": "C16",
   "status": "proved",
   "theorems": [
    "C16_ssa_projection",
    "C16_ssa_identity",
    "C16_window_too_long",
    "C16_window_zero",
    "C16_window_one_too_long",
    "C16_window_one"
   ],
   "note": "Exact reals; np.linalg.eigh is an oracle returning any L x L matrix."
  },
  {
   "property": "C17",
   "status": "proved",
   "theorems": [
    "C17_kalman",
    "C17_affine",
    "C17_gain_converges",
    "C17_singular"
   ],
   "note": "Exact reals; plus geometric convergence of the gain and affine equivariance."
  },
  {
   "property": "C18",
   "status": "proved",
   "theorems": [
    "C18_last_valid_data",
    "C18_mean_value",
    "C18_median_value",
    "C18_simple_moving_average",
    "C18_exponential_moving_average",
    "C18_weighted_moving_average",
    "C18_singular_spectrum_analysis"
   ],
   "note": "Every number type, any index list (negative, repeated); SSA for every eigenvector routine."
  },
  {
   "property": "C19",
   "status": "proved",
   "theorems": [
    "C19_nearest_before",
    "C19_nearest_exists"
   ],
   "note": "Every number type."
  },
  {
   "property": "C20",
   "status": "proved",
   "theorems": [
    "C20_refuted"
   ],
   "note": "REFUTED for every record and every number type."
  },
  {
   "property": "C21",
   "status": "proved",
   "theorems": [
    "C21_mean_value",
    "C21_mean_value_every_arithmetic",
    "C21_mean_value_errors",
    "C21_median_value",
    "C21_median_value_errors"
   ],
   "note": "Exact reals and, for the mean, every number type; error cases for every number type."
  },
  {
   "property": "C22",
   "status": "proved",
   "theorems": [
    "C22_chord",
    "C22_chord_every_arithmetic"
   ],
   "note": "Exact reals (chord formula) and every number type (the operations performed)."
  },
  {
   "property": "C23",
   "status": "proved",
   "theorems": [
    "C23_trailing",
    "C23_leading",
    "C23_refuted"
   ],
   "note": "REFUTED at the beginning of the record, proved at the end; exact reals."
  },
  {
   "property": "C24",
   "status": "proved",
   "theorems": [
    "C24_rounded",
    "C24_error",
    "C24_refuted"
   ],
   "note": "REFUTED as 'unchanged'; proved: rounded, with error bound (exact reals) and as np.around of the sample (every number type)."
  },
  {
   "property": "C25",
   "status": "proved",
   "theorems": [
    "C25_refuted",
    "C25_integer_record"
   ],
   "note": "REFUTED for every record."
  },
  {
   "property": "C26",
   "status": "proved",
   "theorems": [
    "C26_window",
    "C26_returns",
    "C26_previous_sample_ignored",
    "C26_refuted"
   ],
   "note": "REFUTED; samples used characterised for every spline routine and every number type with a NaN; shift by beta/2 for the exact not-a-knot spline (spline oracle specified by a hypothesis, shown satisfiable)."
  },
  {
   "property": "C27",
   "status": "proved",
   "theorems": [
    "C27_simple",
    "C27_exponential",
    "C27_weighted_refuted",
    "C27_weighted_errors",
    "C27_spectrum",
    "C27_spectrum_raises",
    "C27_spectrum_identity"
   ],
   "note": "REFUTED for the weighted average; simple and exponential proved (exact reals)."
  },
  {
   "property": "C28",
   "status": "proved",
   "theorems": [
    "C28_refuted",
    "C28_array_raises"
   ],
   "note": "REFUTED for every input."
  },
  {
   "property": "C29",
   "status": "proved",
   "theorems": [
    "C29_single_refuted",
    "C29_one_early_refuted",
    "C29_tenth_first_refuted",
    "C29_tenth_kept_refuted",
    "C29_regression",
    "C29_returns"
   ],
   "note": "REFUTED; the failing cases and the regression case for every number type, sklearn fit is an oracle."
  },
  {
   "property": "C30",
   "status": "proved",
   "theorems": [
    "C30_replacement",
    "C30_kalman",
    "C30_averages"
   ],
   "note": "Heap model, every number type and dtype; contents equal the pure models, so all other theorems carry over."
  },
  {
   "property": "C31",
   "status": "proved",
   "theorems": [
    "C31_structure",
    "C31_exact",
    "C31_first",
    "C31_mirror",
    "C31_bad_tag"
   ],
   "note": "Structure for every number type; thresholds in exact reals."
  },
  {
   "property": "C32",
   "status": "proved",
   "theorems": [
    "C32_structure",
    "C32_exact",
    "C32_constant",
    "C32_empty"
   ],
   "note": "Structure for every number type; geometric characterisation in exact reals (with the code's 4-decimal rounding of the angle kept)."
  },
  {
   "property": "C33",
   "status": "proved",
   "theorems": [
    "C33_poincare",
    "C33_unique",
    "C33_phasespace_scaled",
    "C33_phasespace_refuted"
   ],
   "note": "Proved for poincare.calculate_ab (exact reals); REFUTED for phasespace.calculate_parameters for every non-zero angle and variance."
  },
  {
   "property": "C34",
   "status": "proved",
   "theorems": [
    "C34_structure",
    "C34_exact",
    "C34_refuted"
   ],
   "note": "REFUTED for every record and every c2 >= 0; the unremovable set is as documented."
  },
  {
   "property": "C35",
   "status": "proved",
   "theorems": [
    "C35_decided",
    "C35_refuted",
    "C35_mean_flow"
   ],
   "note": "REFUTED as total; domain of success decided exactly in exact reals; mean-flow invariance proved."
  },
  {
   "property": "C36",
   "status": "proved",
   "theorems": [
    "C36_structure",
    "C36_short",
    "C36_gradient",
    "C36_nan_moments",
    "C36_nan_moments_none",
    "C36_margin",
    "C36_origin",
    "C36_refuted"
   ],
   "note": "Proved outside an explicit rounding margin; REFUTED without it."
  },
  {
   "property": "C37",
   "status": "proved",
   "theorems": [
    "C37_structure",
    "C37_exact",
    "C37_bounds",
    "C37_refuted",
    "C37_errors"
   ],
   "note": "REFUTED; range 0..200 proved and attained."
  },
  {
   "property": "C38",
   "status": "proved",
   "theorems": [
    "C38_structure",
    "C38_brackets",
    "C38_refuted"
   ],
   "note": "REFUTED at the edges; characterisation proved for every number type with order laws as stated."
  },
  {
   "property": "C39",
   "status": "proved",
   "theorems": [
    "C39_structure",
    "C39_exact",
    "C39_affine"
   ],
   "note": "Structure for every number type; differences in exact reals."
  },
  {
   "property": "C40",
   "status": "proved",
   "theorems": [
    "C40_union",
    "C40_plane",
    "C40_peak",
    "C40_derivatives",
    "C40_isometry",
    "C40_angle"
   ],
   "note": "Union and ordering for every number type and every density oracle; isometry in exact reals."
  },
  {
   "property": "C41",
   "status": "proved",
   "theorems": [
    "C41_total",
    "C41_mass"
   ],
   "note": "Total for every number type; the values for exact reals with infinities and NaN."
  },
  {
   "property": "C42",
   "status": "proved",
   "theorems": [
    "C42_unit"
   ],
   "note": "Exact reals; constant data give NaN."
  },
  {
   "property": "C43",
   "status": "proved",
   "theorems": [
    "C43_refuted",
    "C43_even",
    "C43_kernel_refuted"
   ],
   "note": "REFUTED for every odd size >= 3, every number type and FFT; even sizes are proved accepted."
  },
  {
   "property": "C44",
   "status": "proved",
   "theorems": [
    "C44_search",
    "C44_terminates_f64"
   ],
   "note": "All outcomes of the two scipy calls. Exact reals with the full result; binary64 for termination."
  },
  {
   "property": "C45",
   "status": "proved",
   "theorems": [
    "C45_nonneg",
    "C45_grid",
    "C45_constant",
    "C45_points"
   ],
   "note": "Sign for every number type; grid vectors for exact reals. The FFT is any length-preserving function, the root search any function that returns."
  },
  {
   "property": "C46",
   "status": "proved",
   "theorems": [
    "C46_root",
    "C46_total",
    "C46_endpoints",
    "C46_plain"
   ],
   "note": "Exact reals for the tolerance claim (any continuous target) and the convergence bound; packaging and end-point roots for every number type."
  },
  {
   "property": "C47",
   "status": "proved",
   "theorems": [
    "C47_inside",
    "C47_trace",
    "C47_member"
   ],
   "note": "Inside the bracket in exact reals; dependence on evaluated points only for every number type."
  },
  {
   "property": "C48",
   "status": "proved",
   "theorems": [
    "C48_valueerror",
    "C48_calls",
    "C48_refuted"
   ],
   "note": "REFUTED for every target (no ValueError on non-convergence, call count one short); every number type."
  },
  {
   "property": "C49",
   "status": "proved",
   "theorems": [
    "C49_budget",
    "C49_plain",
    "C49_trace",
    "C49_inside",
    "C49_refuted"
   ],
   "note": "Termination and effort for every number type; bounds in exact reals; REFUTED for limits below 2."
  },
  {
   "property": "C50",
   "status": "proved",
   "theorems": [
    "C50_unimodal",
    "C50_converges",
    "C50_refuted"
   ],
   "note": "REFUTED: the returned point is the last evaluated one, its value is not the reported one; accuracy for unimodal targets proved in exact reals."
  },
  {
   "property": "C51",
   "status": "proved",
   "theorems": [
    "C51_cdf",
    "C51_laws",
    "C51_errors",
    "C51_pointwise"
   ],
   "note": "Exact reals (with infinities) for the values and the analytic laws, including the Gaussian integral; exceptions, shape and pointwise behaviour for every number type."
  },
  {
   "property": "C52",
   "status": "proved",
   "theorems": [
    "C52_refuted"
   ],
   "note": "REFUTED for every integer array (exact reals)."
  },
  {
   "property": "C53",
   "status": "proved",
   "theorems": [
    "C53_pdf",
    "C53_density",
    "C53_log_pdf",
    "C53_sf",
    "C53_bad_std"
   ],
   "note": "Exact reals. A standard deviation <= 0 is not rejected and gives NaN."
  },
  {
   "property": "C54",
   "status": "proved",
   "theorems": [
    "C54_refuted"
   ],
   "note": "REFUTED for every data set, number type and alternative: both tests always raise."
  },
  {
   "property": "C55",
   "status": "proved",
   "theorems": [
    "C55_skew",
    "C55_exactly",
    "C55_kurt"
   ],
   "note": "Exact reals; also the constants of the kurtosis test from 5 observations on."
  },
  {
   "property": "C56",
   "status": "proved",
   "theorems": [
    "C56_low_to_low",
    "C56_low_to_high",
    "C56_low_to_band",
    "C56_low_to_stop",
    "C56_raises"
   ],
   "note": "Exact complex numbers. low_to_high / low_to_stop need roots different from 0 (the code divides by them) and, for the gain (np.real of a product), conjugate-closed roots. The ValueError part for every number type."
  },
  {
   "property": "C57",
   "status": "proved",
   "theorems": [
    "C57_tustin",
    "C57_raises"
   ],
   "note": "Exact complex numbers; no root at 2 fs (the code divides by 2 fs - root)."
  },
  {
   "property": "C58",
   "status": "proved",
   "theorems": [
    "C58_prototype",
    "C58_raises",
    "C58_raises_special"
   ],
   "note": "Exact complex numbers."
  },
  {
   "property": "C59",
   "status": "proved",
   "theorems": [
    "C59_analog",
    "C59_digital",
    "C59_sampling_rate"
   ],
   "note": "Exact complex numbers, 1-D array of critical frequencies."
  },
  {
   "property": "C60",
   "status": "proved",
   "theorems": [
    "C60_response_analog",
    "C60_response_digital",
    "C60_half_power",
    "C60_unit_gain_analog",
    "C60_unit_gain_digital",
    "C60_blocked"
   ],
   "note": "Exact complex numbers."
  },
  {
   "property": "C61",
   "status": "proved",
   "theorems": [
    "C61_checks",
    "C61_case"
   ],
   "note": "Every number type; checks in order, first failing one decides."
  },
  {
   "property": "C62",
   "status": "proved",
   "theorems": [
    "C62_expand",
    "C62_butterworth"
   ],
   "note": "Exact complex numbers."
  },
  {
   "property": "C63",
   "status": "proved",
   "theorems": [
    "C63_nr",
    "C63_kd",
    "C63_ml",
    "C63_quotient",
    "C63_exact",
    "C63_butterworth",
    "C63_empty",
    "C63_raises"
   ],
   "note": "Exact complex numbers; argsort is any function returning a permutation of the positions. 'kd' and 'ml' have hypotheses on the counts (even, real zeros, or one real pole); C76 and C77 show failures outside them; the tolerance of _cxr is explicit (snap), see C78."
  },
  {
   "property": "C64",
   "status": "proved",
   "theorems": [
    "C64_random_index"
   ],
   "note": "Every number type, every stream of draws."
  },
  {
   "property": "C65",
   "status": "proved",
   "theorems": [
    "C65_terminates",
    "C65_refuted",
    "C65_raises",
    "C65_count"
   ],
   "note": "REFUTED from 100 + 100/size percent on (never returns), proved below; NaN and infinite percentages raise (C65_raises); every number type."
  },
  {
   "property": "C66",
   "status": "proved",
   "theorems": [
    "C66_noise_effect"
   ],
   "note": "Every number type; r is the vector drawn by np.random.normal."
  },
  {
   "property": "C67",
   "status": "proved",
   "theorems": [
    "C67_overlap",
    "C67_refuted",
    "C67_blocks"
   ],
   "note": "REFUTED: the percentage is passed as a number of samples; the two readings agree exactly for overlap 0 or block 100. Only the arguments handed to scipy.signal.welch are modelled. C67_blocks: with the defaults every record of 4096 samples or more is averaged over strictly fewer blocks than with the documented half-block overlap (8 instead of 16 for the 18000 samples of the dataset)."
  },
  {
   "property": "C68",
   "status": "proved",
   "theorems": [
    "C68_formula",
    "C68_refuted"
   ],
   "note": "REFUTED at skewness 0; closed form delta*arcsinh elsewhere (exact reals)."
  },
  {
   "property": "C69",
   "status": "proved",
   "theorems": [
    "C69_refuted"
   ],
   "note": "REFUTED for every even grid (exact reals, exact FFT)."
  },
  {
   "property": "C70",
   "status": "proved",
   "theorems": [
    "C70_k"
   ],
   "note": "Exact reals."
  },
  {
   "property": "C71",
   "status": "proved",
   "theorems": [
    "C71_psi",
    "C71_evolve",
    "C71_closed",
    "C71_stages"
   ],
   "note": "Exact reals."
  },
  {
   "property": "C72",
   "status": "proved",
   "theorems": [
    "C72_refuted"
   ],
   "note": "REFUTED for every grid >= 2 (exact reals); the cells used in C41_mass."
  },
  {
   "property": "C73",
   "status": "proved",
   "theorems": [
    "C73_refuted"
   ],
   "note": "REFUTED for every pair of bandwidths (exact reals, exact FFT)."
  },
  {
   "property": "C74",
   "status": "proved",
   "theorems": [
    "C74_rotation"
   ],
   "note": "Exact reals."
  },
  {
   "property": "C75",
   "status": "proved",
   "theorems": [
    "C75_refuted"
   ],
   "note": "REFUTED for every order (exact reals with NaN)."
  },
  {
   "property": "C76",
   "status": "proved",
   "theorems": [
    "C76_refuted"
   ],
   "note": "REFUTED by a witness in binary64, for every libm."
  },
  {
   "property": "C77",
   "status": "proved",
   "theorems": [
    "C77_refuted"
   ],
   "note": "REFUTED by a witness in binary64, for every libm."
  },
  {
   "property": "C78",
   "status": "proved",
   "theorems": [
    "C78_refuted"
   ],
   "note": "REFUTED for every e in (0, 100/2^52] (exact reals)."
  },
  {
   "property": "C79",
   "status": "proved",
   "theorems": [
    "C79_refuted"
   ],
   "note": "REFUTED for every heap, array and number type; with c2 >= 0 the contents happen not to change (C34_exact)."
  },
  {
   "property": "C80",
   "status": "proved",
   "theorems": [
    "C80_covariance",
    "C80_errors",
    "C80_singular_iff_collinear"
   ],
   "note": "exact arithmetic"
  },
  {
   "property": "C81",
   "status": "proved",
   "theorems": [
    "C81_estimation",
    "C81_scott_kde",
    "C81_uncorrelated",
    "C81_refuted"
   ],
   "note": "REFUTED: C81_refuted (witness cloud, every grid); C81_estimation says what is computed"
  },
  {
   "property": "C82",
   "status": "proved",
   "theorems": [
    "C82_plane",
    "C82_plane_errors",
    "C82_detector",
    "C82_period_two",
    "C82_short",
    "C82_same_indices"
   ],
   "note": "exact arithmetic, kde := Scott's estimate as in C81_scott_kde for the iff; the failures hold for every kde oracle"
  },
  {
   "property": "C83",
   "status": "proved",
   "theorems": [
    "C83_acceleration",
    "C83_phasespace",
    "C83_spherical",
    "C83_correlation",
    "C83_acceleration_pass",
    "C83_phasespace_pass",
    "C83_spherical_pass",
    "C83_correlation_pass",
    "C83_untouched"
   ],
   "note": "every number type; the characterisation of the acceleration pass is in exact arithmetic. CSV reading and drawing are not modelled."
  },
  {
   "property": "C84",
   "status": "proved",
   "theorems": [
    "C84_acceleration",
    "C84_phasespace",
    "C84_spherical",
    "C84_correlation",
    "C84_round_once"
   ],
   "note": "exact arithmetic for the three interpolating scripts, every number type for the correlation script (which can also raise, see C83 example)."
  },
  {
   "property": "C85",
   "status": "proved",
   "theorems": [
    "C85_falling_first",
    "C85_refuted"
   ],
   "note": "REFUTED: C85_falling_first (all records without falling spikes) and C85_refuted (witness)."
  },
  {
   "property": "C86",
   "status": "proved",
   "theorems": [
    "C86_plane",
    "C86_detector_refuted",
    "C86_script_refuted",
    "C86_scott"
   ],
   "note": "REFUTED for every record in general position and every estimate not largest at the corner; exact arithmetic, |grid| >= 3."
  },
  {
   "property": "C87",
   "status": "proved",
   "theorems": [
    "C87_detect",
    "C87_script_refuted",
    "C87_nothing_flagged"
   ],
   "note": "REFUTED for every record; exact arithmetic, kde := Scott's estimate as in C81_scott_kde; C87_detect for any estimate."
  },
  {
   "property": "C88",
   "status": "proved",
   "theorems": [
    "C88_exact",
    "C88_binary64",
    "C88_refuted"
   ],
   "note": "REFUTED by C88_refuted in binary64, for every libm; C88_binary64 bounds the error for all n up to 2^50."
  },
  {
   "property": "C89",
   "status": "proved",
   "theorems": [
    "C89_mean",
    "C89_median",
    "C89_averages",
    "C89_exponential",
    "C89_toward_zero",
    "C89_refuted",
    "C89_nan",
    "C89_polynomial"
   ],
   "note": "REFUTED: C89_refuted (witness); C89_mean, C89_median, C89_averages, C89_exponential, C89_nan, C89_polynomial give what is written for all integer records. Mean, median and exponential average in exact arithmetic, the rest for every number type."
  },
  {
   "property": "C90",
   "status": "proved",
   "theorems": [
    "C90_binary64",
    "C90_refuted"
   ],
   "note": "REFUTED: C90_refuted (witness, every libm); C90_binary64 for all doubles in range."
  },
  {
   "property": "C91",
   "status": "proved",
   "theorems": [
    "C91_acceleration",
    "C91_phasespace",
    "C91_spherical"
   ],
   "note": "binary64, every libm, every order of summation; samples above 10^12, infinite or NaN are not covered."
  },
  {
   "property": "C92",
   "status": "proved",
   "theorems": [
    "C92_binary64",
    "C92_refuted",
    "C92_overflow_refuted",
    "C92_order_exists"
   ],
   "note": "REFUTED: C92_refuted and C92_overflow_refuted (witnesses, every order of summation); C92_binary64 is the error bound, C92_order_exists shows the hypothesis on summation is satisfiable."
  },
  {
   "property": "C93",
   "status": "proved",
   "theorems": [
    "C93_binary64",
    "C93_refuted"
   ],
   "note": "sign: C93_binary64 for all records whose sum is finite; vanishing on constant records REFUTED by C93_refuted."
  },
  {
   "property": "C94",
   "status": "proved",
   "theorems": [
    "C94_median"
   ],
   "note": "REFUTED when the two middle samples overflow (third clause of C94_median), true otherwise."
  },
  {
   "property": "C95",
   "status": "proved",
   "theorems": [
    "C95_scaling",
    "C95_refuted"
   ],
   "note": "true without overflow, REFUTED with (second clause of C95_scaling for every record; C95_refuted is a witness)."
  },
  {
   "property": "C96",
   "status": "proved",
   "theorems": [
    "C96_refuted"
   ],
   "note": "REFUTED by C96_refuted: one constant record for every length, every libm."
  },
  {
   "property": "C97",
   "status": "proved",
   "theorems": [
    "C97_gain",
    "C97_range",
    "C97_refuted"
   ],
   "note": "REFUTED as the exact range (C97_refuted: initial state 1, measurement 2^-60, zero measurement noise); proved with a margin of 2^-50 of the magnitude for records of any length."
  },
  {
   "property": "C98",
   "status": "proved",
   "theorems": [
    "C98_accuracy"
   ],
   "note": "Every libm; reference: the exact weighted sum of the real values of the samples."
  },
  {
   "property": "C99",
   "status": "proved",
   "theorems": [
    "C99_accuracy"
   ],
   "note": "Every order of summation of the leading windows; upper bound only, no claim that the drift is attained."
  },
  {
   "property": "C100",
   "status": "proved",
   "theorems": [
    "C100_accuracy"
   ],
   "note": "Every order of summation; periods up to 2^26, for which the weights are summed exactly."
  },
  {
   "property": "C101",
   "status": "proved",
   "theorems": [
    "C101_accuracy",
    "C101_libm_exists"
   ],
   "note": "erf and erfc are assumed accurate to 2^-50 (hypothesis erf_accurate, met by the correctly rounded libm, C101_libm_exists)."
  },
  {
   "property": "C102",
   "status": "proved",
   "theorems": [
    "C102_refuted"
   ],
   "note": "REFUTED for every array of doubles >= 9 and every libm with accurate erfc."
  },
  {
   "property": "C103",
   "status": "proved",
   "theorems": [
    "C103_welch",
    "C103_blocks"
   ],
   "note": "scipy.signal.welch and hann are modelled from their documentation; the FFT is an oracle assumed to compute the discrete Fourier transform where the statement says exact_fft."
  },
  {
   "property": "C104",
   "status": "proved",
   "theorems": [
    "C104_affine",
    "C104_trailing"
   ],
   "note": "scipy.signal.welch and hann are modelled from their documentation; the FFT is an oracle assumed to compute the discrete Fourier transform where the statement says exact_fft."
  },
  {
   "property": "C105",
   "status": "proved",
   "theorems": [
    "C105_energy"
   ],
   "note": "scipy.signal.welch and hann are modelled from their documentation; the FFT is an oracle assumed to compute the discrete Fourier transform where the statement says exact_fft."
  },
  {
   "property": "C106",
   "status": "proved",
   "theorems": [
    "C106_errors"
   ],
   "note": "scipy.signal.welch and hann are modelled from their documentation; the FFT is an oracle assumed to compute the discrete Fourier transform where the statement says exact_fft."
  },
  {
   "property": "C107",
   "status": "proved",
   "theorems": [
    "C107_refuted"
   ],
   "note": "REFUTED: every density value is NaN for a block of two samples."
  },
  {
   "property": "C108",
   "status": "proved",
   "theorems": [
    "C108_law",
    "C108_refuted",
    "C108_empty",
    "C108_nan"
   ],
   "note": "REFUTED for spectra with a zero; C108_law is the positive part."
  },
  {
   "property": "C109",
   "status": "proved",
   "theorems": [
    "C109_refuted",
    "C109_lists",
    "C109_kurtosis",
    "C109_nan",
    "C109_skewness"
   ],
   "note": "REFUTED for arrays of dimension two or more and for lists; C109_nan and C109_kurtosis are the positive parts. Elements that are strings are excluded."
  },
  {
   "property": "C110",
   "status": "proved",
   "theorems": [
    "C110_refuted",
    "C110_accurate",
    "C110_range",
    "C110_same",
    "C110_empty"
   ],
   "note": "REFUTED by two samples of 2^62; C110_accurate, C110_range and C110_same are the positive parts."
  },
  {
   "property": "C111",
   "status": "proved",
   "theorems": [
    "C111_refuted",
    "C111_parallel",
    "C111_vectors",
    "C111_noise",
    "C111_dot",
    "C111_broadcast",
    "C111_parts"
   ],
   "note": "REFUTED for more than one state; C111_parallel gives the shapes that work. Arrays of three or more dimensions are not modelled; inversion of matrices larger than 1x1 is an oracle."
  },
  {
   "property": "C112",
   "status": "proved",
   "theorems": [
    "C112_refuted",
    "C112_rows",
    "C112_complex",
    "C112_errors",
    "C112_gains"
   ],
   "note": "REFUTED when some row is not closed under conjugation; C112_rows is the positive part. Matrices of poles and arrays of three or more dimensions are not modelled."
  },
  {
   "property": "C113",
   "status": "proved",
   "theorems": [
    "C113_sign",
    "C113_reverse",
    "C113_offset"
   ],
   "note": "Sign and reversal for every list of extended reals; binary64 signed zeros are not compared. C113_offset covers finite records."
  },
  {
   "property": "C114",
   "status": "proved",
   "theorems": [
    "C114_sign"
   ],
   "note": "Extended reals; no hypothesis on lengths or degeneracy."
  },
  {
   "property": "C115",
   "status": "proved",
   "theorems": [
    "C115_unused",
    "C115_sign",
    "C115_shift"
   ],
   "note": "C115_unused in every arithmetic; C115_sign and C115_shift in exact arithmetic."
  },
  {
   "property": "C116",
   "status": "proved",
   "theorems": [
    "C116_last_valid_twice",
    "C116_refuted"
   ],
   "note": "REFUTED when both ends are flagged (C116_refuted, every arithmetic and all values); idempotent otherwise (C116_last_valid_twice)."
  },
  {
   "property": "C117",
   "status": "proved",
   "theorems": [
    "C117_interpolation_twice"
   ],
   "note": "Every arithmetic."
  },
  {
   "property": "C118",
   "status": "proved",
   "theorems": [
    "C118_mean_value_repeated",
    "C118_mean_value_limit"
   ],
   "note": "Exact arithmetic, finite records."
  },
  {
   "property": "C119",
   "status": "proved",
   "theorems": [
    "C119_unbalanced",
    "C119_sections",
    "C119_pairs",
    "C119_only_ValueError"
   ],
   "note": "Every arithmetic for _cxr, exact arithmetic for xyz_to_sop."
  },
  {
   "property": "C120",
   "status": "proved",
   "theorems": [
    "C120_pair",
    "C120_runs",
    "C120_refuted"
   ],
   "note": "REFUTED (C120_refuted, binary64, every libm); C120_pair in exact arithmetic, C120_runs in every arithmetic."
  },
  {
   "property": "C121",
   "status": "proved",
   "theorems": [
    "C121_scale",
    "C121_refuted"
   ],
   "note": "REFUTED in binary64 with Python floats (C121_refuted, every libm); C121_scale in exact arithmetic."
  },
  {
   "property": "C122",
   "status": "proved",
   "theorems": [
    "C122_inside",
    "C122_root",
    "C122_zero",
    "C122_raises"
   ],
   "note": "Binary64, every libm, Python floats and NumPy scalars; C122_raises in every arithmetic."
  },
  {
   "property": "C123",
   "status": "proved",
   "theorems": [
    "C123_refuted"
   ],
   "note": "REFUTED (C123_refuted, binary64, every libm and every maxiter)."
  },
  {
   "property": "C124",
   "status": "proved",
   "theorems": [
    "C124_iterations",
    "C124_float"
   ],
   "note": "Exact arithmetic (C124_iterations) and binary64 (C124_float)."
  },
  {
   "property": "C125",
   "status": "proved",
   "theorems": [
    "C125_refuted",
    "C125_wraps",
    "C125_true",
    "C125_f64",
    "C125_log"
   ],
   "note": "REFUTED as expected (C125_refuted); C125_wraps characterises the result, C125_true and C125_f64 give the range where the expectation holds. C125_log: the same for log_pdf, right exactly up to 3037000499 from the mean."
  },
  {
   "property": "C126",
   "status": "proved",
   "theorems": [
    "C126_elements",
    "C126_errors",
    "C126_exact",
    "C126_log_elements",
    "C126_log_errors",
    "C126_log_exact"
   ],
   "note": "Every number type (C126_elements, C126_errors) and exact arithmetic (C126_exact); C126_log_* the same for log_pdf."
  },
  {
   "property": "C127",
   "status": "proved",
   "theorems": [
    "C127_extrema",
    "C127_extrema_errors",
    "C127_mode",
    "C127_tests_never",
    "C127_tests"
   ],
   "note": "Extrema and mode as expected; for the tests the expectation is false (C127_tests_never, C127_tests)."
  },
  {
   "property": "C128",
   "status": "proved",
   "theorems": [
    "C128_correlation",
    "C128_acceleration",
    "C128_mirror"
   ],
   "note": "Records of one or two samples are left out for the correlation: there the fallback pair (1e10, 1e10) of calculate_ab does not raise and the result can depend on the unit."
  },
  {
   "property": "C129",
   "status": "proved",
   "theorems": [
    "C129_phasespace_still",
    "C129_phasespace_large_unit",
    "C129_phasespace_refuted",
    "C129_spherical_faint",
    "C129_spherical_large_unit",
    "C129_phasespace_grid"
   ],
   "note": "REFUTED as expected (C129_phasespace_refuted, C129_spherical_large_unit with the runs of C129_runs); the conditions are C129_phasespace_still, C129_spherical_faint and C129_phasespace_grid."
  },
  {
   "property": "C130",
   "status": "proved",
   "theorems": [
    "C130_bivariate",
    "C130_scott_units"
   ],
   "note": "Exact arithmetic. The density estimator is any function with density_units; C130_scott_units shows it for the model of scipy's estimate."
  },
  {
   "property": "C131",
   "status": "proved",
   "theorems": [
    "C131_limits",
    "C131_refuted"
   ],
   "note": "REFUTED as expected (C131_refuted, a record of eight samples, grid 64); C131_limits gives the result in all large and all small units. The description of the limit in small units is for maxima outside the first row and column of the grid; that the result is constant there is shown without this condition."
  },
  {
   "property": "C132",
   "status": "proved",
   "theorems": [
    "C132_moving_average",
    "C132_exponential",
    "C132_kalman",
    "C132_kalman_prefix",
    "C132_weighted_refuted"
   ],
   "note": "REFUTED for weighted_moving_average (C132_weighted_refuted, every period >= 2 and every k). The other three hold for every Num; moving_average for windows not longer than the record; the Kalman filter with scalar parameters."
  },
  {
   "property": "C133",
   "status": "proved",
   "theorems": [
    "C133_mean_median_std",
    "C133_skewness_kurtosis"
   ],
   "note": "Exact arithmetic, finite records."
  },
  {
   "property": "C134",
   "status": "proved",
   "theorems": [
    "C134_rare",
    "C134_monotone"
   ],
   "note": "Exact arithmetic, finite records."
  },
  {
   "property": "C135",
   "status": "proved",
   "theorems": [
    "C135_last_valid",
    "C135_averages",
    "C135_interpolation",
    "C135_interpolation_refuted"
   ],
   "note": "REFUTED for linear_interpolation (C135_interpolation_refuted). Exact arithmetic except C135_last_valid, which holds for every Num; cubic_12points_polynomial, kalman_filter and polynomial_replacement are not covered by this property."
  },
  {
   "property": "C136",
   "status": "proved",
   "theorems": [
    "C136_reynolds",
    "C136_energy"
   ],
   "note": "Exact arithmetic."
  },
  {
   "property": "C137",
   "status": "proved",
   "theorems": [
    "C137_accuracy",
    "C137_libm"
   ],
   "note": "Hypothesis exp_accurate on the mathematical library (Spec19.v), met by a correctly rounded one (C137_libm)."
  },
  {
   "property": "C138",
   "status": "proved",
   "theorems": [
    "C138_refuted",
    "C138_error"
   ],
   "note": "REFUTED (C138_refuted); C138_error gives where it holds and where it fails. Hypotheses exp_accurate and log(0) = -inf on the mathematical library."
  },
  {
   "property": "C139",
   "status": "proved",
   "theorems": [
    "C139_least_squares"
   ],
   "note": "Exact arithmetic; the cost is prior_cost of Spec20.v."
  },
  {
   "property": "C140",
   "status": "proved",
   "theorems": [
    "C140_steady",
    "C140_forgets"
   ],
   "note": "Exact arithmetic; C140_forgets for two different starts."
  },
  {
   "property": "C141",
   "status": "proved",
   "theorems": [
    "C141_limits"
   ],
   "note": "Exact arithmetic."
  },
  {
   "property": "C142",
   "status": "proved",
   "theorems": [
    "C142_angle",
    "C142_ends",
    "C142_refuted"
   ],
   "note": "REFUTED (C142_refuted, for all lengths and amplitudes); C142_angle is the angle the code computes. Exact arithmetic."
  },
  {
   "property": "C143",
   "status": "proved",
   "theorems": [
    "C143_search",
    "C143_search_raises",
    "C143_order",
    "C143_signs"
   ],
   "note": "C143_search holds in any arithmetic; order and signs in exact arithmetic."
  },
  {
   "property": "C144",
   "status": "proved",
   "theorems": [
    "C144_statistics",
    "C144_turbulence",
    "C144_correlation"
   ],
   "note": "Exact arithmetic; C144_statistics and C144_turbulence include NaN and infinite samples."
  },
  {
   "property": "C145",
   "status": "proved",
   "theorems": [
    "C145_formula",
    "C145_increasing",
    "C145_exists",
    "C145_refuted"
   ],
   "note": "REFUTED (C145_refuted, for all balanced two-valued samples of 36 or more observations); C145_formula decides exactly when the statistic exists. Exact arithmetic. The p-value of kurtotest is never returned (C54)."
  },
  {
   "property": "C146",
   "status": "proved",
   "theorems": [
    "C146_selective",
    "C146_order",
    "C146_limit",
    "C146_monotone",
    "C146_unimodal"
   ],
   "note": "Exact arithmetic; output form zps (C63 carries the response to second-order sections). The band edges themselves have gain exactly 1/2 (C60_half_power). C60_blocked adds that digital designs have response exactly 0 where the prototype is not finite."
  },
  {
   "property": "C147",
   "status": "proved",
   "theorems": [
    "C147_affine",
    "C147_refuted"
   ],
   "note": "REFUTED in binary64 by C147_refuted (any libm); C147_affine is the positive half in exact arithmetic."
  },
  {
   "property": "C148",
   "status": "proved",
   "theorems": [
    "C148_inside",
    "C148_result",
    "C148_unimodal"
   ],
   "note": "C148_inside: any target. C148_result: best value, flag, enclosure. C148_unimodal: distance to the minimiser. The constant 2.01 replaces the exact 2 of C50."
  },
  {
   "property": "C149",
   "status": "proved",
   "theorems": [
    "C149_same",
    "C149_first_refuted",
    "C149_linear_refuted",
    "C149_weighted_refuted",
    "C149_cubic",
    "C149_cubic_refuted",
    "C149_polynomial_refuted"
   ],
   "note": "REFUTED by C149_first_refuted, C149_linear_refuted, C149_weighted_refuted, C149_cubic_refuted, C149_polynomial_refuted; C149_same and C149_cubic are the true parts."
  },
  {
   "property": "C150",
   "status": "proved",
   "theorems": [
    "C150_between",
    "C150_overflow_refuted"
   ],
   "note": "REFUTED for all finite doubles by C150_overflow_refuted; C150_between is the true part (neighbours up to 2^900)."
  },
  {
   "property": "C151",
   "status": "proved",
   "theorems": [
    "C151_sections",
    "C151_butterworth"
   ],
   "note": "C151_sections for every successful run; C151_butterworth for the designs."
  },
  {
   "property": "C152",
   "status": "proved",
   "theorems": [
    "C152_pairing",
    "C152_butterworth"
   ],
   "note": "C152_pairing; C152_butterworth for the digital designs."
  },
  {
   "property": "C153",
   "status": "proved",
   "theorems": [
    "C153_moving_average",
    "C153_weighted",
    "C153_exponential",
    "C153_kalman"
   ],
   "note": "Exact arithmetic; binary64 accuracy is in C97-C100."
  },
  {
   "property": "C154",
   "status": "proved",
   "theorems": [
    "C154_all_flagged",
    "C154_mean_refuted",
    "C154_script"
   ],
   "note": "REFUTED for the function (C154_mean_refuted); true for the script in exact arithmetic (C154_script)."
  },
  {
   "property": "C155",
   "status": "proved",
   "theorems": [
    "C155_fixed_point_refuted",
    "C155_left_end"
   ],
   "note": "REFUTED: the zeros of the target are not the fixed points. Exact arithmetic."
  },
  {
   "property": "C156",
   "status": "proved",
   "theorems": [
    "C156_rejected",
    "C156_two_samples_refuted"
   ],
   "note": "REFUTED for two samples (C156_two_samples_refuted); true from three samples on."
  },
  {
   "property": "C157",
   "status": "proved",
   "theorems": [
    "C157_copies",
    "C157_simple",
    "C157_interpolation",
    "C157_correlation_script",
    "C157_polynomial_refuted"
   ],
   "note": "REFUTED for polynomial_replacement (C157_polynomial_refuted, for every regression reproducing straight lines); true for the other methods, interpolation up to rounding."
  },
  {
   "property": "C158",
   "status": "proved",
   "theorems": [
    "C158_changed",
    "C158_zero_mean_refuted"
   ],
   "note": "REFUTED for records with mean zero (C158_zero_mean_refuted); true otherwise (C158_changed)."
  },
  {
   "property": "C159",
   "status": "proved",
   "theorems": [
    "C159_stresses",
    "C159_energy_refuted"
   ],
   "note": "REFUTED for the energy (C159_energy_refuted) and for components with a single sample (C159_stresses, which decides every case)."
  },
  {
   "property": "C160",
   "status": "proved",
   "theorems": [
    "C160_last_valid",
    "C160_interpolation",
    "C160_cubic_single",
    "C160_mean_refuted",
    "C160_median_refuted",
    "C160_moving_average_refuted",
    "C160_exponential_refuted",
    "C160_trailing_refuted",
    "C160_cubic_refuted"
   ],
   "note": "REFUTED for mean, median, moving averages, trailing interpolation and neighbouring cubic spikes; true for last_valid_data, interpolation before the end and a single cubic spike."
  },
  {
   "property": "C161",
   "status": "proved",
   "theorems": [
    "C161_mean_median",
    "C161_averages",
    "C161_last_valid_refuted",
    "C161_interpolation_refuted",
    "C161_cubic_refuted"
   ],
   "note": "REFUTED for last_valid_data, linear_interpolation and cubic_12points_polynomial; true for the mean, the median and the moving averages."
  },
  {
   "property": "C162",
   "status": "proved",
   "theorems": [
    "C162_reversed",
    "C162_reversed_refuted",
    "C162_rate",
    "C162_mirror"
   ],
   "note": "REFUTED for the direction of time when samples are left over (C162_reversed_refuted); the rest is true."
  },
  {
   "property": "C163",
   "status": "proved",
   "theorems": [
    "C163_block_refuted",
    "C163_rising"
   ],
   "note": "REFUTED (C163_block_refuted gives exactly what is flagged); C163_rising holds on every record."
  },
  {
   "property": "C164",
   "status": "proved",
   "theorems": [
    "C164_mean",
    "C164_correlation_script",
    "C164_others_refuted"
   ],
   "note": "REFUTED for last_valid_data, linear_interpolation, median_value and simple_moving_average (C164_others_refuted); true for mean_value and the correlation script."
  },
  {
   "property": "C165",
   "status": "proved",
   "theorems": [
    "C165_simple",
    "C165_exponential",
    "C165_kalman",
    "C165_singular_spectrum",
    "C165_synthetic",
    "C165_weighted",
    "C165_weighted_short",
    "C165_weighted_refuted"
   ],
   "note": "REFUTED for the weighted moving average (C165_weighted, C165_weighted_refuted); true for the simple and exponential averages and the Kalman filter; the singular spectrum script uses later samples too (C165_singular_spectrum)."
  },
  {
   "property": "C166",
   "status": "proved",
   "theorems": [
    "C166_mean",
    "C166_even",
    "C166_odd_refuted",
    "C166_unit",
    "C166_origin_refuted"
   ],
   "note": "REFUTED for an odd number of spikes (C166_odd_refuted) and for a change of origin (C166_origin_refuted); true for an even number of spikes and a change of unit."
  },
  {
   "property": "C167",
   "status": "proved",
   "theorems": [
    "C167_last_valid",
    "C167_linear",
    "C167_constant",
    "C167_constant_every_arithmetic",
    "C167_constant_binary64",
    "C167_line",
    "C167_mean_refuted",
    "C167_median"
   ],
   "note": "REFUTED for mean_value (C167_mean_refuted); true for last_valid_data, linear_interpolation and, on constant records, median_value."
  },
  {
   "property": "C168",
   "status": "proved",
   "theorems": [
    "C168_one_spike",
    "C168_refuted",
    "C168_falling_refuted"
   ],
   "note": "REFUTED for two or more spikes (C168_refuted, C168_falling_refuted); true for one spike (C168_one_spike)."
  }
 ]
}