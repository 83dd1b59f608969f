# Formal model of proadv in Rocq (Coq 8.16.1)

Everything is under `/verif/rocq/theories` (logical name `Verif`). The code was not run: the model was written by
reading `/repo` as text, and every definition cites the file and lines it models together with its simplifications.

## 1. Layout

| files | content |
|---|---|
| `Num.v`, `NpBase.v` | number structure, exceptions, Python/NumPy indexing, slices, masks, index sets |
| `XR.v`, `F64.v`, `F64ex.v` | the two instances of the number structure; two concrete libm records used to run examples |
| `M_*.v` | the model, one file per group of modules, no proofs |
| `Spec.v` ... `Spec37.v` | the reference definitions the theorems are stated with (sums, means, medians, ellipses, transfer functions, runs of passes, ...); they do not use the model |
| `Lib.v`, `LibR.v`, `P_*.v` | proofs |
| `Props_*.v` | the property theorems `Cxx_...`, each closed by `exact lemma`, with `Print Assumptions` beneath, and `Example`s showing that hypotheses can be met |
| `Repo_tests.v` | checks of the model: the repository's unit tests and the printed results of its docstrings, computed by the binary64 instance |

## 2. How numbers are modelled

All numeric code is written once, polymorphically over a record `Num` (`Num.v`) of the primitive operations that
Python, NumPy and libm supply (`+ - * /`, comparisons, `isnan`, `rint`, truncation, `np.sum`, `np.prod`, `sqrt`, `sin`,
`erf`, ...). The record contains operations only, no law.

* Theorems quantified over **every** `N : Num` hold in particular for IEEE binary64 with any libm and any order of
  summation (frame conditions, lengths, exceptions, index sets, termination, aliasing, the exact sequence of
  operations). Some add order laws (`ord_laws`) or NaN laws (`nan_laws`), which are proved for both instances.
* `XR`: exact real arithmetic extended with NaN and the two infinities following the IEEE special-value rules, without
  signed zero and without rounding error. Algebraic and analytic theorems are about this instance; the explicit
  `np.around` calls of the code are kept. `Fin x` is a finite value, `fins l` a list of them.
* `F64 L`: Flocq's binary64 (round to nearest even) with an arbitrary libm `L`, which also supplies `np.sum`,
  `np.prod` and powers. Where a property needs a fact about summation, it is a hypothesis (`sums_somehow`: some binary
  tree of rounded additions), shown satisfiable by an instance. Refutations in binary64 hold for every `L` unless
  they name one.
* `butter.py` works on complex numbers: a complex128 is a pair over `Num`, with NumPy's formulas (Smith's division,
  principal square root). The theorems transport this to Coquelicot's `C` on finite values (`cf`, `cfs`).

Exceptions are values: `res A := Ok a | Raise e` with the exception class. Python/NumPy negative indexing, slices, the
truncation on storing into an integer array, and copies versus in-place writes (heap model `M_heap.v`) are explicit.
Loops that need not terminate carry fuel and return `option`; termination theorems say that the fuel suffices.

## 3. Oracles (external code: a parameter of the model, never an axiom)

`float(str)`, `np.linalg.eigh`, `scipy.interpolate.interp1d`, scikit-learn's polynomial regression, scipy's `brentq` and
`fminbound` called by `kernel.root`, `scipy.stats.gaussian_kde` (also instantiated by Scott's estimate computed as scipy
does from 1.10 on, C80-C82), `np.fft.fft`, `np.argsort` (any permutation sorting the keys), `np.random` (any stream of
draws), libm. Where a theorem needs a fact about one of these, the fact is a visible hypothesis of that theorem.

## 4. What is modelled and what is not

| source | model | left out |
|---|---|---|
| `statistics/descriptive.py`, `spread.py`, `moment.py` | `M_descriptive.v`, whole; `M_arrays.v` (lists and arrays of any dimension for mean, median, variance, std, skewness, kurtosis; int64 sums of the mean); `M_pdf.v` (minimum, maximum and mode of containers) | int64 sums elsewhere (C110_same says when this makes no difference); `mode` of strings |
| `statistics/series.py` | `M_series.v`, whole; `M_kalman.v` (Kalman filter for arguments of every shape up to two dimensions) | Kalman arguments of three or more dimensions |
| `filtration/replacement/replacements.py` | `M_replacement.v` (values), `M_heap.v` (objects), whole | record dimension > 1; dtypes other than float64 and int64; int64 overflow |
| `filtration/detection/*.py` | `M_detection.v`, `M_trikde.v`, whole | `gaussian_kde` called through an oracle or as Scott's estimate; warnings |
| `kernel/bivariate.py` | `M_kernel.v`, whole | lines 403-409 (computed, never used); `_discrete_cosine_2d` on a matrix without rows |
| `statistics/optimize/optimize.py` | `M_optimize.v`, whole | a target function that raises or has side effects |
| `statistics/distributions/normal.py` | `M_normal.v`, whole; `M_pdf.v` (`pdf` and `log_pdf` with array-valued `std` and `mean` and of int64 arrays, the two tests on containers) | `pdf` and `log_pdf` of int64 arrays with parameters that are not integers or do not fit into an int64 |
| `statistics/signal/fluid.py`, `synthetic.py` | `M_signal.v`, whole | |
| `statistics/signal/spectrum.py` | whole, with `scipy.signal.windows.hann` and `scipy.signal.welch` written out from their documentation (symmetric window, constant detrending, density scaling, mean over blocks) | the FFT itself (a parameter), complex or multi-dimensional records, non-integer overlap |
| `examples/signal/spectrum.py` | lines 22-33, the end points of the reference line | reading the file, plotting |
| `statistics/signal/butter.py` | `M_butter.v`, whole; `M_ptf.v` (matrices of zeros and arrays of gains, lines 442-450) | matrices of poles, arrays of three or more dimensions, non-numeric strings as sampling rate |
| `examples/filtration/*.py` | `M_pipeline.v` | reading the CSV file, drawing (but the length of the time axis is modelled) |
| `examples/signal/simple-moving-average.py`, `exponential-moving-average.py`, `weighted-moving-average.py`, `kalman.py`, `singular-spectrum.py`, `synthetic.py` | `M_curves.v` | reading the file, seeding, labels, axis limits |
| `setup.py`, docs | not modelled | |

Common simplifications: dtype is float64 or int64; signed zeros are distinguished in `F64` only; warnings and printed
text are ignored.

## 5. Trusted base

* Coq's kernel (8.16.1) and `coqc`; libraries Flocq and Coquelicot as installed, which add no axiom of their own.
* The axioms `Print Assumptions` lists, all of them from the standard library's real numbers and classical logic:
  `ClassicalDedekindReals.sig_forall_dec`, `ClassicalDedekindReals.sig_not_dec`,
  `FunctionalExtensionality.functional_extensionality_dep`, `Classical_Prop.classic`. No axiom is added here; the list
  per theorem is in section 6. The theorems about every number structure are closed under the global context.
* The reading of the Python source, and of NumPy's and SciPy's documented behaviour, recorded in the comments of the
  model. `Repo_tests.v` runs the repository's own unit tests and docstring
  examples on the binary64 model.
* The English statements in `properties.jsonl` and the definitions in `Spec*.v` the formal statements are written with.


## 6. Property by property

The code after a theorem name lists the axioms `Print Assumptions` reports for it: `d` = `ClassicalDedekindReals.sig_forall_dec`, `n` = `ClassicalDedekindReals.sig_not_dec`, `f` = `FunctionalExtensionality.functional_extensionality_dep`, `c` = `Classical_Prop.classic`, `-` = closed under the global context.


### C01 min and max return the true extremum or a documented error

Theorems (`Props_descriptive`): `C01_min` (-), `C01_max` (-), `C01_order_laws_binary64` (dnfc), `C01_order_laws_exact` (dnfc).

Scope: For every number type satisfying the order laws; laws proved for binary64 (any libm) and for exact arithmetic. Integers beyond 2^53 mixed with floats are modelled through conversion.

Model and proof: `desc_min`/`desc_max` over `pyval` sequences; fold invariant using `ord_laws`, which `order_laws_*` prove for both instances.


### C02 mean of a numeric sequence is sum divided by count

Theorems (`Props_descriptive`): `C02_mean_numeric` (-), `C02_mean_exact` (dnfc), `C02_mean_number` (-), `C02_mean_empty` (-).

Scope: Generic in the number type (sum / count with whatever np.sum computes) and exact over the reals.

Model and proof: `desc_mean` and its loop `mean_step`; when no element is a string the loop is the identity, then `np.sum / len`.


### C03 mean of a sequence with strings ignores exactly the non-numeric strings

Theorems (`Props_descriptive`): `C03_all_strings_parse` (-), `C03_first_unparseable` (-), `C03_documented_refuted` (dnfc).

Scope: REFUTED as documented; proved: exact result in both cases (all strings parse / first unparseable string) plus witnesses. float(str) is an oracle.

Model and proof: `mean_step` keeps the rebinding of `array` inside the loop over the original elements; induction on the position of the first unparseable string, with two concrete sequences refuting the documented reading.


### C04 median is the middle order statistic

Theorems (`Props_descriptive`): `C04_median` (dnfc), `C04_median_halves` (dnfc), `C04_median_order_free` (dnfc), `C04_median_errors` (-).

Scope: Exact reals.

Model and proof: `np_median` on an insertion sort; counting lemmas for sorted permutations (`P_order`).


### C05 mode is the most frequent value, ties to the smallest

Theorems (`Props_descriptive`): `C05_mode` (-), `C05_mode_empty` (-).

Scope: For every number type satisfying the order laws (binary64 included), NaNs grouped as np.unique does.

Model and proof: runs of the sorted array and `first_max`; counts related to `count_occ`-like reference by sortedness.


### C06 variance and standard deviation are the population moments

Theorems (`Props_descriptive`): `C06_variance` (dnfc), `C06_affine` (dnfc), `C06_errors` (-).

Scope: Exact reals; error order for every number type.

Model and proof: finite-sum algebra in exact reals (`P_moment`); zero variance iff constant from a sum of squares.


### C07 skewness is the standardised third moment

Theorems (`Props_descriptive`): `C07_skewness` (dnfc), `C07_skewness_affine` (dnfc), `C07_skewness_symmetric` (dnfc), `C07_skewness_constant` (dnfc).

Scope: Exact reals; constant data give NaN (0/0).

Model and proof: finite-sum algebra; symmetry by a permutation argument.


### C08 kurtosis is the standardised fourth moment and obeys Pearson's bound

Theorems (`Props_descriptive`): `C08_kurtosis` (dnfc), `C08_kurtosis_affine` (dnfc), `C08_pearson` (dnfc).

Scope: Exact reals; Pearson's inequality by Cauchy-Schwarz.

Model and proof: Pearson's inequality from Cauchy-Schwarz applied to d^2 - skew*d*sigma - sigma^2.


### C09 turbulent kinetic energy and Reynolds stresses are second central moments

Theorems (`Props_descriptive`): `C09_tke` (dnfc), `C09_tke_mean_flow` (dnfc), `C09_reynolds` (dnfc), `C09_covariance` (df), `C09_errors` (-).

Scope: Exact reals.

Model and proof: `fluct`, `kinetic_turbulent_energy`, `reynolds_stresses`; Cauchy-Schwarz for the covariances.


### C10 moving_average is the trailing-window mean at every index

Theorems (`Props_series`): `C10_moving_average` (dnfc), `C10_errors` (-), `C10_binary64_drift_refuted` (dnfc).

Scope: Exact reals; error behaviour for every number type. In binary64 the incremental update drifts: refuting witness on [1e17,1,0,0].

Model and proof: two loops with `setz`; loop invariant: entries before the index hold the window means, the incremental update telescopes. The binary64 drift is computed on Flocq numbers.


### C11 a missing sample only affects the windows that contain it

Theorems (`Props_series`): `C11_nan_spreads_refuted` (-), `C11_refuted` (dnfc), `C11_nan_laws_exact` (dnfc), `C11_nan_laws_binary64` (dnfc).

Scope: REFUTED as documented: for every number type that propagates NaN (exact and binary64) every average from the NaN onwards is NaN.

Model and proof: NaN propagates through `prev + (a - b)/w`; induction over the second loop for any structure with `nan_laws`.


### C12 exponential moving average is the documented recurrence and stays within the data range

Theorems (`Props_series`): `C12_recurrence` (-), `C12_closed_form_and_range` (dnfc), `C12_alpha_rejected` (dnfc), `C12_alpha_rejected_any_number` (-), `C12_empty` (-).

Scope: Recurrence for every number type (binary64 included); closed form and range over exact reals.

Model and proof: invariant of the loop; closed form by induction; range by convexity.


### C13 exponential moving average follows the recurrence for integer records too

Theorems (`Props_series`): `C13_integer_truncation` (-), `C13_refuted` (dnfc).

Scope: REFUTED: integer records follow the recurrence with truncation at each step; family of witnesses of every length.

Model and proof: `store DInt` truncates; the constant-zero family is proved for every length by induction.


### C14 weighted moving average weights and alignment

Theorems (`Props_series`): `C14_weighted_moving_average` (dnfc), `C14_errors` (-), `C14_last_sample_ignored` (-).

Scope: Exact reals; errors and independence of the last sample for every number type.

Model and proof: loop over `np.append`; slice lemmas.


### C15 diagonal averaging returns the mean of each anti-diagonal

Theorems (`Props_series`): `C15_diagonal_average` (dnfc).

Scope: Exact reals, all shapes L x K.

Model and proof: three loops of `_diagonal_average`; invariant per loop, both orientations through `transpose`.


### C16 SSA with every component kept reproduces the record

Theorems (`Props_series`): `C16_ssa_projection` (dnfc), `C16_ssa_identity` (dnfc), `C16_window_too_long` (-), `C16_window_zero` (-), `C16_window_one_too_long` (-), `C16_window_one` (dnfc).

Scope: Exact reals; np.linalg.eigh is an oracle returning any L x L matrix.

Model and proof: trajectory matrix, oracle `eigh`; when the selected eigenvectors are all of an orthonormal basis the projection is the identity, then C15.


### C17 Kalman filter gain, covariance and estimates

Theorems (`Props_series`): `C17_kalman` (dnfc), `C17_affine` (dnfc), `C17_gain_converges` (dnfc), `C17_singular` (dnfc).

Scope: Exact reals; plus geometric convergence of the gain and affine equivariance.

Model and proof: scalar Riccati recursion; invariants 0 < K < 1 and 0 < P < R; contraction gives geometric convergence of the gain.


### C18 replacement never touches samples that were not flagged

Theorems (`Props_replacement`): `C18_last_valid_data` (-), `C18_mean_value` (-), `C18_median_value` (-), `C18_simple_moving_average` (-), `C18_exponential_moving_average` (-), `C18_weighted_moving_average` (-), `C18_singular_spectrum_analysis` (-).

Scope: Every number type, any index list (negative, repeated); SSA for every eigenvector routine.

Model and proof: frame lemma for `setz`, `fancy_set`, `fancy_set_many` (any index list) lifted through each function.


### C19 last_valid_data replaces each spike by the last valid sample before it

Theorems (`Props_replacement`): `C19_nearest_before` (-), `C19_nearest_exists` (-).

Scope: Every number type.

Model and proof: invariant of the loop over ascending indices: everything left of the current spike is already repaired.


### C20 a spike at the first sample does not import a later sample

Theorems (`Props_replacement`): `C20_refuted` (-).

Scope: REFUTED for every record and every number type.

Model and proof: index -1 denotes the last element (`pyidx`); direct computation for an arbitrary record.


### C21 mean_value and median_value write the record's mean / median at each spike

Theorems (`Props_replacement`): `C21_mean_value` (dnfc), `C21_mean_value_every_arithmetic` (-), `C21_mean_value_errors` (-), `C21_median_value` (dnfc), `C21_median_value_errors` (-).

Scope: Exact reals and, for the mean, every number type; error cases for every number type.

Model and proof: `fancy_set` of a scalar; error order: conversion, then indices.


### C22 linear_interpolation draws the chord across each interior spike run

Theorems (`Props_replacement`): `C22_chord` (dnfc), `C22_chord_every_arithmetic` (-).

Scope: Exact reals (chord formula) and every number type (the operations performed).

Model and proof: `li_run` per maximal run; runs found through `zdiff` and two masks; invariant over the list of runs.


### C23 linear_interpolation at the two ends of the record

Theorems (`Props_replacement`): `C23_trailing` (dnfc), `C23_leading` (dnfc), `C23_refuted` (dnfc).

Scope: REFUTED at the beginning of the record, proved at the end; exact reals.

Model and proof: same invariant at the two ends; the leading run goes through `np.nanmean` of one value.


### C24 linear_interpolation keeps unflagged samples

Theorems (`Props_replacement`): `C24_rounded` (-), `C24_error` (dnfc), `C24_refuted` (dnfc).

Scope: REFUTED as 'unchanged'; proved: rounded, with error bound (exact reals) and as np.around of the sample (every number type).

Model and proof: `around` of untouched entries; half-unit bound from `rint`.


### C25 linear_interpolation accepts an empty spike list

Theorems (`Props_replacement`): `C25_refuted` (-), `C25_integer_record` (-).

Scope: REFUTED for every record.

Model and proof: the two masks have one element more than an empty index array: `mask_get` raises.


### C26 cubic_12points_polynomial interpolates from the 12 nearest valid samples on each side at their true positions

Theorems (`Props_replacement`): `C26_window` (-), `C26_returns` (-), `C26_previous_sample_ignored` (-), `C26_refuted` (dnfc).

Scope: REFUTED; samples used characterised for every spline routine and every number type with a NaN; shift by beta/2 for the exact not-a-knot spline (spline oracle specified by a hypothesis, shown satisfiable).

Model and proof: `cubic_step`: slices of the original and of the NaN-filtered modified record; the spline oracle is characterised by the not-a-knot conditions, uniqueness on affine data gives the shift.


### C27 moving-average replacements use the average aligned with the spike

Theorems (`Props_replacement`, `Props_tight`): `C27_simple` (dnfc), `C27_exponential` (dnfc), `C27_weighted_refuted` (dnfc), `C27_weighted_errors` (-), `C27_spectrum` (-), `C27_spectrum_raises` (-), `C27_spectrum_identity` (dnfc).

Scope: REFUTED for the weighted average; simple and exponential proved (exact reals).

Model and proof: `take_from` of the three averages plus C10, C12, C14.


### C28 kalman_filter replacement returns the repaired record

Theorems (`Props_replacement`): `C28_refuted` (-), `C28_array_raises` (-).

Scope: REFUTED for every input.

Model and proof: `repl_kalman` returns `None` in every non-raising path.


### C29 polynomial_replacement accepts any non-empty spike list

Theorems (`Props_replacement`): `C29_single_refuted` (-), `C29_one_early_refuted` (-), `C29_tenth_first_refuted` (-), `C29_tenth_kept_refuted` (-), `C29_regression` (-), `C29_returns` (-).

Scope: REFUTED; the failing cases and the regression case for every number type, sklearn fit is an oracle.

Model and proof: `poly_step` branch by branch; state is the record and the counter `a`.


### C30 replacement does not modify the caller's arrays

Theorems (`Props_heap`): `C30_replacement` (-), `C30_kalman` (-), `C30_averages` (-).

Scope: Heap model, every number type and dtype; contents equal the pure models, so all other theorems carry over.

Model and proof: heap model: addresses, `h_copy`, element writes; simulation `sim` between heap programs and pure models shows values agree and every caller cell is unchanged.


### C31 acceleration_thresholding returns exactly the samples meeting both criteria

Theorems (`Props_detection`): `C31_structure` (-), `C31_exact` (dnfc), `C31_first` (dnfc), `C31_mirror` (dnfc), `C31_bad_tag` (-).

Scope: Structure for every number type; thresholds in exact reals.

Model and proof: `nonzero` of masks and `intersect1d`; mirror by negating the record.


### C32 phase-space detection returns exactly the points outside one of the three ellipses

Theorems (`Props_detection`): `C32_structure` (-), `C32_exact` (dnfc), `C32_constant` (dnfc), `C32_empty` (-).

Scope: Structure for every number type; geometric characterisation in exact reals (with the code's 4-decimal rounding of the angle kept).

Model and proof: `calculate_rho` against the quadratic form of a rotated ellipse (`Spec2`).


### C33 the rotated ellipse axes solve Goring and Nikora's equations

Theorems (`Props_detection`): `C33_poincare` (dnfc), `C33_unique` (dnf), `C33_phasespace_scaled` (dnfc), `C33_phasespace_refuted` (dnfc).

Scope: Proved for poincare.calculate_ab (exact reals); REFUTED for phasespace.calculate_parameters for every non-zero angle and variance.

Model and proof: 2x2 linear system solved by Cramer's rule, compared term by term with both functions.


### C34 premodification replaces removable outliers by the preceding sample

Theorems (`Props_detection`): `C34_structure` (-), `C34_exact` (dnfc), `C34_refuted` (dnfc).

Scope: REFUTED for every record and every c2 >= 0; the unremovable set is as documented.

Model and proof: the removable set is an intersection of disjoint sets when c2 >= 0.


### C35 velocity_correlation is total on non-degenerate records and ignores the mean flow

Theorems (`Props_detection`): `C35_decided` (dnfc), `C35_refuted` (dnfc), `C35_mean_flow` (dnfc).

Scope: REFUTED as total; domain of success decided exactly in exact reals; mean-flow invariance proved.

Model and proof: `calculate_ab` raises exactly when a radicand is negative; the sign conditions are polynomial inequalities in the covariances, decided by case analysis.


### C36 spherical detection flags exactly the points outside the ellipsoid

Theorems (`Props_detection`): `C36_structure` (-), `C36_short` (-), `C36_gradient` (-), `C36_nan_moments` (dnfc), `C36_nan_moments_none` (dnfc), `C36_margin` (dnfc), `C36_origin` (dnfc), `C36_refuted` (dnfc).

Scope: Proved outside an explicit rounding margin; REFUTED without it.

Model and proof: `sph_flag` with all `np.around` calls kept; interval argument with an explicit margin; the refuting point is evaluated in exact arithmetic with bounds on the square roots.


### C37 pollution_rate is a percentage

Theorems (`Props_detection`): `C37_structure` (-), `C37_exact` (dnfc), `C37_bounds` (dnfc), `C37_refuted` (dnfc), `C37_errors` (-).

Scope: REFUTED; range 0..200 proved and attained.

Model and proof: counts of two masks; the double count is exhibited.


### C38 kernel cut-offs bracket the density peak

Theorems (`Props_detection`): `C38_structure` (-), `C38_brackets` (-), `C38_refuted` (-).

Scope: REFUTED at the edges; characterisation proved for every number type with order laws as stated.

Model and proof: `first_such` over a reversed range and a range; edge cases by computation.


### C39 bivariate kernel derivative takes the smaller one-sided difference

Theorems (`Props_detection`): `C39_structure` (-), `C39_exact` (dnfc), `C39_affine` (dnfc).

Scope: Structure for every number type; differences in exact reals.

Model and proof: loop invariant over interior indices.


### C40 three-dimensional kernel detection unions three planes

Theorems (`Props_detection`): `C40_union` (-), `C40_plane` (-), `C40_peak` (-), `C40_derivatives` (dnfc), `C40_isometry` (dnfc), `C40_angle` (dnfc).

Scope: Union and ordering for every number type and every density oracle; isometry in exact reals.

Model and proof: `zunique` of an append; rotation by atan2 is an isometry.


### C41 histogram conserves mass

Theorems (`Props_kernel`): `C41_total` (-), `C41_mass` (dnfc).

Scope: Total for every number type; the values for exact reals with infinities and NaN.

Model and proof: `accumulate` adds one per sample; total is invariant; cells are in range because `k_bin` clips, NaN included.


### C42 data scaling maps each dimension onto [0,1]

Theorems (`Props_kernel`): `C42_unit` (dnfc).

Scope: Exact reals; constant data give NaN.

Model and proof: extrema from C01's folds.


### C43 the discrete cosine transform accepts any square grid

Theorems (`Props_kernel`): `C43_refuted` (-), `C43_even` (-), `C43_kernel_refuted` (-).

Scope: REFUTED for every odd size >= 3, every number type and FFT; even sizes are proved accepted.

Model and proof: number of weights versus number of reordered rows.


### C44 bandwidth root search terminates

Theorems (`Props_kernel`): `C44_search` (dnfc), `C44_terminates_f64` (dnfc).

Scope: All outcomes of the two scipy calls. Exact reals with the full result; binary64 for termination.

Model and proof: the tolerance doubles up to 0.1: measure; in binary64 through Flocq comparisons of the doubled value.


### C45 density and grid vectors of the bivariate kernel

Theorems (`Props_kernel`, `Props_target`): `C45_nonneg` (-), `C45_grid` (dnfc), `C45_constant` (dnfc), `C45_points` (-).

Scope: Sign for every number type; grid vectors for exact reals. The FFT is any length-preserving function, the root search any function that returns.

Model and proof: `np.arange` length through ceilings of real quotients; clipping of negatives for every number structure; the points for every number structure (C45_points).


### C46 brentq returns a point within tolerance of a root

Theorems (`Props_optimize`): `C46_root` (dnfc), `C46_total` (dnfc), `C46_endpoints` (-), `C46_plain` (-).

Scope: Exact reals for the tolerance claim (any continuous target) and the convergence bound; packaging and end-point roots for every number type.

Model and proof: bracket invariant of Brent's loop; intermediate value theorem; a bound on the number of iterations by potential argument.


### C47 brentq only evaluates the function inside the bracket

Theorems (`Props_optimize`): `C47_inside` (dnfc), `C47_trace` (-), `C47_member` (-).

Scope: Inside the bracket in exact reals; dependence on evaluated points only for every number type.

Model and proof: the trace of evaluation points is part of the model's result; all lie in the bracket by the invariant.


### C48 brentq reports failure and effort truthfully

Theorems (`Props_optimize`): `C48_valueerror` (-), `C48_calls` (-), `C48_refuted` (-).

Scope: REFUTED for every target (no ValueError on non-convergence, call count one short); every number type.

Model and proof: every path of `brent_loop` inspected; trace length versus reported count.


### C49 fminbound stays inside the bounds and within its evaluation budget

Theorems (`Props_optimize`): `C49_budget` (-), `C49_plain` (-), `C49_trace` (-), `C49_inside` (dnfc), `C49_refuted` (dnfc).

Scope: Termination and effort for every number type; bounds in exact reals; REFUTED for limits below 2.

Model and proof: `fmin_loop` carries the count; fuel `max limit 2` suffices; bracket invariant keeps points inside.


### C50 fminbound returns the best point it has seen together with its value

Theorems (`Props_optimize`): `C50_unimodal` (dnfc), `C50_converges` (dnfc), `C50_refuted` (dnfc).

Scope: REFUTED: the returned point is the last evaluated one, its value is not the reported one; accuracy for unimodal targets proved in exact reals.

Model and proof: invariant: `f_fcur` is the least value in the trace; for strictly unimodal targets the minimiser stays in the bracket.


### C51 normal cdf is a distribution function

Theorems (`Props_normal`): `C51_cdf` (dnfc), `C51_laws` (dnfc), `C51_errors` (-), `C51_pointwise` (-).

Scope: Exact reals (with infinities) for the values and the analytic laws, including the Gaussian integral; exceptions, shape and pointwise behaviour for every number type.

Model and proof: erf as an integral (Coquelicot), the Gaussian integral by the classical auxiliary-function proof (`P_gauss`).


### C52 cdf is the same for integer-typed input

Theorems (`Props_normal`): `C52_refuted` (dnfc).

Scope: REFUTED for every integer array (exact reals).

Model and proof: `store DInt` truncates a value strictly between 0 and 1 to 0.


### C53 pdf, log_pdf, sf, log_cdf, log_sf agree with their definitions

Theorems (`Props_normal`): `C53_pdf` (dnfc), `C53_density` (dnfc), `C53_log_pdf` (dnfc), `C53_sf` (dnfc), `C53_bad_std` (dnfc).

Scope: Exact reals. A standard deviation <= 0 is not rejected and gives NaN.

Model and proof: exp/log algebra.


### C54 skewtest and kurtotest return a statistic and a p-value

Theorems (`Props_normal`): `C54_refuted` (-).

Scope: REFUTED for every data set, number type and alternative: both tests always raise.

Model and proof: `p_value` calls `cdf` with a 0-d value, whose iteration raises TypeError.


### C55 skewtest constants are well defined exactly from 8 samples on

Theorems (`Props_normal`): `C55_skew` (dnfc), `C55_exactly` (dnfc), `C55_kurt` (dnfc).

Scope: Exact reals; also the constants of the kurtosis test from 5 observations on.

Model and proof: polynomial inequalities in n (nia/nra after substitution).


### C56 analog filter transformations substitute the frequency variable

Theorems (`Props_butter`): `C56_low_to_low` (dnfc), `C56_low_to_high` (dnfc), `C56_low_to_band` (dnfc), `C56_low_to_stop` (dnfc), `C56_raises` (-).

Scope: Exact complex numbers. low_to_high / low_to_stop need roots different from 0 (the code divides by them) and, for the gain (np.real of a product), conjugate-closed roots. The ValueError part for every number type.

Model and proof: transfer functions as products over root lists; polynomial identities per root, gain by conjugate closure.


### C57 bilinear is the Tustin substitution and preserves stability

Theorems (`Props_butter`): `C57_tustin` (dnfc), `C57_raises` (-).

Scope: Exact complex numbers; no root at 2 fs (the code divides by 2 fs - root).

Model and proof: Moebius map of the left half plane to the disc.


### C58 buttap is the Butterworth prototype

Theorems (`Props_butter`): `C58_prototype` (dnfc), `C58_raises` (dnfc), `C58_raises_special` (dnfc).

Scope: Exact complex numbers.

Model and proof: roots of -1 and the product of (s - pole) over all 2N roots.


### C59 every designed Butterworth filter is stable

Theorems (`Props_butter`): `C59_analog` (dnfc), `C59_digital` (dnfc), `C59_sampling_rate` (dnfc).

Scope: Exact complex numbers, 1-D array of critical frequencies.

Model and proof: C56-C58 composed along `butterworth`; quadratic roots for band types have negative real part.


### C60 critical frequency is the half-power point

Theorems (`Props_butter`, `Props_bwsel`): `C60_response_analog` (dnfc), `C60_response_digital` (dnfc), `C60_half_power` (dnfc), `C60_unit_gain_analog` (dnfc), `C60_unit_gain_digital` (dnfc), `C60_blocked` (dnfc).

Scope: Exact complex numbers.

Model and proof: |H|^2 carried through each substitution; tangent warping cancels under the bilinear map.


### C61 butterworth validates its arguments

Theorems (`Props_butter`, `Props_worst`): `C61_checks` (-), `C61_case` (-).

Scope: Every number type; checks in order, first failing one decides.

Model and proof: the checks in order as one decision list; every number structure.


### C62 xyz_to_ptf expands zeros, poles, gain to the same rational function

Theorems (`Props_butter`): `C62_expand` (dnfc), `C62_butterworth` (dnfc).

Scope: Exact complex numbers.

Model and proof: `np_poly` folds `poly_step`; evaluation homomorphism; conjugate symmetry makes coefficients real.


### C63 second-order sections multiply back to the filter

Theorems (`Props_butter`): `C63_nr` (dnfc), `C63_kd` (dnfc), `C63_ml` (dnfc), `C63_quotient` (dnfc), `C63_exact` (dnf), `C63_butterworth` (dnfc), `C63_empty` (dnfc), `C63_raises` (-).

Scope: Exact complex numbers; argsort is any function returning a permutation of the positions. 'kd' and 'ml' have hypotheses on the counts (even, real zeros, or one real pole); C76 and C77 show failures outside them; the tolerance of _cxr is explicit (snap), see C78.

Model and proof: `_cxr` returns a permutation of one member per conjugate pair plus the reals; loop invariant `pre` on the remaining multisets per pairing mode; rows multiply to the product of the removed factors.


### C64 random spike positions are distinct, sorted, in range and of the requested number

Theorems (`Props_signal`): `C64_random_index` (-).

Scope: Every number type, every stream of draws.

Model and proof: invariant of the draw loop over an arbitrary stream; insertion sort.


### C65 noise generation terminates

Theorems (`Props_signal`): `C65_terminates` (-), `C65_refuted` (-), `C65_raises` (-), `C65_count` (dnfc).

Scope: REFUTED from 100 + 100/size percent on (never returns), proved below; NaN and infinite percentages raise (C65_raises); every number type.

Model and proof: pigeonhole on distinct indices.


### C66 synthetic noise perturbs only the selected samples, with alternating signs

Theorems (`Props_signal`): `C66_noise_effect` (-).

Scope: Every number type; r is the vector drawn by np.random.normal.

Model and proof: the additive vector is zero outside the drawn indices.


### C67 power_spectra overlap is a percentage of the block

Theorems (`Props_signal`, `Props_spectrum`): `C67_overlap` (-), `C67_refuted` (-), `C67_blocks` (dnfc).

Scope: REFUTED: the percentage is passed as a number of samples; the two readings agree exactly for overlap 0 or block 100. Only the arguments handed to scipy.signal.welch are modelled. C67_blocks: with the defaults every record of 4096 samples or more is averaged over strictly fewer blocks than with the documented half-block overlap (8 instead of 16 for the 18000 samples of the dataset).

Model and proof: arguments of the call as a record; integer arithmetic. C67_blocks uses C103 with the default arguments.


### C68 the skewness statistic is an odd increasing function of the sample skewness

Theorems (`Props_normal`): `C68_formula` (dnfc), `C68_refuted` (dnfc).

Scope: REFUTED at skewness 0; closed form delta*arcsinh elsewhere (exact reals).

Model and proof: delta*arcsinh(adj/alpha) is odd and increasing; the replacement of 0 by 1 is exhibited for every n >= 8.


### C69 the 2-D discrete cosine transform is a DCT

Theorems (`Props_kernel`): `C69_refuted` (dnfc).

Scope: REFUTED for every even grid (exact reals, exact FFT).

Model and proof: with an exact DFT as oracle, the (0,0) entry of the transform of a unit mass is computed in closed form.


### C70 the constant _k is the signed odd factorial over sqrt(2 pi)

Theorems (`Props_kernel`): `C70_k` (dnfc).

Scope: Exact reals.

Model and proof: `np.arange` of odd numbers and `nprod`; induction on s.


### C71 the bandwidth recursion is well defined

Theorems (`Props_kernel`, `Props_target`): `C71_psi` (dnfc), `C71_evolve` (dnfc), `C71_closed` (dnfc), `C71_stages` (dnfc).

Scope: Exact reals.

Model and proof: positivity of weighted sums; recursion on depth; the recursion is restated in Spec29.v as a relation with exactly one value for each pair of orders.


### C72 histogram cells have equal width

Theorems (`Props_kernel`): `C72_refuted` (dnfc).

Scope: REFUTED for every grid >= 2 (exact reals); the cells used in C41_mass.

Model and proof: `digitize` against the cell boundaries k/grid.


### C73 the bivariate density integrates to 1

Theorems (`Props_kernel`): `C73_refuted` (dnfc).

Scope: REFUTED for every pair of bandwidths (exact reals, exact FFT).

Model and proof: closed form on a 2x2 grid with an exact DFT, lower bound on the mass uniform in the bandwidths.


### C74 _rotation is the angle of the regression line

Theorems (`Props_kernel`): `C74_rotation` (dnfc).

Scope: Exact reals.

Model and proof: algebra of sums.


### C75 butterworth rejects critical frequencies outside (0, Nyquist)

Theorems (`Props_butter`): `C75_refuted` (dnfc).

Scope: REFUTED for every order (exact reals with NaN).

Model and proof: every comparison with NaN is false; NaN propagates through all poles for every order.


### C76 the kd pairing never fails

Theorems (`Props_butter`): `C76_refuted` (dnfc).

Scope: REFUTED by a witness in binary64, for every libm.

Model and proof: run of the model in binary64 on small integers (vm_compute), independent of libm.


### C77 the ml pairing never fails

Theorems (`Props_butter`): `C77_refuted` (dnfc).

Scope: REFUTED by a witness in binary64, for every libm.

Model and proof: run of the model in binary64 on small integers (vm_compute), independent of libm.


### C78 second-order sections keep every pole

Theorems (`Props_butter`): `C78_refuted` (dnfc).

Scope: REFUTED for every e in (0, 100/2^52] (exact reals).

Model and proof: `snap` moves a pole within the tolerance onto the axis; quantified over all e in the interval.


### C79 phase-space premodification returns a processed copy

Theorems (`Props_heap`): `C79_refuted` (-).

Scope: REFUTED for every heap, array and number type; with c2 >= 0 the contents happen not to change (C34_exact).

Model and proof: `h_premodification` returns the address it was given and writes through it.


### C80 the evaluation dictionary holds Scott's kernel covariance

Theorems (`Props_trikde`): `C80_covariance` (dnfc), `C80_errors` (dnfc), `C80_singular_iff_collinear` (df).

Scope: exact arithmetic.

Model and proof: `np_cov` with equal weights reduces to the sample covariance; 2x2 Cholesky; Cauchy-Schwarz with equality case.


### C81 the estimation returned by kernel is the density of the rotated points

Theorems (`Props_trikde`): `C81_estimation` (dnfc), `C81_scott_kde` (dnfc), `C81_uncorrelated` (dnfc), `C81_refuted` (dnfc).

Scope: REFUTED: C81_refuted (witness cloud, every grid); C81_estimation says what is computed.

Model and proof: closed form of the estimate; the witness cloud is evaluated with bounds on exp.


### C82 three_dimensional_kernel returns for which records

Theorems (`Props_trikde`): `C82_plane` (dnfc), `C82_plane_errors` (dnfc), `C82_detector` (dnfc), `C82_period_two` (dnfc), `C82_short` (dnfc), `C82_same_indices` (-).

Scope: exact arithmetic, kde := Scott's estimate as in C81_scott_kde for the iff; the failures hold for every kde oracle.

Model and proof: collinearity of each plane decides the Cholesky factorisation; grid length decides the profile slices.


### C83 the despiking scripts stop when nothing is flagged or at the iteration limit

Theorems (`Props_pipeline`): `C83_acceleration` (-), `C83_phasespace` (-), `C83_spherical` (-), `C83_correlation` (-), `C83_acceleration_pass` (dnfc), `C83_phasespace_pass` (-), `C83_spherical_pass` (-), `C83_correlation_pass` (-), `C83_untouched` (-).

Scope: every number type; the characterisation of the acceleration pass is in exact arithmetic. CSV reading and drawing are not modelled.

Model and proof: `despike`/`accel_loop` against an inductive relation of passes (`Spec5`).


### C84 the despiking scripts keep what they never flag

Theorems (`Props_pipeline`): `C84_acceleration` (dnfc), `C84_phasespace` (dnfc), `C84_spherical` (dnfc), `C84_correlation` (-), `C84_round_once` (df).

Scope: exact arithmetic for the three interpolating scripts, every number type for the correlation script (which can also raise, see C83 example).

Model and proof: per-pass frame plus idempotence of rounding in exact arithmetic.


### C85 the acceleration script returns a record without spikes

Theorems (`Props_pipeline`): `C85_falling_first` (dnfc), `C85_refuted` (dnfc).

Scope: REFUTED: C85_falling_first (all records without falling spikes) and C85_refuted (witness).

Model and proof: first pass has tag 2; with no falling spike it flags nothing and the loop stops.


### C86 the trivariate kernel leaves a record without outliers alone

Theorems (`Props_pipeline`): `C86_plane` (dnfc), `C86_detector_refuted` (dnfc), `C86_script_refuted` (dnfc), `C86_scott` (dnfc).

Scope: REFUTED for every record in general position and every estimate not largest at the corner; exact arithmetic, |grid| >= 3.

Model and proof: the smallest rotated coordinate lies outside the lower cut-off, which is never grid point 0.


### C87 the bivariate script leaves a record without outliers alone

Theorems (`Props_pipeline`): `C87_detect` (dnfc), `C87_script_refuted` (dnfc), `C87_nothing_flagged` (-).

Scope: REFUTED for every record; exact arithmetic, kde := Scott's estimate as in C81_scott_kde; C87_detect for any estimate.

Model and proof: as C86 for the bivariate script, with Scott's estimate.


### C88 the time axis of the scripts has one entry per sample

Theorems (`Props_pipeline`): `C88_exact` (dnfc), `C88_binary64` (dnfc), `C88_refuted` (dnfc).

Scope: REFUTED by C88_refuted in binary64, for every libm; C88_binary64 bounds the error for all n up to 2^50.

Model and proof: `nceilZ` of the quotient; in binary64 an error analysis of (n*0.01)/0.01.


### C89 replaced samples of an integer record are the mean, median or moving average

Theorems (`Props_intrec`, `Props_tight`): `C89_mean` (dnfc), `C89_median` (dnfc), `C89_averages` (-), `C89_exponential` (dnfc), `C89_toward_zero` (df), `C89_refuted` (dnfc), `C89_nan` (-), `C89_polynomial` (-).

Scope: REFUTED: C89_refuted (witness); C89_mean, C89_median, C89_averages, C89_exponential, C89_nan, C89_polynomial give what is written for all integer records. Mean, median and exponential average in exact arithmetic, the rest for every number type.

Model and proof: `storable DInt` and `store DInt`.


### C90 np.around gives the nearest multiple of the unit

Theorems (`Props_float`): `C90_binary64` (dnfc), `C90_refuted` (dnfc).

Scope: REFUTED: C90_refuted (witness, every libm); C90_binary64 for all doubles in range.

Model and proof: Flocq error bounds for the product, `rint` and the quotient; idempotence because the second product is within 1/2 of the same integer.


### C91 the despiking scripts keep what they never flag, in binary64

Theorems (`Props_float`): `C91_acceleration` (dnfc), `C91_phasespace` (dnfc), `C91_spherical` (dnfc).

Scope: binary64, every libm, every order of summation; samples above 10^12, infinite or NaN are not covered.

Model and proof: the frame of C84 with C90's idempotence, in binary64.


### C92 the mean in binary64 lies between the extremes

Theorems (`Props_float`): `C92_binary64` (dnfc), `C92_refuted` (dnfc), `C92_overflow_refuted` (dnfc), `C92_order_exists` (dnfc).

Scope: REFUTED: C92_refuted and C92_overflow_refuted (witnesses, every order of summation); C92_binary64 is the error bound, C92_order_exists shows the hypothesis on summation is satisfiable.

Model and proof: standard error analysis of a summation tree; witnesses computed in binary64.


### C93 the variance in binary64 is non-negative and vanishes on constant records

Theorems (`Props_float`): `C93_binary64` (dnfc), `C93_refuted` (dnfc).

Scope: sign: C93_binary64 for all records whose sum is finite; vanishing on constant records REFUTED by C93_refuted.

Model and proof: sums of rounded squares are non-negative floats; the witness is computed.


### C94 the median in binary64 lies between the middle samples

Theorems (`Props_float`): `C94_median` (dnfc).

Scope: REFUTED when the two middle samples overflow (third clause of C94_median), true otherwise.

Model and proof: rounding is monotone, so the rounded half-sum stays between; overflow case separately.


### C95 data scaling in binary64 maps onto [0,1]

Theorems (`Props_float`): `C95_scaling` (dnfc), `C95_refuted` (dnfc).

Scope: true without overflow, REFUTED with (second clause of C95_scaling for every record; C95_refuted is a witness).

Model and proof: monotonicity of rounding for subtraction and division; overflow gives inf/inf.


### C96 the exponential average of a constant record is constant

Theorems (`Props_float`): `C96_refuted` (dnfc).

Scope: REFUTED by C96_refuted: one constant record for every length, every libm.

Model and proof: the value 3 + 2^-51 is a fixed point of the rounded recurrence; induction over the record.


### C97 Kalman estimates in binary64 stay in the data range

Theorems (`Props_float2`): `C97_gain` (dnfc), `C97_range` (dnfc), `C97_refuted` (dnfc).

Scope: REFUTED as the exact range (C97_refuted: initial state 1, measurement 2^-60, zero measurement noise); proved with a margin of 2^-50 of the magnitude for records of any length.

Model and proof: rounded gain at most 1 because 1 + 2^-53 rounds to 1; one step keeps the widened range because the gain is bounded below when the predicted covariance is, and the step is short otherwise; induction over the record.


### C98 the exponential moving average in binary64 is accurate for records of any length

Theorems (`Props_float2`): `C98_accuracy` (dnfc).

Scope: Every libm; reference: the exact weighted sum of the real values of the samples.

Model and proof: error recurrence e' <= (1 - a)e + 7u M solved both as a sum and as a geometric series.


### C99 the moving average in binary64 drifts at most linearly

Theorems (`Props_float2`): `C99_accuracy` (dnfc).

Scope: Every order of summation of the leading windows; upper bound only, no claim that the drift is attained.

Model and proof: recurrence of the running update for every number type (ma_recurrence), one rounded subtraction, division and addition per sample, induction.


### C100 the weighted moving average in binary64 is accurate

Theorems (`Props_float2`): `C100_accuracy` (dnfc).

Scope: Every order of summation; periods up to 2^26, for which the weights are summed exactly.

Model and proof: each window: products, a sum in any order (tree_sum), an exactly computed weight sum, one division.


### C101 the normal distribution function in binary64 is accurate

Theorems (`Props_float2`): `C101_accuracy` (dnfc), `C101_libm_exists` (dnfc).

Scope: erf and erfc are assumed accurate to 2^-50 (hypothesis erf_accurate, met by the correctly rounded libm, C101_libm_exists).

Model and proof: error of x*c against x/sqrt 2, mean value theorem with |t| g(t) <= 1/2, then the three branches of the loop. erf and erfc enter only through the hypothesis erf_accurate.


### C102 the survival function resolves the upper tail

Theorems (`Props_float2`): `C102_refuted` (dnfc).

Scope: REFUTED for every array of doubles >= 9 and every libm with accurate erfc.

Model and proof: erfc y <= 2 exp(-y^2) from the identity of the Gaussian integral, exp(-39) <= 1/(33*10^15) by integer arithmetic, and 1 - t rounds to 1 for t <= 2^-54.


### C103 power_spectra is Welch's estimate with a symmetric Hann window

Theorems (`Props_spectrum`): `C103_welch` (dnfc), `C103_blocks` (-).

Scope: scipy.signal.welch and hann are modelled from their documentation; the FFT is an oracle assumed to compute the discrete Fourier transform where the statement says exact_fft.

Model and proof: hann window, block extraction, detrending, scaling and folding rewritten one after the other from extended reals to reals; the block count by division bounds. C103_blocks: a block is used exactly when it fits into the record.


### C104 power_spectra ignores the level of the record and the samples after the last complete block

Theorems (`Props_spectrum`): `C104_affine` (dnfc), `C104_trailing` (-).

Scope: scipy.signal.welch and hann are modelled from their documentation; the FFT is an oracle assumed to compute the discrete Fourier transform where the statement says exact_fft.

Model and proof: affine maps commute with block extraction and pull out of the detrended, tapered block; appending samples leaves every block and the quotient (n - overlap) / step unchanged.


### C105 the area under the power spectrum is the windowed variance

Theorems (`Props_spectrum`): `C105_energy` (dnfc).

Scope: scipy.signal.welch and hann are modelled from their documentation; the FFT is an oracle assumed to compute the discrete Fourier transform where the statement says exact_fft.

Model and proof: Parseval by expanding the squares and the orthogonality of cosines (Dirichlet kernel at multiples of 2 pi / block); the one-sided sum by the symmetry of the coefficients k and block - k, even and odd blocks separately.


### C106 power_spectra raises exactly on impossible blocks

Theorems (`Props_spectrum`): `C106_errors` (-).

Scope: scipy.signal.welch and hann are modelled from their documentation; the FFT is an oracle assumed to compute the discrete Fourier transform where the statement says exact_fft.

Model and proof: case distinction along the branches of the model; lengths of arange and of the window.


### C107 power_spectra of a finite record is finite

Theorems (`Props_spectrum`): `C107_refuted` (dnfc).

Scope: REFUTED: every density value is NaN for a block of two samples.

Model and proof: the window of length 2 is 0, 0; the scale is infinite and 0 * inf is NaN in every block.


### C108 the reference line of the spectrum script is a -5/3 power law

Theorems (`Props_spectrum`): `C108_law` (dnfc), `C108_refuted` (dnfc), `C108_empty` (-), `C108_nan` (dnfc).

Scope: REFUTED for spectra with a zero; C108_law is the positive part.

Model and proof: minimum and maximum of finite lists by induction; algebra of ln and exp.


### C109 kurtosis flattens arrays and all moments take any array_like

Theorems (`Props_arrays`): `C109_refuted` (-), `C109_lists` (-), `C109_kurtosis` (-), `C109_nan` (-), `C109_skewness` (-).

Scope: REFUTED for arrays of dimension two or more and for lists; C109_nan and C109_kurtosis are the positive parts. Elements that are strings are excluded.

Model and proof: the model of the container (list, or array with its dimension) is followed branch by branch; NaN propagates through subtraction, power, sum and division by the laws.


### C110 the mean of an integer array is the exact mean up to rounding

Theorems (`Props_arrays`): `C110_refuted` (dnfc), `C110_accurate` (dnfc), `C110_range` (-), `C110_same` (dnfc), `C110_empty` (-).

Scope: REFUTED by two samples of 2^62; C110_accurate, C110_range and C110_same are the positive parts.

Model and proof: binary64 addition of small integers is exact (also in the sign of zero), so every summation tree gives the float of the integer sum; relative error of two roundings; wrap-around computed for the counterexample.


### C111 kalman_filter takes array-valued states and noises

Theorems (`Props_arrays`): `C111_refuted` (-), `C111_parallel` (-), `C111_vectors` (-), `C111_noise` (-), `C111_dot` (dnfc), `C111_broadcast` (-), `C111_parts` (-).

Scope: REFUTED for more than one state; C111_parallel gives the shapes that work. Arrays of three or more dimensions are not modelled; inversion of matrices larger than 1x1 is an oracle.

Model and proof: np.dot, broadcasting, inv, eye and len are modelled on arrays with explicit shapes; one step is computed for all 81 shape combinations with the row of states symbolic, the loop by induction; for the other shapes the first failing call is found by cases. np.dot is proved to be sums of products by induction, broadcasting entry by entry.


### C112 a matrix of zeros gives one numerator per row

Theorems (`Props_ptf`): `C112_refuted` (dnfc), `C112_rows` (dnfc), `C112_complex` (dnfc), `C112_errors` (-), `C112_gains` (dnfc).

Scope: REFUTED when some row is not closed under conjugation; C112_rows is the positive part. Matrices of poles and arrays of three or more dimensions are not modelled.

Model and proof: the real/complex dtype of the result is the test inside np.poly; that test is equivalent to closure under conjugation (sorting by a total order does not depend on the arrangement); loop by induction.


### C113 phase-space detection does not depend on the sign or the direction of time

Theorems (`Props_symm`): `C113_sign` (dnfc), `C113_reverse` (dnfc), `C113_offset` (dnfc).

Scope: Sign and reversal for every list of extended reals; binary64 signed zeros are not compared. C113_offset covers finite records.

Model and proof: negation commutes with every operation of the extended reals (rounding half to even is odd), so derivatives change sign, deviations and distances do not; reversal reverses derivatives with a sign, sums do not depend on the order; with angle 0 the distance is even in each coordinate.


### C114 velocity correlation detection does not depend on the sign of a component

Theorems (`Props_symm`): `C114_sign` (dnfc).

Scope: Extended reals; no hypothesis on lengths or degeneracy.

Model and proof: angle and one coordinate change sign together, the semi-axes use even powers of sine and cosine only.


### C115 spherical detection depends on the fluctuations only

Theorems (`Props_symm`): `C115_unused` (-), `C115_sign` (dnfc), `C115_shift` (dnfc).

Scope: C115_unused in every arithmetic; C115_sign and C115_shift in exact arithmetic.

Model and proof: the two parameters only enter a value that is not used; the sign by the same rules as C113, the offset because the mean of the valid samples moves by the offset.


### C116 replacing twice by the last valid sample changes nothing more

Theorems (`Props_repeat`): `C116_last_valid_twice` (-), `C116_refuted` (-).

Scope: REFUTED when both ends are flagged (C116_refuted, every arithmetic and all values); idempotent otherwise (C116_last_valid_twice).

Model and proof: the result of one call is described position by position (C19, C20); the second call agrees with it by strong induction on the position.


### C117 interpolating twice over the same interior runs changes nothing more

Theorems (`Props_repeat`): `C117_interpolation_twice` (-).

Scope: Every arithmetic.

Model and proof: each flagged position lies in a maximal run whose neighbours are unflagged and unchanged, so both calls compute the same chord.


### C118 repeated mean replacement converges to the mean of the good samples

Theorems (`Props_repeat`): `C118_mean_value_repeated` (dnfc), `C118_mean_value_limit` (dnfc).

Scope: Exact arithmetic, finite records.

Model and proof: the mean after one call is an affine function of the value written, with factor k/n; induction on the number of calls; powers of a factor below one vanish.


### C119 roots without a conjugate partner are rejected

Theorems (`Props_unpaired`): `C119_unbalanced` (-), `C119_sections` (dnfc), `C119_pairs` (-), `C119_only_ValueError` (-).

Scope: Every arithmetic for _cxr, exact arithmetic for xyz_to_sop.

Model and proof: sorting and re-sorting chunks are permutations, so the numbers above and below the axis do not change; padding zeros lie on the axis.


### C120 roots in approximate conjugate pairs are accepted

Theorems (`Props_unpaired`): `C120_pair` (dnfc), `C120_runs` (-), `C120_refuted` (dnfc).

Scope: REFUTED (C120_refuted, binary64, every libm); C120_pair in exact arithmetic, C120_runs in every arithmetic.

Model and proof: run lengths by induction on the list; the counterexample is two pairs near -3 +- 4i evaluated in binary64.


### C121 brentq does not depend on the scale of the target

Theorems (`Props_brent2`): `C121_scale` (dnfc), `C121_refuted` (dnfc).

Scope: REFUTED in binary64 with Python floats (C121_refuted, every libm); C121_scale in exact arithmetic.

Model and proof: all quantities homogeneous in the target are scaled step by step through the loop; the counterexample is evaluated in binary64.


### C122 brentq in binary64 stays in the bracket and brackets what it returns

Theorems (`Props_brent2`): `C122_inside` (dnfc), `C122_root` (dnfc), `C122_zero` (dnfc), `C122_raises` (-).

Scope: Binary64, every libm, Python floats and NumPy scalars; C122_raises in every arithmetic.

Model and proof: sign bits of the trial step computed through every rounding (also for infinite and NaN intermediate values), monotone rounding for the moves, induction over the loop.


### C123 brentq converges when given enough iterations

Theorems (`Props_brent2`): `C123_refuted` (dnfc).

Scope: REFUTED (C123_refuted, binary64, every libm and every maxiter).

Model and proof: after nine iterations the loop state is a fixed point of the iteration, checked by evaluation for both kinds of scalars; induction on maxiter.


### C124 brentq needs at most the square of the number of bisections

Theorems (`Props_brent2`): `C124_iterations` (dnfc), `C124_float` (dnfc).

Scope: Exact arithmetic (C124_iterations) and binary64 (C124_float).

Model and proof: a level of the bracket lasts at most 2n+1 interpolation steps because accepted steps halve every second time; with rounding a step may overshoot by a quarter of the tolerance, hence the ratio 3/2.


### C125 the density of an integer array is the normal density

Theorems (`Props_pdf`): `C125_refuted` (dnfc), `C125_wraps` (dnfc), `C125_true` (dnfc), `C125_f64` (dnfc), `C125_log` (dnfc).

Scope: REFUTED as expected (C125_refuted); C125_wraps characterises the result, C125_true and C125_f64 give the range where the expectation holds. C125_log: the same for log_pdf, right exactly up to 3037000499 from the mean.

Model and proof: int64 arithmetic as integers modulo 2^64 (M_pdf.v); the square of a wrapped difference is the wrapped square, then monotonicity of exp.


### C126 pdf and log_pdf with array-valued mean and std work element by element

Theorems (`Props_pdf`): `C126_elements` (-), `C126_errors` (-), `C126_exact` (dnfc), `C126_log_elements` (-), `C126_log_errors` (-), `C126_log_exact` (dnfc).

Scope: Every number type (C126_elements, C126_errors) and exact arithmetic (C126_exact); C126_log_* the same for log_pdf.

Model and proof: NumPy broadcasting as repetition of row-major data (M_pdf.v); the position arithmetic of P_pdf.v shows that expanding twice is expanding once and links it with multi-indices (Spec15.v).


### C127 array functions take arrays of any dimension

Theorems (`Props_pdf`): `C127_extrema` (-), `C127_extrema_errors` (-), `C127_mode` (-), `C127_tests_never` (-), `C127_tests` (-).

Scope: Extrema and mode as expected; for the tests the expectation is false (C127_tests_never, C127_tests).

Model and proof: case analysis on the container; extrema through C01, tests through the fact that cdf of a scalar raises.


### C128 correlation and acceleration detection do not depend on the unit of velocity

Theorems (`Props_units`): `C128_correlation` (dnfc), `C128_acceleration` (dnfc), `C128_mirror` (dnfc).

Scope: Records of one or two samples are left out for the correlation: there the fallback pair (1e10, 1e10) of calculate_ab does not raise and the result can depend on the unit.

Model and proof: every operation on extended reals is followed through the scaling (homogeneous of degree 0, 1 or 2); negative factors through the sign theorem C114.


### C129 phase-space detection does not depend on the unit of velocity

Theorems (`Props_units`): `C129_phasespace_still` (dnfc), `C129_phasespace_large_unit` (dnfc), `C129_phasespace_refuted` (dnfc), `C129_spherical_faint` (dnfc), `C129_spherical_large_unit` (dnfc), `C129_phasespace_grid` (dnfc).

Scope: REFUTED as expected (C129_phasespace_refuted, C129_spherical_large_unit with the runs of C129_runs); the conditions are C129_phasespace_still, C129_spherical_faint and C129_phasespace_grid.

Model and proof: below half a unit of the fourth decimal everything rounds to zero and the degenerate ellipses give NaN, which no comparison exceeds; on multiples of 4e-4 both differences are exact, so the scaling argument of C128 applies.


### C130 the bivariate kernel script does not depend on the unit of velocity

Theorems (`Props_units2`): `C130_bivariate` (dnfc), `C130_scott_units` (dnfc).

Scope: Exact arithmetic. The density estimator is any function with density_units; C130_scott_units shows it for the model of scipy's estimate.

Model and proof: scaling is followed through rotation, grid, density, peak, cutoffs and ellipse test; the thresholds of the script are the constants 0.4, so nothing depends on the unit.


### C131 three_dimensional_kernel does not depend on the unit of velocity

Theorems (`Props_units2`): `C131_limits` (dnfc), `C131_refuted` (dnfc).

Scope: REFUTED as expected (C131_refuted, a record of eight samples, grid 64); C131_limits gives the result in all large and all small units. The description of the limit in small units is for maxima outside the first row and column of the grid; that the result is constant there is shown without this condition.

Model and proof: a change of unit multiplies both thresholds; all density values on the grid are positive, so small thresholds are never met and large ones always; the witness has two samples closer to the middle than the rectangle but farther apart than two grid cells.


### C132 a smoothed value depends only on the samples up to its own

Theorems (`Props_smooth`): `C132_moving_average` (-), `C132_exponential` (-), `C132_kalman` (-), `C132_kalman_prefix` (-), `C132_weighted_refuted` (dnfc).

Scope: REFUTED for weighted_moving_average (C132_weighted_refuted, every period >= 2 and every k). The other three hold for every Num; moving_average for windows not longer than the record; the Kalman filter with scalar parameters.

Model and proof: induction along the recurrences of the three functions; the witness for the weighted average is a step after sample k.


### C133 mean, median, standard deviation, skewness and kurtosis are consistent with one another

Theorems (`Props_smooth`): `C133_mean_median_std` (dnfc), `C133_skewness_kurtosis` (dnfc).

Scope: Exact arithmetic, finite records.

Model and proof: one-sided Chebyshev inequality applied to the median (half of the samples on each side) and to a single sample; Bhatia-Davis; Pearson's inequality between skewness and kurtosis; the Examples show a record attaining the bound of a single sample.


### C134 acceleration thresholding flags few samples and fewer with higher thresholds

Theorems (`Props_smooth`): `C134_rare` (dnfc), `C134_monotone` (dnfc).

Scope: Exact arithmetic, finite records.

Model and proof: the list is the set of C31; counted by the one-sided Chebyshev inequality; the Example attains the bound.


### C135 replacement commutes with a change of unit and origin

Theorems (`Props_smooth`): `C135_last_valid` (-), `C135_averages` (dnfc), `C135_interpolation` (dnfc), `C135_interpolation_refuted` (dnfc).

Scope: REFUTED for linear_interpolation (C135_interpolation_refuted). Exact arithmetic except C135_last_valid, which holds for every Num; cubic_12points_polynomial, kalman_filter and polynomial_replacement are not covered by this property.

Model and proof: list operations commute with every map of the samples; mean, median, windows, recurrences and chords commute with affine maps.


### C136 turbulent kinetic energy and Reynolds stresses in rotated axes

Theorems (`Props_smooth`): `C136_reynolds` (dnfc), `C136_energy` (dnfc).

Scope: Exact arithmetic.

Model and proof: covariance is bilinear in the combinations of the three components.


### C137 accuracy of the normal density in binary64

Theorems (`Props_fpdf`): `C137_accuracy` (dnfc), `C137_libm` (dnfc).

Scope: Hypothesis exp_accurate on the mathematical library (Spec19.v), met by a correctly rounded one (C137_libm).

Model and proof: rounding-error analysis of the exponent (M_normal.pdf over F64), then |exp a - exp b| <= |a-b| (exp a + exp b) and y exp(-y/2) <= 2.


### C138 log_pdf of finite samples is finite

Theorems (`Props_fpdf`): `C138_refuted` (dnfc), `C138_error` (dnfc).

Scope: REFUTED (C138_refuted); C138_error gives where it holds and where it fails. Hypotheses exp_accurate and log(0) = -inf on the mathematical library.

Model and proof: the exponent is below -760, exp(-760) <= 2^-1077 because ln 2 <= 0.704, so a result within the error bound of exp is zero; near the mean the relative error of C137 goes through the logarithm.


### C139 the Kalman estimate is the least-squares estimate

Theorems (`Props_kalman2`): `C139_least_squares` (dnfc).

Scope: Exact arithmetic; the cost is prior_cost of Spec20.v.

Model and proof: M_series.kalman_filter over XR; induction on the number of samples: minimising over the first position turns the prior into one of variance p+Q, and completing the square merges the measurement, which gives the next state and covariance of the code.


### C140 the Kalman filter turns into an exponential moving average and forgets its start

Theorems (`Props_kalman2`): `C140_steady` (dnfc), `C140_forgets` (dnfc).

Scope: Exact arithmetic; C140_forgets for two different starts.

Model and proof: e_i = (1-gain_i) e_(i-1) + (gain_i - g)(z_i - y_(i-1)), 1 - gain_i <= R/(Q+R), and the gain converges at this rate (C17).


### C141 limits of the Kalman filter for vanishing noises

Theorems (`Props_kalman2`): `C141_limits` (dnfc).

Scope: Exact arithmetic.

Model and proof: induction on the record with the state and covariance after one step.


### C142 the spherical detector rotates to the principal axis of velocity and second derivative

Theorems (`Props_sphang`): `C142_angle` (dnfc), `C142_ends` (dnfc), `C142_refuted` (dnfc).

Scope: REFUTED (C142_refuted, for all lengths and amplitudes); C142_angle is the angle the code computes. Exact arithmetic.

Model and proof: M_detection.spherical_phasespace_thresholding over XR; the interior terms c_i (c_(i+1) - c_(i-1))/2 are differences of c_i c_(i+1)/2.


### C143 the bivariate density does not depend on the bandwidth search, the order of the samples or the signs of the bandwidths

Theorems (`Props_korder`): `C143_search` (-), `C143_search_raises` (-), `C143_order` (dnfc), `C143_signs` (dnfc).

Scope: C143_search holds in any arithmetic; order and signs in exact arithmetic.

Model and proof: M_kernel.bivariate_kernel with the search as parameter; minimum, maximum and cell counts are invariant under permutations.


### C144 statistics and the correlation filter do not depend on the order of the samples

Theorems (`Props_korder`): `C144_statistics` (dnfc), `C144_turbulence` (dnfc), `C144_correlation` (dnfc).

Scope: Exact arithmetic; C144_statistics and C144_turbulence include NaN and infinite samples.

Model and proof: The sum of the extended reals is commutative and associative, hence np_mean and np_var are; for velocity_correlation the flagged samples are the sublist selected by the predicate of C35_decided.


### C145 the kurtosis statistic exists for every sample of five or more observations

Theorems (`Props_tight`): `C145_formula` (dnfc), `C145_increasing` (dnfc), `C145_exists` (dnfc), `C145_refuted` (dnfc).

Scope: REFUTED (C145_refuted, for all balanced two-valued samples of 36 or more observations); C145_formula decides exactly when the statistic exists. Exact arithmetic. The p-value of kurtotest is never returned (C54).

Model and proof: M_normal.kurt_z over XR against the closed form of Spec22.v; the sign of the denominator at kurtosis 1 is a polynomial inequality in n - 36 with positive coefficients.


### C146 Butterworth designs keep the band they are asked to keep

Theorems (`Props_bwsel`): `C146_selective` (dnfc), `C146_order` (dnfc), `C146_limit` (dnfc), `C146_monotone` (dnfc), `C146_unimodal` (dnfc).

Scope: Exact arithmetic; output form zps (C63 carries the response to second-order sections). The band edges themselves have gain exactly 1/2 (C60_half_power). C60_blocked adds that digital designs have response exactly 0 where the prototype is not finite.

Model and proof: Consequences of C60 for M_butter.butterworth over XR: the kept and rejected bands of Spec23.v are intervals of the frequency; (W^2 - w1 w2)^2 - ((w2 - w1) W)^2 = (W^2 - w1^2)(W^2 - w2^2) compares the prototype frequency with 1, the warping tan(pi v / 2) is odd and increasing.


### C147 fminbound does not depend on the unit and the origin of the target

Theorems (`Props_fmin2`): `C147_affine` (dnfc), `C147_refuted` (dnfc).

Scope: REFUTED in binary64 by C147_refuted (any libm); C147_affine is the positive half in exact arithmetic.

Model and proof: Over XR the two runs of M_optimize.fmin_loop are related state by state: the numerator and the denominator of the parabolic step scale with c, comparisons of values are unchanged. The binary64 counterexample is computed for an arbitrary libm (only + - * / sqrt are used).


### C148 fminbound in binary64

Theorems (`Props_ffmin`): `C148_inside` (dnfc), `C148_result` (dnfc), `C148_unimodal` (dnfc).

Scope: C148_inside: any target. C148_result: best value, flag, enclosure. C148_unimodal: distance to the minimiser. The constant 2.01 replaces the exact 2 of C50.

Model and proof: P_ffmin.v bounds every rounded quantity of one step (tolerance, midpoint, stopping test, golden and parabolic step, the step to the next point) relative to the tolerance, using the Flocq operations of F64; P_ffmin2.v carries the enclosing interval, the list of tried points and the least value through M_optimize.fmin_loop. Each evaluation shrinks the enclosing interval by at least tol/4.


### C149 Spike indices counted from the end of the record

Theorems (`Props_negidx`): `C149_same` (-), `C149_first_refuted` (-), `C149_linear_refuted` (dnfc), `C149_weighted_refuted` (dnfc), `C149_cubic` (-), `C149_cubic_refuted` (-), `C149_polynomial_refuted` (-).

Scope: REFUTED by C149_first_refuted, C149_linear_refuted, C149_weighted_refuted, C149_cubic_refuted, C149_polynomial_refuted; C149_same and C149_cubic are the true parts.

Model and proof: getz, setz, pyslice and slice_set of NpBase/M_replacement follow Python's rules for negative positions; fancy assignments are rewritten index by index, the others are computed for one index.


### C150 linear interpolation in binary64 stays between the neighbours

Theorems (`Props_flin`): `C150_between` (dnfc), `C150_overflow_refuted` (dnfc).

Scope: REFUTED for all finite doubles by C150_overflow_refuted; C150_between is the true part (neighbours up to 2^900).

Model and proof: The model's linear_interpolation at the instance F64 L; the rounding of each operation is Flocq's, monotonicity follows from that of the roundings, the increment never passes the last neighbour because the run length is at most 2^50; neighbours closer than 2^-900 are both tiny and every point is rounded to 0.


### C151 second-order sections come in order of stability margin

Theorems (`Props_worst`): `C151_sections` (dnfc), `C151_butterworth` (dnfc).

Scope: C151_sections for every successful run; C151_butterworth for the designs.

Model and proof: The loop of xyz_to_sop is followed for successful runs only, so nothing is assumed about the zeros; argmin over the exact reals gives the least margin, the denominators are read as polynomials (den_at of Spec3) and their roots compared.


### C152 poles and zeros are paired greedily in the second-order sections

Theorems (`Props_greedy`): `C152_pairing` (dnfc), `C152_butterworth` (dnfc).

Scope: C152_pairing; C152_butterworth for the digital designs.

Model and proof: The sections are described by the inductive relation greedy of Spec27 over unordered lists of roots (Permutation), with polynomials given by their roots; the model keeps one root of each conjugate pair, in the upper half plane, and the proof shows that the omitted conjugates are never nearer.


### C153 the smoothers are weighted averages with fixed weights

Theorems (`Props_weights`): `C153_moving_average` (dnfc), `C153_weighted` (dnfc), `C153_exponential` (dnfc), `C153_kalman` (dnfc).

Scope: Exact arithmetic; binary64 accuracy is in C97-C100.

Model and proof: The weights are written out (window indicator over its size, linear weights, powers of 1-alpha, products of one minus the gains) and the closed forms behind C10, C12, C14, C16 and C17 are rewritten as sums over the whole record; linearity, monotonicity and the bound on differences follow from the row sums.


### C154 phase-space detection depends on the fluctuations only

Theorems (`Props_phmean`): `C154_all_flagged` (dnfc), `C154_mean_refuted` (dnfc), `C154_script` (dnfc).

Scope: REFUTED for the function (C154_mean_refuted); true for the script in exact arithmetic (C154_script).

Model and proof: Only the first ellipse is used: its semi-axes are the universal threshold times the standard deviations of the record and of its rounded central differences, neither of which changes with an offset, while every sample grows without bound; the sorted index list then equals the full range. For the script the mean of the shifted record is the shifted mean.


### C155 the bandwidth search looks for the fixed point of the time estimate

Theorems (`Props_target`): `C155_fixed_point_refuted` (dnfc), `C155_left_end` (dnfc).

Scope: REFUTED: the zeros of the target are not the fixed points. Exact arithmetic.

Model and proof: The estimate is positive by C71; the target is then t - (t - a)/a, and its sign and zeros are read off after multiplying by a and by 1 + t. Found by a mutation: exchanging the two values of `k_evolve` inside `k_target` broke nothing before this claim.


### C156 velocity components of different lengths are rejected

Theorems (`Props_corrlen`): `C156_rejected` (dnfc), `C156_two_samples_refuted` (-).

Scope: REFUTED for two samples (C156_two_samples_refuted); true from three samples on.

Model and proof: Every step returns or raises ValueError, so it is enough that one step fails: two lengths above one fail in the products, and a component with one sample has zero fluctuation, so the angle is 0 or NaN, calculate_ab returns its pair and dividing three or more values by it fails.


### C157 a repaired record stays within the range of the record

Theorems (`Props_range`): `C157_copies` (-), `C157_simple` (dnfc), `C157_interpolation` (dnfc), `C157_correlation_script` (dnfc), `C157_polynomial_refuted` (dnfc).

Scope: REFUTED for polynomial_replacement (C157_polynomial_refuted, for every regression reproducing straight lines); true for the other methods, interpolation up to rounding.

Model and proof: A stored element is a sample of the record or one of the values written; these are means, medians or weighted averages (C153) of samples. The script is an induction over its passes. The regression is an oracle of which only the reproduction of straight lines is assumed; a two-point fit shows that such regressions exist.


### C158 synthetic noise pollutes the requested share of samples

Theorems (`Props_noise`): `C158_changed` (dnfc), `C158_zero_mean_refuted` (dnfc).

Scope: REFUTED for records with mean zero (C158_zero_mean_refuted); true otherwise (C158_changed).

Model and proof: From the effect of the noise in every arithmetic (C66): every spike is an amplitude of size at least percent, with the sign of its rank, times the mean.


### C159 fluid.py rejects components of different lengths

Theorems (`Props_fluidlen`): `C159_stresses` (dnfc), `C159_energy_refuted` (-).

Scope: REFUTED for the energy (C159_energy_refuted) and for components with a single sample (C159_stresses, which decides every case).

Model and proof: Case analysis of the broadcast product: equal lengths give the covariance, a single sample has fluctuation 0, so that the products and their mean are 0, and any other pair raises.


### C160 repaired records do not depend on the values of the spikes

Theorems (`Props_indep`): `C160_last_valid` (-), `C160_interpolation` (dnfc), `C160_cubic_single` (-), `C160_mean_refuted` (dnfc), `C160_median_refuted` (dnfc), `C160_moving_average_refuted` (dnfc), `C160_exponential_refuted` (dnfc), `C160_trailing_refuted` (dnfc), `C160_cubic_refuted` (dnfc).

Scope: REFUTED for mean, median, moving averages, trailing interpolation and neighbouring cubic spikes; true for last_valid_data, interpolation before the end and a single cubic spike.

Model and proof: The positive parts use the pointwise descriptions of C19, C22 and C26, which mention unflagged samples only; the refutations compute the sum, window or weight with sample k raised by d (bump in Spec32.v).


### C161 the order of the spike indices does not matter

Theorems (`Props_ixorder`): `C161_mean_median` (-), `C161_averages` (-), `C161_last_valid_refuted` (-), `C161_interpolation_refuted` (dnfc), `C161_cubic_refuted` (dnfc).

Scope: REFUTED for last_valid_data, linear_interpolation and cubic_12points_polynomial; true for the mean, the median and the moving averages.

Model and proof: The positive parts describe the record after an assignment to an index list sample by sample, which only mentions membership; the refutations run the loops on records of three or four arbitrary samples.


### C162 symmetries of the power spectra

Theorems (`Props_specsym`): `C162_reversed` (dnfc), `C162_reversed_refuted` (dnfc), `C162_rate` (dnfc), `C162_mirror` (dnfc).

Scope: REFUTED for the direction of time when samples are left over (C162_reversed_refuted); the rest is true.

Model and proof: From Welch's formula (C103): the symmetric Hann window is even about the middle of the block, so that reversing a block rotates its Fourier coefficient and conjugates it; the blocks of the reversed record are the reversed blocks in reverse order when none of the samples is left over.


### C163 acceleration thresholding finds every sample of a raised block

Theorems (`Props_block`): `C163_block_refuted` (dnfc), `C163_rising` (dnfc).

Scope: REFUTED (C163_block_refuted gives exactly what is flagged); C163_rising holds on every record.

Model and proof: Mean c + m h / n and variance h^2 m (n - m) / n^2 of the record with a raised block (Spec34.v) put into the exact criteria of C31.


### C164 repairing a record does not increase its variance

Theorems (`Props_shrink`): `C164_mean` (dnfc), `C164_correlation_script` (dnfc), `C164_others_refuted` (dnfc).

Scope: REFUTED for last_valid_data, linear_interpolation, median_value and simple_moving_average (C164_others_refuted); true for mean_value and the correlation script.

Model and proof: The mean of the squared distances to the old mean does not increase when samples are replaced by it, and the variance is the least such mean over all centres; the script repeats the step.


### C165 the smoothing scripts draw the smoothed value over the sample it belongs to

Theorems (`Props_curves`): `C165_simple` (dnfc), `C165_exponential` (dnfc), `C165_kalman` (dnfc), `C165_singular_spectrum` (dnfc), `C165_synthetic` (dnfc), `C165_weighted` (dnfc), `C165_weighted_short` (dnfc), `C165_weighted_refuted` (dnfc).

Scope: REFUTED for the weighted moving average (C165_weighted, C165_weighted_refuted); true for the simple and exponential averages and the Kalman filter; the singular spectrum script uses later samples too (C165_singular_spectrum).

Model and proof: The scripts are functions of the column they read (`M_curves.v`); the exact results of C10, C12, C14, C16 and C17 are rewritten as lists of points over the indices, and the weighted average of a window with one raised sample is computed.


### C166 synthetic noise keeps the mean of the record and follows its unit and origin

Theorems (`Props_noisemean`): `C166_mean` (dnfc), `C166_even` (dnfc), `C166_odd_refuted` (dnfc), `C166_unit` (dnfc), `C166_origin_refuted` (dnfc).

Scope: REFUTED for an odd number of spikes (C166_odd_refuted) and for a change of origin (C166_origin_refuted); true for an even number of spikes and a change of unit.

Model and proof: The difference of the sums is the sum of the differences at the distinct polluted positions, an alternating sum by C66; even alternating sums are sums of differences of neighbours. Unit and origin by evaluating both runs at every index.


### C167 repairing a synthetically polluted record restores it

Theorems (`Props_restore`): `C167_last_valid` (dnfc), `C167_linear` (dnfc), `C167_constant` (dnfc), `C167_constant_every_arithmetic` (-), `C167_constant_binary64` (dnfc), `C167_line` (dnfc), `C167_mean_refuted` (dnfc), `C167_median` (dnfc).

Scope: REFUTED for mean_value (C167_mean_refuted); true for last_valid_data, linear_interpolation and, on constant records, median_value.

Model and proof: By C66 and C64 the polluted record has the clean samples outside the sorted index list; C160 then gives the same repair; constant records by C19, lines by the chords of C22; the mean by C166 and C21; the median because a value held by more than half of a sorted list is in its middle.


### C168 acceleration thresholding finds the synthetic spikes of a constant record

Theorems (`Props_roundtrip`): `C168_one_spike` (dnfc), `C168_refuted` (dnfc), `C168_falling_refuted` (dnfc).

Scope: REFUTED for two or more spikes (C168_refuted, C168_falling_refuted); true for one spike (C168_one_spike).

Model and proof: By C66 the polluted constant record is known at every index; one spike is a raised block of one sample (C163) restored by C167; a negative spike is lower than the sample before it, whether that one is polluted or not, against C163_rising.


## 7. Testing the theorems against wrong programs

`seeded/LOG.jsonl` has one line per attempt. A definition of the model is edited the way a bug would change the program,
in a copy outside `/verif`; every proof that no longer goes through is replaced by an admission, in all files up to the
`Props` file of the claim, and the theorems whose `Print Assumptions` then show an admitted lemma (or whose statement
itself fails to check) are the ones that failed. An attempt that leaves all theorems standing is either an edit that does
not change the behaviour the claim is about (said so in the log) or shows a theorem that is too weak, which is then
tightened in `/verif` (`tightened` in the log).
