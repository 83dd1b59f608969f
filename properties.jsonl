{"id": "C01", "title": "min and max return the true extremum or a documented error", "statement": "descriptive.min / descriptive.max raise TypeError when the sequence holds a string, otherwise ValueError when it holds a NaN or is empty, and otherwise return a value that is an element of the data and bounds every element from below / above.", "quantifier": "all sequences of Python ints, floats, numpy ints and strings, of any length", "why_tests_cant": "A test samples a few sequences; the claim is about every sequence, every position of the extremum and every position of an offending element.", "anchors": ["proadv/statistics/descriptive.py:min", "proadv/statistics/descriptive.py:max"]}
{"id": "C02", "title": "mean of a numeric sequence is sum divided by count", "statement": "descriptive.mean of a non-empty sequence of numbers (Python ints, floats or numpy ints in any mixture) is the arithmetic mean, of a bare number is that number, and of an empty sequence is the text 'Invalid input.'.", "quantifier": "all numeric sequences and scalars", "why_tests_cant": "Every length and mixture of element kinds takes one of two different code branches.", "anchors": ["proadv/statistics/descriptive.py:mean"]}
{"id": "C03", "title": "mean of a sequence with strings ignores exactly the non-numeric strings", "statement": "Documented: strings that parse as numbers are converted, the others are ignored, wherever they stand. Decided: true when every string parses; otherwise the first unparseable string makes the code drop every NumPy integer and every later string, parseable or not, and the result is the mean of what is left.", "quantifier": "all sequences mixing numbers and strings, in every order", "why_tests_cant": "Correctness depends on the relative order of parseable and unparseable strings, an unbounded set of interleavings.", "anchors": ["proadv/statistics/descriptive.py:mean"]}
{"id": "C04", "title": "median is the middle order statistic", "statement": "descriptive.median returns the middle element of the sorted data (odd length) or the average of the two middle ones (even length): at least half of the samples are <= it and at least half are >= it, it lies between the minimum and the maximum, it does not depend on sample order; non-1D, string and empty input are rejected.", "quantifier": "all finite real data sets and all permutations of them", "why_tests_cant": "Order statistics quantify over all permutations and sizes.", "anchors": ["proadv/statistics/descriptive.py:median"]}
{"id": "C05", "title": "mode is the most frequent value, ties to the smallest", "statement": "descriptive.mode returns a value of the data with its exact number of occurrences; no value occurs more often, and every value that occurs as often is not smaller. Empty data raises ValueError.", "quantifier": "all non-empty NaN-free data sets", "why_tests_cant": "Tie-breaking and counting must hold for each multiset.", "anchors": ["proadv/statistics/descriptive.py:mode"]}
{"id": "C06", "title": "variance and standard deviation are the population moments", "statement": "spread.variance is the mean squared deviation from the mean and spread.std its square root; both are >= 0, zero exactly for constant data, unchanged by adding a constant, and scale by c^2 and |c|. Wrong dimension, strings and empty data raise the documented errors in that order.", "quantifier": "all finite real data sets, all shifts and scales", "why_tests_cant": "Algebraic laws over all inputs.", "anchors": ["proadv/statistics/spread.py:variance", "proadv/statistics/spread.py:std"]}
{"id": "C07", "title": "skewness is the standardised third moment", "statement": "moment.skewness equals the mean cubed deviation over std cubed, is unchanged by shifts and by positive scaling, and changes sign under negation; symmetric data have skewness 0.", "quantifier": "all finite non-constant real data sets", "why_tests_cant": "Invariance laws relate infinitely many pairs of inputs.", "anchors": ["proadv/statistics/moment.py:skewness"]}
{"id": "C08", "title": "kurtosis is the standardised fourth moment and obeys Pearson's bound", "statement": "moment.kurtosis equals the mean fourth-power deviation over std^4, is unchanged by shifts and by non-zero scaling, and satisfies kurtosis >= 1 + skewness^2 >= 1.", "quantifier": "all finite non-constant real data sets", "why_tests_cant": "The inequality is universally quantified over data sets.", "anchors": ["proadv/statistics/moment.py:kurtosis", "proadv/statistics/moment.py:skewness"]}
{"id": "C09", "title": "turbulent kinetic energy and Reynolds stresses are second central moments", "statement": "kinetic_turbulent_energy is half the sum of the three population variances (>= 0, unchanged by adding a mean flow to any component); reynolds_stresses returns the three variances and three covariances, symmetric in the arguments, satisfying uv^2 <= uu*vv, and TKE = (uu+vv+ww)/2.", "quantifier": "all triples of equal-length finite velocity records, all mean-flow offsets", "why_tests_cant": "Realizability and Galilean invariance range over all records.", "anchors": ["proadv/statistics/signal/fluid.py:kinetic_turbulent_energy", "proadv/statistics/signal/fluid.py:reynolds_stresses"]}
{"id": "C10", "title": "moving_average is the trailing-window mean at every index", "statement": "series.moving_average returns an array of the same length whose i-th entry is the mean of the last min(i+1,window) samples ending at i, although it is computed incrementally; window <= 0, window > size and non-1D data raise ValueError, empty data yields an empty array.", "quantifier": "all finite data, all windows, all indices", "why_tests_cant": "The incremental update could drift from the definition at any later index.", "anchors": ["proadv/statistics/series.py:moving_average"]}
{"id": "C11", "title": "a missing sample only affects the windows that contain it", "statement": "Documented as a windowed mean, so a NaN at position j should affect only indices whose window contains j (j <= i < j+window). Decided: it makes every average from index j to the end NaN.", "quantifier": "all data with a NaN, all windows and positions", "why_tests_cant": "Depends on arbitrarily long suffixes after the NaN.", "anchors": ["proadv/statistics/series.py:moving_average"]}
{"id": "C12", "title": "exponential moving average is the documented recurrence and stays within the data range", "statement": "series.exponential_moving_average on float data has ema[0]=data[0], ema[i]=alpha*data[i]+(1-alpha)*ema[i-1], i.e. the closed-form weighted sum whose weights are non-negative and add up to 1, so each value lies between the smallest and the largest sample seen so far; alpha outside (0,1] raises ValueError; empty data raises.", "quantifier": "all float data, all alpha in (0,1]", "why_tests_cant": "Bounds and closed form need induction on the length.", "anchors": ["proadv/statistics/series.py:exponential_moving_average"]}
{"id": "C13", "title": "exponential moving average follows the recurrence for integer records too", "statement": "Documented: the recurrence holds whatever the numeric dtype of the record. Decided: for an integer record every step is truncated towards zero, so the recurrence fails (e.g. 0,1,1,1,... with alpha 1/2 stays at 0 for ever).", "quantifier": "all integer records, all alpha", "why_tests_cant": "Truncation compounds along the record; each history is different.", "anchors": ["proadv/statistics/series.py:exponential_moving_average"]}
{"id": "C14", "title": "weighted moving average weights and alignment", "statement": "series.weighted_moving_average returns size-period values; value k is the mean of data[k..k+period-1] with weights 1..period, hence lies within the range of these samples and a constant record is reproduced; period <= 0 or > size raises ValueError; the most recent sample never contributes.", "quantifier": "all finite data, all periods", "why_tests_cant": "Alignment and weights for each index and period.", "anchors": ["proadv/statistics/series.py:weighted_moving_average"]}
{"id": "C15", "title": "diagonal averaging returns the mean of each anti-diagonal", "statement": "The reconstruction step of singular spectrum analysis returns, at time t, the average (rounded to 4 decimals) of all matrix entries on anti-diagonal t, for both orientations (window shorter or longer than half the record).", "quantifier": "all matrices of all shapes L x (n-L+1), all t", "why_tests_cant": "Three index loops with different bounds must tile all anti-diagonals for every shape.", "anchors": ["proadv/statistics/series.py:_diagonal_average"]}
{"id": "C16", "title": "SSA with every component kept reproduces the record", "statement": "series.ssa returns the record itself rounded to 4 decimals whenever the eigenvectors are orthonormal and all pass the mobility threshold; in general it returns the diagonal average of the projected trajectory matrix, and has the record's length. Frequencies whose window ceil(fs/f) does not fit raise: ZeroDivisionError for f = 0, ValueError for NaN, OverflowError for an infinite ratio, ValueError for a window that is negative, 0, 1 or longer than the record by two or more, IndexError for a window one longer than the record.", "quantifier": "all records, sampling/cut-off frequencies and orthonormal eigenvector sets", "why_tests_cant": "Embedding followed by averaging must be an inverse pair for each size.", "anchors": ["proadv/statistics/series.py:ssa", "proadv/statistics/series.py:_diagonal_average", "proadv/statistics/series.py:_mobility"]}
{"id": "C17", "title": "Kalman filter gain, covariance and estimates", "statement": "With positive process/measurement noise and non-negative initial covariance, series.kalman_filter returns one estimate per sample, each gain is strictly between 0 and 1, each covariance stays in (0, measurement noise), and each estimate lies between the previous estimate and the new sample (so within the range of the initial state and the samples).", "quantifier": "all finite records, all positive noise levels, all initial states", "why_tests_cant": "Invariant of the recursion over arbitrarily long records.", "anchors": ["proadv/statistics/series.py:kalman_filter"]}
{"id": "C18", "title": "replacement never touches samples that were not flagged", "statement": "For last_valid_data, mean_value, median_value, simple/exponential/weighted moving average and SSA replacement: if the call returns, the result has the same length and equals the input at every index that is not a spike index (bit for bit, whatever the number format).", "quantifier": "all records, all spike index lists (negative indices included), all parameters, any float implementation", "why_tests_cant": "Frame condition over all index lists.", "anchors": ["proadv/filtration/replacement/replacements.py:last_valid_data", "proadv/filtration/replacement/replacements.py:mean_value", "proadv/filtration/replacement/replacements.py:median_value", "proadv/filtration/replacement/replacements.py:simple_moving_average", "proadv/filtration/replacement/replacements.py:exponential_moving_average", "proadv/filtration/replacement/replacements.py:weighted_moving_average", "proadv/filtration/replacement/replacements.py:ssa"]}
{"id": "C19", "title": "last_valid_data replaces each spike by the last valid sample before it", "statement": "For ascending spike indices none of which is 0, each spike value becomes the value of the nearest earlier non-spike sample, for runs of any length.", "quantifier": "all records, all ascending spike lists", "why_tests_cant": "Runs of spikes of any length chain through earlier replacements.", "anchors": ["proadv/filtration/replacement/replacements.py:last_valid_data"]}
{"id": "C20", "title": "a spike at the first sample does not import a later sample", "statement": "Documented: last_valid_data replaces by data *before* the spike; a spike at index 0 has none, so it must not import a later sample. Decided: false for every record; the spike at index 0 always receives the last sample of the record (index -1 wraps around).", "quantifier": "all records with a spike at index 0", "why_tests_cant": "Negative-index wraparound is silent and depends on the record's last sample.", "anchors": ["proadv/filtration/replacement/replacements.py:last_valid_data"]}
{"id": "C21", "title": "mean_value and median_value write the record's mean / median at each spike", "statement": "Each flagged sample becomes the mean (median) of the whole original record; an out-of-range index raises IndexError.", "quantifier": "all records, all spike lists", "why_tests_cant": "All positions and sizes.", "anchors": ["proadv/filtration/replacement/replacements.py:mean_value", "proadv/filtration/replacement/replacements.py:median_value"]}
{"id": "C22", "title": "linear_interpolation draws the chord across each interior spike run", "statement": "For ascending distinct spikes and NaN-free data, every maximal run a..b of spikes with valid neighbours on both sides is replaced by the straight line between sample a-1 and sample b+1 (rounded to the requested decimals), for any number of runs and any run length.", "quantifier": "all records, all ascending spike sets", "why_tests_cant": "Run detection through index differences must work for each pattern of runs.", "anchors": ["proadv/filtration/replacement/replacements.py:linear_interpolation"]}
{"id": "C23", "title": "linear_interpolation at the two ends of the record", "statement": "Documented: a run touching the beginning or the end of the record is replaced by the mean of the whole data set. Decided: true at the end (spikes included in that mean), false at the beginning: a leading run gets the first valid sample after it (rounded).", "quantifier": "all records with leading or trailing runs", "why_tests_cant": "Edge behaviour for each run length.", "anchors": ["proadv/filtration/replacement/replacements.py:linear_interpolation"]}
{"id": "C24", "title": "linear_interpolation keeps unflagged samples", "statement": "Samples that are not flagged should be returned unchanged. Decided: they are returned rounded to `decimals` (difference at most half a unit of the last kept digit, witness of a change included), and the length is preserved.", "quantifier": "all records, spike sets and decimals", "why_tests_cant": "Rounding touches every sample.", "anchors": ["proadv/filtration/replacement/replacements.py:linear_interpolation"]}
{"id": "C25", "title": "linear_interpolation accepts an empty spike list", "statement": "With no spikes the record should come back (rounded); the call must not raise. Decided: false, every call with an empty spike list raises (IndexError on float records, ValueError on integer records; integer records are refused whatever the spikes).", "quantifier": "all records", "why_tests_cant": "The failing case is independent of the data, but no documented test covers it; the claim is for all records.", "anchors": ["proadv/filtration/replacement/replacements.py:linear_interpolation"]}
{"id": "C26", "title": "cubic_12points_polynomial interpolates from the 12 nearest valid samples on each side at their true positions", "statement": "Documented: an interior spike (at least 31 samples from each end) is estimated from the 12 samples before it and the 12 valid samples after it. Decided: the samples used are i-13..i-2 (the nearest one, i-1, has no influence) and the next 12 valid ones, placed as if they were adjacent; an affine record with slope beta is therefore not reproduced but shifted by beta/2, for the exact not-a-knot cubic spline.", "quantifier": "all records, all interior spikes", "why_tests_cant": "Which samples are used is an index computation over all positions.", "anchors": ["proadv/filtration/replacement/replacements.py:cubic_12points_polynomial"]}
{"id": "C27", "title": "moving-average replacements use the average aligned with the spike", "statement": "Simple and exponential replacement write the average of the samples up to and including the spike; weighted replacement should do the same. Decided: true for simple and exponential; false for weighted: spike i receives the weighted mean of samples i..i+p-1, and a spike among the last p samples raises IndexError (TypeError when p is the record length). Replacement by singular spectrum analysis writes the reconstruction of the same record with the same frequencies at the flagged samples and raises what the reconstruction raises.", "quantifier": "all records, all spikes, all windows", "why_tests_cant": "Alignment at each index.", "anchors": ["proadv/filtration/replacement/replacements.py:simple_moving_average", "proadv/filtration/replacement/replacements.py:exponential_moving_average", "proadv/filtration/replacement/replacements.py:weighted_moving_average"]}
{"id": "C28", "title": "kalman_filter replacement returns the repaired record", "statement": "replacements.kalman_filter documents returning the modified record with spikes replaced by filter output. Decided: false; no call ever returns a record, and an index array raises TypeError whenever the filter itself succeeds.", "quantifier": "all records, spike lists and filter parameters", "why_tests_cant": "Must hold for all calls.", "anchors": ["proadv/filtration/replacement/replacements.py:kalman_filter"]}
{"id": "C29", "title": "polynomial_replacement accepts any non-empty spike list", "statement": "The call should return for one spike as well as for many, and every spike should be replaced. Decided: one spike raises TypeError, exactly one spike among samples 1..9 raises ValueError, a first spike at sample 10 raises IndexError, sample 10 is never replaced; two or more spikes from sample 11 on are each replaced by the prediction from the repaired window before them.", "quantifier": "all records and spike lists", "why_tests_cant": "Dimension-dependent failures depend on how many spikes fall in each index band.", "anchors": ["proadv/filtration/replacement/replacements.py:polynomial_replacement"]}
{"id": "C30", "title": "replacement does not modify the caller's arrays", "statement": "Every replacement function works on a copy: after the call, also one ending in an exception, every array the caller held is unchanged and the returned array is a new object (kalman_filter returns None).", "quantifier": "all heaps, all inputs", "why_tests_cant": "Aliasing is about all reachable arrays, not one example.", "anchors": ["proadv/filtration/replacement/replacements.py:last_valid_data", "proadv/filtration/replacement/replacements.py:mean_value", "proadv/filtration/replacement/replacements.py:median_value", "proadv/filtration/replacement/replacements.py:linear_interpolation", "proadv/filtration/replacement/replacements.py:simple_moving_average", "proadv/filtration/replacement/replacements.py:exponential_moving_average"]}
{"id": "C31", "title": "acceleration_thresholding returns exactly the samples meeting both criteria", "statement": "The result is the strictly increasing list of indices i with (v[i]-v[i-1])*frequency beyond k_gravity*gravity and v[i] beyond mean +- k_sigma*std (signs by tag), index 0 never appears when the threshold is non-negative, tag 2 on v equals tag 1 on -v, an unknown tag raises ValueError.", "quantifier": "all records, thresholds, frequencies, tags", "why_tests_cant": "Set equality over all records.", "anchors": ["proadv/filtration/detection/acceleration.py:acceleration_thresholding"]}
{"id": "C32", "title": "phase-space detection returns exactly the points outside one of the three ellipses", "statement": "phasespace_thresholding returns the strictly increasing, duplicate-free list of in-range indices whose rho exceeds 1 in at least one of the three phase planes; derivatives are central differences rounded to 4 decimals with zero ends.", "quantifier": "all records, any float implementation", "why_tests_cant": "Union / ordering over all records.", "anchors": ["proadv/filtration/detection/phasespace.py:phasespace_thresholding", "proadv/filtration/detection/phasespace.py:calculate_derivatives", "proadv/filtration/detection/phasespace.py:calculate_parameters", "proadv/filtration/detection/poincare.py:calculate_rho"]}
{"id": "C33", "title": "the rotated ellipse axes solve Goring and Nikora's equations", "statement": "The axes used in the third plane must satisfy a^2 cos^2 t + b^2 sin^2 t = (lambda*std1)^2 and a^2 sin^2 t + b^2 cos^2 t = (lambda*std2)^2. Decided: true of poincare.calculate_ab (it returns the unique positive solution whenever one exists); false of phasespace.calculate_parameters, whose two semi-axes come out divided by the determinant cos^4 t - sin^4 t and fail the equations for every angle and variance other than 0.", "quantifier": "all angles and standard deviations for which the axes are real", "why_tests_cant": "Trigonometric identity over a continuum.", "anchors": ["proadv/filtration/detection/poincare.py:calculate_ab", "proadv/filtration/detection/phasespace.py:calculate_parameters"]}
{"id": "C34", "title": "premodification replaces removable outliers by the preceding sample", "statement": "phasespace_thresholding_premodification documents that samples beyond +-c2*theta*sqrt(2 ln n) are replaced by the preceding sample and that unremovable indices are those with |sample| <= c1*theta. Decided: the unremovable set is right; the removable set is the intersection of the samples above the upper and below the lower threshold, so for c2 >= 0 nothing is ever replaced.", "quantifier": "all records, all non-negative c1, c2", "why_tests_cant": "Set algebra of index sets over all records.", "anchors": ["proadv/filtration/detection/phasespace.py:phasespace_thresholding_premodification"]}
{"id": "C35", "title": "velocity_correlation is total on non-degenerate records and ignores the mean flow", "statement": "velocity_correlation should return the strictly increasing list of indices outside one of three ellipses for every triple of equal-length records with non-zero variance, and is unchanged by adding a constant to any component. Decided: it returns that list exactly when cov^2 < var*var and cov^2*var(v) < var(u)^3 for all three pairs, and raises ValueError otherwise (e.g. always for proportional components); unchanged by the mean flow.", "quantifier": "all triples of records", "why_tests_cant": "Degenerate correlations form an infinite family.", "anchors": ["proadv/filtration/detection/correlation.py:velocity_correlation", "proadv/filtration/detection/correlation.py:calculate_parameters", "proadv/filtration/detection/poincare.py:calculate_ab", "proadv/filtration/detection/poincare.py:calculate_rho"]}
{"id": "C36", "title": "spherical detection flags exactly the points outside the ellipsoid", "statement": "_spike_indices flags point i exactly when (x/a)^2+(y/b)^2+(z/c)^2 > 1, up to the 4-decimal rounding of intermediate values. Decided: right outside an explicit rounding margin; without the margin false, since a point a thousand radii away near the polar axis is not flagged (a rounded angle turns the radicand negative, giving NaN).", "quantifier": "all points and positive semi-axes", "why_tests_cant": "Geometric equivalence over a continuum.", "anchors": ["proadv/filtration/detection/spherical.py:_spike_indices", "proadv/filtration/detection/spherical.py:spherical_phasespace_thresholding"]}
{"id": "C37", "title": "pollution_rate is a percentage", "statement": "pollution_rate lies between 0 and 100 and counts each polluted sample once. Decided: false; a sample can be counted twice and the rate lies between 0 and 200, the bound 200 being attained; at most 100 when every reference value plus k*sigma is non-negative.", "quantifier": "all records, reference records and thresholds", "why_tests_cant": "Overlap of the two index sets depends on the data.", "anchors": ["proadv/filtration/detection/pollution.py:pollution_rate"]}
{"id": "C38", "title": "kernel cut-offs bracket the density peak", "statement": "_cutoff returns the profile velocities at the nearest index below and above the peak satisfying both criteria (falling back to index 1 and the last index), so lower index < peak < upper index. Decided: nearest-index characterisation holds always; the bracketing holds for peaks with 1 < p < n-1 and fails at the edges.", "quantifier": "all profiles, thresholds and interior peaks", "why_tests_cant": "First-match scans in two directions over all profiles.", "anchors": ["proadv/filtration/detection/trivariatekernel.py:_cutoff", "proadv/filtration/detection/bivariatekernel.py:_cutoff"]}
{"id": "C39", "title": "bivariate kernel derivative takes the smaller one-sided difference", "statement": "_derivative returns, at each interior index, the one-sided difference of smaller magnitude (backward on ties) and 0 at both ends; it is 0 on constant records and exact on affine ones.", "quantifier": "all records", "why_tests_cant": "All indices and sizes.", "anchors": ["proadv/filtration/detection/bivariatekernel.py:_derivative"]}
{"id": "C40", "title": "three-dimensional kernel detection unions three planes", "statement": "three_dimensional_kernel returns the strictly increasing, duplicate-free union of the points outside the ellipse in the three planes (c,dc), (c,dc2), (dc,dc2); each plane rotates by an isometry.", "quantifier": "all records, grids and density oracles", "why_tests_cant": "Union / ordering / isometry over all records.", "anchors": ["proadv/filtration/detection/trivariatekernel.py:three_dimensional_kernel", "proadv/filtration/detection/trivariatekernel.py:kernel", "proadv/filtration/detection/trivariatekernel.py:_transform", "proadv/filtration/detection/trivariatekernel.py:_rotation", "proadv/filtration/detection/trivariatekernel.py:_derivatives"]}
{"id": "C41", "title": "histogram conserves mass", "statement": "The binned data of the bivariate kernel are non-negative and sum to 1, every sample lands in one cell of the grid, whatever the data (NaN included).", "quantifier": "all records, all grids >= 1", "why_tests_cant": "Conservation over all data.", "anchors": ["proadv/kernel/bivariate.py:_histogram", "proadv/kernel/bivariate.py:_accumarray"]}
{"id": "C42", "title": "data scaling maps each dimension onto [0,1]", "statement": "_transform with the parameters of _scaling maps every sample into [0,1], the minimum to 0 and the maximum to 1, when the dimension is not constant.", "quantifier": "all non-constant data", "why_tests_cant": "Range claim over all data.", "anchors": ["proadv/kernel/bivariate.py:_scaling", "proadv/kernel/bivariate.py:_transform"]}
{"id": "C43", "title": "the discrete cosine transform accepts any square grid", "statement": "Documented: _discrete_cosine_2d raises only for non-square data. Decided: even sizes are accepted, every odd size from 3 on raises ValueError, and so does bivariate_kernel with such a grid.", "quantifier": "all grid sizes", "why_tests_cant": "Parity of the grid decides; claim is for all sizes.", "anchors": ["proadv/kernel/bivariate.py:_discrete_cosine_1d", "proadv/kernel/bivariate.py:_discrete_cosine_2d"]}
{"id": "C44", "title": "bandwidth root search terminates", "statement": "root returns for every function, with at most 37 attempts of the bracketing solver on doubling intervals below 0.1; it returns the first success and otherwise silently the bounded minimiser's result.", "quantifier": "all functions (all outcomes of the solver at each attempt), all n", "why_tests_cant": "Termination for all behaviours of the callee.", "anchors": ["proadv/kernel/bivariate.py:root"]}
{"id": "C45", "title": "density and grid vectors of the bivariate kernel", "statement": "The returned density has no negative entry, and for non-constant data and even grids the grid vectors have exactly `grid` equally spaced points from the minimum to the maximum of each dimension; a constant first dimension never gives a result.", "quantifier": "all data, bandwidths and grids >= 2", "why_tests_cant": "Floating end-point arithmetic over all ranges.", "anchors": ["proadv/kernel/bivariate.py:bivariate_kernel"]}
{"id": "C46", "title": "brentq returns a point within tolerance of a root", "statement": "For a continuous function with opposite signs at the ends, when brentq reports convergence there is a true root within xtol + rtol*|root| of the returned point; the returned point lies in [xa, xb].", "quantifier": "all continuous functions, brackets and tolerances", "why_tests_cant": "Invariant of an adaptive loop over all functions.", "anchors": ["proadv/statistics/optimize/optimize.py:brentq"]}
{"id": "C47", "title": "brentq only evaluates the function inside the bracket", "statement": "The result of brentq depends only on the values of the function on [xa, xb].", "quantifier": "all functions", "why_tests_cant": "Quantifies over all evaluation histories.", "anchors": ["proadv/statistics/optimize/optimize.py:brentq"]}
{"id": "C48", "title": "brentq reports failure and effort truthfully", "statement": "Documented: ValueError when the iteration limit is reached; the result dictionary reports the number of function calls made. Decided: ValueError only for an empty bracket or equal signs, never for lack of convergence; the call count is right after convergence and one short otherwise, and a run without iterations reports one.", "quantifier": "all functions and iteration limits", "why_tests_cant": "All histories.", "anchors": ["proadv/statistics/optimize/optimize.py:brentq"]}
{"id": "C49", "title": "fminbound stays inside the bounds and within its evaluation budget", "statement": "Every evaluation point and the returned point lie in [lower, upper]; the reported number of evaluations is the number made and does not exceed the limit. Decided: true except that limits below 2 are exceeded (two evaluations are made).", "quantifier": "all functions, bounds, positive tolerances", "why_tests_cant": "Invariant of an adaptive loop over all functions.", "anchors": ["proadv/statistics/optimize/optimize.py:_optimize_within_bounds", "proadv/statistics/optimize/optimize.py:fminbound"]}
{"id": "C50", "title": "fminbound returns the best point it has seen together with its value", "statement": "The reported value is the smallest function value evaluated and is the value of the target at the returned point; for a strictly unimodal target the returned point is within the final bracket around the minimiser. Decided: the value is the smallest one evaluated, but the point returned with it is the last point evaluated, not the best one; it still lies within four tolerances of the minimiser of a strictly unimodal target.", "quantifier": "all functions", "why_tests_cant": "All evaluation histories.", "anchors": ["proadv/statistics/optimize/optimize.py:_optimize_within_bounds", "proadv/statistics/optimize/optimize.py:fminbound"]}
{"id": "C51", "title": "normal cdf is a distribution function", "statement": "For float arrays cdf is strictly between 0 and 1, strictly increasing, satisfies cdf(-x)=1-cdf(x) and cdf(0)=1/2, has derivative pdf, tends to 0 and 1 (the values at the infinities), keeps the shape; empty input raises ValueError and NaN raises TypeError.", "quantifier": "all float arrays", "why_tests_cant": "Analytic laws on the continuum, across the branch at |x|=1.", "anchors": ["proadv/statistics/distributions/normal.py:cdf"]}
{"id": "C52", "title": "cdf is the same for integer-typed input", "statement": "Expected: cdf of an integer array equals cdf of the same numbers as floats. Decided: false for every integer array; in exact arithmetic cdf gives 0 everywhere, sf gives 1, log_cdf minus infinity.", "quantifier": "all integer arrays", "why_tests_cant": "Truncation on store depends on dtype, not on values tests usually pick.", "anchors": ["proadv/statistics/distributions/normal.py:cdf", "proadv/statistics/distributions/normal.py:sf", "proadv/statistics/distributions/normal.py:log_cdf"]}
{"id": "C53", "title": "pdf, log_pdf, sf, log_cdf, log_sf agree with their definitions", "statement": "pdf is positive, symmetric about the mean, maximal there, equals the Gaussian density; log_pdf is its logarithm in closed form; sf + cdf = 1; log_cdf and log_sf are negative.", "quantifier": "all float arrays, means and positive stds", "why_tests_cant": "Continuum of inputs.", "anchors": ["proadv/statistics/distributions/normal.py:pdf", "proadv/statistics/distributions/normal.py:log_pdf", "proadv/statistics/distributions/normal.py:sf", "proadv/statistics/distributions/normal.py:log_cdf", "proadv/statistics/distributions/normal.py:log_sf"]}
{"id": "C54", "title": "skewtest and kurtotest return a statistic and a p-value", "statement": "Documented: for every data set with enough samples both tests return (z, p); too small samples and unknown alternatives raise ValueError. Decided: neither test ever returns; with enough samples and a documented alternative both raise TypeError, because cdf cannot iterate over a scalar.", "quantifier": "all data sets", "why_tests_cant": "Must hold for all data.", "anchors": ["proadv/statistics/distributions/normal.py:skewtest", "proadv/statistics/distributions/normal.py:kurtotest"]}
{"id": "C55", "title": "skewtest constants are well defined exactly from 8 samples on", "statement": "The intermediate constants of the skewness test (w2 > 1, delta, alpha finite and positive) are well defined for every sample size >= 8, and degenerate at 7.", "quantifier": "all sample sizes", "why_tests_cant": "Infinitely many n.", "anchors": ["proadv/statistics/distributions/normal.py:skewtest"]}
{"id": "C56", "title": "analog filter transformations substitute the frequency variable", "statement": "low_to_low, low_to_high, low_to_band and low_to_stop return zeros, poles and gain of H(s/w), H(w/s), H((s^2+w0^2)/(bw s)) and H(bw s/(s^2+w0^2)); more zeros than poles raises ValueError.", "quantifier": "all zero/pole lists (conjugate-closed), gains, frequencies and complex s", "why_tests_cant": "Identity of rational functions.", "anchors": ["proadv/statistics/signal/butter.py:low_to_low", "proadv/statistics/signal/butter.py:low_to_high", "proadv/statistics/signal/butter.py:low_to_band", "proadv/statistics/signal/butter.py:low_to_stop", "proadv/statistics/signal/butter.py:_relative_scale"]}
{"id": "C57", "title": "bilinear is the Tustin substitution and preserves stability", "statement": "bilinear returns zeros, poles and gain of H(2 fs (z-1)/(z+1)); poles in the open left half plane become poles in the open unit disc, numerator and denominator get equal degree.", "quantifier": "all filters and positive sample rates", "why_tests_cant": "Identity of rational functions.", "anchors": ["proadv/statistics/signal/butter.py:bilinear", "proadv/statistics/signal/butter.py:_valid_g"]}
{"id": "C58", "title": "buttap is the Butterworth prototype", "statement": "For each order N the prototype has N poles on the unit circle in the open left half plane, closed under conjugation, and |H(jw)|^2 = 1/(1+w^(2N)).", "quantifier": "all orders and frequencies", "why_tests_cant": "Product over N roots for all N.", "anchors": ["proadv/statistics/signal/butter.py:buttap"]}
{"id": "C59", "title": "every designed Butterworth filter is stable", "statement": "butterworth(..., output='zps') returns only poles in the open unit disc (digital) or open left half plane (analog) for all four band types, all orders and every finite critical frequency it accepts, with or without a sampling rate; the number of poles is the order (twice the order for bp/bs) and zeros and poles are closed under conjugation.", "quantifier": "all orders, band types, critical frequencies, analog or digital", "why_tests_cant": "Stability for all parameters.", "anchors": ["proadv/statistics/signal/butter.py:butterworth"]}
{"id": "C60", "title": "critical frequency is the half-power point", "statement": "All designs have the Butterworth response |H|^2 = 1/(1+r^(2N)), r being the frequency ratio of the band type (warped by the tangent for digital designs); in particular |H|^2 = 1/2 exactly at each requested critical frequency, unit gain at DC / Nyquist (infinity) / band centre, and zero at the blocked frequencies.", "quantifier": "all orders and critical frequencies", "why_tests_cant": "All orders.", "anchors": ["proadv/statistics/signal/butter.py:butterworth"]}
{"id": "C61", "title": "butterworth validates its arguments", "statement": "Non-positive or unordered critical frequencies, digital frequencies >= Nyquist, wrong number of frequencies for the band type, unknown output form, an order that is not a natural number, a non-scalar sampling rate, or a sampling rate with analog design raise ValueError (infinite orders OverflowError); unknown band type raises NotImplementedError; the first failing check decides; everything else is accepted (output 'nd' and 'zps').", "quantifier": "all argument combinations", "why_tests_cant": "Order and interaction of checks.", "anchors": ["proadv/statistics/signal/butter.py:butterworth", "proadv/statistics/signal/butter.py:_valid_g"]}
{"id": "C62", "title": "xyz_to_ptf expands zeros, poles, gain to the same rational function", "statement": "The returned coefficient lists evaluate to gain*prod(s-zero) and prod(s-pole); they are real when roots come in exact conjugate pairs; degree equals number of roots; butterworth(output='nd') is the quotient of polynomials of its zeros, poles and gain.", "quantifier": "all root lists and gains", "why_tests_cant": "Polynomial identity for all degrees.", "anchors": ["proadv/statistics/signal/butter.py:xyz_to_ptf"]}
{"id": "C63", "title": "second-order sections multiply back to the filter", "statement": "The product of the returned sections equals the filter's transfer function and there are ceil(n/2) of them; the closing assertion never fails. Holds for the default pairing, for 'kd' and 'ml' when zeros and poles are even in number, when all zeros are real, or when there are as many zeros as poles and exactly one pole is real, and for the designs of butterworth; roots are first snapped to the real axis when closer than 100 machine epsilons.", "quantifier": "all conjugate-closed zero/pole sets", "why_tests_cant": "Greedy pairing over all configurations.", "anchors": ["proadv/statistics/signal/butter.py:xyz_to_sop", "proadv/statistics/signal/butter.py:_cxr", "proadv/statistics/signal/butter.py:_closest_real_complex_i", "proadv/statistics/signal/butter.py:_lone_xyzsop"]}
{"id": "C64", "title": "random spike positions are distinct, sorted, in range and of the requested number", "statement": "_random_index returns floor(size*percent/100) strictly increasing indices in [0,size) whatever the random draws.", "quantifier": "all random streams, sizes and percentages", "why_tests_cant": "All random histories.", "anchors": ["proadv/statistics/signal/synthetic.py:_random_index"]}
{"id": "C65", "title": "noise generation terminates", "statement": "Expected: synthetic_noise returns for every percentage, given a generator that eventually draws each index. Decided: it returns exactly when floor(size*percent/100) <= size, that is percent < 100 + 100/size, and never returns for larger finite percentages, whatever the draws; a NaN raises ValueError and an infinite percentage OverflowError.", "quantifier": "all percentages, all random streams", "why_tests_cant": "Non-termination cannot be observed by a finite test.", "anchors": ["proadv/statistics/signal/synthetic.py:_random_index", "proadv/statistics/signal/synthetic.py:synthetic_noise"]}
{"id": "C66", "title": "synthetic noise perturbs only the selected samples, with alternating signs", "statement": "Samples whose index was not drawn are unchanged; the k-th drawn index (ascending) moves by +-(|r_k|+percent)*mean(data) with sign + for even k and - for odd k; length is preserved.", "quantifier": "all records, percentages and random draws", "why_tests_cant": "All random histories.", "anchors": ["proadv/statistics/signal/synthetic.py:synthetic_noise"]}
{"id": "C67", "title": "power_spectra overlap is a percentage of the block", "statement": "Documented: overlap is a percentage of the block length. Decided: it is passed on as a number of samples, which agrees with the documentation only for overlap 0 or block 100.", "quantifier": "all block lengths and overlaps", "why_tests_cant": "For all parameters.", "anchors": ["proadv/statistics/signal/spectrum.py:power_spectra"]}
{"id": "C68", "title": "the skewness statistic is an odd increasing function of the sample skewness", "statement": "Expected: the z statistic of skewtest is odd and increasing in the skewness, hence 0 for a symmetric sample. Decided: odd and increasing away from 0, but a skewness of exactly 0 is replaced by an adjusted skewness of 1 and gives a positive z, larger than the z of some positively skewed samples.", "quantifier": "all sample sizes >= 8, all skewness values", "why_tests_cant": "A single point of the continuum differs.", "anchors": ["proadv/statistics/distributions/normal.py:skewtest"]}
{"id": "C69", "title": "the 2-D discrete cosine transform is a DCT", "statement": "Expected (name and docstring): _discrete_cosine_2d computes the two-dimensional DCT, whose (0,0) coefficient is the sum of the entries. Decided: false for every even grid, even with an exact FFT; the FFT runs along the wrong axis and a unit mass in row 1 gives 2 sin(pi/(2 grid)) instead of 1.", "quantifier": "all even grids", "why_tests_cant": "Holds at every size; tests would need a reference transform.", "anchors": ["proadv/kernel/bivariate.py:_discrete_cosine_1d", "proadv/kernel/bivariate.py:_discrete_cosine_2d"]}
{"id": "C70", "title": "the constant _k is the signed odd factorial over sqrt(2 pi)", "statement": "_k(s) = (-1)^s * 1*3*...*(2s-1) / sqrt(2 pi) for every s >= 0.", "quantifier": "all s", "why_tests_cant": "Unbounded s.", "anchors": ["proadv/kernel/bivariate.py:_k"]}
{"id": "C71", "title": "the bandwidth recursion is well defined", "statement": "For non-negative squared coefficients with one positive coefficient of positive frequency in both directions, _psi has its closed form, every power in _func has a positive base, and _evolve returns a finite evolution and a positive time, (2 pi n (f02 + f20 + 2 f11))^(-1/3), whose functionals are given by the published recursion.", "quantifier": "all coefficient matrices, sample counts >= 1 and times", "why_tests_cant": "The sign argument runs through a six-level recursion for all inputs.", "anchors": ["proadv/kernel/bivariate.py:_psi", "proadv/kernel/bivariate.py:_func", "proadv/kernel/bivariate.py:_evolve"]}
{"id": "C72", "title": "histogram cells have equal width", "statement": "Expected: _histogram divides [0,1] into `grid` equal cells. Decided: cell 0 holds only values <= 0 (the minimum), cell k holds ((k-1)/grid, k/grid], and the last cell is twice as wide as the inner ones.", "quantifier": "all grids >= 2, all scaled values", "why_tests_cant": "Boundary placement for all values.", "anchors": ["proadv/kernel/bivariate.py:_histogram"]}
{"id": "C73", "title": "the bivariate density integrates to 1", "statement": "Expected: the returned density has total mass 1. Decided: for two samples on a 2 x 2 grid the mass exceeds 2.9 for every pair of bandwidths (the forward transform is used where the inverse is needed).", "quantifier": "all bandwidths", "why_tests_cant": "For every bandwidth.", "anchors": ["proadv/kernel/bivariate.py:bivariate_kernel"]}
{"id": "C74", "title": "_rotation is the angle of the regression line", "statement": "For data with non-constant x, _rotation(x, y) is the arctangent of cov(x,y)/var(x).", "quantifier": "all data with non-constant x", "why_tests_cant": "Algebraic identity over all data.", "anchors": ["proadv/kernel/bivariate.py:_rotation"]}
{"id": "C75", "title": "butterworth rejects critical frequencies outside (0, Nyquist)", "statement": "Expected: every critical frequency that is not strictly between 0 and the Nyquist frequency raises ValueError. Decided: NaN passes every comparison, and for every order the design returns with all poles NaN.", "quantifier": "all orders", "why_tests_cant": "A NaN test is easy to forget; the claim is for every order.", "anchors": ["proadv/statistics/signal/butter.py:butterworth"]}
{"id": "C76", "title": "the kd pairing never fails", "statement": "Expected: xyz_to_sop(pg='kd') succeeds on every conjugate-closed filter. Decided: false, five zeros and five poles raise IndexError while 'nr' succeeds.", "quantifier": "all conjugate-closed zero/pole sets", "why_tests_cant": "The failing configuration needs a specific mix of real and complex roots.", "anchors": ["proadv/statistics/signal/butter.py:xyz_to_sop", "proadv/statistics/signal/butter.py:_closest_real_complex_i"]}
{"id": "C77", "title": "the ml pairing never fails", "statement": "Expected: xyz_to_sop(pg='ml') succeeds on every conjugate-closed proper analog filter. Decided: false, three zeros and four poles raise IndexError.", "quantifier": "all conjugate-closed proper filters", "why_tests_cant": "The failing configuration needs a specific mix of real and complex roots.", "anchors": ["proadv/statistics/signal/butter.py:xyz_to_sop", "proadv/statistics/signal/butter.py:_closest_real_complex_i"]}
{"id": "C78", "title": "second-order sections keep every pole", "statement": "Expected: the denominators of the sections multiply to prod(z - pole) for every pole set. Decided: false for every pair 1 +- ie with 0 < e <= 100 machine epsilons, which becomes a double pole at 1.", "quantifier": "all e in the tolerance interval", "why_tests_cant": "An interval of width 1e-14.", "anchors": ["proadv/statistics/signal/butter.py:xyz_to_sop", "proadv/statistics/signal/butter.py:_cxr"]}
{"id": "C79", "title": "phase-space premodification returns a processed copy", "statement": "Expected: phasespace_thresholding_premodification returns a processed array and leaves its argument alone. Decided: the returned object is the argument itself, processed in place (replaced elements change in the caller's array).", "quantifier": "all heaps, arrays and thresholds", "why_tests_cant": "Aliasing is invisible to tests that only look at the returned values.", "anchors": ["proadv/filtration/detection/phasespace.py:phasespace_thresholding_premodification"]}
{"id": "C80", "title": "the evaluation dictionary holds Scott's kernel covariance", "statement": "For points not all on one line, _density returns equal weights 1/n, net size n, factor n^(-1/6), factor^2 times the sample covariance, its triangular factor with positive diagonal, and the logarithm of the determinant of 2 pi times it; fewer than two points raise ValueError, points on one line LinAlgError, and the sample covariance is singular exactly for points on one line.", "quantifier": "all point clouds", "why_tests_cant": "Cauchy-Schwarz with its equality case over all clouds.", "anchors": ["proadv/filtration/detection/trivariatekernel.py:_density", "proadv/filtration/detection/trivariatekernel.py:_covariance", "proadv/filtration/detection/trivariatekernel.py:_cov", "proadv/filtration/detection/trivariatekernel.py:_cholesky", "proadv/filtration/detection/trivariatekernel.py:_determination", "proadv/filtration/detection/trivariatekernel.py:_factor", "proadv/filtration/detection/trivariatekernel.py:_weight"]}
{"id": "C81", "title": "the estimation returned by kernel is the density of the rotated points", "statement": "Expected: the second value of kernel is the same kernel density estimate of the rotated points that the detection uses. Decided: it has the covariance of the rotated points but is centred at the points before rotation; it equals the density when the rows are uncorrelated and differs, on every grid, for a concrete correlated cloud.", "quantifier": "all clouds and grids", "why_tests_cant": "The second value is discarded by every caller and coincides for uncorrelated data.", "anchors": ["proadv/filtration/detection/trivariatekernel.py:kernel", "proadv/filtration/detection/trivariatekernel.py:_evolve", "proadv/filtration/detection/trivariatekernel.py:_extraction", "proadv/filtration/detection/trivariatekernel.py:_estimation"]}
{"id": "C82", "title": "three_dimensional_kernel returns for which records", "statement": "With scipy's estimate the call returns exactly when the grid has two or more points and none of the three planes (data, first difference, second difference) has all its points on one line; so constant and alternating records raise LinAlgError and fewer than four samples never give a result.", "quantifier": "all records and grids", "why_tests_cant": "Failure set is a union of algebraic varieties; tests hit generic records.", "anchors": ["proadv/filtration/detection/trivariatekernel.py:three_dimensional_kernel", "proadv/filtration/detection/trivariatekernel.py:kernel", "proadv/filtration/detection/trivariatekernel.py:_cutoff", "proadv/filtration/detection/trivariatekernel.py:_peak"]}
{"id": "C83", "title": "the despiking scripts stop when nothing is flagged or at the iteration limit", "statement": "Each iterated script (acceleration, phase space, spherical phase space, correlation) returns s' exactly when s' comes from s by a run of passes, each flagging a non-empty set with its detector (applied to the fluctuations of the three components, indices united) and replacing it in all three components, the run ending at the iteration limit (10, 10, 3, 10) or at the first pass that flags nothing; the acceleration script looks for falling spikes in passes 0, 2, 4, ... and rising ones in passes 1, 3, 5, ...", "quantifier": "all records", "why_tests_cant": "Statement about every execution of a loop, including the histories no dataset triggers.", "anchors": ["examples/filtration/acceleration.py:main", "examples/filtration/phase-space.py:main", "examples/filtration/phase-space-3d.py:main", "examples/filtration/correlation.py:main"]}
{"id": "C84", "title": "the despiking scripts keep what they never flag", "statement": "On records of equal length the acceleration, phase-space and spherical scripts return; a sample never flagged is rounded to three decimals (once: rounding again changes nothing), or untouched when no pass flags anything, and all values stay between the bounds of the record and the rounded bounds. The correlation script leaves samples never flagged unchanged.", "quantifier": "all records of finite values", "why_tests_cant": "Invariant over up to ten data-dependent passes.", "anchors": ["examples/filtration/acceleration.py:main", "examples/filtration/phase-space.py:main", "examples/filtration/phase-space-3d.py:main", "examples/filtration/correlation.py:main"]}
{"id": "C85", "title": "the acceleration script returns a record without spikes", "statement": "Expected: when the acceleration script stops before its iteration limit no spike of either sign is left. Decided: the first pass looks for falling spikes only, and every record without falling spikes is returned unchanged whatever rising spikes it has; a record with a rising spike is exhibited.", "quantifier": "all records", "why_tests_cant": "Any test record with spikes of both signs passes.", "anchors": ["examples/filtration/acceleration.py:main", "proadv/filtration/detection/acceleration.py:acceleration_thresholding"]}
{"id": "C86", "title": "the trivariate kernel leaves a record without outliers alone", "statement": "Expected: a record without outliers is not changed by the three-dimensional kernel. Decided: the cut-offs are never the first grid point, so for every record in general position and every estimate that is not largest at the corner of the grid some sample is flagged and the script replaces it; the flagged samples of a plane are those outside an ellipse through the cut-offs.", "quantifier": "all records in general position, all estimates", "why_tests_cant": "For every record and every density estimate.", "anchors": ["proadv/filtration/detection/trivariatekernel.py:three_dimensional_kernel", "proadv/filtration/detection/trivariatekernel.py:kernel", "proadv/filtration/detection/trivariatekernel.py:_cutoff", "proadv/filtration/detection/trivariatekernel.py:_peak", "examples/filtration/trivariate-kernel.py:main"]}
{"id": "C87", "title": "the bivariate script leaves a record without outliers alone", "statement": "Expected: a record without outliers is not changed by the bivariate kernel script. Decided: with scipy's estimate every record either raises (fewer than two samples ValueError, points on one line LinAlgError) or has its sample of smallest rotated coordinate flagged and replaced; what is flagged is the outside of the ellipse through the cut-offs; a pass that flagged nothing would raise IndexError.", "quantifier": "all records", "why_tests_cant": "For every record.", "anchors": ["examples/filtration/bivariate-kernel.py:main", "proadv/filtration/detection/bivariatekernel.py:_derivative", "proadv/filtration/detection/bivariatekernel.py:_cutoff", "proadv/kernel/bivariate.py:_rotation"]}
{"id": "C88", "title": "the time axis of the scripts has one entry per sample", "statement": "Expected: np.arange(0, n*dt, dt) with dt = 1/100 has n entries. Decided: true in exact arithmetic; in binary64 the length is n or n+1 for every n up to 2^50, and n+1 for n = 7, so the scripts cannot draw such a record; 18000 samples (the dataset) get 18000.", "quantifier": "all n up to 2^50, every libm", "why_tests_cant": "Rounding of an expression for every n; the shipped dataset does not trigger it.", "anchors": ["examples/filtration/acceleration.py:main", "examples/filtration/phase-space.py:main", "examples/filtration/phase-space-3d.py:main", "examples/filtration/correlation.py:main", "examples/filtration/trivariate-kernel.py:main", "examples/filtration/bivariate-kernel.py:main"]}
{"id": "C89", "title": "replaced samples of an integer record are the mean, median or moving average", "statement": "Expected: the flagged samples of an integer array become the mean, median or moving average as in a float array. Decided: the value is truncated towards zero (2.5 becomes 2, -2.5 becomes -2) for every integer record; the exponential average is truncated at every step.", "quantifier": "all integer records and index lists", "why_tests_cant": "Silent casting, invisible on float data; for every record.", "anchors": ["proadv/filtration/replacement/replacements.py:mean_value", "proadv/filtration/replacement/replacements.py:median_value", "proadv/filtration/replacement/replacements.py:simple_moving_average", "proadv/filtration/replacement/replacements.py:weighted_moving_average", "proadv/filtration/replacement/replacements.py:exponential_moving_average", "proadv/filtration/replacement/replacements.py:ssa"]}
{"id": "C90", "title": "np.around gives the nearest multiple of the unit", "statement": "Expected: rounding to d decimals, as the replacement functions do, gives the multiple of 10^-d nearest to the sample, so it moves a sample by at most half a unit. Decided: false in binary64 (2.675 becomes 2.68 although 2.67 is nearer). For 0 <= d <= 15 and |x|*10^d <= 2^50: rounding again changes nothing, the result is within one rounding of a multiple, and the excess over half a unit is bounded by (2^-52 + 2^-51 |x| 10^d) units.", "quantifier": "all finite doubles in range, all d up to 15, every libm", "why_tests_cant": "Rounding of every double, not of a sample of them.", "anchors": ["proadv/filtration/replacement/replacements.py:linear_interpolation", "proadv/filtration/replacement/replacements.py:cubic_12points_polynomial", "proadv/filtration/replacement/replacements.py:polynomial_replacement"]}
{"id": "C91", "title": "the despiking scripts keep what they never flag, in binary64", "statement": "Whenever the acceleration, phase-space or spherical script returns in binary64 arithmetic, there is a history of flagged index sets with which it ran such that every finite sample up to 10^12 that no pass flagged is the float np.around(x, 3), rounded exactly once whatever the number of passes, or x itself when no pass flagged anything; lengths are kept.", "quantifier": "all binary64 records of equal length, every libm", "why_tests_cant": "Invariant over up to ten passes in floating-point arithmetic.", "anchors": ["examples/filtration/acceleration.py:main", "examples/filtration/phase-space.py:main", "examples/filtration/phase-space-3d.py:main"]}
{"id": "C92", "title": "the mean in binary64 lies between the extremes", "statement": "Expected: the mean of finite samples is finite and lies between the smallest and the largest one. Decided: false for every order of summation; the mean of three times 0.1 exceeds 0.1 and the mean of two finite samples can be infinite. When the sum does not overflow, the error is at most ((1+2^-53)^n - 1) times the mean of the absolute values plus 2^-1075.", "quantifier": "all records up to 2^53 samples, every order of summation", "why_tests_cant": "Rounding errors of every record and every summation order.", "anchors": ["proadv/statistics/descriptive.py:mean"]}
{"id": "C93", "title": "the variance in binary64 is non-negative and vanishes on constant records", "statement": "Expected: variance and standard deviation are non-negative, and zero for a constant record. Decided: both are >= 0 and never NaN when the sum does not overflow, whatever the order of summation; but three equal samples have a positive variance.", "quantifier": "all records up to 2^53 samples, every order of summation", "why_tests_cant": "Sign and NaN propagation over all records.", "anchors": ["proadv/statistics/spread.py:variance", "proadv/statistics/spread.py:std"]}
{"id": "C94", "title": "the median in binary64 lies between the middle samples", "statement": "Expected: the median of finite samples is the middle sample or a value between the two middle samples. Decided: for odd sizes the middle sample exactly; for even sizes between the two, being their rounded half-sum, unless that sum overflows, in which case the median is infinite.", "quantifier": "all finite records, every order of summation", "why_tests_cant": "Overflow needs samples beyond any test data.", "anchors": ["proadv/statistics/descriptive.py:median"]}
{"id": "C95", "title": "data scaling in binary64 maps onto [0,1]", "statement": "Expected: _transform with the parameters of _scaling maps every finite sample of a non-constant dimension into [0,1], the minimum to 0 and the maximum to 1. Decided: true in binary64 whenever max - min does not overflow; whenever it overflows the maximum becomes NaN.", "quantifier": "all finite records", "why_tests_cant": "Subtractions and divisions rounded, for all records.", "anchors": ["proadv/kernel/bivariate.py:_scaling", "proadv/kernel/bivariate.py:_transform"]}
{"id": "C96", "title": "the exponential average of a constant record is constant", "statement": "Expected: the exponential moving average of a constant record is that record. Decided: false in binary64; with alpha 0.2 the average of the record 3, 3, 3, ... is larger than 3 from the second sample on, for every length.", "quantifier": "all lengths, every libm", "why_tests_cant": "Last-digit effect, invisible to approximate comparisons.", "anchors": ["proadv/statistics/series.py:exponential_moving_average"]}
{"id": "C97", "title": "Kalman estimates in binary64 stay in the data range", "statement": "Expected: with non-negative noises, not both zero, every estimate of the filter lies between the smallest and the largest of the initial state and the measurements. Decided: true in exact arithmetic; in binary64 the gain is still between 0 and 1, the filter never raises and never overflows, and for records of any length the estimates stay in the range widened by 2^-50 of the largest magnitude; but they can leave the range itself.", "quantifier": "all finite records up to 2^1000 of any length, covariance and noises up to 2^400, sum of the noises at least 2^-400, every libm", "why_tests_cant": "Rounding errors accumulated over arbitrarily long records; no test compares with exact arithmetic.", "anchors": ["proadv/statistics/series.py:kalman_filter"]}
{"id": "C98", "title": "the exponential moving average in binary64 is accurate for records of any length", "statement": "The i-th value differs from the exact weighted sum by at most min(i, 1/alpha) * 2^-50 times the largest magnitude: rounding errors are forgotten and do not accumulate.", "quantifier": "all finite records up to 2^48 samples and magnitudes 2^-1000..2^1000, every alpha in (0,1], every libm", "why_tests_cant": "Error accumulation over long records.", "anchors": ["proadv/statistics/series.py:exponential_moving_average"]}
{"id": "C99", "title": "the moving average in binary64 drifts at most linearly", "statement": "The running-sum update accumulates rounding errors: the i-th value differs from the exact mean of its window by at most (i+1) * 2^-49 times the largest magnitude, and is finite, whatever the order of summation of the first windows.", "quantifier": "all finite records up to 2^46 samples and magnitudes 2^-1000..2^900, every window, every order of summation", "why_tests_cant": "Error accumulation over long records; a test on short records cannot see drift.", "anchors": ["proadv/statistics/series.py:moving_average"]}
{"id": "C100", "title": "the weighted moving average in binary64 is accurate", "statement": "Every value differs from the exact weighted mean of its period by at most period * 2^-50 times the largest magnitude; there is no drift along the record.", "quantifier": "all finite records, periods up to 2^26, magnitudes 2^-1000..2^900, every order of summation", "why_tests_cant": "Rounding errors of every record and every summation order.", "anchors": ["proadv/statistics/series.py:weighted_moving_average"]}
{"id": "C101", "title": "the normal distribution function in binary64 is accurate", "statement": "For every finite argument cdf and sf return a value in [0,1]; cdf is within 2^-49 of the normal distribution function and sf within 2^-48 of one minus it, given erf and erfc accurate to 2^-50 relative error.", "quantifier": "all non-empty arrays of finite doubles, every libm with accurate erf and erfc", "why_tests_cant": "The error of the argument, of erf and of the last operations combined, for every double.", "anchors": ["proadv/statistics/distributions/normal.py:cdf", "proadv/statistics/distributions/normal.py:sf"]}
{"id": "C102", "title": "the survival function resolves the upper tail", "statement": "Expected: sf(x) is positive for every finite x, log_sf finite, as scipy's norm.sf up to x = 38. Decided: false in binary64; for every x >= 9 cdf returns exactly 1, sf exactly 0 and log_sf the logarithm of zero, because sf is computed as 1 - cdf.", "quantifier": "all arrays of finite doubles >= 9, every libm with accurate erf and erfc", "why_tests_cant": "Needs arguments in the tail and holds for all of them.", "anchors": ["proadv/statistics/distributions/normal.py:sf", "proadv/statistics/distributions/normal.py:log_sf", "proadv/statistics/distributions/normal.py:cdf"]}
{"id": "C103", "title": "power_spectra is Welch's estimate with a symmetric Hann window", "statement": "With scipy's welch as documented: for a block of three or more samples not longer than the record, an overlap smaller than the block and a non-zero sampling frequency, frequency k is k*fs/block (negative ones from block/2 on when two-sided) and the density is the mean over all complete blocks, starting every block - overlap samples, of the squared Fourier modulus of the block minus its mean times 0.5*(1 - cos(2 pi j/(block-1))), divided by fs times the sum of the squared window, doubled in the one-sided case except at 0 and at half the block.", "quantifier": "all records, block lengths, overlaps (also negative ones), sampling frequencies, both values of onesided", "why_tests_cant": "Closed form over all parameters, even and odd blocks.", "anchors": ["proadv/statistics/signal/spectrum.py:power_spectra"]}
{"id": "C104", "title": "power_spectra ignores the level of the record and the samples after the last complete block", "statement": "Replacing every sample x by c*x + d keeps the frequencies and multiplies the density by c^2 (so a constant record has density 0); appending fewer than block - overlap samples to a record that ends with a complete block changes nothing, in every arithmetic.", "quantifier": "all records, constants and parameters", "why_tests_cant": "Relation between two runs, for all records.", "anchors": ["proadv/statistics/signal/spectrum.py:power_spectra"]}
{"id": "C105", "title": "the area under the power spectrum is the windowed variance", "statement": "The sum of the density times the frequency step fs/block is the mean over the blocks of the variance about the block mean weighted with the squared window, one-sided and two-sided; for fs > 0 the density is non-negative.", "quantifier": "all records and parameters", "why_tests_cant": "Parseval's identity for every block length; needs the orthogonality of the Fourier basis.", "anchors": ["proadv/statistics/signal/spectrum.py:power_spectra"]}
{"id": "C106", "title": "power_spectra raises exactly on impossible blocks", "statement": "A negative block raises ValueError; an empty record gives two empty arrays; a record shorter than the block (2048 by default) raises ValueError; an overlap not smaller than the block raises ValueError; fs = 0 raises ZeroDivisionError; otherwise the call returns two arrays of equal length, block//2 + 1 or block.", "quantifier": "all records and parameters, every arithmetic", "why_tests_cant": "Full case distinction for all parameters.", "anchors": ["proadv/statistics/signal/spectrum.py:power_spectra"]}
{"id": "C107", "title": "power_spectra of a finite record is finite", "statement": "Expected: for every admissible block length the density of a record of finite samples is finite. Decided: false for blocks of two samples: the symmetric Hann window of length 2 is zero, so every density value is NaN, for every record.", "quantifier": "all records, overlaps and sampling frequencies", "why_tests_cant": "Only this block length fails, for every record.", "anchors": ["proadv/statistics/signal/spectrum.py:power_spectra"]}
{"id": "C108", "title": "the reference line of the spectrum script is a -5/3 power law", "statement": "Expected: the line drawn by the script is the -5/3 law through the middle of the spectrum on logarithmic axes. Decided: it runs from 1 Hz to the largest frequency, falls with exponent -5/3, and the geometric mean of its end ordinates is that of the smallest and largest density, provided every density value is positive; when one is zero (a constant record) both ordinates are minus infinity.", "quantifier": "all spectra", "why_tests_cant": "For all spectra, not the shipped dataset.", "anchors": ["examples/signal/spectrum.py:main"]}
{"id": "C109", "title": "kurtosis flattens arrays and all moments take any array_like", "statement": "Documented: kurtosis flattens an array that is not 1-D, and variance, std, median, skewness take any array_like. Decided: kurtosis and skewness raise ValueError for every array of two or more dimensions; variance, std, median and skewness raise AttributeError for every Python list, while kurtosis of a list is that of the 1-D array. As documented, kurtosis of data containing a NaN is NaN.", "quantifier": "all lists and arrays of numbers, every dimension, every arithmetic", "why_tests_cant": "Container kinds and dimensions the tests do not use, for all contents.", "anchors": ["proadv/statistics/moment.py:kurtosis", "proadv/statistics/moment.py:skewness", "proadv/statistics/spread.py:variance", "proadv/statistics/spread.py:std", "proadv/statistics/descriptive.py:median", "proadv/statistics/descriptive.py:mean"]}
{"id": "C110", "title": "the mean of an integer array is the exact mean up to rounding", "statement": "Expected: mean of int64 samples is their mean up to rounding. Decided: false, the sum is taken modulo 2^64 and the mean of 2^62 and 2^62 is -2^62; within relative error 2^-51 whenever the exact sum is in [-2^63, 2^63), which holds when length times largest magnitude is below 2^63; and equal, bit for bit, to the mean of the same values as floats when the magnitudes add up to at most 2^53, in whatever order the floats are added.", "quantifier": "all integer arrays, every order of float summation", "why_tests_cant": "Overflow needs sums beyond 2^63; agreement is for all arrays.", "anchors": ["proadv/statistics/descriptive.py:mean"]}
{"id": "C111", "title": "kalman_filter takes array-valued states and noises", "statement": "Documented: state, covariance and noises are array_like. Decided: for non-empty data any state that is not one row, and any covariance or process noise that is not a single number, raises ValueError, so no system of two or more states can be filtered; a measurement noise that is not a single number raises ValueError or LinAlgError. A single number may be a scalar, an array of one element or a 1x1 matrix, except that a covariance array of one element needs a matrix among the noises (LinAlgError otherwise). A row of m states is m scalar filters run side by side.", "quantifier": "all shapes up to two dimensions, all data, every arithmetic", "why_tests_cant": "Shape propagation through eleven NumPy calls for all shapes.", "anchors": ["proadv/statistics/series.py:kalman_filter"]}
{"id": "C112", "title": "a matrix of zeros gives one numerator per row", "statement": "Expected: for a matrix of zeros, one row per output, xyz_to_ptf returns in row i the gain times the polynomial with the zeros of row i (as its source scipy.signal.zpk2tf intends). Decided: true when every row is closed under conjugation; otherwise false: when the first row is not closed the call raises ValueError, and when the first row is closed the imaginary parts of the other rows' coefficients are dropped. Rows without zeros raise AttributeError, missing gains IndexError. With a single row of zeros an array of gains multiplies the coefficients one by one, or raises ValueError when the lengths differ.", "quantifier": "all matrices of zeros, gains and poles", "why_tests_cant": "Needs multi-output filters with complex zeros; holds for all of them.", "anchors": ["proadv/statistics/signal/butter.py:xyz_to_ptf"]}
{"id": "C113", "title": "phase-space detection does not depend on the sign or the direction of time", "statement": "In exact arithmetic with NaN and infinities, negating a record leaves the indices returned by phasespace_thresholding unchanged, and reversing the record mirrors them (index i becomes n-1-i). The mean of the record is not removed: when every sample exceeds sqrt(2 ln n) times the standard deviation in absolute value, every index is returned.", "quantifier": "all records, including NaN and infinities", "why_tests_cant": "Relates pairs of runs on arbitrary records.", "anchors": ["proadv/filtration/detection/phasespace.py:phasespace_thresholding", "proadv/filtration/detection/poincare.py:calculate_rho"]}
{"id": "C114", "title": "velocity correlation detection does not depend on the sign of a component", "statement": "Negating any one of the three velocity components (reversing a probe axis) leaves the result of velocity_correlation, list or exception, unchanged, in exact arithmetic with NaN and infinities.", "quantifier": "all triples of records, also of different lengths", "why_tests_cant": "Relates pairs of runs on arbitrary records; the angle of each ellipse changes sign and must be used consistently.", "anchors": ["proadv/filtration/detection/correlation.py:velocity_correlation", "proadv/filtration/detection/correlation.py:calculate_parameters", "proadv/filtration/detection/poincare.py:calculate_ab", "proadv/filtration/detection/poincare.py:calculate_rho"]}
{"id": "C115", "title": "spherical detection depends on the fluctuations only", "statement": "spherical_phasespace_thresholding returns the same indices whatever iteration number and running mean are passed (every arithmetic), and in exact arithmetic the same indices for the negated record and for the record with any constant added.", "quantifier": "all records; NaN allowed, for the constant no infinities", "why_tests_cant": "Relates pairs of runs over a continuum of offsets; two documented parameters have no effect on the result.", "anchors": ["proadv/filtration/detection/spherical.py:spherical_phasespace_thresholding", "proadv/filtration/detection/spherical.py:_descript", "proadv/filtration/detection/spherical.py:_spike_indices"]}
{"id": "C116", "title": "replacing twice by the last valid sample changes nothing more", "statement": "Expected: calling last_valid_data again with the same indices on its own result changes nothing. Decided: true in every arithmetic for sorted indices unless both the first and the last sample are flagged; false then: [a, b, c] with the first and last sample flagged becomes [c, b, b] and the second call gives [b, b, b], because the first sample was replaced by a flagged one.", "quantifier": "all records, all sorted index lists", "why_tests_cant": "Relates two runs for all records; fails only for a particular pair of flagged positions.", "anchors": ["proadv/filtration/replacement/replacements.py:last_valid_data"]}
{"id": "C117", "title": "interpolating twice over the same interior runs changes nothing more", "statement": "Calling linear_interpolation again with the same indices and decimals on its own result returns the same record, in every arithmetic, when the first and the last sample are not flagged and the unflagged samples are no NaN and already rounded.", "quantifier": "all records, all sorted lists of interior indices, every number of decimals", "why_tests_cant": "Relates two runs for all records and runs of flagged samples.", "anchors": ["proadv/filtration/replacement/replacements.py:linear_interpolation"]}
{"id": "C118", "title": "repeated mean replacement converges to the mean of the good samples", "statement": "The mean used by mean_value includes the flagged samples, so repeating the call changes the result again: after j >= 1 calls every flagged sample is g + (k/n)^j (b - g), with g the mean of the unflagged, b the mean of the flagged samples, k flagged samples of n; unflagged samples are kept, and the values converge to g.", "quantifier": "all finite records, all index lists (also negative and repeated indices) that leave some sample unflagged, every number of calls", "why_tests_cant": "Closed form over any number of repetitions.", "anchors": ["proadv/filtration/replacement/replacements.py:mean_value"]}
{"id": "C119", "title": "roots without a conjugate partner are rejected", "statement": "_cxr raises ValueError whenever the roots farther than 100 machine epsilons from the real axis are not equally many above and below it (every arithmetic), hence xyz_to_sop raises ValueError for such zeros or poles, whatever the pairing option. It raises nothing else, and when it returns, every root near the axis gives one real root (its real part) and the others are paired one to one, each pair within the tolerance, and replaced by the midpoint of one and the conjugate of the other.", "quantifier": "all lists of roots, every pairing option, every way argsort breaks ties", "why_tests_cant": "Statement over all root lists and all pairings.", "anchors": ["proadv/statistics/signal/butter.py:_cxr", "proadv/statistics/signal/butter.py:xyz_to_sop"]}
{"id": "C120", "title": "roots in approximate conjugate pairs are accepted", "statement": "Expected: _cxr accepts every list of roots that can be arranged in pairs conjugate to within its tolerance. Decided: true for one pair; false in general: two pairs whose real parts are within the tolerance of each other are sorted by imaginary part, which can pair them crosswise, and ValueError is raised. The runs that are sorted this way are exactly the maximal ones in which successive real parts differ by at most the tolerance.", "quantifier": "all pairs; all lists for the runs", "why_tests_cant": "Needs nearly equal pairs perturbed in a particular way.", "anchors": ["proadv/statistics/signal/butter.py:_cxr"]}
{"id": "C121", "title": "brentq does not depend on the scale of the target", "statement": "Expected: multiplying the target by a non-zero constant changes neither the root nor the calls made. Decided: true in exact arithmetic (same result, same report, same sequence of points); false in binary64: x^3 - 2 converges in 8 iterations and 2^-360 times it ends in ZeroDivisionError, because products of function values underflow to zero in the quadratic step.", "quantifier": "all targets, constants, brackets, tolerances and limits", "why_tests_cant": "Relates pairs of runs; the failure needs function values near 1e-108.", "anchors": ["proadv/statistics/optimize/optimize.py:brentq"]}
{"id": "C122", "title": "brentq in binary64 stays in the bracket and brackets what it returns", "statement": "For finite bounds up to 2^1020, xtol in [2^-1000, 2^1000], rtol in [0, 1] and a target that is never NaN on the bracket: every point evaluated is a finite double in [xa, xb], also when the target is infinite, overflows or underflows. When it reports convergence the target is zero at the root or has the opposite sign at an evaluated point closer than (xtol + rtol*|root|)(1 + 2^-52); if the target computes a continuous function g to within eps, some z that close to the root has |g(z)| <= eps. The only exceptions are ValueError and, for Python floats, ZeroDivisionError.", "quantifier": "all targets and bounds, every math library", "why_tests_cant": "Rounding of every intermediate quantity, for all targets.", "anchors": ["proadv/statistics/optimize/optimize.py:brentq"]}
{"id": "C123", "title": "brentq converges when given enough iterations", "statement": "Expected: a target with a sign change on the bracket makes brentq converge for every positive tolerance if maxiter is large enough. Decided: false in binary64: the tolerances are not checked against the spacing of the doubles (scipy demands rtol >= 4 eps), and for x^2 - 2 on [1, 2] with xtol = 2^-60 and rtol = 0 no maxiter is large enough: the bracket stays at two neighbouring doubles.", "quantifier": "every maxiter, every math library", "why_tests_cant": "Statement about every number of iterations.", "anchors": ["proadv/statistics/optimize/optimize.py:brentq"]}
{"id": "C124", "title": "brentq needs at most the square of the number of bisections", "statement": "In exact arithmetic, for a sign change on a bracket of width at most 2^n * xtol/2, brentq converges within (n+1)^2 iterations, for every target, also discontinuous ones. In binary64 with rtol >= 2^-50 the same holds when 1.01 times the width is at most (3/2)^n * xtol/2, unless a division by zero raises ZeroDivisionError (Python floats only).", "quantifier": "all targets with a sign change, all brackets and tolerances", "why_tests_cant": "Worst case over all targets.", "anchors": ["proadv/statistics/optimize/optimize.py:brentq"]}
{"id": "C125", "title": "the density of an integer array is the normal density", "statement": "Expected: pdf of int64 samples with integer mean and standard deviation is the normal density. Decided: false, the square of the distance from the mean is taken modulo 2^64: at every distance 2^32*k the reported density is that of the mean itself, and at distance 3037000500 it exceeds the largest density (infinite in binary64 for std 1). In exact arithmetic it is the density for distances up to 3037000499, and it exceeds the peak exactly when the wrapped square is negative; in binary64 it equals, bit for bit, the result for the same values as floats up to distance 2^26. log_pdf of an integer array is the logarithm of the normal density exactly up to distance 3037000499.", "quantifier": "all integer arrays, integer means, positive integer standard deviations, every math library", "why_tests_cant": "Overflow needs distances beyond 3e9; agreement is for all arrays.", "anchors": ["proadv/statistics/distributions/normal.py:pdf", "proadv/statistics/distributions/normal.py:log_pdf"]}
{"id": "C126", "title": "pdf and log_pdf with array-valued mean and std work element by element", "statement": "pdf and log_pdf of data, std and mean of any shapes: ValueError when two of the shapes cannot be combined (dimensions aligned from the right, equal or 1), otherwise the result has the common shape and its element at every index is the scalar pdf (log_pdf) of the three elements at that index, in every arithmetic; in exact arithmetic this is the normal density (its logarithm) for positive standard deviations. Empty data raise ValueError and a NaN in the data TypeError, before the shapes are looked at.", "quantifier": "arrays of any dimensions and shapes, every arithmetic", "why_tests_cant": "All combinations of shapes of every dimension.", "anchors": ["proadv/statistics/distributions/normal.py:pdf", "proadv/statistics/distributions/normal.py:log_pdf"]}
{"id": "C127", "title": "array functions take arrays of any dimension", "statement": "Expected: min, max, mode and the tests of normality take arrays of any dimension. Decided: true for min, max (dimension at least 1) and mode, which give the result of the flattened array, with the same exceptions; 0-d arrays raise TypeError in min and max. The tests never return for any container: two or more dimensions give ValueError, a 0-d array TypeError (skewtest) or IndexError (kurtotest), a list the same as its array.", "quantifier": "all lists and arrays, every dimension, every arithmetic", "why_tests_cant": "Container kinds and dimensions the tests do not use, for all contents.", "anchors": ["proadv/statistics/descriptive.py:min", "proadv/statistics/descriptive.py:max", "proadv/statistics/descriptive.py:mode", "proadv/statistics/distributions/normal.py:skewtest", "proadv/statistics/distributions/normal.py:kurtotest"]}
{"id": "C128", "title": "correlation and acceleration detection do not depend on the unit of velocity", "statement": "Multiplying all three velocity components by the same non-zero constant leaves the result of velocity_correlation, list or exception, unchanged for records of three or more samples; multiplying velocities and gravity by the same positive constant leaves the result of acceleration_thresholding unchanged; negating the velocities exchanges its tags 1 and 2. Exact arithmetic with NaN and infinities.", "quantifier": "all records (correlation: three samples or more), all constants, frequencies, thresholds and tags", "why_tests_cant": "Relates pairs of runs over a continuum of units.", "anchors": ["proadv/filtration/detection/correlation.py:velocity_correlation", "proadv/filtration/detection/correlation.py:calculate_parameters", "proadv/filtration/detection/acceleration.py:acceleration_thresholding", "proadv/filtration/detection/poincare.py:calculate_ab", "proadv/filtration/detection/poincare.py:calculate_rho"]}
{"id": "C129", "title": "phase-space detection does not depend on the unit of velocity", "statement": "Expected: the indices returned by phasespace_thresholding and spherical_phasespace_thresholding do not depend on the unit in which the velocity is expressed. Decided: false, both round to four decimals: every record becomes free of spikes when expressed in a large enough unit, namely when samples two steps apart differ by at most 1e-4 (phasespace) or when all deviations from the mean are at most 5e-5 (spherical). True for phasespace_thresholding when in both units all samples are multiples of 4e-4.", "quantifier": "all finite records, all units, both dtypes", "why_tests_cant": "Needs the same record in several units; the failure is silent (an empty list).", "anchors": ["proadv/filtration/detection/phasespace.py:phasespace_thresholding", "proadv/filtration/detection/phasespace.py:calculate_derivatives", "proadv/filtration/detection/phasespace.py:calculate_parameters", "proadv/filtration/detection/spherical.py:spherical_phasespace_thresholding", "proadv/filtration/detection/spherical.py:_descript"]}
{"id": "C130", "title": "the bivariate kernel script does not depend on the unit of velocity", "statement": "The indices found by the bivariate kernel script (density estimate, rotation, cutoff and ellipse test) are the same in every unit of velocity: multiplying the record by a positive constant changes neither the list nor the exception. This holds for every density estimator whose values scale like densities, in particular for scipy's gaussian_kde.", "quantifier": "all finite records, all positive constants", "why_tests_cant": "Relates pairs of runs over a continuum of units, through the whole detector.", "anchors": ["examples/filtration/bivariate-kernel.py:main", "proadv/filtration/detection/bivariatekernel.py:_derivative", "proadv/filtration/detection/bivariatekernel.py:_cutoff", "proadv/kernel/bivariate.py:_rotation"]}
{"id": "C131", "title": "three_dimensional_kernel does not depend on the unit of velocity", "statement": "Expected: the indices returned by three_dimensional_kernel do not depend on the unit in which the velocity is expressed. Decided: false, the dimensionless ratios of the density are compared with a threshold that carries the unit of velocity. In all sufficiently large units the density plays no role: flagged are exactly the samples off the ellipse that fills the bounding rectangle of the turned points (without the first row and column of grid cells). In all sufficiently small units only the grid cells next to the maximum of the density are left, and a sample is flagged unless it lies in the ellipse that fills them. The record -4, -40, 40, 0, 0, -40, 40, 4 gets different indices in two units.", "quantifier": "all finite records in general position, every grid of three or more points, all units", "why_tests_cant": "Limits over a continuum of units; the result depends silently on m/s or cm/s.", "anchors": ["proadv/filtration/detection/trivariatekernel.py:three_dimensional_kernel", "proadv/filtration/detection/trivariatekernel.py:kernel"]}
{"id": "C132", "title": "a smoothed value depends only on the samples up to its own", "statement": "Expected: the smoothing functions are causal, the value placed at sample k depends only on the samples 0..k, so records that agree up to sample k get the same smoothed value at k, whatever follows and however long they are. Decided: true of moving_average, exponential_moving_average and kalman_filter in every arithmetic (binary64 included, NaN and infinities included); a Kalman filter that succeeds on a record succeeds with the same values on every shorter one. False of weighted_moving_average: for every period of two or more and every sample k there are two records that agree up to sample k and get different values at k.", "quantifier": "all records, all k, all parameters, every arithmetic", "why_tests_cant": "Relates pairs of runs on records that differ arbitrarily after sample k.", "anchors": ["proadv/statistics/series.py:moving_average", "proadv/statistics/series.py:exponential_moving_average", "proadv/statistics/series.py:weighted_moving_average", "proadv/statistics/series.py:kalman_filter"]}
{"id": "C133", "title": "mean, median, standard deviation, skewness and kurtosis are consistent with one another", "statement": "For every non-empty record the mean and the median differ by at most one standard deviation, no sample is farther from the mean than sqrt(n-1) standard deviations, the standard deviation is at most half of every range containing the record; if the record is not constant, kurtosis lies between 1 and n-1 and the square of skewness is at most n-2.", "quantifier": "all finite non-empty records", "why_tests_cant": "Inequalities between five functions over all records; the bounds are attained only by special records.", "anchors": ["proadv/statistics/descriptive.py:mean", "proadv/statistics/descriptive.py:median", "proadv/statistics/spread.py:std", "proadv/statistics/moment.py:skewness", "proadv/statistics/moment.py:kurtosis"]}
{"id": "C134", "title": "acceleration thresholding flags few samples and fewer with higher thresholds", "statement": "One pass of acceleration_thresholding with standard-deviation threshold k >= 0 flags at most n/(1+k^2) of the n samples, whatever the record, the frequency and the acceleration threshold. Raising the acceleration threshold or the standard-deviation threshold never adds an index.", "quantifier": "all finite records and thresholds", "why_tests_cant": "A bound on a count over all records and a relation between pairs of runs.", "anchors": ["proadv/filtration/detection/acceleration.py:acceleration_thresholding"]}
{"id": "C135", "title": "replacement commutes with a change of unit and origin", "statement": "Expected: replacing spikes in a*x+b gives a*y+b where y is the replacement in x. Decided: true of last_valid_data (for every function of the samples, in every arithmetic), mean_value, median_value, simple, exponential and weighted moving average, exceptions included. False of linear_interpolation, which rounds to a fixed number of decimals: the record 0, 9, 0.0001 is repaired to 0 at the spike, in a unit ten times smaller to a positive value. Before the rounding the values of linear_interpolation do commute, exceptions included.", "quantifier": "all finite records, all index lists, all a and b", "why_tests_cant": "Relates pairs of runs over a continuum of units and origins.", "anchors": ["proadv/filtration/replacement/replacements.py:last_valid_data", "proadv/filtration/replacement/replacements.py:mean_value", "proadv/filtration/replacement/replacements.py:median_value", "proadv/filtration/replacement/replacements.py:simple_moving_average", "proadv/filtration/replacement/replacements.py:exponential_moving_average", "proadv/filtration/replacement/replacements.py:weighted_moving_average", "proadv/filtration/replacement/replacements.py:linear_interpolation"]}
{"id": "C136", "title": "turbulent kinetic energy and Reynolds stresses in rotated axes", "statement": "kinetic_turbulent_energy gives the same value in all orthogonal axes. reynolds_stresses in any other axes (orthogonal or not) are the components of the same tensor: each is the bilinear combination of the six stresses with the coefficients of the two axes; the tensor is positive semidefinite.", "quantifier": "all finite records of equal length, all 3x3 matrices (orthogonal for the energy)", "why_tests_cant": "Relates pairs of runs over a continuum of rotations.", "anchors": ["proadv/statistics/signal/fluid.py:kinetic_turbulent_energy", "proadv/statistics/signal/fluid.py:reynolds_stresses"]}
{"id": "C137", "title": "accuracy of the normal density in binary64", "statement": "With an exp and a log that are accurate to a few units in the last place, for every standard deviation s between 2^-100 and 2^100 and all means and samples up to 2^400 in magnitude, pdf returns finite numbers that differ from the Gaussian density by at most 2^-45 (1+|ln s|)/s; as long as half the squared distance from the mean in standard deviations plus ln s is at most 500, the relative error is at most 2^-46 (1 + |ln s| + half the squared distance).", "quantifier": "all finite binary64 arrays, means and standard deviations in these ranges, every accurate exp and log", "why_tests_cant": "An error bound over all binary64 inputs and all accurate mathematical libraries.", "anchors": ["proadv/statistics/distributions/normal.py:pdf"]}
{"id": "C138", "title": "log_pdf of finite samples is finite", "statement": "Expected: the logarithm of the density of a finite sample is finite, as the function computes logarithms to avoid underflow. Decided: false. log_pdf takes the logarithm of the underflowed density: with the default parameters every sample between 39 and 2^400 in magnitude gets density 0 and log density -inf, although the logarithm is finite (about -760 at 39). True as long as half the squared distance from the mean in standard deviations plus ln s is at most 500: there the error is at most 2^-45 (1 + |ln s| + half the squared distance); from 760 on the result is -inf for all parameters.", "quantifier": "all finite binary64 arrays, means and standard deviations in the ranges of the previous property", "why_tests_cant": "Concerns the tails of the binary64 range for all parameters.", "anchors": ["proadv/statistics/distributions/normal.py:log_pdf", "proadv/statistics/distributions/normal.py:pdf"]}
{"id": "C139", "title": "the Kalman estimate is the least-squares estimate", "statement": "After each sample k, the estimate returned by series.kalman_filter is the end point of the random walk that minimises the penalised sum of squares (squared residuals over the measurement noise, squared steps over the process noise, squared deviation of the start from the initial state over the initial covariance) through the samples seen so far: such a walk exists, and every minimising walk ends in this estimate.", "quantifier": "all finite records, all positive noises and initial covariances, all initial states, every sample", "why_tests_cant": "Optimality against all walks of all lengths cannot be sampled.", "anchors": ["proadv/statistics/series.py:kalman_filter"]}
{"id": "C140", "title": "the Kalman filter turns into an exponential moving average and forgets its start", "statement": "With g = (sqrt(Q^2+4QR)-Q)/(2R), the filter output differs at sample i from exponential_moving_average with alpha = g by at most (i+1) (R/(Q+R))^i times the range of the data, and two runs with different initial states and covariances differ by at most twice that.", "quantifier": "all finite records of any length, all positive noises, all initial states in the range of the data, all non-negative covariances", "why_tests_cant": "A rate of convergence along arbitrarily long records.", "anchors": ["proadv/statistics/series.py:kalman_filter", "proadv/statistics/series.py:exponential_moving_average"]}
{"id": "C141", "title": "limits of the Kalman filter for vanishing noises", "statement": "Without process noise the estimate after n samples is (R x0 + p0 times the sum of the samples)/(R + n p0), the running mean with the initial state as prior (the initial state itself for ever when p0 = 0); without measurement noise the record is returned unchanged; without both the second sample (the first when p0 = 0) raises LinAlgError.", "quantifier": "all finite records, initial states and non-negative covariances", "why_tests_cant": "Closed forms for all lengths.", "anchors": ["proadv/statistics/series.py:kalman_filter"]}
{"id": "C142", "title": "the spherical detector rotates to the principal axis of velocity and second derivative", "statement": "Expected: the rotation angle of spherical_phasespace_thresholding is the inclination of the principal axis of velocity and second derivative in the reference it implements (tangent = sum of c*dc2 over sum of c^2). Decided: false. The code takes arctan2(sum c*dc, sum dc2^2), and the sum of c*dc telescopes: it equals c[n-1]^2 - c[0]^2 + (c[0]c[1] - c[n-2]c[n-1])/2, so only the two first and two last samples decide the sign and size of the numerator. Records that start and end at their mean, or start as they end, are never rotated; oscillations 0, a, 0, -a, ... of any length and integer amplitude, whose axis is inclined by 45 degrees, are not rotated.", "quantifier": "all finite records of two or more samples", "why_tests_cant": "A telescoping identity over all records and lengths.", "anchors": ["proadv/filtration/detection/spherical.py:spherical_phasespace_thresholding", "proadv/filtration/detection/spherical.py:_rotation", "proadv/filtration/detection/spherical.py:_gradients"]}
{"id": "C143", "title": "the bivariate density does not depend on the bandwidth search, the order of the samples or the signs of the bandwidths", "statement": "For any two bandwidth searches that return, bivariate_kernel returns the same grids: the value that is searched for is computed and dropped. If the search raises, the call does not return. In exact arithmetic the result is the same for every order of the (x, y) samples, and for h and -h.", "quantifier": "any arithmetic for the search; all finite records and grids >= 1 for the order; all records for the signs", "why_tests_cant": "The searches are arbitrary functions, the permutations are unbounded.", "anchors": ["proadv/kernel/bivariate.py:bivariate_kernel", "proadv/kernel/bivariate.py:_scaling", "proadv/kernel/bivariate.py:_histogram"]}
{"id": "C144", "title": "statistics and the correlation filter do not depend on the order of the samples", "statement": "Reordering a record leaves mean, variance, standard deviation, skewness, kurtosis and the results of skewtest and kurtotest unchanged, NaN and infinities included. Reordering the samples (u, v, w) leaves kinetic_turbulent_energy and reynolds_stresses unchanged. velocity_correlation raises for all orders or for none, and flags the same samples for every order.", "quantifier": "all records over the extended reals; for velocity_correlation all finite records of 3 or more samples", "why_tests_cant": "All permutations of records of any length, in exact arithmetic (rounding hides the identity in tests).", "anchors": ["proadv/statistics/descriptive.py:mean", "proadv/statistics/spread.py:variance", "proadv/statistics/spread.py:std", "proadv/statistics/moment.py:skewness", "proadv/statistics/moment.py:kurtosis", "proadv/statistics/signal/fluid.py:kinetic_turbulent_energy", "proadv/statistics/signal/fluid.py:reynolds_stresses", "proadv/filtration/detection/correlation.py:velocity_correlation"]}
{"id": "C145", "title": "the kurtosis statistic exists for every sample of five or more observations", "statement": "Expected: kurtotest has a statistic for every non-constant sample of at least 5 observations. Decided: false. For n >= 5 the statistic is the transform of Anscombe and Glynn exactly when its denominator 1 + z*sqrt(2/(a-4)) is positive, otherwise it is masked (and a copy of it is read as 0, the value of a perfectly normal sample). Where it exists it increases strictly with the kurtosis, and it exists from the expected value 3(n-1)/(n+1) upwards. For every two-valued sample with equally many values on each side and n >= 36 it is masked.", "quantifier": "all n >= 5 and all kurtosis values; all balanced two-valued samples of 36 or more", "why_tests_cant": "All sample sizes and values; tests use a few samples that look normal.", "anchors": ["proadv/statistics/distributions/normal.py:kurtotest"]}
{"id": "C146", "title": "Butterworth designs keep the band they are asked to keep", "statement": "For every band type, order n >= 1, analog or digital: the squared gain of the returned zeros, poles and gain lies in [0, 1] at every frequency (below Nyquist for digital designs), exceeds 1/2 inside the kept band and is below 1/2 in the rejected band. A larger order gives a strictly larger gain in the kept band (unless both are 1) and a strictly smaller one in the rejected band (unless both are 0); as the order grows the gain tends to 1 in the kept band and to 0 in the rejected band. Low-pass gains decrease strictly and high-pass gains increase strictly with the frequency; band-pass gains rise strictly up to the geometric centre of the (warped) edges and fall strictly beyond it.", "quantifier": "all admissible critical frequencies, orders, frequencies; both kinds of design", "why_tests_cant": "A continuum of designs and frequencies; limits in the order cannot be run.", "anchors": ["proadv/statistics/signal/butter.py:butterworth", "proadv/statistics/signal/butter.py:buttap", "proadv/statistics/signal/butter.py:bilinear"]}
{"id": "C147", "title": "fminbound does not depend on the unit and the origin of the target", "statement": "Expected: minimising c g + d with c > 0 visits the same points, makes the same number of evaluations and reports the same flag as minimising g, and the reported value is c v + d. Decided: true in exact arithmetic for every target, c > 0, d, bounds and tolerance >= 0; false in binary64 for the origin: (x-2)^2 on [-1, 5] is minimised at 1.999996 in 6 evaluations, and with 2^60 added the search reports convergence (flag 0) at 4.999994.", "quantifier": "all targets, c > 0, d, bounds, tolerances >= 0, limits", "why_tests_cant": "All targets and all conversions; the binary64 failure needs the right constant.", "anchors": ["proadv/statistics/optimize/optimize.py:_optimize_within_bounds", "proadv/statistics/optimize/optimize.py:fminbound"]}
{"id": "C148", "title": "fminbound in binary64", "statement": "For finite bounds of magnitude at most 2^1020, lo <= hi, and a tolerance between 2^-1000 and 2^1000, computed with IEEE doubles: a result is returned for every target (NaN and infinities included) and every point tried is a finite double between the bounds. If the target is not NaN there, the reported value is the least one computed, the flag is 0 as soon as 4 (hi - lo) < tol (limit - 1), and flag 0 means that the best point lies between two tried points (or bounds) at most 2.01 (sqrt(2.2e-16) |best| + tol/3) away. If the computed values fall strictly up to m and rise strictly after m, the best point is within 2.01 and the returned one within 4.02 of these tolerances from m.", "quantifier": "all targets on doubles, bounds, tolerances and limits in the stated ranges, all libm", "why_tests_cant": "Rounding in the step, the midpoint and the stopping test for every target and every scale.", "anchors": ["proadv/statistics/optimize/optimize.py:_optimize_within_bounds", "proadv/statistics/optimize/optimize.py:fminbound"]}
{"id": "C149", "title": "Spike indices counted from the end of the record", "statement": "Expected: as everywhere in NumPy, index -k names the sample n - k, so a replacement gives the same record for both. Decided: true for the mean, the median, the simple and exponential averages, and for the last valid sample except index -n (IndexError, while 0 works); false for linear interpolation (-1 leaves NaN in the record, -k copies the next sample), for the weighted average (-k uses the samples before the spike, n - k is out of range for k <= p), for the cubic interpolation (true within 30 samples of the ends; elsewhere a negative index never reaches the spline) and for the polynomial (ValueError for the samples of the first window).", "quantifier": "all records, indices -n <= i < n, number types", "why_tests_cant": "All records and all indices.", "anchors": ["proadv/filtration/replacement/replacements.py:last_valid_data", "proadv/filtration/replacement/replacements.py:mean_value", "proadv/filtration/replacement/replacements.py:median_value", "proadv/filtration/replacement/replacements.py:linear_interpolation", "proadv/filtration/replacement/replacements.py:cubic_12points_polynomial", "proadv/filtration/replacement/replacements.py:simple_moving_average", "proadv/filtration/replacement/replacements.py:exponential_moving_average", "proadv/filtration/replacement/replacements.py:weighted_moving_average", "proadv/filtration/replacement/replacements.py:polynomial_replacement"]}
{"id": "C150", "title": "linear interpolation in binary64 stays between the neighbours", "statement": "Expected: a run of replaced samples between two finite neighbours is finite, monotone and between the returned neighbours, and follows the chord. Decided: true in binary64 for neighbours up to 2^900, 0 to 15 decimals and runs up to 2^50 samples, with an error of half a unit of the last decimal plus a few rounding errors; false for all finite doubles, since the product with 10^decimals overflows (a finite record comes back infinite).", "quantifier": "all records and index lists, all runs, all binary64 neighbours up to 2^900, all libms", "why_tests_cant": "All doubles and all run lengths.", "anchors": ["proadv/filtration/replacement/replacements.py:linear_interpolation"]}
{"id": "C151", "title": "second-order sections come in order of stability margin", "statement": "Each section returned by xyz_to_sop has a pole whose distance to the unit circle (digital) or to the imaginary axis (analogue) is the least among its own poles and those of all sections before it, so the most delicate pair is in the last section; whatever the zeros, the pairing option and the way argsort breaks ties. Only the pole 0 added by 'kd' to an odd number of poles is not compared. Holds for every butterworth design.", "quantifier": "all conjugate-closed poles, all zeros, all pairings, all designs", "why_tests_cant": "Statement over all pole sets.", "anchors": ["proadv/statistics/signal/butter.py:xyz_to_sop", "proadv/statistics/signal/butter.py:butterworth"]}
{"id": "C152", "title": "poles and zeros are paired greedily in the second-order sections", "statement": "With poles and zeros filled up at the origin to an equal even number, xyz_to_sop chooses its sections from the last to the first: the remaining pole nearest to instability with its conjugate (a real one with the most delicate remaining real pole), the remaining zero nearest to that pole, and its conjugate (a real one with the nearest remaining real zero); the gain goes to the first section. Holds for the default pairing of digital filters, for 'kd' with an even number, for 'ml' with equal even numbers, and for every digital butterworth design, for any argsort that sorts.", "quantifier": "all conjugate-closed zeros and poles, all designs, all ways of breaking ties", "why_tests_cant": "Statement over all pole and zero sets.", "anchors": ["proadv/statistics/signal/butter.py:xyz_to_sop", "proadv/statistics/signal/butter.py:butterworth"]}
{"id": "C153", "title": "the smoothers are weighted averages with fixed weights", "statement": "moving_average, weighted_moving_average and exponential_moving_average of records of a given length, and kalman_filter of the initial state and the record, are given by one table of non-negative weights with row sums 1 that does not depend on the data; so smoothing respects sums and multiples, is monotone, keeps constant records and never enlarges the largest difference between two records.", "quantifier": "all lengths, windows, smoothing factors and noises, all real records", "why_tests_cant": "Statement over all pairs of records.", "anchors": ["proadv/statistics/series.py:moving_average", "proadv/statistics/series.py:weighted_moving_average", "proadv/statistics/series.py:exponential_moving_average", "proadv/statistics/series.py:kalman_filter"]}
{"id": "C154", "title": "phase-space detection depends on the fluctuations only", "statement": "Expected: adding a constant to a record does not change what phasespace_thresholding returns, since the method is defined on fluctuations. Decided: false, the mean is not removed by the function: a record whose samples all exceed the universal threshold times the standard deviation is flagged entirely, so for every record with varying samples and varying rounded differences a large enough offset of either sign makes every sample a spike. The phase-space script subtracts the mean of each component first, and its detection does not depend on offsets of the components.", "quantifier": "all real records of at least two samples and all offsets", "why_tests_cant": "Statement over all records and all offsets.", "anchors": ["proadv/filtration/detection/phasespace.py:phasespace_thresholding", "proadv/filtration/detection/phasespace.py:calculate_parameters", "proadv/filtration/detection/phasespace.py:calculate_derivatives", "examples/filtration/phase-space.py:main"]}
{"id": "C155", "title": "the bandwidth search looks for the fixed point of the time estimate", "statement": "Expected: bivariate_kernel searches for the time t that equals the time _evolve estimates from it. Decided: false, the target subtracts the relative error (the first value of _evolve) instead of the estimate. With estimate a > 0 and guess t >= 0 the target is 0 exactly when a = t/(1+t) and equals t where a = t; so a fixed point is never a zero, and at a zero the guess is above the estimate by t*a, at most ten percent on the interval searched. The target is 1 at t = 0 for all data.", "quantifier": "all coefficients with positive mass, all sample sizes and guesses", "why_tests_cant": "Equivalence over all data; the value found is not used in the density, so no output shows it.", "anchors": ["proadv/kernel/bivariate.py:bivariate_kernel", "proadv/kernel/bivariate.py:_evolve"]}
{"id": "C156", "title": "velocity components of different lengths are rejected", "statement": "Expected: velocity_correlation raises ValueError when its three components differ in length. Decided: true in exact arithmetic when one of them has at least three samples (a component of one sample is stretched by broadcasting, but then no ellipse exists and the pair used instead of its axis fails to broadcast); false for two samples: with two, one and two samples it returns, in every arithmetic.", "quantifier": "all real components that are not empty", "why_tests_cant": "Case analysis over all triples of lengths.", "anchors": ["proadv/filtration/detection/correlation.py:velocity_correlation", "proadv/filtration/detection/poincare.py:calculate_ab", "proadv/filtration/detection/poincare.py:calculate_rho"]}
{"id": "C157", "title": "a repaired record stays within the range of the record", "statement": "Expected: replacing spikes never produces values below the smallest or above the largest sample. Decided: true for the last valid sample (which only copies samples, in every arithmetic), the mean, the median and the three moving averages, for all indices, windows and factors for which a record is returned; interpolation stays between the rounded bounds; the correlation script keeps the range of each component; false for polynomial_replacement, which extrapolates beyond the range on a ramp.", "quantifier": "all real records, index lists and parameters", "why_tests_cant": "Overshoot depends on where the spikes are relative to the trend.", "anchors": ["proadv/filtration/replacement/replacements.py:last_valid_data", "proadv/filtration/replacement/replacements.py:mean_value", "proadv/filtration/replacement/replacements.py:median_value", "proadv/filtration/replacement/replacements.py:linear_interpolation", "proadv/filtration/replacement/replacements.py:simple_moving_average", "proadv/filtration/replacement/replacements.py:exponential_moving_average", "proadv/filtration/replacement/replacements.py:weighted_moving_average", "proadv/filtration/replacement/replacements.py:polynomial_replacement", "examples/filtration/correlation.py:main"]}
{"id": "C158", "title": "synthetic noise pollutes the requested share of samples", "statement": "Expected: exactly the selected samples differ from the record. Decided: true for a positive percentage when the mean of the record is not zero; each selected sample then moves by at least percent (not percent/100) times the mean, in alternating directions; false for records with mean zero, such as fluctuations, which come back unchanged whatever the percentage.", "quantifier": "all real records, noise vectors, draws and percentages", "why_tests_cant": "The spike height depends on the mean of the whole record.", "anchors": ["proadv/statistics/signal/synthetic.py:synthetic_noise", "proadv/statistics/signal/synthetic.py:_random_index"]}
{"id": "C159", "title": "fluid.py rejects components of different lengths", "statement": "Expected: kinetic_turbulent_energy and reynolds_stresses raise ValueError when the components differ in length. Decided: the stresses raise ValueError exactly when two components of different lengths both have more than one sample; a component with a single sample has zero variance and covariances 0; the energy returns for all non-empty components whatever their lengths.", "quantifier": "all non-empty real components, every arithmetic for the energy", "why_tests_cant": "All combinations of lengths.", "anchors": ["proadv/statistics/signal/fluid.py:kinetic_turbulent_energy", "proadv/statistics/signal/fluid.py:reynolds_stresses"]}
{"id": "C160", "title": "repaired records do not depend on the values of the spikes", "statement": "Expected: two records with the same unflagged samples are repaired alike. Decided: true for last_valid_data (flags after the first sample), for linear_interpolation when the last sample is not flagged, and for cubic_12points_polynomial with a single spike; false for the mean (a spike higher by d moves every replacement by d/n), the median, the simple and exponential moving averages (d over the window size; d times the weight of the spike), linear_interpolation with a run at the end (filled with the mean of the record, spikes included) and two neighbouring spikes in cubic_12points_polynomial.", "quantifier": "all real records, spike sets, windows and smoothing factors; every arithmetic for last_valid_data and cubic", "why_tests_cant": "All pairs of records differing at spikes.", "anchors": ["proadv/filtration/replacement/replacements.py:last_valid_data", "proadv/filtration/replacement/replacements.py:mean_value", "proadv/filtration/replacement/replacements.py:median_value", "proadv/filtration/replacement/replacements.py:linear_interpolation", "proadv/filtration/replacement/replacements.py:cubic_12points_polynomial", "proadv/filtration/replacement/replacements.py:simple_moving_average", "proadv/filtration/replacement/replacements.py:exponential_moving_average"]}
{"id": "C161", "title": "the order of the spike indices does not matter", "statement": "Expected: two lists with the same indices, in any order and with repetitions, give the same repaired record. Decided: true for mean_value, median_value, the simple, exponential and weighted moving averages and singular spectrum analysis; false for last_valid_data (in descending order a spike is replaced by the spike before it), linear_interpolation (in descending order neighbouring spikes stay NaN in the result) and cubic_12points_polynomial (in descending order a repaired spike counts as valid).", "quantifier": "all records and index lists in every arithmetic; all real records of four samples for the interpolation", "why_tests_cant": "All permutations of all index lists.", "anchors": ["proadv/filtration/replacement/replacements.py:last_valid_data", "proadv/filtration/replacement/replacements.py:mean_value", "proadv/filtration/replacement/replacements.py:median_value", "proadv/filtration/replacement/replacements.py:linear_interpolation", "proadv/filtration/replacement/replacements.py:cubic_12points_polynomial", "proadv/filtration/replacement/replacements.py:simple_moving_average", "proadv/filtration/replacement/replacements.py:exponential_moving_average", "proadv/filtration/replacement/replacements.py:weighted_moving_average"]}
{"id": "C162", "title": "symmetries of the power spectra", "statement": "Expected: the power spectrum does not depend on the direction of time, frequencies scale with the sampling frequency while densities scale with its inverse, and the two-sided spectrum is symmetric. Decided: true, except that a record whose last block does not end at the last sample has another spectrum when reversed, because the samples after the last complete block are dropped.", "quantifier": "all real records, blocks of at least three samples, overlaps and sampling frequencies", "why_tests_cant": "A continuum of records; equality of whole spectra.", "anchors": ["proadv/statistics/signal/spectrum.py:power_spectra"]}
{"id": "C163", "title": "acceleration thresholding finds every sample of a raised block", "statement": "Expected: when a block of m samples is raised by h above a flat record, all its samples are flagged if h is large enough. Decided: false; whatever h, only the first sample of the block can be flagged, and it is flagged exactly when h times the sampling frequency exceeds the gravity threshold and the block is shorter than the record length divided by 1 + k_sigma^2. On every record a flagged sample is higher than the one before it.", "quantifier": "all heights, levels, block positions and lengths, thresholds; all real records for the last part", "why_tests_cant": "The level criterion does not depend on the height, which takes a computation with mean and variance for every length.", "anchors": ["proadv/filtration/detection/acceleration.py:acceleration_thresholding"]}
{"id": "C164", "title": "repairing a record does not increase its variance", "statement": "Expected: replacing the flagged samples never increases the variance. Decided: true for mean_value, whatever the indices, and hence for every component after the velocity correlation script; false for last_valid_data, linear_interpolation, median_value and the simple moving average.", "quantifier": "all real records and index lists", "why_tests_cant": "A continuum of records and all index lists; any number of passes of the script.", "anchors": ["proadv/filtration/replacement/replacements.py:mean_value", "proadv/filtration/replacement/replacements.py:last_valid_data", "proadv/filtration/replacement/replacements.py:linear_interpolation", "proadv/filtration/replacement/replacements.py:median_value", "proadv/filtration/replacement/replacements.py:simple_moving_average"]}
{"id": "C165", "title": "the smoothing scripts draw the smoothed value over the sample it belongs to", "statement": "Expected: the smoothed curve has one point per sample, and the value drawn at an index is computed from the samples up to that index. Decided: true for the simple and the exponential moving average and for the Kalman filter, whose curves are given exactly (the singular spectrum script also draws one point per sample, the mean over the windows that contain the sample, later samples included, and the synthetic noise script draws 500 samples of which exactly 50 differ); false for the weighted moving average, whose curve is 30 points short and averages the samples i to i+29 at index i, so that it rises 29 samples before a step.", "quantifier": "all real records (of at least 30 samples for the moving averages with a window)", "why_tests_cant": "A picture looks right at any scale of 2000 samples; the claim is about every index of every record.", "anchors": ["examples/signal/simple-moving-average.py:main", "examples/signal/exponential-moving-average.py:main", "examples/signal/weighted-moving-average.py:main", "examples/signal/kalman.py:main", "examples/signal/singular-spectrum.py:main", "examples/signal/synthetic.py:main"]}
{"id": "C166", "title": "synthetic noise keeps the mean of the record and follows its unit and origin", "statement": "Expected: the spikes have alternating signs, so the polluted record has the mean of the record up to the random part; multiplying the record multiplies the polluted record, and adding a constant adds it. Decided: the mean is the old mean times 1 + A/n with A the alternating sum of the amplitudes; it is kept up to the random part when the number of spikes is even, and moved by the percentage over n when it is odd; a change of unit commutes with the noise; a change of origin does not, as the heights are multiples of the mean of the record.", "quantifier": "all real records, percentages, draws and noise vectors", "why_tests_cant": "The noise is random and is not seeded; the claim is about every outcome of the draws.", "anchors": ["proadv/statistics/signal/synthetic.py:synthetic_noise"]}
{"id": "C167", "title": "repairing a synthetically polluted record restores it", "statement": "Expected: a record polluted by synthetic_noise and repaired at the polluted positions is the repaired clean record, so that a constant record is restored. Decided: true for last_valid_data (first sample clean) and linear_interpolation (last sample clean), which restores even straight lines up to the rounding, and for constant records and median_value when fewer than half of the samples are polluted; false for mean_value, which restores no polluted sample of a constant record when the number of spikes is odd.", "quantifier": "all real records, percentages, draws and noise vectors", "why_tests_cant": "The noise is random and is not seeded; the claim is about every outcome of the draws and chains two modules.", "anchors": ["proadv/statistics/signal/synthetic.py:synthetic_noise", "proadv/filtration/replacement/replacements.py:last_valid_data", "proadv/filtration/replacement/replacements.py:linear_interpolation", "proadv/filtration/replacement/replacements.py:mean_value", "proadv/filtration/replacement/replacements.py:median_value"]}
{"id": "C168", "title": "acceleration thresholding finds the synthetic spikes of a constant record", "statement": "Expected: a positive constant record polluted by synthetic_noise is restored by the search for rising spikes and last_valid_data. Decided: true for one polluted sample after the first one, when the step exceeds the acceleration threshold and 1 + k_sigma^2 < n; false for two or more, as every second spike is negative and is never found by this search, whatever the thresholds; the search for falling spikes misses the others.", "quantifier": "all constants, lengths, percentages, draws, noise vectors and thresholds", "why_tests_cant": "The noise is random and is not seeded; the claim chains three modules over every outcome.", "anchors": ["proadv/statistics/signal/synthetic.py:synthetic_noise", "proadv/filtration/detection/acceleration.py:acceleration_thresholding", "proadv/filtration/replacement/replacements.py:last_valid_data"]}
