(** Property theorems C18-C29 (replacements.py). *)
From Coq Require Import Reals Lra.
From Flocq Require Import Core.Raux.
From Verif Require Import P_polyrep.
Local Open Scope Z_scope.

(** Integer parts of a float result, for the examples. *)
Local Notation zs := (map (@nofZ (F64 libm_basic))).
Local Notation ints r := (match r with Ok l => map nfloorZ l | Raise _ => [] end).

(** ** C18 *)
Theorem C18_last_valid_data : forall (N : Num) (v r : list N) idx,
  last_valid_data v idx = Ok r -> keeps_unflagged v idx r.
Proof. exact last_valid_keeps. Qed.
Print Assumptions C18_last_valid_data.
Theorem C18_mean_value : forall (N : Num) dt (v r : list N) idx,
  mean_value dt v idx = Ok r -> keeps_unflagged v idx r.
Proof. exact mean_value_keeps. Qed.
Print Assumptions C18_mean_value.
Theorem C18_median_value : forall (N : Num) dt (v r : list N) idx,
  median_value dt v idx = Ok r -> keeps_unflagged v idx r.
Proof. exact median_value_keeps. Qed.
Print Assumptions C18_median_value.
Theorem C18_simple_moving_average : forall (N : Num) dt (v r : list N) idx w,
  repl_sma dt v idx w = Ok r -> keeps_unflagged v idx r.
Proof. exact sma_keeps. Qed.
Print Assumptions C18_simple_moving_average.
Theorem C18_exponential_moving_average : forall (N : Num) dt (v r : list N) idx a,
  repl_ema dt v idx a = Ok r -> keeps_unflagged v idx r.
Proof. exact ema_keeps. Qed.
Print Assumptions C18_exponential_moving_average.
Theorem C18_weighted_moving_average : forall (N : Num) dt (v r : list N) idx p,
  repl_wma dt v idx p = Ok r -> keeps_unflagged v idx r.
Proof. exact wma_keeps. Qed.
Print Assumptions C18_weighted_moving_average.
Theorem C18_singular_spectrum_analysis : forall (N : Num) eigh dt (v r : list N) idx fs f,
  repl_ssa eigh dt v idx fs f = Ok r -> keeps_unflagged v idx r.
Proof. exact ssa_keeps. Qed.
Print Assumptions C18_singular_spectrum_analysis.
Example C18_nonvacuous :
  ints (last_valid_data (zs [1; 2; 90; 4]) [2]) = [1; 2; 2; 4] /\
  ints (mean_value DFloat (zs [1; 2; 93; 4]) [-2]) = [1; 2; 25; 4] /\
  ints (median_value DFloat (zs [1; 2; 93; 4; 5]) [2]) = [1; 2; 4; 4; 5] /\
  ints (repl_sma DFloat (zs [1; 2; 90; 4]) [2] 2) = [1; 2; 46; 4] /\
  ints (repl_ema DFloat (zs [1; 2; 90; 4]) [2] (nofZ 1)) = [1; 2; 90; 4] /\
  ints (repl_wma DFloat (zs [1; 4; 90; 4]) [1] 2) = [1; 61; 90; 4].
Proof. vm_compute. repeat split. Qed.

(** ** C19 *)
Theorem C19_nearest_before : forall (N : Num) (v : list N) idx d,
  StronglySorted Z.lt idx -> (forall i, In i idx -> 0 < i < zlen v) ->
  exists r, last_valid_data v idx = Ok r /\
    forall i j, 0 <= j < i -> i < zlen v -> ~ In j idx -> (forall k, j < k <= i -> In k idx) ->
      nth (Z.to_nat i) r d = nth (Z.to_nat j) v d.
Proof. exact last_valid_nearest. Qed.
Print Assumptions C19_nearest_before.
(** Such a sample always exists. *)
Theorem C19_nearest_exists : forall idx n, (forall i, In i idx -> 0 < i < n) ->
  forall i, In i idx -> exists j, 0 <= j < i /\ ~ In j idx /\ forall k, j < k <= i -> In k idx.
Proof. exact last_valid_exists_before. Qed.
Print Assumptions C19_nearest_exists.
Example C19_nonvacuous : ints (last_valid_data (zs [1; 70; 80; 4; 90]) [1; 2; 4]) = [1; 1; 1; 4; 4].
Proof. vm_compute. reflexivity. Qed.

(** ** C20 *)
Theorem C20_refuted : forall (N : Num) (v : list N) idx d,
  StronglySorted Z.lt idx -> (forall i, In i idx -> 0 <= i < zlen v) -> In 0 idx ->
  exists r, last_valid_data v idx = Ok r /\ nth 0 r d = nth (length v - 1) v d.
Proof. exact last_valid_first_wraps. Qed.
Print Assumptions C20_refuted.
Example C20_nonvacuous : ints (last_valid_data (zs [70; 2; 3; 55]) [0]) = [55; 2; 3; 55].
Proof. vm_compute. reflexivity. Qed.

(** ** C21 *)
Theorem C21_mean_value : forall (l : list R) idx, l <> [] -> in_bounds (zlen l) idx ->
  exists r, @mean_value XR DFloat (fins l) idx = Ok r /\ length r = length l /\
    forall k, (k < length l)%nat -> flagged (zlen l) idx k -> nth_error r k = Some (Fin (rmean l)).
Proof. exact mean_value_exact. Qed.
Print Assumptions C21_mean_value.
(** The same in every arithmetic, the mean being the one numpy computes. *)
Theorem C21_mean_value_every_arithmetic : forall (N : Num) (v : list N) idx, v <> [] -> in_bounds (zlen v) idx ->
  exists r, mean_value DFloat v idx = Ok r /\ length r = length v /\
    forall k d, (k < length v)%nat -> flagged (zlen v) idx k -> nth k r d = ndiv (nsum v) (nofZ (zlen v)).
Proof. exact mean_value_spec. Qed.
Print Assumptions C21_mean_value_every_arithmetic.
Theorem C21_mean_value_errors : forall (N : Num) dt (v : list N) idx,
  (v = [] -> mean_value dt v idx = Raise ValueError) /\
  (v <> [] -> ~ in_bounds (zlen v) idx -> dt = DFloat -> mean_value dt v idx = Raise IndexError).
Proof. exact mean_value_errors. Qed.
Print Assumptions C21_mean_value_errors.
Theorem C21_median_value : forall (l s : list R) idx, l <> [] -> is_sorting s l -> in_bounds (zlen l) idx ->
  exists r, @median_value XR DFloat (fins l) idx = Ok r /\ length r = length l /\
    forall k, (k < length l)%nat -> flagged (zlen l) idx k -> nth_error r k = Some (Fin (rmiddle s)).
Proof. exact median_value_exact. Qed.
Print Assumptions C21_median_value.
Theorem C21_median_value_errors : forall (N : Num) dt (v : list N) idx,
  (v = [] -> median_value dt v idx = Raise ValueError) /\
  (v <> [] -> ~ in_bounds (zlen v) idx -> dt = DFloat -> median_value dt v idx = Raise IndexError).
Proof. exact median_value_errors. Qed.
Print Assumptions C21_median_value_errors.
Example C21_nonvacuous : in_bounds (zlen [1; 2; 9]%R) [2; -3] /\ ~ in_bounds (zlen [1; 2; 9]%R) [3] /\
  flagged (zlen [1; 2; 9]%R) [2; -3] 0 /\ is_sorting [1; 2; 9]%R [9; 1; 2]%R.
Proof.
  repeat split.
  - cbn in *. lia.
  - cbn in *. lia.
  - intros H. specialize (H 3 (or_introl eq_refl)). cbn in H. lia.
  - exists (-3). cbn. split; [auto|]. right. reflexivity.
  - apply (Permutation.Permutation_app_comm [9]%R [1; 2]%R).
  - repeat constructor; lra.
Qed.

(** ** C22 *)
Theorem C22_chord : forall (l : list R) (idx : list Z) (dec : Z) a b,
  StronglySorted Z.lt idx -> (forall i, In i idx -> 0 <= i < zlen l) ->
  0 < a <= b -> b < zlen l - 1 -> (forall j, a <= j <= b -> In j idx) -> ~ In (a - 1) idx -> ~ In (b + 1) idx ->
  exists r, @linear_interpolation XR DFloat (fins l) idx dec = Ok r /\ length r = length l /\
    forall k, a <= k <= b -> nth_error r (Z.to_nat k) = Some (Fin (round_dec dec
      (nth (Z.to_nat (a - 1)) l 0 + (nth (Z.to_nat (b + 1)) l 0 - nth (Z.to_nat (a - 1)) l 0) * (IZR (k - (a - 1)) / IZR (b + 1 - (a - 1))))))%R.
Proof. exact li_chord_exact. Qed.
Print Assumptions C22_chord.
(** In every arithmetic: the operations performed, only the two neighbours of the run having to be valid. *)
Theorem C22_chord_every_arithmetic : forall (N : Num) (v : list N) (idx : list Z) (dec : Z) d a b,
  StronglySorted Z.lt idx -> (forall i, In i idx -> 0 <= i < zlen v) ->
  0 < a <= b -> b < zlen v - 1 -> (forall j, a <= j <= b -> In j idx) -> ~ In (a - 1) idx -> ~ In (b + 1) idx ->
  let vs := nth (Z.to_nat (a - 1)) v d in let ve := nth (Z.to_nat (b + 1)) v d in
  nisnan vs = false -> nisnan ve = false ->
  exists r, linear_interpolation DFloat v idx dec = Ok r /\ length r = length v /\
    forall k, a <= k <= b ->
      nth (Z.to_nat k) r d = around (nadd vs (nmul (ndiv (nsub ve vs) (nofZ (b - a + 2))) (nofZ (k - a + 1)))) dec.
Proof. exact li_chord. Qed.
Print Assumptions C22_chord_every_arithmetic.
Example C22_nonvacuous : ints (linear_interpolation DFloat (zs [1; 70; 80; 90; 9; 60; 5]) [1; 2; 3; 5] 4) = [1; 3; 5; 7; 9; 7; 5].
Proof. vm_compute. reflexivity. Qed.

(** ** C23 *)
Theorem C23_trailing : forall (l : list R) (idx : list Z) (dec : Z) a,
  StronglySorted Z.lt idx -> (forall i, In i idx -> 0 <= i < zlen l) ->
  0 <= a < zlen l -> (forall j, a <= j < zlen l -> In j idx) -> ~ In (a - 1) idx ->
  exists r, @linear_interpolation XR DFloat (fins l) idx dec = Ok r /\
    forall k, a <= k < zlen l -> nth_error r (Z.to_nat k) = Some (Fin (round_dec dec (rmean l))).
Proof. exact li_trailing. Qed.
Print Assumptions C23_trailing.
Theorem C23_leading : forall (l : list R) (idx : list Z) (dec : Z) b,
  StronglySorted Z.lt idx -> (forall i, In i idx -> 0 <= i < zlen l) ->
  0 <= b < zlen l - 1 -> (forall j, 0 <= j <= b -> In j idx) -> ~ In (b + 1) idx ->
  exists r, @linear_interpolation XR DFloat (fins l) idx dec = Ok r /\
    forall k, 0 <= k <= b -> nth_error r (Z.to_nat k) = Some (Fin (round_dec dec (nth (Z.to_nat (b + 1)) l 0%R))).
Proof. exact li_leading. Qed.
Print Assumptions C23_leading.
Theorem C23_refuted : exists (l : list R) (r : list XR),
  @linear_interpolation XR DFloat (fins l) [0] 0 = Ok r /\ nth_error r 0 <> Some (Fin (round_dec 0 (rmean l))).
Proof. exact li_leading_not_mean. Qed.
Print Assumptions C23_refuted.
Example C23_nonvacuous :
  ints (linear_interpolation DFloat (zs [90; 1; 2; 3; 4]) [0] 0) = [1; 1; 2; 3; 4] /\
  ints (linear_interpolation DFloat (zs [1; 1; 2; 3; 93]) [4] 0) = [1; 1; 2; 3; 20].
Proof. split; vm_compute; reflexivity. Qed.

(** ** C24 *)
Theorem C24_rounded : forall (N : Num) (v : list N) (idx : list Z) (dec : Z) d i,
  valid_only v <> [] -> idx <> [] -> StronglySorted Z.lt idx -> (forall i, In i idx -> 0 <= i < zlen v) ->
  0 <= i < zlen v -> ~ In i idx ->
  exists r, linear_interpolation DFloat v idx dec = Ok r /\ length r = length v /\
    nth (Z.to_nat i) r d = around (nth (Z.to_nat i) v d) dec.
Proof. exact li_keeps_rounded. Qed.
Print Assumptions C24_rounded.
Theorem C24_error : forall (l : list R) (idx : list Z) (dec : Z) i,
  idx <> [] -> StronglySorted Z.lt idx -> (forall i, In i idx -> 0 <= i < zlen l) ->
  0 <= i < zlen l -> ~ In i idx ->
  exists r y, @linear_interpolation XR DFloat (fins l) idx dec = Ok r /\ length r = length l /\
    nth_error r (Z.to_nat i) = Some (Fin y) /\ (Rabs (y - nth (Z.to_nat i) l 0) <= / 2 * powerRZ 10 (- dec))%R.
Proof. exact li_unflagged_exact. Qed.
Print Assumptions C24_error.
(** Hence an unflagged sample with more digits is changed. *)
Theorem C24_refuted : exists (l : list R) (r : list XR),
  @linear_interpolation XR DFloat (fins l) [0] 0 = Ok r /\ nth_error r 1 <> nth_error (fins l) 1.
Proof. exact li_unflagged_changed. Qed.
Print Assumptions C24_refuted.
Example C24_nonvacuous : valid_only (zs [1; 2; 3]) <> [] /\ StronglySorted Z.lt [0; 2] /\ ~ In 1 [0; 2].
Proof. split; [discriminate|]. split; [repeat constructor|]. cbn. lia. Qed.
(** 4.75, 90, 2.25 and 7.5 with the second one flagged, no decimals: every sample is rounded, not only the flagged one. *)
Example C24_run : ints (@linear_interpolation (F64 libm_basic) DFloat [lit 475 2; nofZ 90; lit 225 2; lit 75 1] [1] 0) = [5; 4; 2; 8].
Proof. vm_compute. reflexivity. Qed.

(** ** C25 *)
Theorem C25_refuted : forall (N : Num) dt (v : list N) dec,
  linear_interpolation dt v [] dec = Raise (match dt with DFloat => IndexError | DInt => ValueError end).
Proof. exact li_empty. Qed.
Print Assumptions C25_refuted.
(** An integer record is refused whatever the spikes. *)
Theorem C25_integer_record : forall (N : Num) (v : list N) idx dec, linear_interpolation DInt v idx dec = Raise ValueError.
Proof. exact li_int. Qed.
Print Assumptions C25_integer_record.
Example C25_nonvacuous : linear_interpolation DFloat (zs [1; 2; 3]) [] 4 = Raise IndexError.
Proof. vm_compute. reflexivity. Qed.

(** ** C26 *)
(** What is computed, for every spline routine: the 12 samples i-13..i-2 and the next 12 valid ones. *)
Theorem C26_window : forall (N : Num), @nisnan N nnan = true -> forall spline (v : list N) idx dec r,
  StronglySorted Z.lt idx -> (forall i, In i idx -> 0 <= i < zlen v) ->
  cubic_12points_polynomial spline DFloat v idx dec = Ok r ->
  length r = length v /\
  (forall i, 0 <= i < zlen v -> ~ In i idx -> nth (Z.to_nat i) r nnan = around (nth (Z.to_nat i) v nnan) dec) /\
  (forall i, In i idx -> 30 < i < zlen v - 30 ->
     (12 <= length (later_valid v idx i))%nat /\
     nth (Z.to_nat i) r nnan =
       around (spline (zrange 1 13 ++ zrange 14 26) (firstn 12 (skipn (Z.to_nat (i - 13)) v) ++ firstn 12 (later_valid v idx i)) 13) dec) /\
  (forall i, In i idx -> ~ (30 < i < zlen v - 30) ->
     exists next rest, later_valid v idx i = next :: rest /\
     nth (Z.to_nat i) r nnan =
       around (around (ndiv (nadd (nth (Z.to_nat (if i =? 0 then zlen v - 1 else i - 1)) v nnan) next) (nofZ 2)) 4) dec).
Proof. exact cubic_general. Qed.
Print Assumptions C26_window.
Theorem C26_returns : forall (N : Num), @nisnan N nnan = true -> forall spline (v : list N) idx dec,
  StronglySorted Z.lt idx -> (forall i, In i idx -> 0 <= i < zlen v) ->
  (forall i, In i idx -> (1 <= length (later_valid v idx i))%nat /\ (30 < i < zlen v - 30 -> (12 <= length (later_valid v idx i))%nat)) ->
  exists r, cubic_12points_polynomial spline DFloat v idx dec = Ok r.
Proof. exact cubic_returns. Qed.
Print Assumptions C26_returns.
(** The nearest sample before the spike has no influence. *)
Theorem C26_previous_sample_ignored : forall (N : Num), @nisnan N nnan = true -> forall spline (v w : list N) (i dec : Z) r r',
  (30 < i < zlen v - 30)%Z -> length w = length v ->
  (forall k, (k < length v)%nat -> k <> Z.to_nat (i - 1) -> nth k w nnan = nth k v nnan) ->
  cubic_12points_polynomial spline DFloat v [i] dec = Ok r -> cubic_12points_polynomial spline DFloat w [i] dec = Ok r' ->
  nth (Z.to_nat i) r nnan = nth (Z.to_nat i) r' nnan.
Proof. exact cubic_previous_ignored. Qed.
Print Assumptions C26_previous_sample_ignored.
(** A straight line is not reproduced: with any routine computing the not-a-knot cubic spline the
    replacement is the line half a sample too early. *)
Theorem C26_refuted : forall (spline : list Z -> list XR -> Z -> XR) (alpha beta : R) (n : nat) (i dec : Z) (s : R -> R),
  (30 < i < Z.of_nat n - 30)%Z ->
  cubic_spline (map IZR (zrange 1 13 ++ zrange 14 26)) (split_affine (alpha + beta * IZR i) beta) s ->
  spline (zrange 1 13 ++ zrange 14 26) (fins (split_affine (alpha + beta * IZR i) beta)) 13%Z = Fin (s 13%R) ->
  exists r, cubic_12points_polynomial spline DFloat (fins (map (fun k => alpha + beta * INR k)%R (seq 0 n))) [i] dec = Ok r /\
    nth_error r (Z.to_nat i) = Some (Fin (round_dec dec (alpha + beta * (IZR i - / 2)))).
Proof. exact cubic_affine. Qed.
Print Assumptions C26_refuted.
Example C26_nonvacuous : exists s, cubic_spline (map IZR (zrange 1 13 ++ zrange 14 26)) (split_affine 0 1) s.
Proof. exists (ex_eval 22). exact ex_spline. Qed.

(** ** C27 *)
Theorem C27_simple : forall (l : list R) (w : Z) idx, 0 < w <= zlen l -> in_bounds (zlen l) idx ->
  exists r, @repl_sma XR DFloat (fins l) idx w = Ok r /\ length r = length l /\
    forall k, (k < length l)%nat -> flagged (zlen l) idx k ->
      nth_error r k = Some (Fin (rmean (rwindow l (Z.to_nat w) k))).
Proof. exact sma_repl_exact. Qed.
Print Assumptions C27_simple.
Theorem C27_exponential : forall (l : list R) (a : R) idx, (0 < a <= 1)%R -> l <> [] -> in_bounds (zlen l) idx ->
  exists r, @repl_ema XR DFloat (fins l) idx (Fin a) = Ok r /\ length r = length l /\
    forall k, (k < length l)%nat -> flagged (zlen l) idx k -> nth_error r k = Some (Fin (rema a l k)).
Proof. exact ema_repl_exact. Qed.
Print Assumptions C27_exponential.
(** The weighted average written at spike i is the one of samples i..i+p-1, not of i-p+1..i. *)
Theorem C27_weighted_refuted : forall (l : list R) (p : Z) (i : Z), 0 < p -> 0 <= i < zlen l - p ->
  exists r, @repl_wma XR DFloat (fins l) [i] p = Ok r /\
    nth_error r (Z.to_nat i) = Some (Fin (rwmean (firstn (Z.to_nat p) (skipn (Z.to_nat i) l)))).
Proof. exact wma_repl_exact. Qed.
Print Assumptions C27_weighted_refuted.
(** The last [p] samples cannot be repaired. *)
Theorem C27_weighted_errors : forall (N : Num) dt (v : list N) idx (p : Z),
  (0 < p < zlen v -> ~ in_bounds (zlen v - p) idx -> repl_wma dt v idx p = Raise IndexError) /\
  (0 < p -> p = zlen v -> repl_wma dt v idx p = Raise TypeError).
Proof. exact wma_repl_errors. Qed.
Print Assumptions C27_weighted_errors.
Example C27_nonvacuous : ints (repl_wma DFloat (zs [1; 4; 90; 4; 1]) [0] 2) = [3; 4; 90; 4; 1] /\
  repl_wma DFloat (zs [1; 4; 90; 4; 1]) [3] 2 = Raise IndexError.
Proof. split; vm_compute; reflexivity. Qed.

(** ** C28 *)
Theorem C28_refuted : forall (N : Num) dt (v : list N) arg x0 p0 q rr r, repl_kalman dt v arg x0 p0 q rr <> Ok (Some r).
Proof. exact kalman_never. Qed.
Print Assumptions C28_refuted.
Theorem C28_array_raises : forall (N : Num) dt (v : list N) idx x0 p0 q rr f, kalman_filter v x0 p0 q rr = Ok f ->
  repl_kalman dt v (SArr idx) x0 p0 q rr = Raise TypeError.
Proof. exact kalman_array. Qed.
Print Assumptions C28_array_raises.
Example C28_nonvacuous :
  ints (kalman_filter (zs [8; 2; 3]) (nofZ 0) (nofZ 1) (nofZ 0) (nofZ 1)) = [4; 3; 3].
Proof. vm_compute. reflexivity. Qed.

(** ** C29 *)
Theorem C29_single_refuted : forall (N : Num) regress dt (v : list N) i window degree dec,
  polynomial_replacement regress dt v [i] window degree dec = Raise TypeError.
Proof. exact poly_single. Qed.
Print Assumptions C29_single_refuted.
(** Exactly one spike among samples 1..9. *)
Theorem C29_one_early_refuted : forall (N : Num) regress dt (v : list N) i rest window degree dec,
  1 <= i <= 9 -> i < zlen v -> rest <> [] -> (forall j, In j rest -> 10 <= j) ->
  polynomial_replacement regress dt v (i :: rest) window degree dec = Raise ValueError.
Proof. exact poly_one_small. Qed.
Print Assumptions C29_one_early_refuted.
(** Sample 10 is the first spike. *)
Theorem C29_tenth_first_refuted : forall (N : Num) regress (v : list N) rest window degree dec,
  rest <> [] -> (forall j, In j rest -> 10 <= j) ->
  polynomial_replacement regress DFloat v (10 :: rest) window degree dec = Raise IndexError.
Proof. exact poly_ten_first. Qed.
Print Assumptions C29_tenth_first_refuted.
(** Sample 10 is a spike and is returned as it was, up to rounding. *)
Theorem C29_tenth_kept_refuted : forall (N : Num) regress (v : list N) i1 i2 rest window degree dec,
  let idx := i1 :: i2 :: rest in
  StronglySorted Z.lt idx -> (forall i, In i idx -> 1 <= i <= 10) -> i2 < 10 -> 10 < zlen v -> valid_only v <> [] ->
  exists r, polynomial_replacement regress DFloat v idx window degree dec = Ok r /\ length r = length v /\
    nth 10 r nnan = around (around (nth 10 v nnan) dec) dec.
Proof. exact poly_ten_kept. Qed.
Print Assumptions C29_tenth_kept_refuted.
(** Spikes from sample 11 on: each becomes the prediction of the regression fitted to the [window]
    samples before it, spikes among those already being repaired. *)
Theorem C29_regression : forall (N : Num) regress (v : list N) idx window degree dec r, 0 < window ->
  StronglySorted Z.lt idx -> (forall i, In i idx -> 11 <= i < zlen v) ->
  polynomial_replacement regress DFloat v idx window degree dec = Ok r ->
  exists m, r = map (fun x => around x dec) m /\ length m = length v /\
    (forall i, 0 <= i < zlen v -> ~ In i idx -> nth (Z.to_nat i) m nnan = nth (Z.to_nat i) v nnan) /\
    (forall i, In i idx -> let lo := if i <? window then 0 else i - window in
       regress (firstn (Z.to_nat (i - lo)) (skipn (Z.to_nat lo) m)) (zrange lo i) i degree = Ok (nth (Z.to_nat i) m nnan)).
Proof. exact poly_large. Qed.
Print Assumptions C29_regression.
Theorem C29_returns : forall (N : Num) regress (v : list N) i1 i2 rest window degree dec, 0 < window ->
  let idx := i1 :: i2 :: rest in
  (forall i, In i idx -> 11 <= i < zlen v) -> (forall y x t dg, exists p, regress y x t dg = Ok p) ->
  exists r, polynomial_replacement regress DFloat v idx window degree dec = Ok r.
Proof. exact poly_large_returns. Qed.
Print Assumptions C29_returns.
Example C29_nonvacuous :
  ints (polynomial_replacement (fun y x t d => Ok (nofZ (zlen y * 100 + t))) DFloat
          (zs [0;1;2;3;4;5;6;7;8;9;10;11;12;13]) [11; 13] 13 2 4) = [0;1;2;3;4;5;6;7;8;9;10;1111;12;1313].
Proof. vm_compute. reflexivity. Qed.
