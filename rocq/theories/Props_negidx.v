(** Property theorem C149: spike indices counted from the end of the record. *)
From Coq Require Import Reals List ZArith.
From Verif Require Import Num XR F64 F64ex Spec Spec25 M_replacement P_negidx.
Import ListNotations.
Local Open Scope Z_scope.
Local Notation NF := (F64 libm_basic).

(** Every number type: mean, median, simple and exponential averages (and the last valid sample, except for the
    first one) do not distinguish the two ways of naming a sample. *)
Theorem C149_same : forall (N : Num) dt (v : list N) idx, Forall (in_range (zlen v)) idx ->
  mean_value dt v idx = mean_value dt v (map (from_start (zlen v)) idx) /\
  median_value dt v idx = median_value dt v (map (from_start (zlen v)) idx) /\
  (forall w, 0 < w <= zlen v -> repl_sma dt v idx w = repl_sma dt v (map (from_start (zlen v)) idx) w) /\
  (forall a, repl_ema dt v idx a = repl_ema dt v (map (from_start (zlen v)) idx) a) /\
  (Forall (fun i => i <> - zlen v) idx -> last_valid_data v idx = last_valid_data v (map (from_start (zlen v)) idx)).
Proof. exact same_neg. Qed.
Print Assumptions C149_same.
(** The last valid sample: the first sample cannot be named from the end. *)
Theorem C149_first_refuted : forall (N : Num) (v : list N), v <> [] -> last_valid_data v [- zlen v] = Raise IndexError /\
  exists r, last_valid_data v [0] = Ok r.
Proof. exact last_valid_first. Qed.
Print Assumptions C149_first_refuted.
(** Linear interpolation: index -1 leaves NaN in the record; -k copies the next sample instead of interpolating. *)
Theorem C149_linear_refuted : forall (l : list R) (k : Z) dec, 1 <= k <= zlen l -> 2 <= zlen l ->
  exists r, @linear_interpolation XR DFloat (fins l) [- k] dec = Ok r /\
    nth_error r (Z.to_nat (zlen l - k)) = Some (if k =? 1 then NaN else Fin (round_dec dec (nth (Z.to_nat (zlen l - k + 1)) l 0%R))).
Proof. exact li_neg. Qed.
Print Assumptions C149_linear_refuted.
(** Weighted average: -k takes the average of the [p] samples before the replaced one; the same sample counted from
    the start is out of range when [k <= p] (and is given the samples after it otherwise, C27_weighted_refuted). *)
Theorem C149_weighted_refuted : forall (l : list R) (p k : Z), 0 < p -> 1 <= k <= zlen l - p ->
  exists r, @repl_wma XR DFloat (fins l) [- k] p = Ok r /\
    nth_error r (Z.to_nat (zlen l - k)) = Some (Fin (rwmean (firstn (Z.to_nat p) (skipn (Z.to_nat (zlen l - k - p)) l)))) /\
    (k <= p -> @repl_wma XR DFloat (fins l) [zlen l - k] p = Raise IndexError).
Proof. exact wma_neg. Qed.
Print Assumptions C149_weighted_refuted.
(** Cubic interpolation: the same within 30 samples of either end ... *)
Theorem C149_cubic : forall (N : Num) spline (v : list N) k dec, 1 <= k < zlen v -> k <= 30 \/ zlen v - k <= 30 ->
  cubic_12points_polynomial spline DFloat v [- k] dec = cubic_12points_polynomial spline DFloat v [zlen v - k] dec.
Proof. exact cubic_neg. Qed.
Print Assumptions C149_cubic.
(** ... but a negative index never reaches the spline: it always gets the average of the two neighbours. *)
Theorem C149_cubic_refuted : forall (N : Num) spline (v : list N) k dec d, @nisnan N nnan = true -> 2 <= k < zlen v ->
  nisnan (nth (Z.to_nat (zlen v - k + 1)) v d) = false ->
  exists r, cubic_12points_polynomial spline DFloat v [- k] dec = Ok r /\
    nth_error r (Z.to_nat (zlen v - k)) = Some (around (around (ndiv (nadd (nth (Z.to_nat (zlen v - k - 1)) v d) (nth (Z.to_nat (zlen v - k + 1)) v d)) (nofZ 2)) 4) dec).
Proof. exact cubic_neg_middle. Qed.
Print Assumptions C149_cubic_refuted.
(** Polynomial: a sample of the first window cannot be named from the end. *)
Theorem C149_polynomial_refuted : forall (N : Num) regress dt (v : list N) k j rest window degree dec, 1 <= k <= zlen v -> zlen v - k < window ->
  polynomial_replacement regress dt v (- k :: j :: rest) window degree dec = Raise ValueError.
Proof. exact poly_neg. Qed.
Print Assumptions C149_polynomial_refuted.
(** 1, 2, 9, 4, 5, 8: the spike 9 is sample 2 or -4, the last sample is 5 or -1. *)
Example C149_nonvacuous :
  let v := map (@nofZ NF) [1; 2; 9; 4; 5; 8] in
  let show := fun r : res (list NF) => match r with Ok l => map (fun x => if nisnan x then -1 else nfloorZ (nmul x (nofZ 100))) l | Raise _ => [] end in
  Forall (in_range (zlen v)) [-4; 2] /\
  (show (linear_interpolation DFloat v [2] 2), show (linear_interpolation DFloat v [-4] 2), show (linear_interpolation DFloat v [-1] 2))
  = ([100; 200; 300; 400; 500; 800], [100; 200; 400; 400; 500; 800], [100; 200; 900; 400; 500; -1]) /\
  (show (last_valid_data v [-4]), show (last_valid_data v [2]), show (repl_wma DFloat v [-1] 2), show (repl_wma DFloat v [5] 2))
  = ([100; 200; 200; 400; 500; 800], [100; 200; 200; 400; 500; 800], [100; 200; 900; 400; 500; 466], []).
Proof. split; [|split]; [repeat constructor; discriminate | vm_compute; reflexivity | vm_compute; reflexivity]. Qed.
