(** Property theorems C161: the order of the spike indices. *)
From Coq Require Import Reals Lra List ZArith.
From Verif Require Import Num NpBase XR F64 F64ex Spec Spec33 M_descriptive M_series M_replacement P_ixorder.
Import ListNotations.
Local Open Scope Z_scope.

Theorem C161_mean_median : forall (N : Num) dt (v : list N) idx idx', in_bounds (zlen v) idx -> same_set idx idx' ->
  mean_value dt v idx = mean_value dt v idx' /\ median_value dt v idx = median_value dt v idx'.
Proof. exact mean_set. Qed.
Print Assumptions C161_mean_median.
(** Whatever the window, the smoothing factor, the period and the decomposition. *)
Theorem C161_averages : forall (N : Num) dt (v : list N) idx idx', (forall i, In i idx -> 0 <= i < zlen v) -> same_set idx idx' ->
  (forall w, repl_sma dt v idx w = repl_sma dt v idx' w) /\ (forall a, repl_ema dt v idx a = repl_ema dt v idx' a) /\
  (forall p, repl_wma dt v idx p = repl_wma dt v idx' p) /\ (forall eigh fs f, repl_ssa eigh dt v idx fs f = repl_ssa eigh dt v idx' fs f).
Proof. exact averages_set. Qed.
Print Assumptions C161_averages.
(** In descending order a spike is replaced by the spike before it. *)
Theorem C161_last_valid_refuted : forall (N : Num) (a b c : N),
  last_valid_data [a; b; c] [1; 2] = Ok [a; a; a] /\ last_valid_data [a; b; c] [2; 1] = Ok [a; a; b].
Proof. exact lvd_order. Qed.
Print Assumptions C161_last_valid_refuted.
(** In descending order the run is taken for an empty one and its samples stay NaN. *)
Theorem C161_interpolation_refuted : forall (a b c d : R) dec,
  @linear_interpolation XR DFloat (fins [a; b; c; d]) [2; 1] dec = Ok [Fin (round_dec dec a); NaN; NaN; Fin (round_dec dec d)].
Proof. exact li_order. Qed.
Print Assumptions C161_interpolation_refuted.
(** In descending order the repaired second spike counts as a valid sample for the first. *)
Theorem C161_cubic_refuted : forall spline (k : Z),
  @cubic_12points_polynomial XR spline DFloat (fins [0; IZR (4 * k); 7; 0]%R) [1; 2] 4 = Ok (fins [0; 0; IZR (2 * k); 0]%R) /\
  @cubic_12points_polynomial XR spline DFloat (fins [0; IZR (4 * k); 7; 0]%R) [2; 1] 4 = Ok (fins [0; IZR k; IZR (2 * k); 0]%R).
Proof. exact cubic_order. Qed.
Print Assumptions C161_cubic_refuted.
Example C161_nonvacuous : same_set [3; 1; 3] [1; 3] /\ (forall i, In i [3; 1; 3] -> 0 <= i < 4) /\ [3; 1; 3] <> [1; 3].
Proof.
  split; [intros i; cbn; tauto|]. split; [|discriminate]. intros i H. cbn in H. Lia.lia.
Qed.
(** In binary64, with the flags in ascending and in descending order. *)
Example C161_run :
  let z := map (@nofZ (F64 libm_basic)) in
  let ints := fun r : res (list (F64 libm_basic)) => match r with Ok l => map nfloorZ l | Raise _ => [] end in
  ints (mean_value DFloat (z [4; 90; 90; 16]) [1; 2]) = [4; 50; 50; 16] /\ ints (mean_value DFloat (z [4; 90; 90; 16]) [2; 1; 2]) = [4; 50; 50; 16] /\
  ints (last_valid_data (z [4; 90; 90; 16]) [1; 2]) = [4; 4; 4; 16] /\ ints (last_valid_data (z [4; 90; 90; 16]) [2; 1]) = [4; 4; 90; 16] /\
  ints (linear_interpolation DFloat (z [4; 90; 90; 16]) [1; 2] 4) = [4; 8; 12; 16].
Proof. vm_compute. repeat split. Qed.
