(** Property theorems C153: the smoothers are weighted averages with weights that do not depend on the data. *)
From Coq Require Import Reals Lra List ZArith.
From Verif Require Import Num NpBase XR F64 F64ex Spec Spec28 M_descriptive M_series P_series P_smooth.
Import ListNotations.
Local Open Scope R_scope.

(** For every length and window one table of non-negative weights with row sums 1 serves all records; in particular the
    smoother is linear, monotone, keeps constants and does not enlarge differences. *)
Theorem C153_moving_average : forall (n : nat) (w : Z), (0 < w <= Z.of_nat n)%Z ->
  exists W, convex_rows n n W /\ good_smoother n n (weighted n W) /\
    forall l, length l = n -> @moving_average XR 1 (fins l) w = Ok (fins (weighted n W l)).
Proof. exact sma_weights. Qed.
Print Assumptions C153_moving_average.
Theorem C153_weighted : forall (n : nat) (p : Z), (0 < p)%Z -> (p <= Z.of_nat n)%Z ->
  exists W, convex_rows (n - Z.to_nat p) n W /\ good_smoother (n - Z.to_nat p) n (weighted (n - Z.to_nat p) W) /\
    forall l, length l = n -> @weighted_moving_average XR (fins l) p = Ok ((p <? Z.of_nat n)%Z, fins (weighted (n - Z.to_nat p) W l)).
Proof. exact wma_weights. Qed.
Print Assumptions C153_weighted.
Theorem C153_exponential : forall (n : nat) (a : R), 0 < a <= 1 -> (0 < n)%nat ->
  exists W, convex_rows n n W /\ good_smoother n n (weighted n W) /\
    forall l, length l = n -> @exponential_moving_average XR DFloat (fins l) (Fin a) = Ok (fins (weighted n W l)).
Proof. exact ema_weights. Qed.
Print Assumptions C153_exponential.
(** The Kalman filter averages the initial state together with the record. *)
Theorem C153_kalman : forall (n : nat) p0 Q R0, 0 < Q -> 0 < R0 -> 0 <= p0 ->
  exists W, convex_rows n (S n) W /\ good_smoother n (S n) (weighted n W) /\
    forall l x0, length l = n -> @kalman_filter XR (fins l) (Fin x0) (Fin p0) (Fin Q) (Fin R0) = Ok (fins (weighted n W (x0 :: l))).
Proof. exact kalman_weights. Qed.
Print Assumptions C153_kalman.
Example C153_nonvacuous : (0 < 2 <= Z.of_nat 3)%Z /\ 0 < / 3 <= 1 /\ weighted 1 (fun _ j => if Nat.eqb j 1 then 1 else 0) [5; 7] = [7].
Proof. split; [cbn; lia|]. split; [lra|]. cbn. f_equal. ring. Qed.
(** Linearity at work in binary64 on small integers: twice the first record minus the second. *)
Example C153_run :
  let s := fun l => match @moving_average (F64 libm_basic) 1 (map (@nofZ (F64 libm_basic)) l) 2 with Ok r => map (fun x => nfloorZ (nmul x (nofZ 2))) r | Raise _ => [] end in
  (s [4; 2; 8] = [8; 6; 10] /\ s [1; 1; 3] = [2; 2; 4] /\ s [7; 3; 13] = [14; 10; 16])%Z.
Proof. vm_compute. repeat split. Qed.
