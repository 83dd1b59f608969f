(** Property theorems C164: repaired records and the variance of the record. *)
From Coq Require Import Reals Lra List ZArith.
From Verif Require Import Num NpBase XR F64 F64ex Spec M_descriptive M_series M_replacement M_pipeline P_shrink.
Import ListNotations.
Local Open Scope R_scope.

(** Whatever the indices, as soon as a record is returned. *)
Theorem C164_mean : forall (l : list R) idx r, @mean_value XR DFloat (fins l) idx = Ok r -> exists m, r = fins m /\ length m = length l /\ rvar m <= rvar l.
Proof. exact mean_shrinks. Qed.
Print Assumptions C164_mean.
(** The script that replaces by the mean until nothing is flagged. *)
Theorem C164_correlation_script : forall (x y z : list R) r, corr_script (fins x, fins y, fins z) = Ok r ->
  exists x' y' z', r = (fins x', fins y', fins z') /\ rvar x' <= rvar x /\ rvar y' <= rvar y /\ rvar z' <= rvar z.
Proof. exact corr_shrinks. Qed.
Print Assumptions C164_correlation_script.
(** A flagged sample equal to the mean, between two low ones. *)
Theorem C164_others_refuted : rvar [-10; 0; -10; 20] = 150 /\
  (@last_valid_data XR (fins [-10; 0; -10; 20]) [1%Z] = Ok (fins [-10; -10; -10; 20]) /\
   @linear_interpolation XR DFloat (fins [-10; 0; -10; 20]) [1%Z] 4 = Ok (fins [-10; -10; -10; 20]) /\ 168 < rvar [-10; -10; -10; 20]) /\
  (@median_value XR DFloat (fins [-10; 0; -10; 20]) [1%Z] = Ok (fins [-10; -5; -10; 20]) /\
   @repl_sma XR DFloat (fins [-10; 0; -10; 20]) [1%Z] 2 = Ok (fins [-10; -5; -10; 20]) /\ 154 < rvar [-10; -5; -10; 20]).
Proof. exact increases. Qed.
Print Assumptions C164_others_refuted.
(** In binary64: the variances before and after the replacement by the mean and by the last valid sample. *)
Example C164_nonvacuous :
  let z := map (@nofZ (F64 libm_basic)) in
  let var := fun r : res (list (F64 libm_basic)) => match r with Ok l => match spread_variance (farr l) with Ok v => nfloorZ v | Raise _ => (-1)%Z end | Raise _ => (-1)%Z end in
  var (Ok (z [-10; 0; -10; 20]%Z)) = 150%Z /\ var (mean_value DFloat (z [-10; 0; -10; 20]%Z) [3%Z]) = 25%Z /\ var (last_valid_data (z [-10; 0; -10; 20]%Z) [1%Z]) = 168%Z.
Proof. vm_compute. repeat split. Qed.
