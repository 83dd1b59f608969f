(** Reference definitions for the density in binary64. *)
From Coq Require Import Reals ZArith List.
From Flocq Require Import Core IEEE754.BinarySingleNaN.
From Verif Require Import Num XR F64 Spec7.
Local Open Scope R_scope.

(** A libm whose [exp] and [log] are accurate to a few units in the last place where they neither overflow nor are undefined,
    with an accurate constant pi. *)
Definition exp_accurate (L : Libm) : Prop :=
  (forall y : f64, is_finite y = true -> B2R y <= 600 -> close (l_exp L y) (exp (B2R y))) /\
  (forall y : f64, is_finite y = true -> 0 < B2R y -> close (l_log L y) (ln (B2R y))) /\
  close (l_pi L) PI.
(** The logarithm of zero is minus infinity. *)
Definition log_zero (L : Libm) : Prop := forall s, l_log L (B754_zero s) = B754_infinity true.
(** Half the squared distance from the mean, in standard deviations. *)
Definition half_dist (m s x : R) : R := (x - m) * (x - m) / (2 * (s * s)).
