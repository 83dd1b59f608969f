(** Reference definitions for the normal distribution in binary64. *)
From Coq Require Import Reals ZArith List.
From Flocq Require Import Core IEEE754.BinarySingleNaN.
From Verif Require Import Num XR F64.
Local Open Scope R_scope.

(** [p] is the real [r] up to a few units in the last place (2^-50 relative), half the least positive float near 0. *)
Definition close (p : f64) (r : R) : Prop :=
  is_finite p = true /\ Rabs (B2R p - r) <= bpow radix2 (-50) * Rabs r + bpow radix2 (-1075).

(** A libm whose [erf] and [erfc] are that accurate on every finite float. *)
Definition erf_accurate (L : Libm) : Prop := forall y : f64, is_finite y = true ->
  close (l_erf L y) (erfR (B2R y)) /\ close (l_erfc L y) (erfcR (B2R y)).
