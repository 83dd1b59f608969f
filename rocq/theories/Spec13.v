(** Reference notions for the root finder in binary64. *)
From Coq Require Import Reals ZArith.
From Flocq Require Import Core IEEE754.BinarySingleNaN.
From Verif Require Import Num F64.
Local Open Scope R_scope.

(** [c (x^3 - 2)] computed with one rounding per operation, and 2^-k. *)
Definition cubic {N : Num} (c x : N) : N := nmul c (nsub (nmul x (nmul x x)) (nofZ 2)).
Definition half_pow {N : Num} (k : Z) : N := ndiv (nofZ 1) (nofZ (2 ^ k)).

(** A finite double of the interval [a, b]. *)
Definition within (a b x : f64) : Prop := is_finite x = true /\ B2R a <= B2R x <= B2R b.
(** Strictly on different sides of zero (infinities allowed, NaN not). *)
Definition opposite (u v : f64) : Prop :=
  (Bltb u (B754_zero false) = true /\ Bltb (B754_zero false) v = true) \/
  (Bltb v (B754_zero false) = true /\ Bltb (B754_zero false) u = true).
(** [x^2 - 2] computed with one rounding per operation. *)
Definition square2 {N : Num} (x : N) : N := nsub (nmul x x) (nofZ 2).
