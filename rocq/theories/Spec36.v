(** Alternating sums, independent of the models. *)
From Coq Require Import Reals List.
From Verif Require Import Spec.
(** f 0 - f 1 + f 2 - ... , [c] terms. *)
Definition alternating (f : nat -> R) (c : nat) : R := Rsum (map (fun k => ((-1) ^ k * f k)%R) (seq 0 c)).
