(** Straight lines, independent of the models. *)
From Coq Require Import Reals List.
(** The record a, a + b, a + 2 b, ... of [n] samples. *)
Definition line (a b : R) (n : nat) : list R := map (fun i => (a + b * INR i)%R) (seq 0 n).
