(** Curves drawn over the sample indices, independent of the models. *)
From Coq Require Import Reals List ZArith.
From Verif Require Import Num XR.
(** The points (0, f 0), (1, f 1), ..., (n-1, f (n-1)). *)
Definition curve (n : nat) (f : nat -> R) : list (Z * car XR) := map (fun i => (Z.of_nat i, Fin (f i))) (seq 0 n).
(** A step: [k] samples [c], then [m] samples [c + h]. *)
Definition rstep (c h : R) (k m : nat) : list R := repeat c k ++ repeat (c + h)%R m.
