(** Weighted averages with fixed weights, independent of the models. *)
From Coq Require Import Reals List.
From Verif Require Import Spec.
Import ListNotations.
Local Open Scope R_scope.
(** Entry [i] is the sum of the samples multiplied by row [i] of the weights. *)
Definition weighted (m : nat) (W : nat -> nat -> R) (l : list R) : list R :=
  map (fun i => Rsum (map (fun j => W i j * nth j l 0) (seq 0 (length l)))) (seq 0 m).
(** Each of the first [m] rows has non-negative entries whose first [n] add up to 1. *)
Definition convex_rows (m n : nat) (W : nat -> nat -> R) : Prop :=
  forall i, (i < m)%nat -> (forall j, 0 <= W i j) /\ Rsum (map (W i) (seq 0 n)) = 1.
(** [f], defined on records of [n] samples and returning [m], respects sums and multiples, is monotone,
    keeps constants and brings no two records further apart (in the largest difference of samples). *)
Definition good_smoother (m n : nat) (f : list R -> list R) : Prop :=
  (forall u, length u = n -> length (f u) = m) /\
  (forall u v w a b, length u = n -> length v = n -> length w = n ->
     (forall j, (j < n)%nat -> nth j w 0 = a * nth j u 0 + b * nth j v 0) ->
     forall i, (i < m)%nat -> nth i (f w) 0 = a * nth i (f u) 0 + b * nth i (f v) 0) /\
  (forall u v, length u = n -> length v = n -> (forall j, (j < n)%nat -> nth j u 0 <= nth j v 0) ->
     forall i, (i < m)%nat -> nth i (f u) 0 <= nth i (f v) 0) /\
  (forall c i, (i < m)%nat -> nth i (f (repeat c n)) 0 = c) /\
  (forall u v d, length u = n -> length v = n -> (forall j, (j < n)%nat -> Rabs (nth j u 0 - nth j v 0) <= d) ->
     forall i, (i < m)%nat -> Rabs (nth i (f u) 0 - nth i (f v) 0) <= d).
