(** Records that differ at flagged samples only, independent of the models. *)
From Coq Require Import Reals List ZArith.
From Verif Require Import Num NpBase.
Import ListNotations.
(** Same length, same samples at the positions that are not flagged. *)
Definition same_good {A} (idx : list Z) (v w : list A) (d : A) : Prop :=
  length w = length v /\ forall i, (0 <= i < zlen v)%Z -> ~ In i idx -> nth (Z.to_nat i) w d = nth (Z.to_nat i) v d.
(** [l] with [d] added to sample [k]. *)
Definition bump (l : list R) (k : nat) (d : R) : list R := firstn k l ++ (nth k l 0 + d)%R :: skipn (S k) l.
