(** Reference definitions for repeated calls of a replacement method. *)
From Coq Require Import Reals List ZArith Bool.
From Verif Require Import Num Lib.
Import ListNotations.

(** [j] calls, each on the result of the one before. *)
Fixpoint calls {A} (f : A -> res A) (j : nat) (x : A) : res A :=
  match j with O => Ok x | S j' => let* y := f x in calls f j' y end.
(** Position [k] of an array of [n] elements is denoted by some index of the list, counted from either end. *)
Definition hit (n : Z) (idx : list Z) (k : nat) : bool := existsb (fun i => (i =? Z.of_nat k)%Z || (i =? Z.of_nat k - n)%Z) idx.
(** The samples at the denoted positions and the other ones. *)
Definition hits (idx : list Z) (l : list R) : list R :=
  map (fun k => nth k l 0%R) (filter (hit (Z.of_nat (length l)) idx) (seq 0 (length l))).
Definition others (idx : list Z) (l : list R) : list R :=
  map (fun k => nth k l 0%R) (filter (fun k => negb (hit (Z.of_nat (length l)) idx k)) (seq 0 (length l))).
