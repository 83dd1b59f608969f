(** Reference definitions for containers, integer arrays and array-valued parameters. *)
From Coq Require Import ZArith List.
From Verif Require Import Num M_kalman.
Import ListNotations.

(** The sum of a list of integers. *)
Definition zsum (l : list Z) : Z := fold_right Z.add 0%Z l.

(** A power of a NaN with positive exponent is a NaN. *)
Definition pow_nan (N : Num) : Prop := forall (x : N) n, nisnan x = true -> nisnan (nipow x (S n)) = true.

(** One number as scalar, array of one element, or 1x1 matrix; a row of numbers. *)
Definition single {N : Num} (a : arr N) (x : N) : Prop := a = A0 x \/ a = A1 [x] \/ a = A2 1 1 [[x]].
Definition row {N : Num} (a : arr N) (l : list N) : Prop :=
  match a with A0 x => l = [x] | A1 k => k = l /\ length l = 1%nat | A2 r c m => r = 1%nat /\ m = [l] /\ length l = c end.
(** The shapes that get through the filter. *)
Definition one_entry {N : Num} (a : arr N) : Prop :=
  match a with A0 _ => True | A1 l => length l = 1%nat | A2 r c _ => r = 1%nat /\ c = 1%nat end.
Definition one_row {N : Num} (a : arr N) : Prop :=
  match a with A0 _ => True | A1 l => length l = 1%nat | A2 r _ _ => r = 1%nat end.
Definition is_vector {N : Num} (a : arr N) : Prop := match a with A1 _ => True | _ => False end.
Definition is_matrix {N : Num} (a : arr N) : Prop := match a with A2 _ _ _ => True | _ => False end.


