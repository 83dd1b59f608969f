(** Reference definitions for changes of unit. Independent of the model. *)
From Coq Require Import Reals List ZArith.
From Verif Require Import Spec.
Import ListNotations.
Local Open Scope R_scope.

(** Samples two steps apart differ by at most 1e-4. *)
Definition still (l : list R) : Prop :=
  forall i, (0 < i)%nat -> (i + 1 < length l)%nat -> Rabs (nth (i + 1) l 0 - nth (i - 1) l 0) <= / 10000.
(** All deviations from the mean are at most 5e-5. *)
Definition faint (l : list R) : Prop := forall x, In x l -> Rabs (x - rmean l) <= / 20000.
(** Every sample is an integer multiple of the step. *)
Definition grid_of (step : R) (l : list R) : Prop := forall x, In x l -> exists k : Z, x = IZR k * step.
(** Column j of a matrix given by its rows, and the dimensions that broadcast together. *)
Definition rcolumn (j : nat) (m : list (list R)) : list R := map (fun row => nth j row 0) m.
Definition dims_fit (m n : nat) : Prop := m = n \/ m = 1%nat \/ n = 1%nat.
