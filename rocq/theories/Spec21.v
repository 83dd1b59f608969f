(** Reference definitions for the rotation of the spherical detector. No model code here. *)
From Coq Require Import Reals List Arith.
From Verif Require Import Spec.
Import ListNotations.
Local Open Scope R_scope.

(** Central differences with one-sided ends. *)
Definition rgrad (c : list R) (i : nat) : R :=
  if i =? 0 then nth 1 c 0 - nth 0 c 0
  else if i =? length c - 1 then nth i c 0 - nth (i - 1) c 0
  else (nth (i + 1) c 0 - nth (i - 1) c 0) / 2.
Definition rgradient (c : list R) : list R := map (rgrad c) (seq 0 (length c)).
(** Slope of the regression line through the origin of [b] on [a]: the tangent of Goring and Nikora's angle when [b] is
    the second derivative of [a]. *)
Definition regression_slope (a b : list R) : R := rdot a b / rdot a a.
(** The oscillation 0, a, 0, -a, 0, a, ... *)
Fixpoint wave (a : R) (i : nat) : R :=
  match i with O => 0 | S O => a | S (S j) => - wave a j end.
