(** Reference definitions for the smoothers and replacements under a change of unit or origin. *)
From Coq Require Import Reals.
From Verif Require Export Spec.

(** Change of unit and origin of one value; undefined and infinite values stay. *)
Definition affine (a b : R) (x : XR) : XR := match (x : xr) with Fin r => Fin (a * r + b)%R | y => y end.
(** The result of a computation with every sample transformed; an exception stays the same exception. *)
Definition each {A B} (f : A -> B) (r : res (list A)) : res (list B) :=
  match r with Ok l => Ok (map f l) | Raise e => Raise e end.
(** A velocity component along another direction: the same combination of the three components at every sample. *)
Definition mix (a b c : R) (u v w : list R) : list R :=
  map (fun p => a * fst (fst p) + b * snd (fst p) + c * snd p)%R (combine (combine u v) w).
