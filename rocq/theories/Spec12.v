(** Reference notions for roots that do not come in conjugate pairs. *)
From Coq Require Import Reals List ZArith Bool Permutation.
From Coquelicot Require Import Complex.
From Flocq Require Import Core.Raux.
From Verif Require Import Num.
Import ListNotations.

(** Farther from the real axis than 100 machine epsilons (relative to the modulus), above and below it. *)
Definition upper_root (v : C) : bool := Rlt_bool (100 / 2 ^ 52 * Cmod v) (snd v).
Definition lower_root (v : C) : bool := Rlt_bool (100 / 2 ^ 52 * Cmod v) (- snd v).
(** Not as many roots above the axis as below. *)
Definition unbalanced (l : list C) : Prop := length (filter upper_root l) <> length (filter lower_root l).

(** A list is cut into maximal runs of members linked to their successor: the runs follow each other, none is
    empty, successive members of a run are linked, the last of a run is not linked to the first of the next. *)
Fixpoint linked {A} (link : A -> A -> bool) (l : list A) : Prop :=
  match l with a :: (b :: _) as l' => link a b = true /\ linked link l' | _ => True end.
Fixpoint maximal_runs {A} (link : A -> A -> bool) (rs : list (list A)) : Prop :=
  match rs with
  | [] => True
  | r :: rs' =>
      r <> [] /\ linked link r /\ maximal_runs link rs' /\
      match rs' with (b :: _) :: _ => forall a, link (last r a) b = false | _ => True end
  end.
(** Consecutive pieces of the given lengths. *)
Fixpoint cut {A} (lens : list nat) (l : list A) : list (list A) :=
  match lens with [] => [] | k :: lens' => firstn k l :: cut lens' (skipn k l) end.

Section Any.
Context {N : Num}.
(** 100 machine epsilons, the modulus, and the three kinds of roots, in any arithmetic. *)
Definition eps100 : N := nmul (nofZ 100) (ndiv (nofZ 1) (nofZ (2 ^ 52))).
Definition modulus (v : N * N) : N := nsqrt (nadd (nmul (fst v) (fst v)) (nmul (snd v) (snd v))).
Definition near_real (v : N * N) : bool := nleb (nabs (snd v)) (nmul eps100 (modulus v)).
Definition above (v : N * N) : bool := negb (near_real v) && nltb (nofZ 0) (snd v).
Definition below (v : N * N) : bool := negb (near_real v) && nltb (snd v) (nofZ 0).
(** [p] and the conjugate of [n] differ by no more than the tolerance; their midpoint. *)
Definition too_far (p n : N * N) : bool :=
  nltb (nmul eps100 (modulus n)) (modulus (nsub (fst p) (fst n), nsub (snd p) (nopp (snd n)))).
End Any.
