(** The recursion behind the automatic bandwidth (Botev, Grotowski, Kroese 2010), written as relations. *)
From Coq Require Import Reals ZArith.
From Verif Require Import Spec Spec2.
Local Open Scope R_scope.

(** The time at which the functional of orders [s0], [s1] is taken when the two next ones sum to [f]. *)
Definition stage_time (n : Z) (s0 s1 : nat) (f : R) : R :=
  Rpower ((1 + / 2 ^ (s0 + s1 + 1)) / (3 * PI) * (odd_fact s0 * odd_fact s1) * (-1) ^ (s0 + s1 + 1) / (IZR n * f)) (/ (2 + INR (s0 + s1))).
(** [stages n t ic A s0 s1 v]: [v] is the functional of orders [s0], [s1], started at the guess [t] with order 5. *)
Inductive stages (n : Z) (t : R) (ic : list R) (A : list (list R)) : nat -> nat -> R -> Prop :=
| stage_last s0 s1 : (s0 + s1 = 5)%nat -> stages n t ic A s0 s1 (rpsi s0 s1 t ic A)
| stage_next s0 s1 f g : (s0 + s1 <= 4)%nat -> stages n t ic A (S s0) s1 f -> stages n t ic A s0 (S s1) g ->
    stages n t ic A s0 s1 (rpsi s0 s1 (stage_time n s0 s1 (f + g)) ic A).
