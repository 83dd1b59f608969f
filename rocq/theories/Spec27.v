(** Greedy pairing of poles and zeros, independent of the models. *)
From Coq Require Import Reals List Sorted Permutation.
From Coquelicot Require Import Complex.
From Verif Require Import Num XR Spec3 Spec26.
Import ListNotations.
Local Open Scope R_scope.
(** The positions returned by a sort list the values in increasing order. *)
Definition sorts (f : list XR -> list nat) : Prop :=
  forall d : list R, StronglySorted (fun i j => nth i d 0 <= nth j d 0) (f (map Fin d)).
(** The companion [b] of [a], with [rest] left over: the conjugate of a complex [a]; for a real [a] the real number
    of least [cost] among those that remain. *)
Definition companion (cost : C -> R) (a b : C) (rest : list C) : Prop :=
  (snd a <> 0 -> b = Cconj a) /\
  (snd a = 0 -> snd b = 0 /\ forall v, In v rest -> snd v = 0 -> cost b <= cost v).
(** Sections are chosen from the last to the first. Each takes the pole with the least margin, its companion, the zero
    nearest to that pole, and the companion of the zero (conjugate, or nearest real zero). *)
Inductive greedy (ag : bool) : list C -> list C -> list (list R) -> Prop :=
| greedy_nil : greedy ag [] [] []
| greedy_last P Z p1 p2 P' z1 z2 Z' rows r :
    Permutation P (p1 :: p2 :: P') -> Permutation Z (z1 :: z2 :: Z') ->
    (forall p, In p P -> margin ag p1 <= margin ag p) -> companion (margin ag) p1 p2 P' ->
    (forall z, In z Z -> Cmod (z1 - p1)%C <= Cmod (z - p1)%C) -> companion (fun z => Cmod (z - p1)%C) z1 z2 Z' ->
    length r = 6%nat -> (forall s, num_at r s = from_roots [z1; z2] s) -> (forall s, den_at r s = from_roots [p1; p2] s) ->
    greedy ag P' Z' rows -> greedy ag P Z (rows ++ [r]).
(** The gain multiplies the numerator of the first section. *)
Definition with_gain (k : R) (rows : list (list R)) : list (list R) :=
  match rows with
  | [b0; b1; b2; a0; a1; a2] :: rest => [b0 * k; b1 * k; b2 * k; a0; a1; a2] :: rest
  | _ => rows
  end.
(** Roots at the origin are added up to the number [n]. *)
Definition padded_to (n : nat) (l : list C) : list C := l ++ repeat (RtoC 0) (n - length l).
