(** Reference definitions for the despiking scripts, independent of the model's loops. *)
From Coq Require Import Reals ZArith List Bool Sorted.
From Flocq Require Import Core.Raux.
From Verif Require Import Num Lib XR Spec Spec4.
Import ListNotations.
Open Scope Z_scope.

(** A run of passes over a state: at pass number [k] the indices found in the state are not empty, and the
    replacement at these indices gives the state of the next pass. The list holds the indices of each pass. *)
Inductive passes {S} (detect : nat -> S -> res (list Z)) (replace : S -> list Z -> res S)
  : nat -> S -> list (list Z) -> S -> Prop :=
| passes_none k s : passes detect replace k s [] s
| passes_more k s idx t hist s' :
    detect k s = Ok idx -> idx <> [] -> replace s idx = Ok t ->
    passes detect replace (Datatypes.S k) t hist s' -> passes detect replace k s (idx :: hist) s'.

(** [s'] comes from [s] by [length hist] passes, at most [max], and when there were fewer the detector finds
    nothing in [s']. *)
Definition despiked {S} (detect : nat -> S -> res (list Z)) (replace : S -> list Z -> res S) (max : nat)
  (s : S) (hist : list (list Z)) (s' : S) : Prop :=
  passes detect replace 0 s hist s' /\
  (length hist = max \/ ((length hist < max)%nat /\ detect (length hist) s' = Ok [])).

(** Sample [i] is in none of the index lists. *)
Definition never (hist : list (list Z)) (i : nat) : Prop := forall idx, In idx hist -> ~ In (Z.of_nat i) idx.

(** The point lies outside the ellipse centred at the origin with half axes [a] and [b]. *)
Definition beyond (a b u w : R) : Prop := (1 < (u / a) ^ 2 + (w / b) ^ 2)%R.

(** The smaller (in absolute value) of the backward and the forward difference, 0 at both ends. *)
Definition rsmaller (l : list R) : list R :=
  map (fun i => if (Nat.ltb 0 i && Nat.ltb (S i) (length l))%bool then
                  let b := (nth i l 0 - nth (i - 1) l 0)%R in let f := (nth (S i) l 0 - nth i l 0)%R in
                  if Rlt_dec (Rabs f) (Rabs b) then f else b
                else 0%R) (seq 0 (length l)).

(** A sorted list of positions of an array of length [n]. *)
Definition bounded_sorted (n : Z) (r : list Z) : Prop := StronglySorted Z.lt r /\ forall i, In i r -> 0 <= i < n.

(** The record minus its average. *)
Definition centred {N : Num} (v : list N) : list N := map (fun x => nsub x (ndiv (nsum v) (nofZ (zlen v)))) v.

(** Spikes of either sign of one component, in the units of the script (cm, s). *)
Definition rising (l : list R) (i : Z) : Prop := (1470 < raccel l 100 i)%R /\ (rmean l + rstd l < nth (Z.to_nat i) l 0)%R.
Definition falling (l : list R) (i : Z) : Prop := (raccel l 100 i < - 1470)%R /\ (nth (Z.to_nat i) l 0 < rmean l - rstd l)%R.

(** The samples of a record at positions never flagged are kept. *)
Definition same_unless {N : Num} (hist : list (list Z)) (l m : list N) : Prop :=
  length m = length l /\ forall i, (i < length l)%nat -> (forall idx, In idx hist -> ~ flagged (zlen l) idx i) -> nth_error m i = nth_error l i.

Local Open Scope R_scope.
(** What interpolation with three decimals makes of a record [l], the flagged indices being [hist]: a record of the
    same length; samples never flagged are rounded, once, and kept when there was no pass; the values stay between
    the bounds of the record and the rounded bounds. *)
Definition filtered_from (hist : list (list Z)) (l m : list R) : Prop :=
  length m = length l /\
  (forall i, (i < length l)%nat -> never hist i -> nth i m 0 = match hist with [] => nth i l 0 | _ => round_dec 3 (nth i l 0) end) /\
  (forall lo hi, (forall x, In x l -> lo <= x <= hi) ->
     forall x, In x m -> Rmin lo (round_dec 3 lo) <= x <= Rmax hi (round_dec 3 hi)).

(** The density estimate of the points [T] on the grid [us] x [ws] is the function [F]. *)
Definition kde_gives (kde : list XR -> list XR -> list XR -> list XR -> res (@matrix XR)) (T : list (R * R)) (F : R -> R -> R) (us ws : list R) : Prop :=
  kde (fins (map fst T)) (fins (map snd T)) (fins us) (fins ws) = Ok (finm (on_grid F us ws)).
(** An estimator that returns numbers on every grid for points that are not on one line. *)
Definition estimator (kde : list XR -> list XR -> list XR -> list XR -> res (@matrix XR)) : Prop :=
  forall T us ws, ~ collinear T -> exists F, kde_gives kde T F us ws.
(** None of the three planes of a record (record, first, second difference) has its points on one line. *)
Definition in_general_position (l : list R) : Prop :=
  let d1 := rdc l in let d2 := rdc d1 in
  ~ collinear (combine l d1) /\ ~ collinear (combine l d2) /\ ~ collinear (combine d1 d2).
(** The points of the bivariate kernel: the samples against their smaller differences. *)
Definition cloud (l : list R) : list (R * R) := combine l (rsmaller l).

(** Truncation towards zero. *)
Definition rtrunc (x : R) : R := IZR (Ztrunc x).
(** Exponential average stored in an integer array: every step is truncated. *)
Fixpoint riema (a : R) (l : list R) (i : nat) : R :=
  match i with
  | O => rtrunc (nth 0 l 0)
  | S i' => rtrunc (a * nth i l 0 + (1 - a) * riema a l i')
  end.
(** [r] agrees with [rf] except that the flagged samples are truncated. *)
Definition truncated_at {N : Num} (n : Z) (idx : list Z) (r rf : list N) : Prop :=
  length r = length rf /\
  forall k d, (k < length rf)%nat -> (flagged n idx k -> nth k r d = ntrunc (nth k rf d)) /\ (~ flagged n idx k -> nth k r d = nth k rf d).
