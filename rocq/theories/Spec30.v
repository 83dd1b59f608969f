(** Ranges of records, independent of the models. *)
From Coq Require Import Reals List ZArith.
From Verif Require Import Num XR.
Import ListNotations.
Local Open Scope R_scope.
(** Every sample lies between [lo] and [hi]. *)
Definition within (lo hi : R) (l : list R) : Prop := forall x, In x l -> lo <= x <= hi.
(** A repaired record has as many samples and lies within every range containing the record. *)
Definition keeps_range (repair : list XR -> list Z -> res (list XR)) : Prop :=
  forall l idx r, repair (fins l) idx = Ok r ->
    exists r', r = fins r' /\ length r' = length l /\ forall lo hi, within lo hi l -> within lo hi r'.
(** What is known of a least-squares fit by polynomials of degree at least one: it reproduces straight lines. *)
Definition fits_lines (regress : list XR -> list Z -> Z -> Z -> res XR) : Prop :=
  forall (alpha beta : R) (xs : list Z) (t degree : Z), (1 <= degree < Z.of_nat (length xs))%Z -> NoDup xs ->
    regress (fins (map (fun k => alpha + beta * IZR k) xs)) xs t degree = Ok (Fin (alpha + beta * IZR t)).
