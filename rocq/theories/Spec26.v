(** Order of the second-order sections, independent of the models. *)
From Coq Require Import Reals List Ascii String.
From Coquelicot Require Import Complex.
From Verif Require Import Spec3.
Import ListNotations.
Local Open Scope R_scope.
(** How far a pole is from instability: from the imaginary axis (analogue), from the unit circle (digital). *)
Definition margin (ag : bool) (p : C) : R := if ag then Rabs (fst p) else Rabs (1 - Cmod p).
(** Every section has a pole whose margin is the least among all poles of that section and of the ones before it
    (poles are the roots of the denominators; those satisfying [exempt] are not compared). *)
Definition worst_last (ag : bool) (exempt : C -> Prop) (rows : list (list R)) : Prop :=
  forall before r after, rows = before ++ r :: after ->
  exists q, den_at r q = RtoC 0 /\
    forall r' p, In r' (before ++ [r]) -> den_at r' p = RtoC 0 -> exempt p \/ margin ag q <= margin ag p.

(** Letters differing in case only. *)
Local Open Scope string_scope.
Local Open Scope list_scope.
Definition case_pairs : list (ascii * ascii) :=
  combine (list_ascii_of_string "ABCDEFGHIJKLMNOPQRSTUVWXYZ") (list_ascii_of_string "abcdefghijklmnopqrstuvwxyz").
Definition same_char (a b : ascii) : Prop := a = b \/ In (a, b) case_pairs \/ In (b, a) case_pairs.
Fixpoint same_text (s s' : string) : Prop :=
  match s, s' with
  | EmptyString, EmptyString => True
  | String a s1, String b s2 => same_char a b /\ same_text s1 s2
  | _, _ => False
  end.
