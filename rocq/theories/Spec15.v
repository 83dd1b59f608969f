(** Arrays of any shape, as NumPy reads them when it combines different shapes. *)
From Coq Require Import List Arith.
Import ListNotations.

(** The dimension number [k] from the right, 1 beyond the last. *)
Definition dim (s : list nat) (k : nat) : nat := nth k (rev s) 1.
(** Shapes that can be combined. *)
Definition fitting (s t : list nat) : Prop := forall k, dim s k = dim t k \/ dim s k = 1 \/ dim t k = 1.
(** A multi-index of the shape [o]. *)
Definition index_of (o ix : list nat) : Prop := Forall2 lt ix o.
(** Position in row-major order, last index first; an index into a dimension 1 counts as 0, superfluous indices are ignored. *)
Fixpoint position (dims ix : list nat) : nat :=
  match dims, ix with
  | m :: dims', i :: ix' => (if m =? 1 then 0 else i) + m * position dims' ix'
  | _, _ => 0
  end.
Definition entry {A} (s : list nat) (d : list A) (ix : list nat) (def : A) : A := nth (position (rev s) (rev ix)) d def.
(** As many elements as the shape says. *)
Definition filled {A} (s : list nat) (d : list A) : Prop := length d = fold_right Nat.mul 1 s.
(** The common shape of several arrays: every dimension is that of one of them, and the others have the same one or 1. *)
Definition common (ss : list (list nat)) (o : list nat) : Prop :=
  length o = fold_right Nat.max 0 (map (@length nat) ss) /\
  (forall k s, In s ss -> dim s k = dim o k \/ dim s k = 1) /\
  (forall k, exists s, In s ss /\ dim o k = dim s k).
