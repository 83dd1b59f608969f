(** Lists of indices as sets, independent of the models. *)
From Coq Require Import List ZArith.
(** The same indices, in any order and any number of times. *)
Definition same_set (idx idx' : list Z) : Prop := forall i, In i idx <-> In i idx'.
