(** Indices counted from the end, independent of the models. *)
From Coq Require Import ZArith.
Local Open Scope Z_scope.
(** The position counted from the start that index [i] of a record of [n] samples names. *)
Definition from_start (n i : Z) : Z := if i <? 0 then i + n else i.
(** The indices a record of [n] samples accepts. *)
Definition in_range (n i : Z) : Prop := - n <= i < n.
