(** A raised block on a flat record, independent of the models. *)
From Coq Require Import Reals List.
Import ListNotations.
(** [a] samples [c], then [m] samples [c + h], then [b] samples [c]. *)
Definition raised (c h : R) (a m b : nat) : list R := repeat c a ++ repeat (c + h)%R m ++ repeat c b.
