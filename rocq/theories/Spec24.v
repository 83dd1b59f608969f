(** A target for the bounded minimiser, independent of the models. *)
From Verif Require Import Num.
(** [(x - 2)^2 + k] computed with one rounding per operation. *)
Definition par {N : Num} (k : Z) (x : N) : N := nadd (nmul (nsub x (nofZ 2)) (nsub x (nofZ 2))) (nofZ k).
