(** Records with missing samples. *)
From Coq Require Import Reals List.
From Verif Require Import Num XR.
Import ListNotations.

(** A missing sample is stored as NaN. *)
Definition stored (o : option R) : xr := match o with Some x => Fin x | None => NaN end.
(** The samples that are there. *)
Definition present (l : list (option R)) : list R := flat_map (fun o => match o with Some x => [x] | None => [] end) l.
