(** Reference definitions for matrices of zeros and arrays of gains. *)
From Coq Require Import Reals List.
From Coquelicot Require Import Complex.
Import ListNotations.
Local Open Scope R_scope.

(** A coefficient without its imaginary part. *)
Definition drop_im (c : C) : C := RtoC (fst c).
(** The gain of row [i]: a single gain serves all rows; whether there are enough gains for [m] rows. *)
Definition gain_of (ks : list R) (i : nat) : R := match ks with [k] => k | _ => nth i ks 0 end.
Definition enough (ks : list R) (m : nat) : Prop := length ks = 1%nat \/ (m <= length ks)%nat.
