(** Records of different lengths, independent of the models. *)
From Coq Require Import Reals List.
From Verif Require Import Spec.
Import ListNotations.
Local Open Scope R_scope.
(** Two records that NumPy multiplies: of the same length, or one of them a single sample. *)
Definition multiply (u v : list R) : Prop := length u = length v \/ length u = 1%nat \/ length v = 1%nat.
(** The covariance of two records of the same length; 0 when one of them is a single sample. *)
Definition cov_or_zero (u v : list R) : R := if Nat.eqb (length u) (length v) then rcov u v else 0.
