(** Reference definitions for the kurtosis test of Anscombe and Glynn (1983), independent of the models. *)
From Coq Require Import Reals List.
Import ListNotations.
Local Open Scope R_scope.

(** Mean and variance of the sample kurtosis of [x] normal observations. *)
Definition kt_mean (x : R) : R := 3 * (x - 1) / (x + 1).
Definition kt_var (x : R) : R := 24 * x * (x - 2) * (x - 3) / ((x + 1) * (x + 1) * (x + 3) * (x + 5)).
(** Its standardised third moment. *)
Definition kt_beta (x : R) : R :=
  6 * (x * x - 5 * x + 2) / ((x + 7) * (x + 9)) * sqrt (6 * (x + 3) * (x + 5) / (x * (x - 2) * (x - 3))).
Definition kt_a (x : R) : R := 6 + 8 / kt_beta x * (2 / kt_beta x + sqrt (1 + 4 / (kt_beta x * kt_beta x))).
(** The denominator under the cube root, as a function of the kurtosis [k]. *)
Definition kt_denom (x k : R) : R := 1 + (k - kt_mean x) / sqrt (kt_var x) * sqrt (2 / (kt_a x - 4)).
(** The statistic. *)
Definition kt_stat (x k : R) : R :=
  (1 - 2 / (9 * kt_a x) - Rpower ((1 - 2 / kt_a x) / kt_denom x k) (1 / 3)) / sqrt (2 / (9 * kt_a x)).
