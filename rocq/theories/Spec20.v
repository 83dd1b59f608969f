(** Reference definitions for the Kalman filter. No model code here. *)
From Coq Require Import Reals List.
Import ListNotations.
Local Open Scope R_scope.

(** The penalised sum of squares of a random walk [y] through the measurements [l]: steps weigh 1/Q, residuals
    1/R. [prev] is the position before the first measurement. *)
Fixpoint walk_cost (Q R0 prev : R) (l y : list R) : R :=
  match l, y with
  | z :: l', y0 :: y' => (y0 - prev) ^ 2 / Q + (z - y0) ^ 2 / R0 + walk_cost Q R0 y0 l' y'
  | _, _ => 0
  end.
(** The same with the prior [x0] of variance [p0] on the position before the first measurement. *)
Definition prior_cost (Q R0 x0 p0 : R) (l : list R) (start : R) (y : list R) : R :=
  (start - x0) ^ 2 / p0 + walk_cost Q R0 start l y.

(** The smoothing factor of the stationary filter: the root in (0, 1) of R g^2 + Q g = Q. *)
Definition steady_gain (Q R0 : R) : R := (sqrt (Q ^ 2 + 4 * Q * R0) - Q) / (2 * R0).
