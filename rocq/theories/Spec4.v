(** Reference definitions for the kernel density estimates: sample covariance of a cloud of points, rotation,
    bivariate normal density. Independent of the model. *)
From Coq Require Import Reals ZArith List.
From Verif Require Import Spec.
Import ListNotations.
Local Open Scope R_scope.

(** Sample covariance (divisor n - 1) of two functions of the points. *)
Definition scov (f g : R * R -> R) (P : list (R * R)) : R :=
  Rsum (map (fun p => (f p - rmean (map f P)) * (g p - rmean (map g P))) P) / (INR (length P) - 1).
(** Determinant of the sample covariance matrix. *)
Definition sdet (P : list (R * R)) : R := scov fst fst P * scov snd snd P - scov fst snd P ^ 2.

(** All points on one line. *)
Definition collinear (P : list (R * R)) : Prop :=
  exists a b c, (a <> 0 \/ b <> 0) /\ forall p, In p P -> a * fst p + b * snd p = c.

(** The point p in axes turned by t. *)
Definition rotate (t : R) (p : R * R) : R * R :=
  (fst p * cos t + snd p * sin t, snd p * cos t - fst p * sin t).

(** Density at (x, y) of the centred normal law with covariance matrix [[a, b], [b, c]]. *)
Definition normal2 (a b c x y : R) : R :=
  exp (- (c * x ^ 2 - 2 * b * x * y + a * y ^ 2) / (2 * (a * c - b ^ 2))) / (2 * PI * sqrt (a * c - b ^ 2)).

(** Kernel density estimate at (x, y): equal weights at the [centres], kernel covariance h^2 times the sample
    covariance of [S]. *)
Definition kde2 (h : R) (S centres : list (R * R)) (x y : R) : R :=
  rmean (map (fun p => normal2 (h ^ 2 * scov fst fst S) (h ^ 2 * scov fst snd S) (h ^ 2 * scov snd snd S)
                               (x - fst p) (y - snd p)) centres).
(** Scott's factor for n points of the plane. *)
Definition scott (n : nat) : R := Rpower (INR n) (- (1 / 6)).
(** Point i of g equidistant points from a to b. *)
Definition gridpt (a b : R) (g i : nat) : R := a + INR i * ((b - a) / (INR g - 1)).
(** The grid points along one axis: |grid| equidistant points from a to b (a alone when there is one). *)
Definition axis (a b : R) (grid : Z) : list R := map (gridpt a b (Z.abs_nat grid)) (seq 0 (Z.abs_nat grid)).
(** Slope angle of the regression line of the second coordinate on the first, and the points turned by it. *)
Definition tri_angle (P : list (R * R)) : R := atan (scov fst snd P / scov fst fst P).
Definition turned (P : list (R * R)) : list (R * R) := map (rotate (tri_angle P)) P.
(** Central differences of a record, zero at both ends. *)
Definition rdc (l : list R) : list R := rcentral (fun x => x) l.
(** Values on the grid spanned by [us] and [ws]. *)
Definition on_grid (F : R -> R -> R) (us ws : list R) : list (list R) := map (fun x => map (F x) ws) us.
