(** Reference definitions for the kernel detectors under a change of unit. Independent of the model. *)
From Coq Require Import Reals List ZArith.
From Verif Require Import Num XR Spec Spec2 Spec4.
Import ListNotations.
Local Open Scope R_scope.

(** A density estimator whose values are densities: lengths in another unit divide them by the square of the factor;
    failures do not depend on the unit. *)
Definition density_units (kde : list XR -> list XR -> list XR -> list XR -> res (list (list XR))) : Prop :=
  forall c u w us ws, 0 < c -> length u = length w ->
  kde (fins (map (Rmult c) u)) (fins (map (Rmult c) w)) (fins (map (Rmult c) us)) (fins (map (Rmult c) ws)) =
  match kde (fins u) (fins w) (fins us) (fins ws) with
  | Ok m => Ok (map (map (nmul (Fin (/ (c * c)) : XR))) m)
  | Raise e => Raise e
  end.
(** The ellipse inscribed in the rectangle [lo, hi] x [lo', hi'] does not contain the point. *)
Definition off_ellipse (lo hi lo' hi' : R) (p : R * R) : Prop :=
  1 < ((fst p - (lo + hi) / 2) / ((hi - lo) / 2)) ^ 2 + ((snd p - (lo' + hi') / 2) / ((hi' - lo') / 2)) ^ 2.
(** The first maximum of F on the grid, row by row. *)
Definition first_peak (F : R -> R -> R) (us ws : list R) (p q : nat) : Prop :=
  let f i j := F (nth i us 0) (nth j ws 0) in
  (p < length us)%nat /\ (q < length ws)%nat /\
  forall i j, (i < length us)%nat -> (j < length ws)%nat ->
    f i j <= f p q /\ ((i < p)%nat \/ i = p /\ (j < q)%nat -> f i j < f p q).
(** The three planes of a record and its two differences. *)
Definition three_planes (l d1 d2 : list R) : list (list (R * R)) := [combine l d1; combine l d2; combine d1 d2].
(** Point i lies off the ellipse that fills the bounding rectangle of the points, without the first row and column of grid cells. *)
Definition off_whole (T : list (R * R)) (g : nat) (i : Z) : Prop :=
  exists a b c d, is_min (map fst T) a /\ is_max (map fst T) b /\ is_min (map snd T) c /\ is_max (map snd T) d /\
  off_ellipse (gridpt a b g 1) b (gridpt c d g 1) d (nth (Z.to_nat i) T (0, 0)).
(** The extents of the points and the first maximum of their density on the grid. *)
Definition extents (T : list (R * R)) (a b c d : R) : Prop :=
  is_min (map fst T) a /\ is_max (map fst T) b /\ is_min (map snd T) c /\ is_max (map snd T) d.
Definition density_peak (T : list (R * R)) (g : nat) (a b c d : R) (p q : nat) : Prop :=
  extents T a b c d /\ first_peak (kde2 (scott (length T)) T T) (map (gridpt a b g) (seq 0 g)) (map (gridpt c d g) (seq 0 g)) p q.
(** The maximum is not in the first row or column. *)
Definition inner_peak (T : list (R * R)) (g : nat) : Prop :=
  forall a b c d p q, density_peak T g a b c d p q -> (1 <= p)%nat /\ (1 <= q)%nat.
(** Point i lies off the ellipse that fills the grid cells next to the maximum. *)
Definition off_peak (T : list (R * R)) (g : nat) (i : Z) : Prop :=
  exists a b c d p q, density_peak T g a b c d p q /\
  off_ellipse (gridpt a b g (Nat.max 1 (p - 1))) (gridpt a b g (Nat.min (g - 1) (p + 1)))
              (gridpt c d g (Nat.max 1 (q - 1))) (gridpt c d g (Nat.min (g - 1) (q + 1))) (nth (Z.to_nat i) T (0, 0)).
