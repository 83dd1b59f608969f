(** Reference definitions on plain real numbers and on Python values, written independently of the
    model; theorems compare the model with these. *)
From Coq Require Import Reals Lra.
From Verif Require Export Lib XR M_series.
Local Open Scope R_scope.

(** The number a numeric Python value stands for. *)
Inductive denotes {N : Num} : pyval N -> N -> Prop :=
| den_int z : denotes (PyInt z) (nofZ z)
| den_npint z : denotes (NpInt z) (nofZ z)
| den_float x : denotes (PyFloat x) x.

(** A sequence element as a number when every string parses. *)
Inductive converted {N : Num} (parse : string -> option N) : pyval N -> N -> Prop :=
| conv_num v x : denotes v x -> converted parse v x
| conv_str s x : parse s = Some x -> converted parse (PyStr s) x.

(** The numbers kept by the loop when the first unparseable string stands between [pre] and [post]:
    ints/floats of both sides and the parsed strings of [pre]; NumPy integers are dropped. *)
Inductive kept_pre {N : Num} (parse : string -> option N) : list (pyval N) -> list N -> Prop :=
| kp_nil : kept_pre parse [] []
| kp_int z l xs : kept_pre parse l xs -> kept_pre parse (PyInt z :: l) (nofZ z :: xs)
| kp_float x l xs : kept_pre parse l xs -> kept_pre parse (PyFloat x :: l) (x :: xs)
| kp_npint z l xs : kept_pre parse l xs -> kept_pre parse (NpInt z :: l) xs
| kp_str s x l xs : parse s = Some x -> kept_pre parse l xs -> kept_pre parse (PyStr s :: l) (x :: xs).
Inductive kept_post {N : Num} : list (pyval N) -> list N -> Prop :=
| kq_nil : kept_post [] []
| kq_int z l xs : kept_post l xs -> kept_post (PyInt z :: l) (nofZ z :: xs)
| kq_float x l xs : kept_post l xs -> kept_post (PyFloat x :: l) (x :: xs)
| kq_npint z l xs : kept_post l xs -> kept_post (NpInt z :: l) xs
| kq_str s l xs : kept_post l xs -> kept_post (PyStr s :: l) xs.

(** Number of occurrences of a value (all NaNs count as one value, as in [np.unique]). *)
Definition vcount {N : Num} (v : N) (l : list N) : nat :=
  length (filter (fun w => neqb v w || (nisnan v && nisnan w)) l).

(** Arithmetic mean, central moments and variance of a list of reals. *)
Definition rmean (l : list R) : R := Rsum l / INR (length l).
Definition rmoment (k : nat) (l : list R) : R := rmean (map (fun x => (x - rmean l) ^ k) l).
Definition rvar (l : list R) : R := rmoment 2 l.
Definition rstd (l : list R) : R := sqrt (rvar l).
Definition rcov (l m : list R) : R :=
  Rsum (map (fun p => (fst p - rmean l) * (snd p - rmean m)) (combine l m)) / INR (length l).

(** Number of elements satisfying a predicate. *)
Definition rcount (P : R -> bool) (l : list R) : nat := length (filter P l).

(** [s] is [l] sorted in ascending order. *)
Definition is_sorting (s l : list R) : Prop := Permutation l s /\ StronglySorted Rle s.

(** Middle of a sorted list. *)
Definition rmiddle (s : list R) : R :=
  let n := length s in
  if Nat.odd n then nth (n / 2) s 0 else (nth (n / 2 - 1) s 0 + nth (n / 2) s 0) / 2.

(** Window of at most [w] samples ending at index [i]. *)
Definition rwindow {A} (l : list A) (w i : nat) : list A := firstn (Nat.min (S i) w) (skipn (S i - w) l).

(** Exponentially weighted average of the first [i+1] samples. *)
Fixpoint rema (a : R) (l : list R) (i : nat) : R :=
  match i with
  | O => nth 0 l 0
  | S i' => a * nth i l 0 + (1 - a) * rema a l i'
  end.
(** Weight of sample [j] in the exponential average at index [i >= j]. *)
Definition ema_weight (a : R) (i j : nat) : R :=
  match j with O => (1 - a) ^ i | S _ => a * (1 - a) ^ (i - j) end.

(** Linearly weighted mean (weights 1..p). *)
Definition rwmean (l : list R) : R :=
  Rsum (map (fun j => INR (S j) * nth j l 0) (seq 0 (length l))) / Rsum (map (fun j => INR (S j)) (seq 0 (length l))).

(** Entries of a matrix (list of rows) on anti-diagonal [t]: all (r, t-r) inside an L x K shape. *)
Definition antidiag (rows : list (list R)) (L K t : nat) : list R :=
  map (fun r => nth (t - r) (nth r rows []) 0) (filter (fun r => Nat.leb r t && Nat.ltb (t - r) K) (seq 0 L)).

(** Propagation of NaN through the arithmetic used by the running averages. *)
Record nan_laws (N : Num) : Prop := MkNan {
  nan_add : forall x y : N, nisnan x = true \/ nisnan y = true -> nisnan (nadd x y) = true;
  nan_sub : forall x y : N, nisnan x = true \/ nisnan y = true -> nisnan (nsub x y) = true;
  nan_mul : forall x y : N, nisnan x = true \/ nisnan y = true -> nisnan (nmul x y) = true;
  nan_div : forall x y : N, nisnan x = true \/ nisnan y = true -> nisnan (ndiv x y) = true;
  nan_sum : forall l : list N, (exists x, In x l /\ nisnan x = true) -> nisnan (nsum l) = true
}.

(** Sum of [f 0 .. f (n-1)]. *)
Definition sumn (n : nat) (f : nat -> R) : R := Rsum (map f (seq 0 n)).

(** Euclidean norm, successive differences and the mobility measure (with its 4-decimal rounding). *)
Definition rnorm (v : list R) : R := sqrt (Rsum (map (fun x => x ^ 2) v)).
Definition rdiff (v : list R) : list R := map (fun i => nth (S i) v 0 - nth i v 0) (seq 0 (length v - 1)).
Definition rmob_den (v : list R) : R := round_dec 4 (rnorm v / INR (length v)).
Definition rmobility (v : list R) : R := rnorm (rdiff v) / INR (length v - 1) / rmob_den v.

(** Column [c] of a matrix given by rows, and orthonormality of its [L] columns. *)
Definition mcol (rows : list (list R)) (c : nat) : list R := map (fun r => nth c r 0) rows.
Definition orthonormal_cols (rows : list (list R)) (L : nat) : Prop :=
  forall c d, (c < L)%nat -> (d < L)%nat ->
    sumn L (fun i => nth c (nth i rows []) 0 * nth d (nth i rows []) 0) = if Nat.eqb c d then 1 else 0.
(** The L x K trajectory matrix of [x] projected on the columns [sel] of [E]. *)
Definition rproject (E : list (list R)) (sel : list nat) (x : list R) (L K : nat) : list (list R) :=
  map (fun i => map (fun j =>
    sumn L (fun m => Rsum (map (fun c => nth c (nth i E []) 0 * nth c (nth m E []) 0) sel) * nth (j + m) x 0))
    (seq 0 K)) (seq 0 L).
(** Covariance of the L x K trajectory matrix of [x]. *)
Definition rtrajcov (x : list R) (L K : nat) : list (list R) :=
  map (fun a => map (fun b => sumn K (fun j => nth (j + a) x 0 * nth (j + b) x 0)) (seq 0 L)) (seq 0 L).
(** A matrix of finite numbers; shape L x K. *)
Definition finm (rows : list (list R)) : @matrix XR := map fins rows.
Definition mshape (rows : list (list R)) (L K : nat) : Prop := length rows = L /\ forall r, In r rows -> length r = K.
(** The reference sine of ssa. *)
Definition rdummy (fs f : R) (L : nat) : list R := map (fun i => sin (2 * PI * INR i * f / fs)) (seq 0 L).

(** Position [k] of an array of [n] elements is denoted by the (possibly negative) Python index [i]. *)
Definition addresses (n i : Z) (k : nat) : Prop := i = Z.of_nat k \/ i = (Z.of_nat k - n)%Z.
(** Some index of the list denotes position [k]. *)
Definition flagged (n : Z) (idx : list Z) (k : nat) : Prop := exists i, In i idx /\ addresses n i k.
(** [r] has the length of [v] and agrees with it at every unflagged position. *)
Definition keeps_unflagged {A} (v : list A) (idx : list Z) (r : list A) : Prop :=
  length r = length v /\
  forall k, (k < length v)%nat -> ~ flagged (zlen v) idx k -> nth_error r k = nth_error v k.
(** Every index is valid for an array of [n] elements. *)
Definition in_bounds (n : Z) (idx : list Z) : Prop := forall i, In i idx -> (- n <= i < n)%Z.

(** Values of the samples after index [i] that are neither flagged nor NaN, in order. *)
Definition later_valid {N : Num} (v : list N) (idx : list Z) (i : Z) : list N :=
  map (fun k => nth (Z.to_nat k) v nnan)
      (filter (fun k => negb (zmem k idx) && negb (nisnan (nth (Z.to_nat k) v nnan))) (zrange (i + 1) (zlen v))).

(** [s] is the cubic spline through the points (x_j, y_j) with not-a-knot ends, the interpolant that
    scipy's interp1d(kind=3) documents: a cubic polynomial on each interval, twice continuously
    differentiable, third derivative continuous at the second and the last but one knot. *)
Definition cubic_spline (x y : list R) (s : R -> R) : Prop :=
  exists b c d : nat -> R,
    let n := length x in
    let h j := nth (S j) x 0 - nth j x 0 in
    (forall j, (S j < n)%nat -> nth j y 0 + b j * h j + c j * h j ^ 2 + d j * h j ^ 3 = nth (S j) y 0) /\
    (forall j, (S (S j) < n)%nat -> b (S j) = b j + 2 * c j * h j + 3 * d j * h j ^ 2 /\ c (S j) = c j + 3 * d j * h j) /\
    d 0%nat = d 1%nat /\ d (n - 3)%nat = d (n - 2)%nat /\
    (forall j t, (S j < n)%nat -> nth j x 0 <= t <= nth (S j) x 0 ->
       s t = nth j y 0 + b j * (t - nth j x 0) + c j * (t - nth j x 0) ^ 2 + d j * (t - nth j x 0) ^ 3).

(** The 24 values an affine record [q + beta * (k - i)] offers around index [i]: positions i-13..i-2 and
    i+1..i+12 (position i-1 is left out). *)
Definition split_affine (q beta : R) : list R :=
  map (fun j => q + beta * IZR j) (zrange (-13) (-1) ++ zrange 1 13).

(** Number of positions [i < n] satisfying a predicate. *)
Definition count_idx (n : nat) (P : nat -> bool) : nat := length (filter P (seq 0 n)).
(** Backward difference times frequency, 0 at the first sample. *)
Definition raccel (l : list R) (f : R) (i : Z) : R :=
  if (i =? 0)%Z then 0 else (nth (Z.to_nat i) l 0 - nth (Z.to_nat (i - 1)) l 0) * f.

(** Central differences, passed through [rnd], 0 at both ends. *)
Definition rcentral (rnd : R -> R) (l : list R) : list R :=
  map (fun i => if Nat.ltb 0 i && Nat.ltb (S i) (length l) then rnd ((nth (S i) l 0 - nth (i - 1) l 0) / 2) else 0)
      (seq 0 (length l)).
(** The point (x, y) lies outside the ellipse with semi-axes [a], [b] rotated by [theta]. *)
Definition outside (theta a b x y : R) : Prop :=
  1 < ((x * cos theta + y * sin theta) / a) ^ 2 + ((y * cos theta - x * sin theta) / b) ^ 2.
(** Sum of products of two records. *)
Definition rdot (l m : list R) : R := Rsum (map (fun i => nth i l 0 * nth i m 0) (seq 0 (length l))).
(** Universal threshold of [n] samples. *)
Definition runiv (n : nat) : R := sqrt (2 * ln (INR n)).

(** Deviations from the mean. *)
Definition rdev (l : list R) : list R := map (fun x => x - rmean l) l.
(** The condition under which the rotated ellipse of the pair (u, v) exists:
    |cov| < std u * std v and |cov| * std v < (std u)^3. *)
Definition ellipse_exists (u v : list R) : Prop :=
  rcov u v ^ 2 < rvar u * rvar v /\ rcov u v ^ 2 * rvar v < rvar u ^ 3.
(** Angle and squared semi-axes of the ellipse of the pair (u, v), scale [lam]. *)
Definition rangle (u v : list R) : R := atan (rcov u v / rvar u).
Definition raxis1 (lam : R) (u v : list R) : R :=
  let t := rangle u v in
  sqrt (((lam * rstd u) ^ 2 * cos t ^ 2 - (lam * rstd v) ^ 2 * sin t ^ 2) / (cos t ^ 4 - sin t ^ 4)).
Definition raxis2 (lam : R) (u v : list R) : R :=
  let t := rangle u v in
  sqrt (((lam * rstd v) ^ 2 * cos t ^ 2 - (lam * rstd u) ^ 2 * sin t ^ 2) / (cos t ^ 4 - sin t ^ 4)).

(** Error of the projected height, and total error, for half-width [h] of the rounding. *)
Definition sph_D (h a b c : R) : R := (c ^ 2 * (h * (2 * a + h) / a ^ 2 + h * (2 * b + h) / b ^ 2)).
Definition sph_E (h a b c : R) : R :=
  (h * (2 * a + h) + h * (2 * b + h) + sph_D h a b c + h + h * (2 * sqrt (c ^ 2 + sph_D h a b c + h) + h)).
