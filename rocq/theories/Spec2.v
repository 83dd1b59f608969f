(** Reference notions for the optimisation, distribution and kernel properties. No code is modelled here. *)
From Coq Require Import Reals List.
From Coquelicot Require Import Coquelicot.
From Flocq Require Import Core.Raux.
From Verif Require Import XR.
Local Open Scope R_scope.

(** [g] falls strictly on [lo, m] and rises strictly on [m, hi]. *)
Definition strictly_unimodal (g : R -> R) (lo hi m : R) : Prop :=
  lo <= m <= hi /\ (forall x y, lo <= x -> x < y -> y <= m -> g y < g x) /\
  (forall x y, m <= x -> x < y -> y <= hi -> g x < g y).

(** The tolerance around [x] that fminbound works with: sqrt(2.2e-16) |x| + tol/3. *)
Definition fmin_tol (tol x : R) : R := sqrt (22 / IZR (10 ^ 17)) * Rabs x + tol / 3.

(** The normal density with mean [m] and standard deviation [s], and the standard normal distribution
    function as the integral of that density (normalised by its value 1/2 at 0). *)
Definition gauss (m s x : R) : R := exp (- ((x - m) * (x - m)) / (2 * (s * s))) / (s * sqrt (2 * PI)).
Definition Phi (x : R) : R := 1 / 2 + RInt (gauss 0 1) 0 x.
(** [Phi] with its limits at the infinities. *)
Definition ext_Phi (v : XR) : XR :=
  match v with Fin x => Fin (Phi x) | Inf neg => Fin (if neg then 0 else 1) | NaN => NaN end.
(** The alternatives both tests document. *)
Definition known_alternative (alt : string) : bool :=
  (String.eqb alt "two-sided" || String.eqb alt "greater" || String.eqb alt "less")%bool.

(** The histogram cell (0 .. g-1) of a scaled coordinate, in closed form: cell 0 takes x <= 0, cell k takes
    ((k-1)/g, k/g], the last cell everything above (g-2)/g and NaN. *)
Definition cell (g : Z) (v : XR) : Z :=
  match v with
  | Fin x => Z.min (Z.max 0 (Zceil (IZR g * x))) (g - 1)
  | Inf true => 0
  | _ => g - 1
  end.

(** The least and greatest element of a list. *)
Definition is_min (l : list R) (a : R) : Prop := In a l /\ forall x, In x l -> (a <= x)%R.
Definition is_max (l : list R) (b : R) : Prop := In b l /\ forall x, In x l -> (x <= b)%R.

(** The discrete Fourier transform of a real vector (real and imaginary parts), and an FFT that computes it. *)
Definition dft (l : list R) : list (R * R) :=
  map (fun k => (Rsum (map (fun j => nth j l 0 * cos (2 * PI * INR (k * j) / INR (length l))) (seq 0 (length l))),
                 - Rsum (map (fun j => nth j l 0 * sin (2 * PI * INR (k * j) / INR (length l))) (seq 0 (length l)))))%R
      (seq 0 (length l)).
Definition exact_fft (fft : list XR -> list (XR * XR)) : Prop :=
  forall l, fft (fins l) = map (fun c => (Fin (fst c), Fin (snd c))) (dft l).

(** The (k, l) coefficient of the two-dimensional DCT-II of a g x g matrix, with factors 1 for index 0 and 2 otherwise. *)
Definition dct_c (k : nat) : R := if Nat.eqb k 0 then 1%R else 2%R.
Definition dctII (g : nat) (m : list (list R)) (k l : nat) : R :=
  (dct_c k * dct_c l *
   Rsum (map (fun i => Rsum (map (fun j => nth j (nth i m []) 0 * cos (PI * INR k * (2 * INR i + 1) / (2 * INR g))
                                            * cos (PI * INR l * (2 * INR j + 1) / (2 * INR g))) (seq 0 g))) (seq 0 g)))%R.

(** 1 * 3 * ... * (2 s - 1). *)
Fixpoint odd_fact (s : nat) : R := match s with O => 1%R | S s' => ((2 * INR s' + 1) * odd_fact s')%R end.

(** The bandwidth functional: (-1)^(s0+s1) pi^(2(s0+s1)) * sum_ij w_i w_j c_i^s1 c_j^s0 A_ij with the heat weights
    w_0 = e^(-c_0 pi^2 t), w_i = e^(-c_i pi^2 t) / 2. *)
Definition heat_w (t : R) (ic : list R) (i : nat) : R :=
  (exp (- nth i ic 0 * PI ^ 2 * t) * (if Nat.eqb i 0 then 1 else / 2))%R.
Definition rpsi (s0 s1 : nat) (t : R) (ic : list R) (A : list (list R)) : R :=
  let n := length ic in
  ((-1) ^ (s0 + s1) * PI ^ (2 * (s0 + s1)) *
   Rsum (map (fun i => Rsum (map (fun j => heat_w t ic i * heat_w t ic j * nth i ic 0 ^ s1 * nth j ic 0 ^ s0
                                            * nth j (nth i A []) 0) (seq 0 n))) (seq 0 n)))%R.

(** The first tolerance of the root search: n is clamped to [50, 1050]. *)
Definition tol0 (n : Z) : R := (1 / 10 ^ 12 + IZR (Z.max 50 (Z.min n 1050) - 50) / 10 ^ 5)%R.

(** Non-negative inputs with one positive coefficient of positive frequency in both directions. *)
Definition positive_mass (ic : list R) (A : list (list R)) : Prop :=
  (forall x, In x ic -> (0 <= x)%R) /\ (forall r x, In r A -> In x r -> (0 <= x)%R) /\
  exists i j, (i < length ic)%nat /\ (j < length ic)%nat /\ (0 < nth i ic 0%R)%R /\ (0 < nth j ic 0%R)%R /\ (0 < nth j (nth i A []) 0%R)%R.
