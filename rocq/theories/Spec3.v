(** Reference notions for the filter-design properties: rational transfer functions over the
    complex numbers (Coquelicot's [C]), stated without any helper of the model. *)
From Coq Require Import Reals Lra Permutation.
From Coquelicot Require Import Complex.
From Verif Require Import Num XR.
Local Open Scope C_scope.

(** Exact complex numbers as complex128 values of the exact-arithmetic instance. *)
Definition cf (z : C) : XR * XR := (Fin (fst z), Fin (snd z)).
Definition cfs (l : list C) : list (XR * XR) := map cf l.

(** Product of a list and natural powers. *)
Fixpoint Cprodl (l : list C) : C :=
  match l with [] => RtoC 1 | z :: l' => z * Cprodl l' end.
Fixpoint Cpown (z : C) (n : nat) : C :=
  match n with O => RtoC 1 | S n' => z * Cpown z n' end.

(** The monic polynomial with the given roots, evaluated at [s]. *)
Definition from_roots (l : list C) (s : C) : C := Cprodl (map (fun r => s - r) l).

(** Transfer function with zeros [zs], poles [ps] and real gain [k], at a point [s]. *)
Definition tf (zs ps : list C) (k : R) (s : C) : C :=
  RtoC k * from_roots zs s / from_roots ps s.

(** Closed under complex conjugation, with multiplicity. *)
Definition conj_closed (l : list C) : Prop := Permutation (map Cconj l) l.

(** Squared magnitude. *)
Definition mag2 (z : C) : R := (fst z ^ 2 + snd z ^ 2)%R.

(** Polynomial with complex coefficients, leading coefficient first, evaluated at [s]. *)
Fixpoint polyval (a : list C) (s : C) : C :=
  match a with [] => RtoC 0 | c :: a' => c * Cpown s (length a') + polyval a' s end.

(** One second-order section [b0 b1 b2 a0 a1 a2] of a digital filter as a function of z
    (b0 + b1 z^-1 + b2 z^-2 over a0 + a1 z^-1 + a2 z^-2, both multiplied by z^2); the same
    expression is the section of an analog filter as a function of s. *)
Definition section_at (r : list R) (z : C) : C :=
  match r with
  | [b0; b1; b2; a0; a1; a2] =>
      (RtoC b0 * (z * z) + RtoC b1 * z + RtoC b2) / (RtoC a0 * (z * z) + RtoC a1 * z + RtoC a2)
  | _ => RtoC 0
  end.
Definition sections_at (rows : list (list R)) (z : C) : C :=
  Cprodl (map (fun r => section_at r z) rows).

(** The four band types with their critical frequencies. *)
Inductive band := LP (w : R) | HP (w : R) | BP (w1 w2 : R) | BS (w1 w2 : R).
Definition band_name (b : band) : string :=
  match b with LP _ => "lp" | HP _ => "hp" | BP _ _ => "bp" | BS _ _ => "bs" end%string.
Definition band_freqs (b : band) : list R :=
  match b with LP w | HP w => [w] | BP w1 w2 | BS w1 w2 => [w1; w2] end.
Definition band_map (f : R -> R) (b : band) : band :=
  match b with
  | LP w => LP (f w) | HP w => HP (f w) | BP w1 w2 => BP (f w1) (f w2) | BS w1 w2 => BS (f w1) (f w2)
  end.
(** Positive, increasing critical frequencies. *)
Definition band_ok (b : band) : Prop :=
  (match b with LP w | HP w => 0 < w | BP w1 w2 | BS w1 w2 => 0 < w1 /\ w1 < w2 end)%R.
(** The normalised frequency at which the low-pass prototype is evaluated, and the frequencies at
    which it is finite. *)
Definition band_ratio (b : band) (W : R) : R :=
  (match b with
   | LP w => W / w
   | HP w => w / W
   | BP w1 w2 => (W ^ 2 - w1 * w2) / ((w2 - w1) * W)
   | BS w1 w2 => (w2 - w1) * W / (W ^ 2 - w1 * w2)
   end)%R.
Definition band_regular (b : band) (W : R) : Prop :=
  (match b with LP _ => True | HP _ | BP _ _ => W <> 0 | BS w1 w2 => W ^ 2 <> w1 * w2 end)%R.
(** Number of poles of a design of order [n]. *)
Definition band_order (b : band) (n : nat) : nat :=
  match b with LP _ | HP _ => n | BP _ _ | BS _ _ => 2 * n end.
(** The magnitude response of a Butterworth filter of order [n]: |H|^2 = 1 / (1 + ratio^(2n)). *)
Definition butter_mag2 (n : nat) (ratio : R) : R := (1 / (1 + ratio ^ (2 * n)))%R.

(** Argument checks of [butterworth] as a table, first failing row decides: (check failed, exception).
    [wn] are the frequencies after division by half the sampling rate, [lc]/[lo] the lower-cased band
    type and output form. *)
Definition first_failed (t : list (bool * exn)) : option exn :=
  match filter fst t with (_, e) :: _ => Some e | [] => None end.
Definition str_in (s : string) (l : list string) : bool := existsb (String.eqb s) l.
Definition butter_checks {N : Num} (q : N) (wn : list N) (lc lo : string) (ag sr_given sr_scalar : bool)
  : list (bool * exn) :=
  [ (sr_given && negb sr_scalar, ValueError);
    (sr_given && ag, ValueError);
    (existsb (fun v => nleb v (nofZ 0)) wn, ValueError);
    (match wn with w0 :: w1 :: _ => negb (nltb w0 w1) | _ => false end, ValueError);
    (negb (str_in lo ["nd"; "zps"; "sop"]%string), ValueError);
    (nisnan q, ValueError);
    (negb (nisfin q), OverflowError);
    (negb (neqb (nabs (ntrunc q)) q), ValueError);
    (negb ag && existsb (fun v => nleb (nofZ 1) v) wn, ValueError);
    (str_in lc ["lp"; "hp"]%string && negb (length wn =? 1)%nat, ValueError);
    (str_in lc ["bp"; "bs"]%string && (length wn <? 2)%nat, ValueError);
    (negb (str_in lc ["lp"; "hp"; "bp"; "bs"]%string), NotImplementedError) ].

(** The point of the unit circle at angle [t]. *)
Definition Ei (t : R) : C := (cos t, sin t).
(** Digital designs: critical frequencies in half-cycles per sample, strictly below the Nyquist
    frequency 1; [plain_tan] is the frequency warping of the bilinear transform. *)
Definition digital_ok (b : band) : Prop := (band_ok b /\ forall w, In w (band_freqs b) -> w < 1)%R.
Definition plain_tan (w : R) : R := tan (PI * w / 2).

(** Numerator and denominator of a second-order section as polynomials in z (or s). *)
Definition num_at (r : list R) (z : C) : C :=
  match r with b0 :: b1 :: b2 :: _ => RtoC b0 * (z * z) + RtoC b1 * z + RtoC b2 | _ => RtoC 0 end.
Definition den_at (r : list R) (z : C) : C :=
  match r with [_; _; _; a0; a1; a2] => RtoC a0 * (z * z) + RtoC a1 * z + RtoC a2 | _ => RtoC 0 end.
Definition nums_at (rows : list (list R)) (z : C) : C := Cprodl (map (fun r => num_at r z) rows).
Definition dens_at (rows : list (list R)) (z : C) : C := Cprodl (map (fun r => den_at r z) rows).

(** Every entry is exactly real or clearly complex: its imaginary part exceeds 100 machine epsilons
    of its modulus. *)
Definition real_or_apart (l : list C) : Prop :=
  (forall v, In v l -> snd v = 0 \/ 100 / 2 ^ 52 * Cmod v < Rabs (snd v))%R.

(** Dropping an imaginary part of at most 100 machine epsilons of the modulus. *)
Definition snap (v : C) : C :=
  if Rle_dec (Rabs (snd v)) (100 / 2 ^ 52 * Cmod v) then RtoC (fst v) else v.

(** A list of positions that is a permutation of 0 .. n-1: what any argsort returns. *)
Definition is_argsort {A} (f : list A -> list nat) : Prop :=
  forall d, Permutation (f d) (seq 0 (length d)).

(** [rows] are sections [b0 b1 b2 a0 a1 a2] whose numerators multiply to k * prod (z - x) * z^ex and
    whose denominators multiply to prod (z - y) * z^ey. *)
Definition sections_of (rows : list (list R)) (k : R) (x y : list C) (ex ey : nat) : Prop :=
  (forall r, In r rows -> length r = 6%nat) /\
  (forall z, nums_at rows z = RtoC k * from_roots x z * Cpown z ex) /\
  (forall z, dens_at rows z = from_roots y z * Cpown z ey).
Definition reals (l : list C) : Prop := forall v, In v l -> snd v = 0%R.
(** Exactly one entry is real. *)
Definition lone_real (l : list C) : Prop := exists a v b, l = a ++ v :: b /\ snd v = 0%R /\ forall u, In u (a ++ b) -> snd u <> 0%R.
