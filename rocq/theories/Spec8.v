(** Reference definitions for the power spectra. *)
From Coq Require Import Reals List Arith.
From Verif Require Import XR Spec.
Import ListNotations.
Local Open Scope R_scope.

(** The symmetric Hann window of [B] samples. *)
Definition rhann (B k : nat) : R := (1 - cos (2 * PI * INR k / INR (B - 1))) / 2.
(** The [i]-th of the blocks of [B] samples that start every [step] samples. *)
Definition segment (l : list R) (B step i : nat) : list R := firstn B (skipn (i * step) l).
(** A block without its mean, times the window. *)
Definition tapered (B : nat) (s : list R) (j : nat) : R := rhann B j * (nth j s 0 - rmean s).
(** Squared modulus of its Fourier coefficient at [k] cycles per block, per unit of frequency. *)
Definition periodogram (B : nat) (fs : R) (s : list R) (k : nat) : R :=
  (sumn B (fun j => tapered B s j * cos (2 * PI * INR k * INR j / INR B)) ^ 2 +
   sumn B (fun j => tapered B s j * sin (2 * PI * INR k * INR j / INR B)) ^ 2) / (fs * sumn B (fun j => rhann B j ^ 2)).
(** Welch's estimate: the mean over [n] blocks. *)
Definition rwelch (B step n : nat) (fs : R) (l : list R) (k : nat) : R :=
  rmean (map (fun i => periodogram B fs (segment l B step i) k) (seq 0 n)).
(** Weight of a coefficient in a one-sided spectrum: the negative frequencies are folded in. *)
Definition sides (B k : nat) : R := if Nat.eqb k 0 then 1 else if Nat.eqb (2 * k) B then 1 else 2.
(** Frequency of coefficient [k] in a two-sided spectrum. *)
Definition signed_freq (B k : nat) : R := if Nat.ltb (2 * k) B then INR k else INR k - INR B.
(** Variance of a block with the squared window as weights, about the plain mean of the block. *)
Definition windowed_var (B : nat) (s : list R) : R :=
  sumn B (fun j => rhann B j ^ 2 * (nth j s 0 - rmean s) ^ 2) / sumn B (fun j => rhann B j ^ 2).
