(** Property theorems C162: symmetries of the power spectra. *)
From Coq Require Import Reals Lra Lia List ZArith.
From Verif Require Import Num NpBase Lib XR Spec Spec2 Spec8 M_spectrum P_dct P_spectrum P_spectrum2 P_spectrum3 P_specsym.
Import ListNotations.
Local Open Scope R_scope.

(** Against the direction of time, when the last block ends at the last sample. *)
Theorem C162_reversed : forall fft l fs ov B (os : bool),
  exact_fft fft -> (3 <= B <= length l)%nat -> (ov < Z.of_nat B)%Z -> fs <> 0 ->
  ((zlen l - Z.of_nat B) mod (Z.of_nat B - ov) = 0)%Z ->
  power_spectra fft (fins (rev l)) (Fin fs) ov (Z.of_nat B) os = power_spectra fft (fins l) (Fin fs) ov (Z.of_nat B) os.
Proof. exact spectra_reversed. Qed.
Print Assumptions C162_reversed.
(** One sample left over. *)
Theorem C162_reversed_refuted : forall fft, exact_fft fft ->
  power_spectra fft (fins [0; 3; 0; 7]) (Fin 1) 0 3 true = Ok (fins [0; 1 / 3], fins [4; 8]) /\
  power_spectra fft (fins (rev [0; 3; 0; 7])) (Fin 1) 0 3 true = Ok (fins [0; 1 / 3], fins [100 / 9; 200 / 9]).
Proof. exact spectra_direction. Qed.
Print Assumptions C162_reversed_refuted.
(** The unit of time: frequencies times [c], densities over [c]. *)
Theorem C162_rate : forall fft l fs ov B (os : bool) c,
  exact_fft fft -> (3 <= B <= length l)%nat -> (ov < Z.of_nat B)%Z -> fs <> 0 -> c <> 0 ->
  exists f p, power_spectra fft (fins l) (Fin fs) ov (Z.of_nat B) os = Ok (fins f, fins p) /\
    power_spectra fft (fins l) (Fin (c * fs)) ov (Z.of_nat B) os = Ok (fins (map (Rmult c) f), fins (map (fun v => v / c) p)).
Proof. exact spectra_rate. Qed.
Print Assumptions C162_rate.
(** The two-sided spectrum has the same values at opposite frequencies. *)
Theorem C162_mirror : forall fft l fs ov B,
  exact_fft fft -> (3 <= B <= length l)%nat -> (ov < Z.of_nat B)%Z -> fs <> 0 ->
  exists f p, power_spectra fft (fins l) (Fin fs) ov (Z.of_nat B) false = Ok (fins f, fins p) /\ length p = B /\
    forall k, (0 < k < B)%nat -> nth (B - k) p 0 = nth k p 0.
Proof. exact spectra_mirror. Qed.
Print Assumptions C162_mirror.
Example C162_nonvacuous : exact_fft the_fft /\ (3 <= 3 <= length [1; 5; 2; 7; 4])%nat /\ ((zlen [1; 5; 2; 7; 4] - 3) mod (3 - 1) = 0)%Z /\
  rev [1; 5; 2; 7; 4] <> [1; 5; 2; 7; 4].
Proof.
  split; [exact the_fft_exact|]. split; [cbn; lia|]. split; [reflexivity|]. cbn. intros H. assert (E : nth 0 [4; 7; 2; 5; 1] 0 = nth 0 [1; 5; 2; 7; 4] 0) by (rewrite H; reflexivity). cbn in E. lra.
Qed.
