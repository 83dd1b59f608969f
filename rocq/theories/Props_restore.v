(** Property theorems C167: polluting a record and repairing it at the polluted positions. *)
From Coq Require Import Reals Lra Lia List ZArith.
From Flocq Require Import IEEE754.BinarySingleNaN.
From Verif Require Import Num NpBase XR F64 F64ex Spec Spec37 M_descriptive M_series M_signal M_replacement P_noise P_restore P_medrestore.
Import ListNotations.
Local Open Scope R_scope.

(** The repaired polluted record is the repaired clean record, the first sample not being polluted. *)
Theorem C167_last_valid : forall (l r : list R) (p : R) draws idx, l <> [] ->
  (forall i, In i draws -> (0 <= i < zlen l)%Z) -> length r = length l ->
  @random_index XR (zlen l) (Fin p) draws = Some (Ok idx) -> ~ In 0%Z idx ->
  exists m, @synthetic_noise XR (fins l) (Fin p) draws (fins r) = Some (Ok (fins m)) /\
    @last_valid_data XR (fins m) idx = last_valid_data (fins l) idx.
Proof. exact restore_last. Qed.
Print Assumptions C167_last_valid.
(** The same for interpolation, the last sample not being polluted. *)
Theorem C167_linear : forall (l r : list R) (p : R) draws idx dec, l <> [] ->
  (forall i, In i draws -> (0 <= i < zlen l)%Z) -> length r = length l ->
  @random_index XR (zlen l) (Fin p) draws = Some (Ok idx) -> ~ In (zlen l - 1)%Z idx ->
  exists m, @synthetic_noise XR (fins l) (Fin p) draws (fins r) = Some (Ok (fins m)) /\
    @linear_interpolation XR DFloat (fins m) idx dec = linear_interpolation DFloat (fins l) idx dec.
Proof. exact restore_linear. Qed.
Print Assumptions C167_linear.
(** A constant record is restored by the last valid sample, *)
Theorem C167_constant : forall (c : R) (n : nat) (r : list R) (p : R) draws idx,
  (0 < n)%nat -> (forall i, In i draws -> (0 <= i < Z.of_nat n)%Z) -> length r = n ->
  @random_index XR (Z.of_nat n) (Fin p) draws = Some (Ok idx) -> ~ In 0%Z idx ->
  exists m, @synthetic_noise XR (fins (repeat c n)) (Fin p) draws (fins r) = Some (Ok (fins m)) /\
    @last_valid_data XR (fins m) idx = Ok (fins (repeat c n)).
Proof. exact restore_constant. Qed.
Print Assumptions C167_constant.
(** in every arithmetic where adding 0 keeps the constant, *)
Theorem C167_constant_every_arithmetic : forall (N : Num) (c p : N) (n : nat) (r : list N) draws idx,
  nadd c (nofZ 0) = c -> (forall i, In i draws -> (0 <= i < Z.of_nat n)%Z) -> length r = n ->
  random_index (Z.of_nat n) p draws = Some (Ok idx) -> ~ In 0%Z idx ->
  exists m, synthetic_noise (repeat c n) p draws r = Some (Ok m) /\ last_valid_data m idx = Ok (repeat c n).
Proof. exact restore_constant_N. Qed.
Print Assumptions C167_constant_every_arithmetic.
(** in particular in binary64, infinite noise included, *)
Theorem C167_constant_binary64 : forall (L : Libm) (c p : F64 L) (n : nat) (r : list (F64 L)) draws idx,
  is_nan c = false -> c <> B754_zero true -> (forall i, In i draws -> (0 <= i < Z.of_nat n)%Z) -> length r = n ->
  random_index (Z.of_nat n) p draws = Some (Ok idx) -> ~ In 0%Z idx ->
  exists m, synthetic_noise (repeat c n) p draws r = Some (Ok m) /\ last_valid_data m idx = Ok (repeat c n).
Proof. exact restore_constant_f64. Qed.
Print Assumptions C167_constant_binary64.
(** a straight line by interpolation, up to the rounding to [dec] decimals. *)
Theorem C167_line : forall (a b : R) (n : nat) (r : list R) (p : R) draws idx dec,
  (0 < n)%nat -> (forall i, In i draws -> (0 <= i < Z.of_nat n)%Z) -> length r = n ->
  @random_index XR (Z.of_nat n) (Fin p) draws = Some (Ok idx) -> idx <> [] -> ~ In 0%Z idx -> ~ In (Z.of_nat n - 1)%Z idx ->
  exists m, @synthetic_noise XR (fins (line a b n)) (Fin p) draws (fins r) = Some (Ok (fins m)) /\
    @linear_interpolation XR DFloat (fins m) idx dec = Ok (fins (map (round_dec dec) (line a b n))).
Proof. exact restore_line. Qed.
Print Assumptions C167_line.
(** The mean restores no sample of a constant record with an odd number of spikes. *)
Theorem C167_mean_refuted : forall (c : R) (n : nat) (r : list R) (p e : R) draws idx,
  c <> 0 -> (0 < n)%nat -> (forall i, In i draws -> (0 <= i < Z.of_nat n)%Z) -> length r = n -> (forall k, Rabs (nth k r 0) <= e) ->
  @random_index XR (Z.of_nat n) (Fin p) draws = Some (Ok idx) -> Nat.even (length idx) = false -> e * INR (length idx) < 2 * p ->
  exists m s x, @synthetic_noise XR (fins (repeat c n)) (Fin p) draws (fins r) = Some (Ok (fins m)) /\
    @mean_value XR DFloat (fins m) idx = Ok s /\ x <> c /\ forall i, In i idx -> nth_error s (Z.to_nat i) = Some (Fin x).
Proof. exact restore_mean. Qed.
Print Assumptions C167_mean_refuted.
(** The median restores a constant record, fewer than half of the samples being polluted, the first one possibly among them. *)
Theorem C167_median : forall (c : R) (n : nat) (r : list R) (p : R) draws idx,
  (forall i, In i draws -> (0 <= i < Z.of_nat n)%Z) -> length r = n ->
  @random_index XR (Z.of_nat n) (Fin p) draws = Some (Ok idx) -> (2 * length idx < n)%nat ->
  exists m, @synthetic_noise XR (fins (repeat c n)) (Fin p) draws (fins r) = Some (Ok (fins m)) /\
    @median_value XR DFloat (fins m) idx = Ok (fins (repeat c n)).
Proof. exact restore_median. Qed.
Print Assumptions C167_median.
(** Five samples, two polluted ones in the interior, or one. *)
Example C167_nonvacuous : line 2 3 3 = [2 + 3 * INR 0; 2 + 3 * INR 1; 2 + 3 * INR 2] /\
  (@random_index XR 5 (Fin 40) [3; 3; 1]%Z = Some (Ok [1; 3]%Z) /\ @random_index XR 5 (Fin 20) [3; 3; 1]%Z = Some (Ok [3]%Z)) /\
  ~ In 0%Z [1; 3]%Z /\ ~ In (5 - 1)%Z [1; 3]%Z /\ Nat.even (length [3%Z]) = false.
Proof. split; [reflexivity|]. split; [exact restore_hyp|]. cbn. split; [|split]; [| |reflexivity]; lia. Qed.
(** Binary64, 40 percent of five samples, without the random part. *)
Local Definition c167 (repair : list (F64 libm_ex) -> list Z -> res (list (F64 libm_ex))) (data : list Z) (percent : Z) : option (list Z * list Z) :=
  match random_index 5 (nofZ percent : F64 libm_ex) [3; 3; 1]%Z, synthetic_noise (map nofZ data) (nofZ percent) [3; 3; 1]%Z (map nofZ [0; 0; 0; 0; 0]%Z) with
  | Some (Ok idx), Some (Ok m) => match repair m idx with Ok s => Some (map nfloorZ m, map nfloorZ s) | Raise _ => None end
  | _, _ => None
  end.
Example C167_run :
  c167 last_valid_data [7; 7; 7; 7; 7]%Z 40 = Some ([7; 287; 7; -273; 7], [7; 7; 7; 7; 7])%Z /\
  c167 (fun v idx => linear_interpolation DFloat v idx 0) [2; 5; 8; 11; 14]%Z 40 = Some ([2; 325; 8; -309; 14], [2; 5; 8; 11; 14])%Z /\
  c167 (median_value DFloat) [7; 7; 7; 7; 7]%Z 40 = Some ([7; 287; 7; -273; 7], [7; 7; 7; 7; 7])%Z /\
  c167 (mean_value DFloat) [7; 7; 7; 7; 7]%Z 20 = Some ([7; 7; 7; 147; 7], [7; 7; 7; 35; 7])%Z.
Proof. repeat split; vm_compute; reflexivity. Qed.
