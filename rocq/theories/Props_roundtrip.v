(** Property theorems C168: polluting a constant record, detecting and repairing the spikes. *)
From Coq Require Import Reals Lra Lia List ZArith.
From Verif Require Import Num NpBase XR F64 F64ex Spec M_descriptive M_series M_signal M_replacement M_detection P_restore P_roundtrip.
Import ListNotations.
Local Open Scope R_scope.

(** One polluted sample [i0] after the first: the search for rising spikes finds exactly this sample, and the last valid
    sample restores the record. *)
Theorem C168_one_spike : forall (c : R) (n : nat) (r : list R) (p f g kg ks : R) draws i0,
  0 < c -> 0 < p -> 0 <= kg * g -> 0 <= ks -> (forall i, In i draws -> (0 <= i < Z.of_nat n)%Z) -> length r = n ->
  @random_index XR (Z.of_nat n) (Fin p) draws = Some (Ok [i0]) -> (0 < i0)%Z ->
  kg * g < (Rabs (nth 0 r 0) + p) * c * f -> 1 + ks ^ 2 < INR n ->
  exists m, @synthetic_noise XR (fins (repeat c n)) (Fin p) draws (fins r) = Some (Ok (fins m)) /\
    @acceleration_thresholding XR (fins m) (Fin f) 1 (Fin g) (Fin kg) (Fin ks) = Ok [i0] /\
    @last_valid_data XR (fins m) [i0] = Ok (fins (repeat c n)).
Proof. exact one_spike. Qed.
Print Assumptions C168_one_spike.
(** Any number of polluted samples: the same search misses every second one, whatever the thresholds. *)
Theorem C168_refuted : forall (c : R) (n : nat) (r : list R) (p f g kg ks : R) draws idx,
  0 < c -> 0 < p -> 0 < f -> 0 <= kg * g -> (0 < n)%nat -> (forall i, In i draws -> (0 <= i < Z.of_nat n)%Z) -> length r = n ->
  @random_index XR (Z.of_nat n) (Fin p) draws = Some (Ok idx) ->
  exists m, @synthetic_noise XR (fins (repeat c n)) (Fin p) draws (fins r) = Some (Ok (fins m)) /\
    forall s, @acceleration_thresholding XR (fins m) (Fin f) 1 (Fin g) (Fin kg) (Fin ks) = Ok s ->
      forall k, (k < length idx)%nat -> Nat.even k = false -> ~ In (nth k idx 0%Z) s.
Proof. exact odd_spikes_missed. Qed.
Print Assumptions C168_refuted.
(** The search for falling spikes misses the others. *)
Theorem C168_falling_refuted : forall (c : R) (n : nat) (r : list R) (p f g kg ks : R) draws idx,
  0 < c -> 0 < p -> 0 < f -> 0 <= kg * g -> (0 < n)%nat -> (forall i, In i draws -> (0 <= i < Z.of_nat n)%Z) -> length r = n ->
  @random_index XR (Z.of_nat n) (Fin p) draws = Some (Ok idx) ->
  exists m, @synthetic_noise XR (fins (repeat c n)) (Fin p) draws (fins r) = Some (Ok (fins m)) /\
    forall s, @acceleration_thresholding XR (fins m) (Fin f) 2 (Fin g) (Fin kg) (Fin ks) = Ok s ->
      forall k, (k < length idx)%nat -> Nat.even k = true -> ~ In (nth k idx 0%Z) s.
Proof. exact even_spikes_missed. Qed.
Print Assumptions C168_falling_refuted.
Example C168_nonvacuous : (@random_index XR 5 (Fin 40) [3; 3; 1]%Z = Some (Ok [1; 3]%Z) /\ @random_index XR 5 (Fin 20) [3; 3; 1]%Z = Some (Ok [3]%Z)) /\
  981 * 1 < (Rabs (nth 0 [0; 0; 0; 0; 0] 0) + 20) * 7 * 25 /\ 1 + (3 / 2) ^ 2 < INR 5 /\ Nat.even 1 = false.
Proof. split; [exact restore_hyp|]. split; [cbn [nth]; rewrite Rabs_R0; lra|]. split; [cbn; lra|reflexivity]. Qed.
(** Binary64: five samples 7 at 25 Hz, one spike, then two spikes; the falling one is found by the other search. *)
Local Definition c168 (percent : Z) (tag : Z) : option (list Z * list Z) :=
  match synthetic_noise (map nofZ [7; 7; 7; 7; 7]%Z : list (F64 libm_ex)) (nofZ percent) [3; 3; 1]%Z (map nofZ [0; 0; 0; 0; 0]%Z) with
  | Some (Ok m) =>
      match acceleration_thresholding m (nofZ 25) tag (nofZ 981) (nofZ 1) (lit 15 1) with
      | Ok s => match last_valid_data m s with Ok q => Some (s, map nfloorZ q) | Raise _ => None end
      | Raise _ => None
      end
  | _ => None
  end.
Example C168_run : c168 20 1 = Some ([3], [7; 7; 7; 7; 7])%Z /\ c168 40 1 = Some ([1], [7; 7; 7; -273; 7])%Z /\ c168 40 2 = Some ([3], [7; 287; 7; 7; 7])%Z.
Proof. repeat split; vm_compute; reflexivity. Qed.
