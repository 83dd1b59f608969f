(** Property theorems C166: synthetic noise and the mean, the unit and the origin of the record. *)
From Coq Require Import Reals Lra List ZArith.
From Verif Require Import Num NpBase XR F64 F64ex Spec Spec36 M_descriptive M_series M_signal P_noise P_noisemean.
Import ListNotations.
Local Open Scope R_scope.

(** The mean of the polluted record, exactly: [r] is the vector of random numbers, [idx] the polluted positions. *)
Theorem C166_mean : forall (l r : list R) (p : R) draws idx, l <> [] ->
  (forall i, In i draws -> (0 <= i < zlen l)%Z) -> length r = length l ->
  @random_index XR (zlen l) (Fin p) draws = Some (Ok idx) ->
  exists m, @synthetic_noise XR (fins l) (Fin p) draws (fins r) = Some (Ok (fins m)) /\ length m = length l /\
    rmean m = rmean l * (1 + alternating (fun k => Rabs (nth k r 0) + p) (length idx) / INR (length l)).
Proof. exact noise_mean. Qed.
Print Assumptions C166_mean.
(** An even number of spikes: the mean moves by the random part only, whatever the percentage. *)
Theorem C166_even : forall (l r : list R) (p e : R) draws idx, l <> [] ->
  (forall i, In i draws -> (0 <= i < zlen l)%Z) -> length r = length l -> (forall k, Rabs (nth k r 0) <= e) ->
  @random_index XR (zlen l) (Fin p) draws = Some (Ok idx) -> Nat.even (length idx) = true ->
  exists m, @synthetic_noise XR (fins l) (Fin p) draws (fins r) = Some (Ok (fins m)) /\
    Rabs (rmean m - rmean l) <= Rabs (rmean l) * (e * INR (length idx) / (2 * INR (length l))).
Proof. exact noise_mean_even. Qed.
Print Assumptions C166_even.
(** An odd number of spikes: one spike is left over and moves the mean. *)
Theorem C166_odd_refuted : forall (l r : list R) (p e : R) draws idx, rmean l <> 0 ->
  (forall i, In i draws -> (0 <= i < zlen l)%Z) -> length r = length l -> (forall k, Rabs (nth k r 0) <= e) ->
  @random_index XR (zlen l) (Fin p) draws = Some (Ok idx) -> Nat.even (length idx) = false -> e * INR (length idx) < 2 * p ->
  exists m, @synthetic_noise XR (fins l) (Fin p) draws (fins r) = Some (Ok (fins m)) /\
    Rabs (rmean l) * ((p - e * INR (length idx) / 2) / INR (length l)) <= Rabs (rmean m - rmean l) /\ rmean m <> rmean l.
Proof. exact noise_mean_odd. Qed.
Print Assumptions C166_odd_refuted.
(** With the same random numbers, the spikes follow the unit of velocity ... *)
Theorem C166_unit : forall (l r : list R) (p a : R) draws idx, l <> [] ->
  (forall i, In i draws -> (0 <= i < zlen l)%Z) -> length r = length l ->
  @random_index XR (zlen l) (Fin p) draws = Some (Ok idx) ->
  exists m, @synthetic_noise XR (fins l) (Fin p) draws (fins r) = Some (Ok (fins m)) /\
    @synthetic_noise XR (fins (map (Rmult a) l)) (Fin p) draws (fins r) = Some (Ok (fins (map (Rmult a) m))).
Proof. exact noise_unit. Qed.
Print Assumptions C166_unit.
(** ... but not its origin: adding [b] to the record adds [b] to the good samples and changes the height of every
    spike by [p] times [b] or more. *)
Theorem C166_origin_refuted : forall (l r : list R) (p a b : R) draws idx, l <> [] ->
  (forall i, In i draws -> (0 <= i < zlen l)%Z) -> length r = length l ->
  @random_index XR (zlen l) (Fin p) draws = Some (Ok idx) ->
  exists m m', @synthetic_noise XR (fins l) (Fin p) draws (fins r) = Some (Ok (fins m)) /\
    @synthetic_noise XR (fins (map (fun x => a * x + b) l)) (Fin p) draws (fins r) = Some (Ok (fins m')) /\
    length m = length l /\ length m' = length l /\
    (forall i, (i < length l)%nat -> ~ In (Z.of_nat i) idx -> nth i m' 0 = a * nth i m 0 + b) /\
    (forall k, (k < length idx)%nat -> let i := Z.to_nat (nth k idx 0%Z) in
       nth i m' 0 = a * nth i m 0 + b + (-1) ^ k * (Rabs (nth k r 0) + p) * b).
Proof. exact noise_affine. Qed.
Print Assumptions C166_origin_refuted.
Example C166_nonvacuous : [1; 2; 3] <> [] /\ rmean [1; 2; 3] <> 0 /\ (forall i, In i [2; 2; 0]%Z -> (0 <= i < zlen [1; 2; 3])%Z) /\
  @random_index XR (zlen [1; 2; 3]) (Fin 70) [2; 2; 0]%Z = Some (Ok [0; 2]%Z) /\ Nat.even (length [0; 2]%Z) = true.
Proof. split; [congruence|]. split; [unfold rmean; cbn; lra|].
  split; [|split; [exact noise_hyp|reflexivity]]. intros i [<-|[<-|[<-|[]]]]; cbn; split; reflexivity || discriminate. Qed.
(** Four samples of mean 10 in binary64, without the random part: 50 percent (two spikes) keeps the sum 40, 25 percent
    (one spike of 25 times the mean) makes it 290. *)
Local Definition c166_sum (percent : Z) : option Z :=
  match synthetic_noise (map nofZ [8; 12; 9; 11]%Z : list (F64 libm_ex)) (nofZ percent) [3; 3; 1]%Z (map nofZ [0; 0; 0; 0]%Z) with
  | Some (Ok m) => Some (nfloorZ (nsum m))
  | _ => None
  end.
Example C166_run : c166_sum 50 = Some 40%Z /\ c166_sum 25 = Some 290%Z.
Proof. split; vm_compute; reflexivity. Qed.
