(** Property theorems C158: which samples the synthetic noise changes (synthetic.py). *)
From Coq Require Import Reals Lra List ZArith.
From Verif Require Import Num NpBase XR F64 F64ex Spec M_signal P_noise.
Import ListNotations.
Local Open Scope R_scope.

(** Mean not zero: the selected samples, and no others, change, by at least the percentage (as a number, not a
    fraction) times the mean; two of them change in the same direction exactly when their ranks have the same parity. *)
Theorem C158_changed : forall (l r : list R) (p : R) draws idx, 0 < p -> rmean l <> 0 ->
  (forall i, In i draws -> (0 <= i < zlen l)%Z) -> length r = length l ->
  @random_index XR (zlen l) (Fin p) draws = Some (Ok idx) ->
  exists m, @synthetic_noise XR (fins l) (Fin p) draws (fins r) = Some (Ok (fins m)) /\ length m = length l /\
    (forall i, (i < length l)%nat -> (nth i m 0 <> nth i l 0 <-> In (Z.of_nat i) idx)) /\
    (forall i, (i < length l)%nat -> In (Z.of_nat i) idx -> p * Rabs (rmean l) <= Rabs (nth i m 0 - nth i l 0)) /\
    (forall j k, (j < length idx)%nat -> (k < length idx)%nat -> let x := Z.to_nat (nth j idx 0%Z) in let y := Z.to_nat (nth k idx 0%Z) in
       (0 < (nth x m 0 - nth x l 0) * (nth y m 0 - nth y l 0) <-> Nat.even j = Nat.even k)).
Proof. exact noise_changes. Qed.
Print Assumptions C158_changed.
(** A record of fluctuations: the polluted record is the record, whatever the percentage and the draws. *)
Theorem C158_zero_mean_refuted : forall (l r : list R) (p : R) draws idx, l <> [] -> rmean l = 0 ->
  (forall i, In i draws -> (0 <= i < zlen l)%Z) -> length r = length l ->
  @random_index XR (zlen l) (Fin p) draws = Some (Ok idx) ->
  @synthetic_noise XR (fins l) (Fin p) draws (fins r) = Some (Ok (fins l)).
Proof. exact noise_zero_mean. Qed.
Print Assumptions C158_zero_mean_refuted.
Example C158_nonvacuous : rmean [1; 2; 3] <> 0 /\ rmean [1; -1; 0] = 0 /\ (forall i, In i [2; 2; 0]%Z -> (0 <= i < zlen [1; 2; 3])%Z) /\
  @random_index XR (zlen [1; 2; 3]) (Fin 70) [2; 2; 0]%Z = Some (Ok [0; 2]%Z).
Proof. split; [unfold rmean; cbn; lra|]. split; [unfold rmean; cbn; lra|].
  split; [|exact noise_hyp]. intros i [<-|[<-|[<-|[]]]]; cbn; split; reflexivity || discriminate. Qed.
(** 70 percent of four samples in binary64, without the random part: two samples move by 70 times the mean; none does
    when the mean is zero. *)
Example C158_run :
  let z := map (@nofZ (F64 libm_basic)) in
  let ints := fun o : option (res (list (F64 libm_basic))) => match o with Some (Ok l) => map nfloorZ l | _ => [] end in
  ints (synthetic_noise (z [1; 2; 4; 5]%Z) (nofZ 70) [3; 0]%Z (z [0; 0; 0; 0]%Z)) = [211; 2; 4; -205]%Z /\
  ints (synthetic_noise (z [1; 2; -4; 1]%Z) (nofZ 70) [3; 0]%Z (z [0; 0; 0; 0]%Z)) = [1; 2; -4; 1]%Z.
Proof. vm_compute. split; reflexivity. Qed.
