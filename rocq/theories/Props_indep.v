(** Property theorems C160: repaired records and the values of the spikes. *)
From Coq Require Import Reals Lra List ZArith Sorted.
From Verif Require Import Num NpBase XR F64 F64ex Spec Spec32 M_descriptive M_series M_replacement P_indep.
Import ListNotations.
Local Open Scope R_scope.

(** Two records with the same unflagged samples are repaired alike, in every arithmetic. *)
Theorem C160_last_valid : forall (N : Num) (v w : list N) idx d, StronglySorted Z.lt idx -> (forall i, In i idx -> (0 < i < zlen v)%Z) ->
  same_good idx v w d -> last_valid_data w idx = last_valid_data v idx.
Proof. exact lvd_indep. Qed.
Print Assumptions C160_last_valid.
(** The last sample not being flagged. *)
Theorem C160_interpolation : forall (l m : list R) idx dec, StronglySorted Z.lt idx -> (forall i, In i idx -> (0 <= i < zlen l - 1)%Z) ->
  same_good idx l m 0 -> @linear_interpolation XR DFloat (fins m) idx dec = @linear_interpolation XR DFloat (fins l) idx dec.
Proof. exact li_indep. Qed.
Print Assumptions C160_interpolation.
(** One spike only. *)
Theorem C160_cubic_single : forall (N : Num) spline (v w : list N) i dec d, (0 < i < zlen v)%Z -> same_good [i] v w d ->
  cubic_12points_polynomial spline DFloat w [i] dec = cubic_12points_polynomial spline DFloat v [i] dec.
Proof. exact cubic_indep. Qed.
Print Assumptions C160_cubic_single.
(** A spike higher by [d] gives replacements higher by [d] over the length. *)
Theorem C160_mean_refuted : forall (l : list R) k d idx, (k < length l)%nat -> in_bounds (zlen l) idx ->
  exists r s, @mean_value XR DFloat (fins l) idx = Ok r /\ @mean_value XR DFloat (fins (bump l k d)) idx = Ok s /\
    forall j, (j < length l)%nat -> flagged (zlen l) idx j ->
      exists x, nth_error r j = Some (Fin x) /\ nth_error s j = Some (Fin (x + d / INR (length l))).
Proof. exact mean_leak. Qed.
Print Assumptions C160_mean_refuted.
Theorem C160_median_refuted : forall x, 0 <= x <= 10 -> @median_value XR DFloat (fins [0; x; 10]) [1%Z] = Ok (fins [0; x; 10]).
Proof. exact median_leak. Qed.
Print Assumptions C160_median_refuted.
(** Higher by [d] over the size of the window, at every flagged sample whose window contains the spike. *)
Theorem C160_moving_average_refuted : forall (l : list R) k d idx w, (k < length l)%nat -> (0 < w <= zlen l)%Z -> in_bounds (zlen l) idx ->
  exists r s, @repl_sma XR DFloat (fins l) idx w = Ok r /\ @repl_sma XR DFloat (fins (bump l k d)) idx w = Ok s /\
    forall j, (k <= j < length l)%nat -> (Z.of_nat j < Z.of_nat k + w)%Z -> flagged (zlen l) idx j ->
      exists x, nth_error r j = Some (Fin x) /\ nth_error s j = Some (Fin (x + d / INR (Nat.min (S j) (Z.to_nat w)))).
Proof. exact sma_leak. Qed.
Print Assumptions C160_moving_average_refuted.
(** Higher by the weight of the spike in the exponential average, at every later flagged sample. *)
Theorem C160_exponential_refuted : forall (l : list R) k d idx a, (k < length l)%nat -> 0 < a <= 1 -> in_bounds (zlen l) idx ->
  exists r s, @repl_ema XR DFloat (fins l) idx (Fin a) = Ok r /\ @repl_ema XR DFloat (fins (bump l k d)) idx (Fin a) = Ok s /\
    forall j, (k <= j < length l)%nat -> flagged (zlen l) idx j ->
      exists x, nth_error r j = Some (Fin x) /\ nth_error s j = Some (Fin (x + ema_weight a j k * d)).
Proof. exact ema_leak. Qed.
Print Assumptions C160_exponential_refuted.
(** A run of spikes that reaches the end is filled with the mean of the record, spikes included. *)
Theorem C160_trailing_refuted : forall (l : list R) idx dec a k d, StronglySorted Z.lt idx -> (forall i, In i idx -> (0 <= i < zlen l)%Z) ->
  (0 <= a < zlen l)%Z -> (forall j, (a <= j < zlen l)%Z -> In j idx) -> ~ In (a - 1)%Z idx -> (k < length l)%nat ->
  exists r s, @linear_interpolation XR DFloat (fins l) idx dec = Ok r /\ @linear_interpolation XR DFloat (fins (bump l k d)) idx dec = Ok s /\
    forall j, (a <= j < zlen l)%Z -> nth_error r (Z.to_nat j) = Some (Fin (round_dec dec (rmean l))) /\
      nth_error s (Z.to_nat j) = Some (Fin (round_dec dec (rmean l + d / INR (length l)))).
Proof. exact trailing_leak. Qed.
Print Assumptions C160_trailing_refuted.
(** Two neighbouring spikes: the second is repaired with the value of the first. *)
Theorem C160_cubic_refuted : forall spline (k : Z),
  @cubic_12points_polynomial XR spline DFloat (fins [0; IZR (2 * k); 7; 0]) [1; 2]%Z 4 = Ok (fins [0; 0; IZR k; 0]).
Proof. exact cubic_leak. Qed.
Print Assumptions C160_cubic_refuted.
Example C160_nonvacuous : same_good [1]%Z [1; 90; 2] [1; -40; 2] 0 /\ StronglySorted Z.lt [1]%Z /\
  (forall i, In i [1]%Z -> (0 < i < zlen [1; 90; 2] - 1)%Z) /\ bump [1; 90; 2] 1 5 = [1; 90 + 5; 2] /\ in_bounds 3 [1]%Z.
Proof.
  split; [|split; [repeat constructor | split; [|split; [reflexivity|]]]].
  - split; [reflexivity|]. intros i Hi Hn. cbn in Hi.
    assert (H : i = 0%Z \/ i = 2%Z) by (cbn in Hn; destruct (Z.eq_dec i 0); [auto|]; destruct (Z.eq_dec i 2); [auto|]; exfalso; apply Hn; left; destruct Hi; apply Z.le_antisymm; apply Z.lt_succ_r || idtac; Lia.lia).
    destruct H as [-> | ->]; reflexivity.
  - intros i [<-|[]]. cbn. Lia.lia.
  - intros i [<-|[]]. Lia.lia.
Qed.
(** In binary64: the same record with a spike of 90 and one of 900. *)
Example C160_run :
  let z := map (@nofZ (F64 libm_basic)) in
  let ints := fun r : res (list (F64 libm_basic)) => match r with Ok l => map nfloorZ l | Raise _ => [] end in
  ints (last_valid_data (z [4; 90; 6; 8]%Z) [1]%Z) = [4; 4; 6; 8]%Z /\ ints (last_valid_data (z [4; 900; 6; 8]%Z) [1]%Z) = [4; 4; 6; 8]%Z /\
  ints (linear_interpolation DFloat (z [4; 90; 6; 8]%Z) [1]%Z 2) = [4; 5; 6; 8]%Z /\ ints (linear_interpolation DFloat (z [4; 900; 6; 8]%Z) [1]%Z 2) = [4; 5; 6; 8]%Z /\
  ints (mean_value DFloat (z [4; 90; 6; 8]%Z) [1]%Z) = [4; 27; 6; 8]%Z /\ ints (mean_value DFloat (z [4; 900; 6; 8]%Z) [1]%Z) = [4; 229; 6; 8]%Z.
Proof. vm_compute. repeat split. Qed.
