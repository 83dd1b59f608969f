(** Property theorems C165: the curves drawn by the smoothing scripts. *)
From Coq Require Import Reals Lra Lia List ZArith.
From Verif Require Import Num NpBase XR F64 F64ex Spec Spec35 M_descriptive M_series M_signal M_curves P_curves.
Import ListNotations.
Local Open Scope R_scope.

(** Simple moving average: at every index the mean of the last (at most 30) samples up to that index. *)
Theorem C165_simple : forall (l : list R), (30 <= length l)%nat ->
  @simple_curves XR (fins l) = Ok (curve (length l) (fun i => nth i l 0), curve (length l) (fun i => rmean (rwindow l 30 i))).
Proof. exact simple_drawn. Qed.
Print Assumptions C165_simple.
(** Exponential moving average with weight 0.08, at every index of the samples up to that index. *)
Theorem C165_exponential : forall (l : list R), l <> [] ->
  @exponential_curves XR (fins l) = Ok (curve (length l) (fun i => nth i l 0), curve (length l) (rema (8 / 100) l)).
Proof. exact exponential_drawn. Qed.
Print Assumptions C165_exponential.
(** Kalman filter started at 1: at every index the previous estimate is moved towards the sample at that index. *)
Theorem C165_kalman : forall (l : list R), exists est gain,
  @kalman_curves XR (fins l) = Ok (curve (length l) (fun i => nth i l 0), curve (length l) (fun i => nth i est 0)) /\
  length est = length l /\ gain O = 101 / 1601 /\ (forall i, gain (S i) = (15 * gain i + 1 / 100) / (15 * gain i + 1501 / 100)) /\
  (forall i, (i < length l)%nat -> let prev := nth i (1 :: est) 0 in nth i est 0 = prev + gain i * (nth i l 0 - prev)).
Proof. exact kalman_drawn. Qed.
Print Assumptions C165_kalman.
(** Singular spectrum analysis with windows of 100 samples: at every index the (rounded) mean over the windows that
    contain the sample, projected on some of the eigenvectors. *)
Theorem C165_singular_spectrum : forall (eigh : @matrix XR -> res (@matrix XR)) (x : list R) (E : list (list R)), (100 <= length x)%nat ->
  mshape E 100 100 -> eigh (finm (rtrajcov x 100 (length x - 99))) = Ok (finm E) ->
  exists sel : list nat,
    ssa_curves eigh (fins x) = Ok (curve (length x) (fun i => nth i x 0),
      curve (length x) (fun t => round_dec 4 (rmean (antidiag (rproject E sel x 100 (length x - 99)) 100 (length x - 99) t)))) /\
    (forall i, In i sel -> (i < 100)%nat).
Proof. exact ssa_drawn. Qed.
Print Assumptions C165_singular_spectrum.
(** The synthetic noise script: 500 samples, of which exactly 50 are changed; the mean is kept up to the random part. *)
Theorem C165_synthetic : forall (l r : list R) (e : R) draws idx, length l = 500%nat -> rmean l <> 0 ->
  (forall i, In i draws -> (0 <= i < 500)%Z) -> length r = 500%nat -> (forall k, Rabs (nth k r 0) <= e) ->
  @random_index XR 500 (Fin 10) draws = Some (Ok idx) -> length idx = 50%nat /\
  exists m, @synthetic_curves XR (fins l) draws (fins r) = Some (Ok (curve 500 (fun i => nth i m 0), curve 500 (fun i => nth i l 0))) /\
    length m = 500%nat /\ (forall i, (i < 500)%nat -> (nth i m 0 <> nth i l 0 <-> In (Z.of_nat i) idx)) /\
    Rabs (rmean m - rmean l) <= Rabs (rmean l) * (e / 20).
Proof. exact synthetic_drawn. Qed.
Print Assumptions C165_synthetic.
(** Weighted moving average: 30 points are missing, and at index [i] the samples [i] to [i+29] are averaged. *)
Theorem C165_weighted : forall (l : list R), (30 <= length l)%nat ->
  @weighted_curves XR (fins l) = Ok (curve (length l) (fun i => nth i l 0), curve (length l - 30) (fun i => rwmean (firstn 30 (skipn i l)))).
Proof. exact weighted_drawn. Qed.
Print Assumptions C165_weighted.
Theorem C165_weighted_short : forall (l : list R), (length l < 30)%nat -> @weighted_curves XR (fins l) = Raise ValueError.
Proof. exact weighted_short. Qed.
Print Assumptions C165_weighted_short.
(** The weighted curve of a step of height [h] after [k] samples starts to rise at index [k - 29], where the record is
    still flat. *)
Theorem C165_weighted_refuted : forall (c h : R) (k m : nat), (29 <= k)%nat -> (2 <= m)%nat -> exists g,
  @weighted_curves XR (fins (rstep c h k m)) = Ok (curve (k + m) (fun i => nth i (rstep c h k m) 0), curve (k + m - 30) g) /\
  (forall i, (i < k)%nat -> nth i (rstep c h k m) 0 = c) /\ (k - 29 < k + m - 30)%nat /\
  (forall i, (i < k - 29)%nat -> g i = c) /\ g (k - 29)%nat = c + 2 / 31 * h.
Proof. exact weighted_early. Qed.
Print Assumptions C165_weighted_refuted.
(** 40 samples 0, then 10 samples 31: the weighted curve has 20 points and is 2 at index 11 and 0 before; the simple
    moving average is 0 up to index 39. *)
Local Definition c165_rec : list (F64 libm_ex) := map nofZ (repeat 0 40 ++ repeat 31 10)%Z.
Local Definition c165_ints (c : list (Z * F64 libm_ex)) : list (Z * Z) := map (fun q => (fst q, nfloorZ (snd q))) c.
Example C165_run :
  match weighted_curves c165_rec with Ok (_, c) => (length c, firstn 12 (c165_ints c)) | Raise _ => (O, []) end =
    (20%nat, map (fun i => (Z.of_nat i, if Nat.eqb i 11 then 2%Z else 0%Z)) (seq 0 12)) /\
  match simple_curves c165_rec with Ok (_, c) => (length c, firstn 40 (c165_ints c)) | Raise _ => (O, []) end =
    (50%nat, map (fun i => (Z.of_nat i, 0%Z)) (seq 0 40)).
Proof. split; vm_compute; reflexivity. Qed.
Example C165_lengths : (29 <= 40)%nat /\ (2 <= 10)%nat /\ (30 <= length (rstep 0 31 40 10))%nat.
Proof. repeat split; try lia. unfold rstep. rewrite app_length, !repeat_length. lia. Qed.
Example C165_shape : let E := map (fun i => map (fun j => if Nat.eqb i j then 1 else 0) (seq 0 100)) (seq 0 100) in
  mshape E 100 100 /\ (100 <= length (repeat 7 120))%nat /\ (fun _ : @matrix XR => Ok (finm E)) (finm (rtrajcov (repeat 7 120) 100 21)) = Ok (finm E).
Proof.
  split; [|split; [rewrite repeat_length; lia|reflexivity]].
  split; [rewrite map_length, seq_length; reflexivity|].
  intros r Hr. apply in_map_iff in Hr. destruct Hr as (i & <- & _). rewrite map_length, seq_length. reflexivity.
Qed.
(** The draws 0, 10, 20, ..., 490 end the loop of the synthetic noise script, here in binary64. *)
Example C165_synthetic_run : let draws := map (fun k => (10 * Z.of_nat k)%Z) (seq 0 50) in
  random_index 500 (nofZ 10 : F64 libm_ex) draws = Some (Ok draws).
Proof. vm_compute. reflexivity. Qed.
