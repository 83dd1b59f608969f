(** Which smoothed values depend on later samples. *)
From Coq Require Import Reals Lra Lia.
From Verif Require Export Lib XR M_series Spec LibR P_order P_moment P_series P_fseries P_kalman.
Local Open Scope nat_scope.

Lemma agree_nth {A} (l l' : list A) k j d : firstn (S k) l = firstn (S k) l' -> j <= k -> nth j l d = nth j l' d.
Proof.
  intros H Hj. rewrite <- (nth_firstn l (S k) j d) by lia. rewrite <- (nth_firstn l' (S k) j d) by lia. rewrite H. reflexivity.
Qed.
Lemma agree_less {A} (l l' : list A) k j : firstn (S k) l = firstn (S k) l' -> j <= k -> firstn (S j) l = firstn (S j) l'.
Proof.
  intros H Hj. replace (S j) with (Nat.min (S j) (S k)) by lia. rewrite <- !firstn_firstn, H. reflexivity.
Qed.

Lemma ma_causal (N : Num) (data data' : list N) (w : Z) (k : nat) r r' :
  (0 < w <= zlen data)%Z -> (w <= zlen data')%Z -> k < length data -> k < length data' ->
  firstn (S k) data = firstn (S k) data' ->
  moving_average 1 data w = Ok r -> moving_average 1 data' w = Ok r' -> nth k r nnan = nth k r' nnan.
Proof.
  intros Hw Hw' Hk Hk' Ha E E'.
  destruct (ma_recurrence N data w Hw) as (s & Es & _ & S1 & S2). destruct (ma_recurrence N data' w ltac:(lia)) as (s' & Es' & _ & S1' & S2').
  rewrite E in Es. injection Es as <-. rewrite E' in Es'. injection Es' as <-.
  assert (G : forall j, j <= k -> nth j r nnan = nth j r' nnan).
  { induction j as [j IH] using lt_wf_ind. intros Hj. destruct (Nat.lt_ge_cases j (Z.to_nat w)) as [L|L].
    - rewrite S1, S1' by exact L. rewrite (agree_less _ _ _ _ Ha Hj). reflexivity.
    - rewrite S2, S2' by lia. rewrite (IH (j - 1)%nat) by lia. rewrite (agree_nth _ _ _ j nnan Ha) by lia.
      rewrite (agree_nth _ _ _ (j - Z.to_nat w) nnan Ha) by lia. reflexivity. }
  apply G. lia.
Qed.

Lemma ema_causal (N : Num) (dt : dtype) (data data' : list N) (alpha : N) (k : nat) r r' :
  k < length data -> k < length data' -> firstn (S k) data = firstn (S k) data' ->
  exponential_moving_average dt data alpha = Ok r -> exponential_moving_average dt data' alpha = Ok r' ->
  nth k r nnan = nth k r' nnan.
Proof.
  intros Hk Hk' Ha E E'.
  destruct (nleb alpha (nofZ 0) || nltb (nofZ 1) alpha)%bool eqn:A.
  { unfold exponential_moving_average in E. rewrite A in E. discriminate. }
  destruct (ema_recurrence N dt data alpha A) as (s & Es & _ & S1 & S2); [intros ->; cbn in Hk; lia|].
  destruct (ema_recurrence N dt data' alpha A) as (s' & Es' & _ & S1' & S2'); [intros ->; cbn in Hk'; lia|].
  rewrite E in Es. injection Es as <-. rewrite E' in Es'. injection Es' as <-.
  assert (G : forall j, j <= k -> nth j r nnan = nth j r' nnan).
  { induction j as [|j IH]; intros Hj.
    - rewrite S1, S1'. rewrite (agree_nth _ _ _ 0 nnan Ha) by lia. reflexivity.
    - rewrite S2, S2' by lia. replace (S j - 1)%nat with j by lia. rewrite IH by lia. rewrite (agree_nth _ _ _ (S j) nnan Ha) by lia. reflexivity. }
  apply G. lia.
Qed.

Lemma kalman_causal (N : Num) (Q R : N) (k : nat) : forall (data data' : list N) (x p : N) r r',
  k < length data -> k < length data' -> firstn (S k) data = firstn (S k) data' ->
  kalman_filter data x p Q R = Ok r -> kalman_filter data' x p Q R = Ok r' -> nth k r nnan = nth k r' nnan.
Proof.
  unfold kalman_filter.
  induction k as [|k IH]; intros data data' x p r r' Hk Hk' Ha E E'; (destruct data as [|m data]; [cbn in Hk; lia|]); (destruct data' as [|m' data']; [cbn in Hk'; lia|]);
    cbn [firstn] in Ha; (injection Ha as -> Ha || injection Ha as ->); cbn [kalman_loop] in E, E'; destruct (kalman_step Q R x p m') as [[s c]|e]; cbn [bind] in E, E'; try discriminate;
    destruct (kalman_loop Q R s c data) as [q|e] eqn:F; destruct (kalman_loop Q R s c data') as [q'|e'] eqn:F'; cbn [bind] in E, E'; try discriminate;
    injection E as <-; injection E' as <-.
  - reflexivity.
  - cbn [nth]. apply (IH data data' s c); cbn [length] in *; try lia; [exact Ha | exact F | exact F'].
Qed.
(** A record for which the filter fails fails for every longer one. *)
Lemma kalman_prefix (N : Num) (Q R : N) : forall (data more : list N) (x p : N) r,
  kalman_filter (data ++ more) x p Q R = Ok r -> kalman_filter data x p Q R = Ok (firstn (length data) r).
Proof.
  unfold kalman_filter. induction data as [|m data IH]; intros more x p r E; [reflexivity|].
  cbn [app kalman_loop] in *. destruct (kalman_step Q R x p m) as [[s c]|e]; cbn [bind] in *; [|discriminate].
  destruct (kalman_loop Q R s c (data ++ more)) as [q|e] eqn:F; cbn [bind] in E; [|discriminate]. injection E as <-.
  rewrite (IH _ _ _ _ F). reflexivity.
Qed.

(** The weighted average placed at sample [k] uses the samples after it. *)
Lemma wma_acausal (p k : nat) : 2 <= p -> exists (l l' : list R) r r',
  firstn (S k) l = firstn (S k) l' /\ length l = length l' /\
  @weighted_moving_average XR (fins l) (Z.of_nat p) = Ok (true, fins r) /\
  @weighted_moving_average XR (fins l') (Z.of_nat p) = Ok (true, fins r') /\
  k < length r /\ k < length r' /\ (nth k r 0 < nth k r' 0)%R.
Proof.
  intros Hp. set (l := repeat 0%R (S k) ++ repeat 0%R p). set (l' := repeat 0%R (S k) ++ repeat 1%R p).
  assert (HL : length l = S k + p) by (unfold l; rewrite app_length, !repeat_length; reflexivity).
  assert (HL' : length l' = S k + p) by (unfold l'; rewrite app_length, !repeat_length; reflexivity).
  destruct (wma_summary l (Z.of_nat p)) as (r & Er & Lr & Vr); [lia | unfold zlen; lia|].
  destruct (wma_summary l' (Z.of_nat p)) as (r' & Er' & Lr' & Vr'); [lia | unfold zlen; lia|].
  rewrite (proj2 (Z.ltb_lt _ _)) in Er by (unfold zlen; lia). rewrite (proj2 (Z.ltb_lt _ _)) in Er' by (unfold zlen; lia). rewrite Nat2Z.id in *.
  exists l, l', r, r'. split; [|split; [congruence|]].
  { unfold l, l'. rewrite !firstn_app, !repeat_length, Nat.sub_diag. reflexivity. }
  split; [exact Er|]. split; [exact Er'|]. split; [lia|]. split; [lia|].
  assert (Z0 : nth k r 0%R = 0%R).
  { destruct (Vr k ltac:(lia)) as [_ B]. specialize (B 0%R 0%R). 
    assert (0 <= nth k r 0 <= 0)%R by (apply B; intros j _; unfold l; rewrite <- repeat_app; rewrite nth_repeat'; lra). lra. }
  rewrite Z0. rewrite (proj1 (Vr' k ltac:(lia))). unfold rwmean.
  set (seg := firstn p (skipn k l')).
  assert (Hs : length seg = p) by (unfold seg; rewrite firstn_length, skipn_length; lia).
  assert (HW : (0 < Rsum (map (fun j => INR (S j)) (seq 0 (length seg))))%R) by (apply Rsum_weights_pos; lia).
  apply Rdiv_lt_0_compat; [|exact HW].
  assert (NN : forall j, In j (seq 0 (length seg)) -> (0 <= INR (S j) * nth j seg 0)%R).
  { intros j Hj. apply Rmult_le_pos; [apply pos_INR|]. apply in_seq in Hj. unfold seg. rewrite nth_firstn by lia. rewrite nth_skipn.
    unfold l'. destruct (Nat.lt_ge_cases (k + j) (S k)) as [H|H]; [rewrite app_nth1 by (rewrite repeat_length; lia); rewrite nth_repeat'; lra|].
    rewrite app_nth2 by (rewrite repeat_length; lia). rewrite (nth_indep _ 0%R 1%R) by (rewrite !repeat_length; lia). rewrite nth_repeat'. lra. }
  destruct (Rsum_map_nonneg _ _ NN) as [H|H]; [exact H|]. exfalso.
  pose proof (Rsum_zero_inv _ _ NN (eq_sym H) 1 ltac:(apply in_seq; lia)) as V. cbv beta in V.
  assert (V1 : nth 1 seg 0%R = 1%R).
  { unfold seg. rewrite nth_firstn by lia. rewrite nth_skipn. unfold l'. rewrite app_nth2 by (rewrite repeat_length; lia).
    rewrite repeat_length. replace (k + 1 - S k) with 0 by lia. destruct p; [lia | reflexivity]. }
  rewrite V1 in V. cbn in V. lra.
Qed.
