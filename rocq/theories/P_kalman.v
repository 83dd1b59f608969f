(** Lemmas about series.kalman_filter. *)
From Coq Require Import Reals Lra.
From Flocq Require Import Core.Raux.
From Verif Require Export P_series.
Local Open Scope R_scope.

(** Gain sequence of the scalar random-walk Kalman filter, as an explicit recurrence. *)
Fixpoint rgain (Q R0 p0 : R) (i : nat) : R :=
  match i with
  | O => (p0 + Q) / (p0 + Q + R0)
  | S i' => (R0 * rgain Q R0 p0 i' + Q) / (R0 * rgain Q R0 p0 i' + Q + R0)
  end.
Lemma rgain_shift Q R0 p0 i : rgain Q R0 p0 (S i) = rgain Q R0 (R0 * ((p0 + Q) / (p0 + Q + R0))) i.
Proof. induction i as [|i IH]; [reflexivity|]. cbn [rgain] in *. rewrite <- IH. reflexivity. Qed.
Lemma rgain_range Q R0 p0 i : 0 < Q -> 0 < R0 -> 0 <= p0 -> 0 < rgain Q R0 p0 i < 1.
Proof.
  intros HQ HR Hp.
  assert (H : forall p, 0 <= p -> 0 < (p + Q) / (p + Q + R0) < 1).
  { intros p H. assert (0 < p + Q + R0) by lra. split.
    - apply Rdiv_lt_0_compat; lra.
    - apply Rmult_lt_reg_r with (p + Q + R0); [lra|]. unfold Rdiv. rewrite Rmult_assoc, Rinv_l by lra. lra. }
  induction i as [|i IH]; cbn [rgain]; [apply H, Hp|]. apply H. nra.
Qed.

Lemma kalman_step_fin Q R0 x p z : 0 < Q -> 0 < R0 -> 0 <= p ->
  let g := (p + Q) / (p + Q + R0) in
  @kalman_step XR (Fin Q) (Fin R0) (Fin x) (Fin p) (Fin z) = Ok (Fin (x + g * (z - x)), Fin (R0 * g)).
Proof.
  intros HQ HR Hp g. unfold kalman_step.
  rewrite !xofZ_fin, !xmul_fin, !xadd_fin, !xmul_fin, !xadd_fin, xeqb_fin.
  rewrite Req_bool_false by lra. rewrite xdiv_fin by lra.
  rewrite !xmul_fin, !xsub_fin, !xmul_fin, !xadd_fin. do 2 f_equal; f_equal; unfold g; field; lra.
Qed.

Lemma kalman_exact Q R0 : 0 < Q -> 0 < R0 -> forall (l : list R) x0 p0, 0 <= p0 ->
  exists est, @kalman_filter XR (fins l) (Fin x0) (Fin p0) (Fin Q) (Fin R0) = Ok (fins est) /\
    length est = length l /\
    forall i, (i < length l)%nat ->
      let prev := nth i (x0 :: est) 0 in
      nth i est 0 = prev + rgain Q R0 p0 i * (nth i l 0 - prev).
Proof.
  intros HQ HR l. unfold kalman_filter. induction l as [|z l IH]; intros x0 p0 Hp.
  - exists []. cbn. repeat split. intros i Hi. lia.
  - cbn [fins map kalman_loop]. rewrite kalman_step_fin by assumption. cbn zeta.
    set (g := (p0 + Q) / (p0 + Q + R0)). cbn [bind].
    assert (Hg : 0 < g < 1) by (apply (rgain_range Q R0 p0 O); assumption).
    destruct (IH (x0 + g * (z - x0)) (R0 * g)) as (est & E & HL & H); [nra|].
    fold (fins l). rewrite E. cbn [bind]. exists ((x0 + g * (z - x0)) :: est).
    split; [reflexivity|]. split; [cbn; lia|].
    intros [|i] Hi; [reflexivity|].
    cbn zeta in *. change (nth (S i) ((x0 + g * (z - x0)) :: est) 0) with (nth i est 0).
    change (nth (S i) (x0 :: (x0 + g * (z - x0)) :: est) 0) with (nth i ((x0 + g * (z - x0)) :: est) 0).
    change (nth (S i) (z :: l) 0) with (nth i l 0). rewrite rgain_shift. apply H. cbn in Hi. lia.
Qed.

Lemma kalman_summary Q R0 (l : list R) x0 p0 : 0 < Q -> 0 < R0 -> 0 <= p0 ->
  exists est gain, @kalman_filter XR (fins l) (Fin x0) (Fin p0) (Fin Q) (Fin R0) = Ok (fins est) /\
    length est = length l /\
    gain O = (p0 + Q) / (p0 + Q + R0) /\
    (forall i, gain (S i) = (R0 * gain i + Q) / (R0 * gain i + Q + R0)) /\
    (forall i, 0 < gain i < 1) /\
    (forall i, (i < length l)%nat ->
      let prev := nth i (x0 :: est) 0 in
      nth i est 0 = prev + gain i * (nth i l 0 - prev)) /\
    (forall lo hi i, (i < length l)%nat -> lo <= x0 <= hi -> (forall j, (j <= i)%nat -> lo <= nth j l 0 <= hi) ->
      lo <= nth i est 0 <= hi).
Proof.
  intros HQ HR Hp. destruct (kalman_exact Q R0 HQ HR l x0 p0 Hp) as (est & E & HL & H).
  exists est, (rgain Q R0 p0). split; [exact E|]. split; [exact HL|]. split; [reflexivity|]. split; [reflexivity|].
  split; [intros i; apply rgain_range; assumption|]. split; [exact H|].
  intros lo hi i Hi H0 Hl. revert Hi Hl. induction i as [|i IH]; intros Hi Hl.
  - rewrite (H O Hi). cbn [nth]. pose proof (Hl O (le_n _)). pose proof (rgain_range Q R0 p0 O HQ HR Hp).
    set (g := rgain Q R0 p0 0) in *. set (z := nth 0 l 0) in *. split; nra.
  - rewrite (H (S i) Hi). cbn [nth]. assert (H1 : lo <= nth i est 0 <= hi) by (apply IH; [lia | intros j Hj; apply Hl; lia]).
    pose proof (Hl (S i) (le_n _)) as H2. pose proof (rgain_range Q R0 p0 (S i) HQ HR Hp) as H3.
    set (g := rgain Q R0 p0 (S i)) in *. set (x := nth i est 0) in *. set (z := nth (S i) l 0) in *. split; nra.
Qed.

(** The filter commutes with affine changes of unit. *)
Lemma kalman_affine Q R0 (l : list R) x0 p0 a b : 0 < Q -> 0 < R0 -> 0 <= p0 ->
  exists est, @kalman_filter XR (fins l) (Fin x0) (Fin p0) (Fin Q) (Fin R0) = Ok (fins est) /\
    @kalman_filter XR (fins (map (fun x => a * x + b) l)) (Fin (a * x0 + b)) (Fin p0) (Fin Q) (Fin R0)
      = Ok (fins (map (fun x => a * x + b) est)).
Proof.
  intros HQ HR. unfold kalman_filter. revert x0 p0. induction l as [|z l IH]; intros x0 p0 Hp.
  - exists []. split; reflexivity.
  - cbn [fins map kalman_loop]. rewrite !kalman_step_fin by assumption. cbn zeta.
    set (g := (p0 + Q) / (p0 + Q + R0)). cbn [bind].
    assert (Hg : 0 < g < 1) by (apply (rgain_range Q R0 p0 O); assumption).
    destruct (IH (x0 + g * (z - x0)) (R0 * g)) as (est & E1 & E2); [nra|].
    unfold fins in E1, E2. exists ((x0 + g * (z - x0)) :: est). split.
    + rewrite E1. reflexivity.
    + replace (a * x0 + b + g * (a * z + b - (a * x0 + b))) with (a * (x0 + g * (z - x0)) + b) by ring.
      rewrite E2. reflexivity.
Qed.

(** The gain converges to the positive root of R g^2 + Q g - Q = 0 at a geometric rate. *)
Lemma rgain_contract Q R0 p0 g : 0 < Q -> 0 < R0 -> 0 <= p0 -> 0 < g -> R0 * g ^ 2 + Q * g = Q ->
  forall i, Rabs (rgain Q R0 p0 (S i) - g) <= (R0 / (Q + R0)) * Rabs (rgain Q R0 p0 i - g).
Proof.
  intros HQ HR Hp Hg Heq i. pose proof (rgain_range Q R0 p0 i HQ HR Hp) as Hx.
  set (x := rgain Q R0 p0 i) in *. cbn [rgain]. fold x.
  assert (Hgf : g = (R0 * g + Q) / (R0 * g + Q + R0)).
  { assert (0 < R0 * g + Q + R0) by nra. apply Rmult_eq_reg_r with (R0 * g + Q + R0); [|lra].
    unfold Rdiv. rewrite Rmult_assoc, Rinv_l by lra. nra. }
  assert (D1 : 0 < R0 * x + Q + R0) by nra. assert (D2 : 0 < R0 * g + Q + R0) by nra.
  assert (E : (R0 * x + Q) / (R0 * x + Q + R0) - g = (R0 * R0 / ((R0 * x + Q + R0) * (R0 * g + Q + R0))) * (x - g)).
  { rewrite Hgf at 1. field. lra. }
  rewrite E, Rabs_mult. apply Rmult_le_compat_r; [apply Rabs_pos|].
  rewrite Rabs_pos_eq.
  - assert (D3 : 0 < Q + R0) by lra.
    apply Rmult_le_reg_r with ((R0 * x + Q + R0) * (R0 * g + Q + R0)); [nra|].
    unfold Rdiv. rewrite Rmult_assoc, Rinv_l by nra. rewrite Rmult_1_r.
    apply Rmult_le_reg_r with (Q + R0); [lra|].
    replace (R0 * / (Q + R0) * ((R0 * x + Q + R0) * (R0 * g + Q + R0)) * (Q + R0))
      with (R0 * ((R0 * x + Q + R0) * (R0 * g + Q + R0))) by (field; lra).
    assert (Q + R0 <= R0 * x + Q + R0) by nra. assert (R0 <= R0 * g + Q + R0) by nra.
    rewrite Rmult_assoc. apply Rmult_le_compat_l; [lra|].
    rewrite (Rmult_comm R0). apply Rmult_le_compat; lra.
  - apply Rmult_le_pos; [nra|]. left. apply Rinv_0_lt_compat. nra.
Qed.
Lemma rgain_converges Q R0 p0 : 0 < Q -> 0 < R0 -> 0 <= p0 ->
  exists g, 0 < g < 1 /\ R0 * g ^ 2 + Q * g = Q /\
    forall i, Rabs (rgain Q R0 p0 i - g) <= (R0 / (Q + R0)) ^ i.
Proof.
  intros HQ HR Hp.
  set (D := Q * Q + 4 * R0 * Q). assert (HD : 0 < D) by (unfold D; nra).
  set (s := sqrt D). assert (Hs : s * s = D) by (apply sqrt_sqrt; lra).
  assert (Hs0 : 0 < s) by (apply sqrt_lt_R0; exact HD).
  assert (HsQ : Q < s) by (unfold D in Hs; nra).
  set (g := (s - Q) / (2 * R0)).
  assert (Hg2 : 2 * R0 * g = s - Q) by (unfold g; field; lra).
  assert (Hg0 : 0 < g) by (apply Rdiv_lt_0_compat; lra).
  assert (Heq : R0 * g ^ 2 + Q * g = Q).
  { apply Rmult_eq_reg_l with (4 * R0); [|lra].
    replace (4 * R0 * (R0 * g ^ 2 + Q * g)) with ((2 * R0 * g) * (2 * R0 * g) + 2 * Q * (2 * R0 * g)) by ring.
    rewrite Hg2. unfold D in Hs. nra. }
  exists g. assert (Hg1 : g < 1) by nra. split; [split; assumption|]. split; [exact Heq|].
  assert (Hr : 0 <= R0 / (Q + R0)) by (apply Rlt_le, Rdiv_lt_0_compat; lra).
  induction i as [|i IH].
  - pose proof (rgain_range Q R0 p0 O HQ HR Hp). cbn [pow]. apply Rabs_le. lra.
  - eapply Rle_trans; [apply rgain_contract; assumption|]. cbn [pow]. apply Rmult_le_compat_l; assumption.
Qed.
Lemma kalman_gain_limit Q R0 (l : list R) x0 p0 : 0 < Q -> 0 < R0 -> 0 <= p0 ->
  exists est gain g, @kalman_filter XR (fins l) (Fin x0) (Fin p0) (Fin Q) (Fin R0) = Ok (fins est) /\
    (forall i, (i < length l)%nat -> nth i est 0 = nth i (x0 :: est) 0 + gain i * (nth i l 0 - nth i (x0 :: est) 0)) /\
    0 < g < 1 /\ R0 * g ^ 2 + Q * g = Q /\ forall i, Rabs (gain i - g) <= (R0 / (Q + R0)) ^ i.
Proof.
  intros HQ HR Hp. destruct (kalman_exact Q R0 HQ HR l x0 p0 Hp) as (est & E & HL & H).
  destruct (rgain_converges Q R0 p0 HQ HR Hp) as (g & H1 & H2 & H3).
  exists est, (rgain Q R0 p0), g. repeat (split; [assumption|]). exact H3.
Qed.
(** A singular innovation (covariance + process + measurement noise = 0) raises LinAlgError. *)
Lemma kalman_singular (l : list R) z x0 p0 Q R0 : p0 + Q + R0 = 0 ->
  @kalman_filter XR (fins (z :: l)) (Fin x0) (Fin p0) (Fin Q) (Fin R0) = Raise LinAlgError.
Proof.
  intros H. unfold kalman_filter. cbn [fins map kalman_loop]. unfold kalman_step.
  rewrite !xofZ_fin, !xmul_fin, !xadd_fin, !xmul_fin, !xadd_fin, xeqb_fin.
  rewrite Req_bool_true by lra. reflexivity.
Qed.
