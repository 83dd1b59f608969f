(** Acceleration thresholding on a raised block. (C163) *)
From Coq Require Import Reals Lra Psatz.
From Verif Require Import Num NpBase Lib XR LibR Spec Spec34 M_descriptive M_detection P_moment P_detect.
Local Open Scope R_scope.

Lemma Rsum_repeat x n : Rsum (repeat x n) = INR n * x.
Proof. induction n as [|n IH]; [cbn; ring|]. cbn [repeat Rsum]. rewrite IH, S_INR. ring. Qed.
Lemma map_repeat' (f : R -> R) x n : map f (repeat x n) = repeat (f x) n.
Proof. induction n as [|n IH]; [reflexivity|]. cbn [repeat map]. rewrite IH. reflexivity. Qed.
Lemma raised_length c h a m b : length (raised c h a m b) = (a + m + b)%nat.
Proof. unfold raised. rewrite !app_length, !repeat_length. lia. Qed.
Lemma nth_raised c h a m b k : (k < a + m + b)%nat -> nth k (raised c h a m b) 0 = if (Nat.leb a k && Nat.ltb k (a + m))%bool then c + h else c.
Proof.
  intros Hk. unfold raised. destruct (Nat.leb_spec a k) as [H1|H1]; cbn [andb].
  - rewrite app_nth2 by (rewrite repeat_length; exact H1). rewrite repeat_length. destruct (Nat.ltb_spec k (a + m)) as [H2|H2].
    + rewrite app_nth1 by (rewrite repeat_length; lia). rewrite (nth_indep _ 0 (c + h)) by (rewrite repeat_length; lia). apply nth_repeat.
    + rewrite app_nth2 by (rewrite repeat_length; lia). rewrite repeat_length. rewrite (nth_indep _ 0 c) by (rewrite repeat_length; lia). apply nth_repeat.
  - rewrite app_nth1 by (rewrite repeat_length; exact H1). rewrite (nth_indep _ 0 c) by (rewrite repeat_length; exact H1). apply nth_repeat.
Qed.
Lemma raised_mean c h a m b : (1 <= a)%nat -> rmean (raised c h a m b) = c + INR m * h / INR (a + m + b).
Proof.
  intros Ha. unfold rmean. rewrite raised_length. unfold raised. rewrite !Rsum_app, !Rsum_repeat. rewrite !plus_INR.
  assert (1 <= INR a) by (apply (le_INR 1); exact Ha). pose proof (pos_INR m). pose proof (pos_INR b). field. lra.
Qed.
Lemma raised_var c h a m b : (1 <= a)%nat -> rvar (raised c h a m b) = h ^ 2 * (INR m * INR (a + b)) / INR (a + m + b) ^ 2.
Proof.
  intros Ha. unfold rvar, rmoment. rewrite raised_mean by exact Ha. unfold rmean. rewrite map_length, raised_length. unfold raised.
  rewrite !map_app, !map_repeat', !Rsum_app, !Rsum_repeat. rewrite !plus_INR.
  assert (1 <= INR a) by (apply (le_INR 1); exact Ha). pose proof (pos_INR m). pose proof (pos_INR b). field. lra.
Qed.
Lemma sqrt_lt_iff x y z : 0 <= x -> 0 <= y -> 0 <= z -> (z * sqrt y < x <-> z ^ 2 * y < x ^ 2).
Proof.
  intros Hx Hy Hz. pose proof (sqrt_pos y) as Hs. pose proof (sqrt_sqrt y Hy) as Hq. set (s := sqrt y) in *.
  replace (z ^ 2 * y) with ((z * s) * (z * s)) by (rewrite <- Hq; ring). replace (x ^ 2) with (x * x) by ring.
  assert (0 <= z * s) by (apply Rmult_le_pos; assumption). split; intros H1; nra.
Qed.
Lemma raised_level c h a m b ks : (1 <= a)%nat -> (1 <= m)%nat -> 0 < h -> 0 <= ks ->
  (rmean (raised c h a m b) + ks * rstd (raised c h a m b) < c + h <-> (1 + ks ^ 2) * INR m < INR (a + m + b)).
Proof.
  intros Ha Hm Hh Hk. unfold rstd. rewrite raised_mean, raised_var by exact Ha. set (n := INR (a + m + b)). set (q := INR (a + b)).
  assert (Hq1 : 1 <= q) by (unfold q; apply (le_INR 1); lia). assert (Hm1 : 1 <= INR m) by (apply (le_INR 1); exact Hm).
  assert (Hn : n = INR m + q) by (unfold n, q; rewrite <- plus_INR; f_equal; lia). set (p := INR m) in *. assert (Hn0 : 0 < n) by lra.
  assert (Hv0 : 0 <= h ^ 2 * (p * q) / n ^ 2).
  { apply Rmult_le_pos; [apply Rmult_le_pos; [apply pow2_ge_0 | apply Rmult_le_pos; lra] | apply Rlt_le, Rinv_0_lt_compat; apply pow_lt; exact Hn0]. }
  assert (E : h - p * h / n = h * q / n) by (rewrite Hn; field; lra).
  assert (Hr : 0 <= h * q / n) by (apply Rmult_le_pos; [apply Rmult_le_pos; lra | apply Rlt_le, Rinv_0_lt_compat; exact Hn0]).
  pose proof (sqrt_lt_iff (h * q / n) (h ^ 2 * (p * q) / n ^ 2) ks Hr Hv0 Hk) as HI.
  assert (E2 : (h * q / n) ^ 2 - ks ^ 2 * (h ^ 2 * (p * q) / n ^ 2) = (h ^ 2 * q / n ^ 2) * (q - ks ^ 2 * p)) by (field; lra).
  assert (Hc : 0 < h ^ 2 * q / n ^ 2) by (apply Rmult_lt_0_compat; [apply Rmult_lt_0_compat; [apply pow_lt; exact Hh | lra] | apply Rinv_0_lt_compat, pow_lt; exact Hn0]).
  split; intros H.
  - assert (H1 : ks * sqrt (h ^ 2 * (p * q) / n ^ 2) < h * q / n) by lra. apply HI in H1. assert (0 < (h ^ 2 * q / n ^ 2) * (q - ks ^ 2 * p)) by lra.
    assert (0 < q - ks ^ 2 * p) by nra. lra.
  - assert (H1 : 0 < q - ks ^ 2 * p) by lra. assert (0 < (h ^ 2 * q / n ^ 2) * (q - ks ^ 2 * p)) by (apply Rmult_lt_0_compat; assumption).
    assert (H2 : ks * sqrt (h ^ 2 * (p * q) / n ^ 2) < h * q / n) by (apply HI; lra). lra.
Qed.
Lemma accel_block c h a m b f g kg ks : (1 <= a)%nat -> (1 <= m)%nat -> 0 < h -> 0 <= kg * g -> 0 <= ks ->
  exists r, acceleration_thresholding (fins (raised c h a m b)) (Fin f) 1 (Fin g) (Fin kg) (Fin ks) = Ok r /\
    forall i, In i r <-> i = Z.of_nat a /\ kg * g < h * f /\ (1 + ks ^ 2) * INR m < INR (a + m + b).
Proof.
  intros Ha Hm Hh Hg Hk. destruct (accel_exact (raised c h a m b) f g kg ks) as [(r & E & _ & H) _].
  { intros Hc. apply (f_equal (@length R)) in Hc. rewrite raised_length in Hc. cbn in Hc. lia. }
  exists r. split; [exact E|]. intros i. rewrite H. clear H. unfold zlen. rewrite raised_length. unfold raccel.
  pose proof (raised_level c h a m b ks Ha Hm Hh Hk) as HL. split.
  - intros (Hi & H1 & H2). destruct (Z.eqb_spec i 0) as [->|Hn]; [lra|].
    rewrite !nth_raised in H1 by lia. rewrite nth_raised in H2 by lia.
    assert (Hstd : 0 <= ks * rstd (raised c h a m b)) by (apply Rmult_le_pos; [exact Hk | apply sqrt_pos]).
    assert (Hmean : c <= rmean (raised c h a m b)).
    { rewrite raised_mean by exact Ha. assert (0 <= INR m * h / INR (a + m + b)).
      { apply Rmult_le_pos; [apply Rmult_le_pos; [apply pos_INR | lra] | apply Rlt_le, Rinv_0_lt_compat, lt_0_INR; lia]. } lra. }
    destruct (Nat.leb_spec a (Z.to_nat i)) as [A1|A1]; cbn [andb] in H2; [|lra].
    destruct (Nat.ltb_spec (Z.to_nat i) (a + m)) as [A2|A2]; [|lra]. cbn [andb] in H1.
    destruct (Nat.leb_spec a (Z.to_nat (i - 1))) as [B1|B1]; cbn [andb] in H1.
    + destruct (Nat.ltb_spec (Z.to_nat (i - 1)) (a + m)) as [B2|B2]; [|lia]. exfalso. replace (c + h - (c + h)) with 0 in H1 by ring. lra.
    + split; [lia|]. split; [lra|]. apply HL. exact H2.
  - intros (-> & H1 & H2). split; [lia|]. destruct (Z.eqb_spec (Z.of_nat a) 0) as [Hc|_]; [lia|].
    rewrite !nth_raised by lia. rewrite Nat2Z.id. replace (Z.to_nat (Z.of_nat a - 1)) with (a - 1)%nat by lia.
    replace (Nat.leb a a) with true by (symmetry; apply Nat.leb_le; lia). replace (Nat.ltb a (a + m)) with true by (symmetry; apply Nat.ltb_lt; lia).
    replace (Nat.leb a (a - 1)) with false by (symmetry; apply Nat.leb_gt; lia). cbn [andb]. split; [lra|]. apply HL. exact H2.
Qed.
Lemma accel_rising (l : list R) f g kg ks r i : 0 < f -> 0 <= kg * g ->
  acceleration_thresholding (fins l) (Fin f) 1 (Fin g) (Fin kg) (Fin ks) = Ok r -> In i r ->
  (0 < i < zlen l)%Z /\ nth (Z.to_nat (i - 1)) l 0 < nth (Z.to_nat i) l 0.
Proof.
  intros Hf Hg E Hi. destruct (list_eq_dec Req_EM_T l []) as [->|Hl].
  { cbn in E. discriminate. }
  destruct (accel_exact l f g kg ks Hl) as [(r' & E' & _ & H) _]. rewrite E in E'. assert (r' = r) by congruence. subst r'.
  apply H in Hi. destruct Hi as (H1 & H2 & _). unfold raccel in H2. destruct (Z.eqb_spec i 0) as [->|Hn]; [lra|]. split; [lia|]. nra.
Qed.
