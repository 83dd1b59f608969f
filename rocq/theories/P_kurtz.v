(** Proofs: the statistic of the kurtosis test as a function of the kurtosis. *)
From Coq Require Import Reals Lra Lia Psatz.
From Flocq Require Import Core.Raux.
From Verif Require Export NpBase XR Spec Spec22 M_normal P_moment P_normtest.
Local Open Scope R_scope.

Lemma kt_values n : (5 <= n)%Z ->
  @kurt_expected XR n = Fin (kt_mean (IZR n)) /\ @kurt_variance XR n = Fin (kt_var (IZR n)) /\ 0 < kt_var (IZR n) /\
  @kurt_a XR n = Fin (kt_a (IZR n)) /\ 6 < kt_a (IZR n) /\ 0 < kt_beta (IZR n).
Proof.
  intros H. assert (Hr : 5 <= IZR n) by (apply (IZR_le 5), H). set (x := IZR n) in *.
  assert (D1 : 0 < (x + 1) * (x + 1) * (x + 3) * (x + 5)) by (repeat apply Rmult_lt_0_compat; lra).
  assert (D2 : 0 < (x + 7) * (x + 9)) by (apply Rmult_lt_0_compat; lra).
  assert (D3 : 0 < x * (x - 2) * (x - 3)) by (repeat apply Rmult_lt_0_compat; lra).
  split.
  { unfold kurt_expected, kt_mean. rewrite !xofZ_fin, minus_IZR, plus_IZR, xmul_fin. fold x. rewrite xdiv_fin by lra. reflexivity. }
  split.
  { unfold kurt_variance, kt_var. rewrite !xofZ_fin, !mult_IZR, !minus_IZR, !plus_IZR, !xmul_fin. fold x.
    rewrite xdiv_fin by lra. reflexivity. }
  split; [apply Rdiv_lt_0_compat; [repeat apply Rmult_lt_0_compat; lra | exact D1]|].
  set (q := 6 * (x + 3) * (x + 5) / (x * (x - 2) * (x - 3))).
  assert (Q : 0 < q) by (apply Rdiv_lt_0_compat; [repeat apply Rmult_lt_0_compat; lra | exact D3]).
  assert (Eb : @kurt_sqrt_beta1 XR n = Fin (kt_beta x)).
  { unfold kurt_sqrt_beta1, kt_beta. rewrite !xofZ_fin. rewrite !mult_IZR, !plus_IZR, !minus_IZR, !mult_IZR, !xmul_fin. fold x.
    rewrite (xdiv_fin (6 * (x + 3) * (x + 5))) by lra. fold q. rewrite xsqrt_fin by lra.
    rewrite xdiv_fin by lra. rewrite xmul_fin. reflexivity. }
  assert (B : 0 < kt_beta x).
  { unfold kt_beta. fold q. apply Rmult_lt_0_compat; [|apply sqrt_lt_R0, Q]. apply Rdiv_lt_0_compat; [nra | exact D2]. }
  unfold kt_a. set (b := kt_beta x) in *.
  assert (BB : 0 < b * b) by (apply Rmult_lt_0_compat; exact B).
  assert (P4 : 0 < 4 / (b * b)) by (apply Rdiv_lt_0_compat; lra).
  split; [|split; [|exact B]].
  - unfold kurt_a, sq. rewrite Eb, !xofZ_fin, xmul_fin, !xdiv_fin by lra.
    rewrite (xadd_fin 1), xsqrt_fin by lra. rewrite xadd_fin, xmul_fin, xadd_fin. reflexivity.
  - assert (0 < 8 / b) by (apply Rdiv_lt_0_compat; lra). assert (0 < 2 / b) by (apply Rdiv_lt_0_compat; lra).
    pose proof (sqrt_pos (1 + 4 / (b * b))). pose proof (Rmult_lt_0_compat (8 / b) (2 / b + sqrt (1 + 4 / (b * b)))). lra.
Qed.
Lemma third_not_int : Req_bool (IZR (Ztrunc (1 / 3))) (1 / 3) = false.
Proof.
  replace (Ztrunc (1 / 3)) with 0%Z; [case Req_bool_spec; intros; [lra | reflexivity]|].
  rewrite Ztrunc_floor by lra. symmetry. apply Zfloor_imp. cbn. lra.
Qed.
Lemma kurt_z_exact n k : (5 <= n)%Z ->
  (0 < kt_denom (IZR n) k -> @kurt_z XR n (Fin k) = Some (Fin (kt_stat (IZR n) k))) /\
  (kt_denom (IZR n) k <= 0 -> @kurt_z XR n (Fin k) = None).
Proof.
  intros H. destruct (kt_values n H) as (E1 & E2 & P2 & E3 & P3 & _).
  unfold kt_stat. set (x := IZR n) in *. set (a := kt_a x) in *.
  assert (S1 : 0 < sqrt (kt_var x)) by (apply sqrt_lt_R0, P2).
  assert (S2 : 0 < sqrt (2 / (9 * a))) by (apply sqrt_lt_R0, Rdiv_lt_0_compat; lra).
  assert (S3 : 0 < 2 / (a - 4)) by (apply Rdiv_lt_0_compat; lra).
  assert (ED : @nadd XR (nofZ 1) (nmul (ndiv (nsub (Fin k) (@kurt_expected XR n)) (nsqrt (@kurt_variance XR n))) (nsqrt (ndiv (nofZ 2) (nsub (@kurt_a XR n) (nofZ 4))))) = Fin (kt_denom x k)).
  { rewrite E1, E2, E3, !xofZ_fin, !xsub_fin, (xsqrt_fin (kt_var x)) by lra. rewrite !xdiv_fin by lra.
    rewrite xsqrt_fin by lra. rewrite xmul_fin, xadd_fin. reflexivity. }
  assert (A1 : 0 < 1 - 2 / a).
  { assert (2 / a < 1); [|lra]. apply (Rmult_lt_reg_r a); [lra|]. unfold Rdiv. rewrite Rmult_assoc, Rinv_l by lra. lra. }
  unfold kurt_z. rewrite ED. rewrite E3, !xofZ_fin. cbv zeta.
  rewrite !(xdiv_fin _ a) by lra. rewrite !xmul_fin, !xdiv_fin by lra. rewrite !xsub_fin. rewrite xsqrt_fin by (left; apply Rdiv_lt_0_compat; lra).
  change (@neqb XR (Fin (kt_denom x k)) (Fin 0)) with (Req_bool (kt_denom x k) 0).
  split; intros HD.
  - case Req_bool_spec; intros HZ; [lra|]. rewrite xdiv_fin by exact HZ.
    assert (Q : 0 < (1 - 2 / a) / kt_denom x k) by (apply Rdiv_lt_0_compat; assumption).
    assert (EP : @npow XR (Fin ((1 - 2 / a) / kt_denom x k)) (Fin (1 / 3)) = Fin (Rpower ((1 - 2 / a) / kt_denom x k) (1 / 3))).
    { cbn. rewrite Rlt_bool_true by exact Q. reflexivity. }
    rewrite EP. cbn [nisfin XR]. rewrite xsub_fin, xdiv_fin by lra. reflexivity.
  - case Req_bool_spec; intros HZ; [reflexivity|]. rewrite xdiv_fin by exact HZ.
    assert (Q : (1 - 2 / a) / kt_denom x k < 0).
    { apply Ropp_lt_cancel. rewrite Ropp_0. replace (- ((1 - 2 / a) / kt_denom x k)) with ((1 - 2 / a) / (- kt_denom x k)) by (field; split; lra).
      apply Rdiv_lt_0_compat; lra. }
    assert (EP : @npow XR (Fin ((1 - 2 / a) / kt_denom x k)) (Fin (1 / 3)) = NaN).
    { cbn [npow XR xpow]. rewrite Rlt_bool_false by lra. rewrite third_not_int, Req_bool_false by lra. reflexivity. }
    rewrite EP. reflexivity.
Qed.
Lemma kt_denom_increasing n j k : (5 <= n)%Z -> j < k -> kt_denom (IZR n) j < kt_denom (IZR n) k.
Proof.
  intros H Hjk. destruct (kt_values n H) as (_ & _ & P2 & _ & P3 & _). unfold kt_denom.
  apply Rplus_lt_compat_l, Rmult_lt_compat_r; [apply sqrt_lt_R0, Rdiv_lt_0_compat; lra|].
  apply Rmult_lt_compat_r; [apply Rinv_0_lt_compat, sqrt_lt_R0, P2 | lra].
Qed.
Lemma kt_stat_increasing n j k : (5 <= n)%Z -> 0 < kt_denom (IZR n) j -> j < k -> kt_stat (IZR n) j < kt_stat (IZR n) k.
Proof.
  intros H Hj Hjk. pose proof (kt_denom_increasing n j k H Hjk) as Hk.
  destruct (kt_values n H) as (_ & _ & _ & _ & P3 & _). unfold kt_stat. set (a := kt_a (IZR n)) in *.
  assert (A1 : 0 < 1 - 2 / a).
  { assert (2 / a < 1); [|lra]. apply (Rmult_lt_reg_r a); [lra|]. unfold Rdiv. rewrite Rmult_assoc, Rinv_l by lra. lra. }
  apply Rmult_lt_compat_r; [apply Rinv_0_lt_compat, sqrt_lt_R0, Rdiv_lt_0_compat; lra|].
  assert (HP : Rpower ((1 - 2 / a) / kt_denom (IZR n) k) (1 / 3) < Rpower ((1 - 2 / a) / kt_denom (IZR n) j) (1 / 3)); [|lra].
  unfold Rpower. apply exp_increasing, Rmult_lt_compat_l; [lra|]. apply ln_increasing; [apply Rdiv_lt_0_compat; lra|].
  apply Rmult_lt_compat_l; [exact A1|]. apply Rinv_lt_contravar; [apply Rmult_lt_0_compat; lra | exact Hk].
Qed.

(** From 36 observations on, the kurtosis 1 has a negative denominator. *)
Lemma kt_a_bound b : 0 < b -> 8 / b * (2 / b + sqrt (1 + 4 / (b * b))) <= 32 / (b * b) + 2.
Proof.
  intros B. assert (BB : 0 < b * b) by (apply Rmult_lt_0_compat; exact B).
  assert (S : sqrt (1 + 4 / (b * b)) <= 2 / b + b / 4).
  { rewrite <- (sqrt_Rsqr (2 / b + b / 4)).
    - apply sqrt_le_1_alt. unfold Rsqr. replace ((2 / b + b / 4) * (2 / b + b / 4)) with (1 + 4 / (b * b) + b * b / 16) by (field; lra).
      lra.
    - assert (0 < 2 / b) by (apply Rdiv_lt_0_compat; lra). lra. }
  replace (32 / (b * b) + 2) with (8 / b * (2 / b + (2 / b + b / 4))) by (field; lra).
  apply Rmult_le_compat_l; [left; apply Rdiv_lt_0_compat; lra | lra].
Qed.
Lemma kt_two_valued x : 36 <= x -> 0 < kt_beta x -> 6 < kt_a x -> 0 < kt_var x -> kt_denom x 1 < 0.
Proof.
  intros Hx Hb Ha Hv. unfold kt_denom.
  assert (D3 : 0 < x * (x - 2) * (x - 3)) by (repeat apply Rmult_lt_0_compat; lra).
  assert (E : (kt_mean x - 1) / sqrt (kt_var x) * sqrt (2 / (kt_a x - 4)) > 1).
  { assert (Hm : 0 < kt_mean x - 1).
    { unfold kt_mean. replace (3 * (x - 1) / (x + 1) - 1) with (2 * (x - 2) / (x + 1)) by (field; lra). apply Rdiv_lt_0_compat; lra. }
    rewrite <- (sqrt_Rsqr (kt_mean x - 1)) by lra. rewrite <- sqrt_div_alt by exact Hv.
    rewrite <- sqrt_mult_alt by (left; apply Rdiv_lt_0_compat; [apply Rsqr_pos_lt; lra | exact Hv]).
    apply Rlt_gt, (Rle_lt_trans _ (sqrt 1)); [rewrite sqrt_1; apply Rle_refl|]. apply sqrt_lt_1_alt. split; [lra|].
    assert (HA : kt_a x - 4 <= 4 + 32 / (kt_beta x * kt_beta x)) by (unfold kt_a; pose proof (kt_a_bound _ Hb); lra).
    assert (EB : kt_beta x * kt_beta x = 216 * ((x * x - 5 * x + 2) * (x * x - 5 * x + 2)) * ((x + 3) * (x + 5)) / (((x + 7) * (x + 9)) * ((x + 7) * (x + 9)) * (x * (x - 2) * (x - 3)))).
    { unfold kt_beta.
      assert (HQ : 0 <= 6 * (x + 3) * (x + 5) / (x * (x - 2) * (x - 3))) by (left; apply Rdiv_lt_0_compat; [repeat apply Rmult_lt_0_compat; lra | exact D3]).
      pose proof (sqrt_sqrt _ HQ) as SQ. set (s := sqrt _) in *.
      replace (6 * (x * x - 5 * x + 2) / ((x + 7) * (x + 9)) * s * (6 * (x * x - 5 * x + 2) / ((x + 7) * (x + 9)) * s))
        with (36 * ((x * x - 5 * x + 2) * (x * x - 5 * x + 2)) / (((x + 7) * (x + 9)) * ((x + 7) * (x + 9))) * (s * s)) by (field; lra).
      rewrite SQ. field. repeat split; lra. }
    assert (EV : Rsqr (kt_mean x - 1) / kt_var x = (x - 2) * (x + 3) * (x + 5) / (6 * x * (x - 3))).
    { unfold kt_mean, kt_var, Rsqr. field. repeat split; lra. }
    rewrite EV.
    set (L := (x - 2) * (x + 3) * (x + 5) / (6 * x * (x - 3))).
    assert (HL : 0 < L) by (apply Rdiv_lt_0_compat; repeat apply Rmult_lt_0_compat; lra).
    apply (Rmult_lt_reg_r (kt_a x - 4)); [lra|]. replace (L * (2 / (kt_a x - 4)) * (kt_a x - 4)) with (2 * L) by (field; lra).
    rewrite Rmult_1_l. apply (Rle_lt_trans _ _ _ HA). rewrite EB.
    set (y := x - 36). assert (Hy : 0 <= y) by (unfold y; lra).
    assert (HP : 0 < x * x - 5 * x + 2) by nra.
    assert (HD : 0 < 216 * ((x * x - 5 * x + 2) * (x * x - 5 * x + 2)) * ((x + 3) * (x + 5)) * (6 * x * (x - 3))) by (repeat apply Rmult_lt_0_compat; lra).
    apply Rminus_gt_0_lt.
    replace (2 * L - (4 + 32 / (216 * ((x * x - 5 * x + 2) * (x * x - 5 * x + 2)) * ((x + 3) * (x + 5)) / ((x + 7) * (x + 9) * ((x + 7) * (x + 9)) * (x * (x - 2) * (x - 3))))))
      with ((2 * ((x - 2) * (x + 3) * (x + 5)) * (216 * ((x * x - 5 * x + 2) * (x * x - 5 * x + 2)) * ((x + 3) * (x + 5)))
             - 4 * (216 * ((x * x - 5 * x + 2) * (x * x - 5 * x + 2)) * ((x + 3) * (x + 5)) * (6 * x * (x - 3)))
             - 32 * ((x + 7) * (x + 9) * ((x + 7) * (x + 9)) * (x * (x - 2) * (x - 3))) * (6 * x * (x - 3)))
            / (216 * ((x * x - 5 * x + 2) * (x * x - 5 * x + 2)) * ((x + 3) * (x + 5)) * (6 * x * (x - 3)))).
    2:{ unfold L. field. repeat split; lra. }
    apply Rdiv_lt_0_compat; [|exact HD]. replace x with (y + 36) by (unfold y; ring). clearbody y. clear - Hy.
    match goal with |- 0 < ?e => ring_simplify e end.
    repeat match goal with |- context [y ^ ?k] => let H := fresh in assert (H : 0 <= y ^ k) by (apply pow_le, Hy); generalize dependent (y ^ k); intros end. nra. }
  replace ((1 - kt_mean x) / sqrt (kt_var x) * sqrt (2 / (kt_a x - 4))) with (- ((kt_mean x - 1) / sqrt (kt_var x) * sqrt (2 / (kt_a x - 4)))); [lra|].
  unfold Rdiv. ring.
Qed.

Lemma Rsum_rep (x : R) n : Rsum (repeat x n) = INR n * x.
Proof. induction n as [|n IH]; [cbn; ring|]. cbn [repeat Rsum]. rewrite IH, S_INR. ring. Qed.
Lemma map_rep {A B} (f : A -> B) x n : map f (repeat x n) = repeat (f x) n.
Proof. induction n as [|n IH]; [reflexivity|]. cbn. rewrite IH. reflexivity. Qed.
Lemma two_valued_mean (f : R -> R) x y m : (0 < m)%nat -> rmean (map f (repeat x m ++ repeat y m)) = (f x + f y) / 2.
Proof.
  intros Hm. unfold rmean. rewrite map_length, app_length, !repeat_length, map_app, !map_rep, LibR.Rsum_app, !Rsum_rep, plus_INR.
  assert (0 < INR m) by (apply (lt_INR 0), Hm). field. lra.
Qed.
Lemma kurtosis_two_valued p c m : c <> 0 -> (18 <= m)%nat -> let l := repeat (p - c) m ++ repeat (p + c) m in
  @moment_kurtosis XR (fins l) = Ok (Fin 1) /\ @kurt_z XR (zlen l) (Fin 1) = None.
Proof.
  intros Hc Hm l.
  assert (Hl : l <> []) by (unfold l; destruct m; [lia | discriminate]).
  assert (EM : rmean l = p).
  { rewrite <- (map_id l). unfold l. rewrite two_valued_mean by lia. field. }
  assert (EV : rvar l = c ^ 2).
  { unfold rvar, rmoment. rewrite EM. unfold l. rewrite two_valued_mean by lia. field. }
  split.
  - rewrite kurtosis_correct; [|exact Hl | rewrite EV; apply pow_nonzero, Hc]. do 2 f_equal. unfold rmoment, rstd. rewrite EM, EV. unfold l. rewrite two_valued_mean by lia.
    replace (sqrt (c ^ 2) ^ 4) with ((sqrt (c ^ 2) * sqrt (c ^ 2)) ^ 2) by ring. rewrite sqrt_sqrt by apply pow2_ge_0. field. exact Hc.
  - assert (Hn : (36 <= zlen l)%Z) by (unfold zlen, l; rewrite app_length, !repeat_length; lia).
    destruct (kt_values (zlen l) ltac:(lia)) as (_ & _ & P1 & _ & P2 & P3).
    apply kurt_z_exact; [lia|]. left. apply kt_two_valued; try assumption. apply (IZR_le 36), Hn.
Qed.
Lemma kurt_increasing n j k s t : (5 <= n)%Z -> j < k ->
  @kurt_z XR n (Fin j) = Some s -> @kurt_z XR n (Fin k) = t -> exists a b, s = Fin a /\ t = Some (Fin b) /\ a < b.
Proof.
  intros H Hjk Es Et. destruct (kurt_z_exact n j H) as [J1 J2]. destruct (kurt_z_exact n k H) as [K1 _].
  destruct (Rlt_dec 0 (kt_denom (IZR n) j)) as [Hj|Hj]; [|rewrite J2 in Es by lra; discriminate].
  pose proof (kt_denom_increasing n j k H Hjk). rewrite J1 in Es by exact Hj. rewrite K1 in Et by lra. injection Es as <-.
  exists (kt_stat (IZR n) j), (kt_stat (IZR n) k). split; [reflexivity|]. split; [symmetry; exact Et|]. apply kt_stat_increasing; assumption.
Qed.
(** Kurtosis as the normal distribution expects it: the statistic exists. *)
Lemma kurt_z_normal n k : (5 <= n)%Z -> 3 * (IZR n - 1) / (IZR n + 1) <= k -> exists z, @kurt_z XR n (Fin k) = Some (Fin z).
Proof.
  intros H Hk. destruct (kurt_z_exact n k H) as [K1 _]. eexists. apply K1.
  destruct (kt_values n H) as (_ & _ & P1 & _ & P2 & P3). unfold kt_denom.
  assert (0 <= (k - kt_mean (IZR n)) / sqrt (kt_var (IZR n)) * sqrt (2 / (kt_a (IZR n) - 4))); [|lra].
  apply Rmult_le_pos; [|apply sqrt_pos]. apply Rmult_le_pos; [unfold kt_mean; lra | left; apply Rinv_0_lt_compat, sqrt_lt_R0, P1].
Qed.
