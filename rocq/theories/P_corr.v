(** Lemmas about correlation.py and the pre-modification of phasespace.py. *)
From Coq Require Import Reals Lra Psatz.
From Flocq Require Import Core.Raux.
From Verif Require Export P_phase.
Local Open Scope Z_scope.

(** ** Rotated axes of a pair of records *)
Lemma cos_atan2 t : (cos (atan t) ^ 2 = / (1 + t ^ 2))%R.
Proof.
  rewrite cos_atan. assert (0 < 1 + t²)%R by (pose proof (Rle_0_sqr t); lra).
  replace ((1 / sqrt (1 + t²)) ^ 2)%R with (/ (sqrt (1 + t²) * sqrt (1 + t²)))%R.
  - rewrite sqrt_sqrt by lra. rewrite Rsqr_pow2. reflexivity.
  - field. apply Rgt_not_eq, sqrt_lt_R0. assumption.
Qed.
Lemma sin_atan2 t : (sin (atan t) ^ 2 = t ^ 2 * / (1 + t ^ 2))%R.
Proof.
  pose proof (sin2_cos2 (atan t)) as H. rewrite !Rsqr_pow2, cos_atan2 in H.
  assert (0 < 1 + t ^ 2)%R by (pose proof (pow2_ge_0 t); lra).
  replace (t ^ 2 * / (1 + t ^ 2))%R with (1 - / (1 + t ^ 2))%R by (field; lra). lra.
Qed.
Lemma fact_atan t : (cos (atan t) ^ 4 - sin (atan t) ^ 4 = (1 - t ^ 2) / (1 + t ^ 2))%R.
Proof.
  rewrite fact_eq, cos_atan2, sin_atan2. field. pose proof (pow2_ge_0 t). lra.
Qed.
Lemma axis_atan (r1 r2 t : R) : (1 - t ^ 2 <> 0)%R ->
  ((r1 ^ 2 * cos (atan t) ^ 2 - r2 ^ 2 * sin (atan t) ^ 2) / (cos (atan t) ^ 4 - sin (atan t) ^ 4) =
   (r1 ^ 2 - r2 ^ 2 * t ^ 2) / (1 - t ^ 2))%R.
Proof.
  intros H. rewrite fact_atan, cos_atan2, sin_atan2. field. split; [exact H|]. pose proof (pow2_ge_0 t). lra.
Qed.
Lemma Rdiv_pos_iff a b : (0 < b)%R -> (0 < a / b <-> 0 < a)%R.
Proof.
  intros H. split; intros H1; [|apply Rdiv_lt_0_compat; assumption].
  apply (Rmult_lt_compat_r b) in H1; [|exact H]. unfold Rdiv in H1. rewrite Rmult_0_l, Rmult_assoc, Rinv_l, Rmult_1_r in H1 by lra. exact H1.
Qed.
Lemma Rdiv_neg_iff a b : (b < 0)%R -> (0 < a / b <-> a < 0)%R.
Proof.
  intros H. replace (a / b)%R with ((- a) / (- b))%R by (field; lra). rewrite Rdiv_pos_iff by lra. lra.
Qed.
(** The core inequality: V1 = var u > 0, V2 = var v, K = cov, t = K / V1. *)
Lemma axes_positive_iff (lam V1 V2 K : R) : (0 < lam)%R -> (0 < V1)%R -> (0 <= V2)%R -> (K ^ 2 <= V1 * V2)%R ->
  let t := (K / V1)%R in
  ((1 - t ^ 2 <> 0 /\ 0 < (lam ^ 2 * V1 - lam ^ 2 * V2 * t ^ 2) / (1 - t ^ 2) /\ 0 < (lam ^ 2 * V2 - lam ^ 2 * V1 * t ^ 2) / (1 - t ^ 2))%R
   <-> (K ^ 2 < V1 * V2 /\ K ^ 2 * V2 < V1 ^ 3)%R).
Proof.
  intros Hl H1 H2 HK t. assert (Ht : (t ^ 2 = K ^ 2 / V1 ^ 2)%R) by (unfold t; field; lra).
  assert (Hl2 : (0 < lam ^ 2)%R) by (apply pow_lt; exact Hl).
  assert (HV : (0 < V1 ^ 2)%R) by (apply pow_lt; exact H1).
  assert (Eb : (lam ^ 2 * V2 - lam ^ 2 * V1 * t ^ 2 = lam ^ 2 * (V1 * V2 - K ^ 2) / V1)%R) by (rewrite Ht; field; lra).
  assert (Ea : (lam ^ 2 * V1 - lam ^ 2 * V2 * t ^ 2 = lam ^ 2 * (V1 ^ 3 - K ^ 2 * V2) / V1 ^ 2)%R) by (rewrite Ht; field; lra).
  assert (Ef : (1 - t ^ 2 = (V1 ^ 2 - K ^ 2) / V1 ^ 2)%R) by (rewrite Ht; field; lra).
  rewrite Ea, Eb.
  assert (Pb : (0 < lam ^ 2 * (V1 * V2 - K ^ 2) / V1 <-> K ^ 2 < V1 * V2)%R) by (rewrite Rdiv_pos_iff by exact H1; split; nra).
  assert (Pa : (0 < lam ^ 2 * (V1 ^ 3 - K ^ 2 * V2) / V1 ^ 2 <-> K ^ 2 * V2 < V1 ^ 3)%R) by (rewrite Rdiv_pos_iff by exact HV; split; nra).
  split.
  - intros (Hf & Ha & Hb). destruct (Rdichotomy _ _ Hf) as [Hn|Hp].
    + exfalso. apply Rdiv_neg_iff in Hb; [|exact Hn].
      assert (0 <= lam ^ 2 * (V1 * V2 - K ^ 2) / V1)%R; [|lra].
      apply Rmult_le_pos; [apply Rmult_le_pos; lra | left; apply Rinv_0_lt_compat, H1].
    + apply Rdiv_pos_iff in Ha; [|lra]. apply Rdiv_pos_iff in Hb; [|lra]. split; [apply Pb, Hb | apply Pa, Ha].
  - intros [HB HA].
    assert (Hf : (0 < 1 - t ^ 2)%R).
    { rewrite Ef. apply Rdiv_lt_0_compat; [|exact HV].
      assert (HV2 : (0 < V2)%R). { destruct H2 as [H2|H2]; [exact H2|]. rewrite <- H2, Rmult_0_r in HB. pose proof (pow2_ge_0 K). lra. }
      assert (HK0 : (0 <= K ^ 2)%R) by apply pow2_ge_0.
      destruct (Rle_lt_dec (V1 ^ 2) (K ^ 2)) as [Hc|Hc]; [exfalso|lra].
      assert (V1 < V2)%R by nra. assert (V1 ^ 2 * V2 < V1 ^ 3)%R by nra. nra. }
    split; [lra|]. split; (apply Rdiv_pos_iff; [exact Hf|]); [apply Pa, HA | apply Pb, HB].
Qed.
Lemma rdev_length l : length (rdev l) = length l. Proof. apply map_length. Qed.
Lemma rdev_nil l : l <> [] -> rdev l <> []. Proof. apply map_nil_iff. Qed.
Lemma nth_rdev l i : (i < length l)%nat -> nth i (rdev l) 0%R = (nth i l 0 - rmean l)%R.
Proof. intros H. unfold rdev. rewrite (nth_map_in _ _ _ 0%R) by exact H. reflexivity. Qed.
Lemma combine_seq {A B} (u : list A) (v : list B) da db : length u = length v ->
  combine u v = map (fun i => (nth i u da, nth i v db)) (seq 0 (length u)).
Proof.
  intros H. apply (nth_ext_len _ _ (da, db)); [rewrite combine_length, map_length, seq_length; lia|].
  intros k Hk. rewrite combine_length in Hk. rewrite combine_nth by exact H.
  rewrite (nth_map_in _ _ _ O) by (rewrite seq_length; lia). rewrite seq_nth by lia. reflexivity.
Qed.
Lemma rdot_dev u v : u <> [] -> length u = length v -> rdot (rdev u) (rdev v) = (INR (length u) * rcov u v)%R.
Proof.
  intros Hne HL. unfold rcov. rewrite (combine_seq u v 0%R 0%R HL), map_map. cbn [fst snd].
  pose proof (INR_len_pos u Hne). unfold rdot. rewrite rdev_length.
  replace (Rsum (map (fun i => (nth i (rdev u) 0 * nth i (rdev v) 0)%R) (seq 0 (length u))))
    with (Rsum (map (fun x => ((nth x u 0 - rmean u) * (nth x v 0 - rmean v))%R) (seq 0 (length u)))).
  - field. lra.
  - apply Rsum_ext. intros i Hi. apply in_seq in Hi. rewrite !nth_rdev by lia. reflexivity.
Qed.
Lemma rstd_dev l : l <> [] -> rstd (rdev l) = rstd l.
Proof.
  intros H. unfold rdev. transitivity (rstd (map (fun x => 1 * x + - rmean l)%R l)).
  - f_equal. apply map_ext. intros x. ring.
  - rewrite rstd_affine by exact H. rewrite Rabs_R1. ring.
Qed.
Lemma ab_pair_nan s1 s2 lam : exists a b1 b2, @calculate_ab XR s1 s2 NaN lam = (a, BPair b1 b2).
Proof.
  unfold calculate_ab. change (@ncos XR NaN) with (NaN : XR). change (@nsin XR NaN) with (NaN : XR).
  assert (E : @nsub XR (nipow (NaN : XR) 4) (nipow (NaN : XR) 4) = NaN) by reflexivity. rewrite E.
  assert (D : forall a : XR, @ndiv XR a NaN = NaN) by (intros [a|s|]; reflexivity). rewrite !D.
  eexists _, _, _. reflexivity.
Qed.
Lemma xgt0_div0 x : @nltb XR (nofZ 0) (ndiv (Fin x) (Fin 0)) = Rlt_bool 0 x.
Proof.
  destruct (Req_dec x 0) as [->|H].
  - rewrite xdiv_00. rewrite Rlt_bool_false by lra. reflexivity.
  - rewrite xdiv_x0 by exact H. cbn [nltb XR nofZ xltb]. unfold xneg. do 2 case Rlt_bool_spec; intros; try reflexivity; exfalso; lra.
Qed.
Lemma pair_axes (u v : list R) (lam : R) : u <> [] -> length u = length v -> (0 < lam)%R ->
  let theta := @natan XR (ndiv (nsum (zipwith (@nmul XR) (fins (rdev u)) (fins (rdev v)))) (nsum (map (@sq XR) (fins (rdev u))))) in
  let ab := @calculate_ab XR (Fin (rstd (rdev u))) (Fin (rstd (rdev v))) theta (Fin lam) in
  (ellipse_exists u v -> theta = Fin (rangle u v) /\ ab = (Fin (raxis1 lam u v), BNum (Fin (raxis2 lam u v))) /\
     (0 < raxis1 lam u v)%R /\ (0 < raxis2 lam u v)%R) /\
  (~ ellipse_exists u v -> exists a b1 b2, ab = (a, BPair b1 b2)).
Proof.
  intros Hu HL Hlam. assert (Hv : v <> []) by (intros ->; destruct u; [congruence | discriminate]).
  rewrite sum_prod_fins by (rewrite !rdev_length; exact HL). rewrite sum_sq_fins.
  rewrite !rdot_dev by (first [assumption | reflexivity]). rewrite rcov_self. rewrite !rstd_dev by assumption.
  pose proof (INR_len_pos u Hu) as Hn. pose proof (rcov_CS u v Hu HL) as HCS.
  pose proof (rvar_nonneg u Hu) as HV1. pose proof (rvar_nonneg v Hv) as HV2.
  destruct HV1 as [HV1|HV1].
  2:{ rewrite <- HV1 in *. rewrite Rmult_0_l in HCS. pose proof (pow2_ge_0 (rcov u v)) as HK.
      assert (HK0 : rcov u v = 0%R) by (apply Rsqr_0_uniq; rewrite Rsqr_pow2; lra).
      cbv zeta. rewrite HK0, !Rmult_0_r, xdiv_00. change (@natan XR NaN) with (NaN : XR). split.
      - intros [H _]. rewrite <- HV1 in H. rewrite HK0 in H. exfalso. lra.
      - intros _. apply ab_pair_nan. }
  rewrite xdiv_fin by (apply Rmult_integral_contrapositive; split; lra).
  replace (INR (length u) * rcov u v / (INR (length u) * rvar u))%R with (rcov u v / rvar u)%R by (field; lra).
  rewrite xatan_fin. fold (rangle u v). cbv zeta.
  pose proof (axes_positive_iff lam (rvar u) (rvar v) (rcov u v) Hlam HV1 HV2 HCS) as HI. cbv zeta in HI.
  fold (ellipse_exists u v) in HI. set (t := (rcov u v / rvar u)%R) in *.
  assert (S1 : ((lam * rstd u) ^ 2 = lam ^ 2 * rvar u)%R) by (rewrite Rpow_mult_distr, rstd_pow2 by exact Hu; reflexivity).
  assert (S2 : ((lam * rstd v) ^ 2 = lam ^ 2 * rvar v)%R) by (rewrite Rpow_mult_distr, rstd_pow2 by exact Hv; reflexivity).
  destruct (Req_dec (1 - t ^ 2) 0) as [Ef|Ef].
  - split; [intros H; exfalso; apply HI in H; tauto|]. intros _. unfold calculate_ab.
    rewrite !xmul_fin, xcos_fin, xsin_fin, !nipow_fin, !xmul_fin, !xsub_fin.
    assert (F0 : (cos (rangle u v) ^ 4 - sin (rangle u v) ^ 4 = 0)%R) by (unfold rangle; fold t; rewrite fact_atan, Ef; unfold Rdiv; ring).
    rewrite F0, !xgt0_div0. unfold rangle. fold t. rewrite cos_atan2, sin_atan2.
    replace (t ^ 2)%R with 1%R by lra.
    match goal with |- context [Rlt_bool 0 ?x && Rlt_bool 0 ?y] => assert (HB : Rlt_bool 0 x && Rlt_bool 0 y = false) end.
    { do 2 case Rlt_bool_spec; intros; try reflexivity. exfalso. lra. }
    rewrite HB. eexists _, _, _. reflexivity.
  - assert (Fn : (cos (rangle u v) ^ 4 - sin (rangle u v) ^ 4 <> 0)%R).
    { unfold rangle. fold t. rewrite fact_atan. apply Rmult_integral_contrapositive. split; [exact Ef|]. apply Rinv_neq_0_compat. pose proof (pow2_ge_0 t). lra. }
    pose proof (axis_atan (lam * rstd u) (lam * rstd v) t Ef) as A1. pose proof (axis_atan (lam * rstd v) (lam * rstd u) t Ef) as A2.
    rewrite S1, S2 in A1, A2. rewrite <- A1, <- A2 in HI.
    unfold raxis1, raxis2. rewrite S1, S2. unfold rangle in *. fold t in Fn |- *.
    split.
    + intros H. apply HI in H. destruct H as (_ & H1 & H2). split; [reflexivity|]. split.
      * rewrite ab_exact by (rewrite ?S1, ?S2; assumption). rewrite S1, S2. rewrite Rlt_bool_true by exact H2. reflexivity.
      * split; apply sqrt_lt_R0; assumption.
    + intros H. unfold calculate_ab.
      rewrite !xmul_fin, xcos_fin, xsin_fin, !nipow_fin, !xmul_fin, !xsub_fin, !xdiv_fin, !xofZ_fin, !xltb_fin by exact Fn. rewrite S1, S2.
      match goal with |- context [Rlt_bool 0 ?x && Rlt_bool 0 ?y] => assert (HB : Rlt_bool 0 x && Rlt_bool 0 y = false) end.
      { do 2 case Rlt_bool_spec; intros; try reflexivity. exfalso. tauto. }
      rewrite HB. eexists _, _, _. reflexivity.
Qed.
Lemma ellipse_exists_dec u v : {ellipse_exists u v} + {~ ellipse_exists u v}.
Proof.
  unfold ellipse_exists. destruct (Rlt_dec (rcov u v ^ 2) (rvar u * rvar v)), (Rlt_dec (rcov u v ^ 2 * rvar v) (rvar u ^ 3)); tauto.
Qed.
Lemma correlation_exact (u v w : list R) : (3 <= length u)%nat -> length v = length u -> length w = length u ->
  let lam := runiv (length u) in
  (ellipse_exists u v /\ ellipse_exists u w /\ ellipse_exists v w ->
   exists r, velocity_correlation (fins u) (fins v) (fins w) = Ok r /\ StronglySorted Z.lt r /\
     forall i, In i r <-> 0 <= i < zlen u /\
       let k := Z.to_nat i in
       let du := (nth k u 0 - rmean u)%R in let dv := (nth k v 0 - rmean v)%R in let dw := (nth k w 0 - rmean w)%R in
       (outside (rangle u v) (raxis1 lam u v) (raxis2 lam u v) du dv \/
        outside (rangle u w) (raxis1 lam u w) (raxis2 lam u w) du dw \/
        outside (rangle v w) (raxis1 lam v w) (raxis2 lam v w) dv dw)) /\
  (~ (ellipse_exists u v /\ ellipse_exists u w /\ ellipse_exists v w) ->
   velocity_correlation (fins u) (fins v) (fins w) = Raise ValueError).
Proof.
  intros Hn Lv Lw lam.
  assert (Hu : u <> []) by (intros ->; cbn in Hn; lia).
  assert (Hv : v <> []) by (intros ->; rewrite <- Lv in Hn; cbn in Hn; lia).
  assert (Hw : w <> []) by (intros ->; rewrite <- Lw in Hn; cbn in Hn; lia).
  assert (Hlam : (0 < lam)%R) by (apply runiv_pos; lia).
  pose proof (pair_axes u v lam Hu (eq_sym Lv) Hlam) as PA. pose proof (pair_axes u w lam Hu (eq_sym Lw) Hlam) as PB.
  pose proof (pair_axes v w lam Hv ltac:(congruence) Hlam) as PC. cbv zeta in PA, PB, PC.
  assert (HU : @nsqrt XR (nmul (nofZ 2) (nlog (nofZ (zlen (fins (rdev u)))))) = Fin lam).
  { rewrite zlen_fins, univ_fin by (apply rdev_nil, Hu). rewrite rdev_length. reflexivity. }
  unfold velocity_correlation. rewrite !fluct_fins by assumption. cbn [bind]. fold (rdev u) (rdev v) (rdev w).
  rewrite !std_correct by (apply rdev_nil; assumption). cbn [bind]. rewrite HU.
  rewrite !bcast_same by (rewrite !fins_length, !rdev_length; congruence). cbn [bind].
  set (ab1 := calculate_ab (Fin (rstd (rdev u))) (Fin (rstd (rdev v))) _ _) in *.
  set (ab2 := calculate_ab (Fin (rstd (rdev u))) (Fin (rstd (rdev w))) _ _) in *.
  set (ab3 := calculate_ab (Fin (rstd (rdev v))) (Fin (rstd (rdev w))) _ _) in *.
  assert (L3 : (3 <= length (fins (rdev u)))%nat) by (rewrite fins_length, rdev_length; exact Hn).
  assert (L3v : (3 <= length (fins (rdev v)))%nat) by (rewrite fins_length, rdev_length, Lv; exact Hn).
  split.
  - intros (E1 & E2 & E3).
    destruct (proj1 PA E1) as (T1 & Q1 & P1 & P1'). destruct (proj1 PB E2) as (T2 & Q2 & P2 & P2'). destruct (proj1 PC E3) as (T3 & Q3 & P3 & P3').
    rewrite Q1, Q2, Q3, T1, T2, T3.
    rewrite !rho_num by (rewrite !fins_length, !rdev_length; congruence). cbn [bind].
    eexists. split; [reflexivity|].
    match goal with |- StronglySorted _ (union_above_one ?r1 ?r2 ?r3) /\ _ =>
      destruct (in_union_above XR r1 r2 r3 (zlen u) (Fin 0)) as [HS HI] end.
    + rewrite zlen_zipwith, zlen_fins by (rewrite !fins_length, !rdev_length; congruence). unfold zlen. rewrite rdev_length. reflexivity.
    + rewrite zlen_zipwith, zlen_fins by (rewrite !fins_length, !rdev_length; congruence). unfold zlen. rewrite rdev_length. reflexivity.
    + rewrite zlen_zipwith, zlen_fins by (rewrite !fins_length, !rdev_length; congruence). unfold zlen. rewrite rdev_length, Lv. reflexivity.
    + split; [exact HS|]. intros j. rewrite HI. cbv zeta.
      destruct (Z_lt_dec j 0) as [Hj|Hj]; [split; intros [H _]; lia|].
      assert (Ej : j = Z.of_nat (Z.to_nat j)) by lia. set (i := Z.to_nat j) in *. clearbody i. subst j.
      destruct (lt_dec i (length u)) as [Hi|Hi]; [|split; intros [H _]; unfold zlen in H; lia].
      rewrite !(nth_zipwith _ _ _ _ (Fin 0) (Fin 0)) by (rewrite fins_length, rdev_length; congruence).
      rewrite !fins_nth, !nth_rdev by congruence.
      rewrite !rho_outside by (apply Rgt_not_eq; assumption).
      split; intros [_ H]; (split; [unfold zlen; lia | exact H]).
  - intros HN.
    assert (R1 : forall x y th a b : XR, True) by trivial. clear R1.
    destruct (ellipse_exists_dec u v) as [E1|E1].
    2:{ destruct (proj2 PA E1) as (a & b1 & b2 & Q). rewrite Q. destruct ab2, ab3.
        rewrite rho_pair; [reflexivity | rewrite !fins_length, !rdev_length; congruence | exact L3]. }
    destruct (proj1 PA E1) as (T1 & Q1 & P1 & P1'). rewrite Q1.
    rewrite (rho_num XR (fins (rdev u)) (fins (rdev v))) by (rewrite !fins_length, !rdev_length; congruence).
    destruct (ellipse_exists_dec u w) as [E2|E2].
    2:{ destruct (proj2 PB E2) as (a & b1 & b2 & Q). rewrite Q. destruct ab3. cbn [bind].
        rewrite rho_pair; [reflexivity | rewrite !fins_length, !rdev_length; congruence | exact L3]. }
    destruct (proj1 PB E2) as (T2 & Q2 & P2 & P2'). rewrite Q2.
    rewrite (rho_num XR (fins (rdev u)) (fins (rdev w))) by (rewrite !fins_length, !rdev_length; congruence).
    destruct (ellipse_exists_dec v w) as [E3|E3]; [tauto|].
    destruct (proj2 PC E3) as (a & b1 & b2 & Q). rewrite Q. cbn [bind].
    rewrite rho_pair; [reflexivity | rewrite !fins_length, !rdev_length; congruence | exact L3v].
Qed.
(** Perfectly correlated or anti-correlated components: always an exception. *)
Lemma correlation_proportional (u w : list R) (k b : R) : (3 <= length u)%nat -> length w = length u ->
  velocity_correlation (fins u) (fins (map (fun x => k * x + b)%R u)) (fins w) = Raise ValueError.
Proof.
  intros Hn Lw. assert (Hu : u <> []) by (intros ->; cbn in Hn; lia).
  apply correlation_exact; [exact Hn | apply map_length | exact Lw |]. intros [[H _] _].
  assert (EC : rcov u (map (fun x => k * x + b)%R u) = (k * rvar u)%R).
  { pose proof (INR_len_pos u Hu).
    pose proof (rdot_dev u (map (fun x => k * x + b)%R u) Hu ltac:(rewrite map_length; reflexivity)) as E1.
    pose proof (rdot_dev u u Hu eq_refl) as E2. rewrite rcov_self in E2.
    assert (E3 : rdot (rdev u) (rdev (map (fun x => k * x + b)%R u)) = (k * rdot (rdev u) (rdev u))%R).
    { unfold rdot. rewrite <- Rsum_map_scal. apply Rsum_ext. intros i Hi. apply in_seq in Hi. rewrite rdev_length in Hi.
      rewrite !nth_rdev by (rewrite ?map_length; lia). rewrite (nth_map_in _ _ _ 0%R) by lia. rewrite rmean_map_affine by exact Hu. ring. }
    rewrite E3, E2 in E1. apply (Rmult_eq_reg_l (INR (length u))); lra. }
  rewrite EC, rvar_affine in H by exact Hu. lra.
Qed.
Lemma rdev_shift c l : l <> [] -> rdev (map (fun x => x + c)%R l) = rdev l.
Proof.
  intros H. unfold rdev. rewrite map_map. apply map_ext_in. intros x _.
  replace (rmean (map (fun x => x + c)%R l)) with (rmean l + c)%R; [ring|].
  rewrite <- (rmean_map_affine 1 c l H) at 1 || idtac.
  transitivity (rmean (map (fun x => 1 * x + c)%R l)); [rewrite rmean_map_affine by exact H; ring | f_equal; apply map_ext; intros; ring].
Qed.
Lemma correlation_shift (u v w : list R) (a b c : R) : u <> [] -> v <> [] -> w <> [] ->
  velocity_correlation (fins (map (fun x => x + a)%R u)) (fins (map (fun x => x + b)%R v)) (fins (map (fun x => x + c)%R w)) =
  velocity_correlation (fins u) (fins v) (fins w).
Proof.
  intros Hu Hv Hw. unfold velocity_correlation.
  rewrite !fluct_fins by (first [assumption | apply map_nil_iff; assumption]).
  fold (rdev u) (rdev v) (rdev w) (rdev (map (fun x => x + a)%R u)) (rdev (map (fun x => x + b)%R v)) (rdev (map (fun x => x + c)%R w)).
  rewrite !rdev_shift by assumption. reflexivity.
Qed.

(** ** Pre-modification *)
Lemma Rle_bool_iff x y : Rle_bool x y = true <-> (x <= y)%R.
Proof. case Rle_bool_spec; intros H; split; intros H1; try reflexivity; try discriminate; lra. Qed.
Lemma premod_exact (l : list R) (c1 c2 : R) : l <> [] -> (0 <= c2)%R ->
  let theta := rmiddle (rsort (map (fun x => Rabs (x - rmiddle (rsort l))) l)) in
  exists unrem, premodification (fins l) (Fin c1) (Fin c2) = Ok (fins l, unrem) /\ StronglySorted Z.lt unrem /\
    forall i, In (Z.of_nat i) unrem <-> (i < length l)%nat /\ (Rabs (nth i l 0) <= c1 * theta)%R.
Proof.
  intros Hne Hc. cbv zeta. unfold premodification. rewrite np_median_fins by exact Hne.
  rewrite (map_fins (fun x => Rabs (x - rmiddle (rsort l)))) by (intros x; rewrite xsub_fin, xabs_fin; reflexivity).
  rewrite np_median_fins by (apply map_nil_iff, Hne).
  set (theta := rmiddle (rsort (map (fun x => Rabs (x - rmiddle (rsort l))) l))).
  assert (Hth : (0 <= theta)%R).
  { unfold theta. set (m := map (fun x => Rabs (x - rmiddle (rsort l))) l).
    assert (Hm : forall x, In x (rsort m) -> (0 <= x)%R).
    { intros x Hx. destruct (rsort_is_sorting m) as [HP _]. apply (Permutation_in _ (Permutation_sym HP)) in Hx || apply (Permutation_in _ HP) in Hx.
      unfold m in Hx. apply in_map_iff in Hx. destruct Hx as (y & <- & _). apply Rabs_pos. }
    assert (HN : forall k, (0 <= nth k (rsort m) 0)%R).
    { intros k. destruct (nth_in_or_default k (rsort m) 0%R) as [H|H]; [apply Hm, H | rewrite H; lra]. }
    unfold rmiddle. repeat (match goal with |- context [if ?b then _ else _] => destruct b end); try apply HN;
      try (pose proof (HN (length (rsort m) / 2 - 1)%nat); pose proof (HN (length (rsort m) / 2)%nat); lra). }
  assert (HU : @nsqrt XR (nmul (nofZ 2) (nlog (nofZ (zlen (fins l))))) = Fin (runiv (length l))) by (rewrite zlen_fins; apply univ_fin, Hne).
  rewrite HU, xopp_fin, !xmul_fin, xopp_fin.
  assert (HT : (0 <= c2 * theta * runiv (length l))%R) by (repeat apply Rmult_le_pos; try assumption; apply sqrt_pos).
  set (T := (c2 * theta * runiv (length l))%R) in *.
  assert (HE : intersect1d (nonzero (map (fun x => nltb (Fin T : XR) x) (fins l))) (nonzero (map (fun x => nltb x (Fin (- T) : XR)) (fins l))) = []).
  { apply sorted_ext; [apply intersect1d_sorted | constructor |]. intros i. rewrite in_intersect1d, !(in_nonzero_map _ _ i (Fin 0)).
    split; [|intros []]. rewrite fins_nth, !xltb_fin. intros [[_ H1] [_ H2]]. apply Rlt_bool_iff in H1, H2. exfalso. lra. }
  rewrite HE. cbn [foldM bind]. eexists. split; [reflexivity|]. split; [apply intersect1d_sorted|].
  intros i. rewrite in_intersect1d, !(in_nonzero_map _ _ _ (Fin 0)), !fins_nth, !xleb_fin, Nat2Z.id, zlen_fins.
  assert (HA : (Rabs (nth i l 0) <= c1 * theta <-> (- c1 * theta <= nth i l 0 /\ nth i l 0 <= c1 * theta))%R).
  { split; [intros H; apply Rabs_le_inv in H; lra | intros H; apply Rabs_le; lra]. }
  rewrite HA. split.
  - intros [[H1 H2] [_ H3]]. apply Rle_bool_iff in H2, H3. split; [unfold zlen in H1; lia | lra].
  - intros (H1 & H2 & H3). split; (split; [unfold zlen; lia | apply Rle_bool_iff; assumption]).
Qed.
Lemma premod_not_replaced : exists (l s : list R) (theta : R) (i : nat) r unrem,
  s = [0; 0; 0; 0; 100]%R /\ is_sorting s l /\ rmiddle s = 0%R /\ is_sorting s (map (fun x => Rabs (x - rmiddle s)) l) /\ theta = rmiddle s /\
  premodification (fins l) (Fin 1) (Fin 1) = Ok (r, unrem) /\ (1 <= i < length l)%nat /\
  (1 * theta * runiv (length l) < nth i l 0)%R /\ nth i r (Fin 0) <> nth (i - 1) r (Fin 0).
Proof.
  set (s := [0; 0; 0; 0; 100]%R). assert (HS : StronglySorted Rle s) by (unfold s; repeat (constructor; try lra)).
  assert (Hm : rmiddle s = 0%R) by reflexivity.
  destruct (premod_exact s 1 1) as (unrem & E & _); [discriminate | lra |].
  exists s, s, 0%R, 4%nat, (fins s), unrem. split; [reflexivity|].
  split; [split; [apply Permutation_refl | exact HS]|]. split; [exact Hm|]. split.
  { rewrite Hm. replace (map (fun x => Rabs (x - 0)) s) with s.
    - split; [apply Permutation_refl | exact HS].
    - unfold s. cbn. rewrite !Rminus_0_r, Rabs_R0, Rabs_pos_eq by lra. reflexivity. }
  split; [symmetry; exact Hm|]. split; [exact E|]. split; [cbn; lia|]. split.
  - rewrite Rmult_0_r, Rmult_0_l. cbn. lra.
  - cbn. intros H. injection H as H. lra.
Qed.
Lemma premod_general (N : Num) (data : list N) (c1 c2 : N) d :
  let med := np_median data in
  let theta := np_median (map (fun x => nabs (nsub x med)) data) in
  let T := nmul (nmul c2 theta) (nsqrt (nmul (nofZ 2) (nlog (nofZ (zlen data))))) in
  exists r unrem, premodification data c1 c2 = Ok (r, unrem) /\ length r = length data /\ StronglySorted Z.lt unrem /\
    (forall i, In i unrem <-> 0 <= i < zlen data /\
       nleb (nmul (nopp c1) theta) (nth (Z.to_nat i) data d) = true /\ nleb (nth (Z.to_nat i) data d) (nmul c1 theta) = true) /\
    forall i, 0 <= i < zlen data ->
      nth (Z.to_nat i) r d =
        if nltb T (nth (Z.to_nat i) data d) && nltb (nth (Z.to_nat i) data d) (nopp T)
        then (if i =? 0 then nth (length data - 1) data d else nth (Z.to_nat (i - 1)) r d)
        else nth (Z.to_nat i) data d.
Proof.
  cbv zeta. unfold premodification.
  set (med := np_median data). set (theta := np_median (map (fun x => nabs (nsub x med)) data)).
  set (T := nmul (nmul c2 theta) (nsqrt (nmul (nofZ 2) (nlog (nofZ (zlen data)))))).
  set (rem := intersect1d _ _).
  assert (HR : forall i, In i rem <-> 0 <= i < zlen data /\ nltb T (nth (Z.to_nat i) data d) = true /\ nltb (nth (Z.to_nat i) data d) (nopp T) = true).
  { intros i. unfold rem. rewrite in_intersect1d, !(in_nonzero_map _ _ i d). tauto. }
  assert (HS : StronglySorted Z.lt rem) by apply intersect1d_sorted.
  destruct (last_valid_gen N rem data d HS) as (r & E & HL & H1 & H2 & H3).
  { intros i Hi. apply HR in Hi. tauto. }
  unfold last_valid_data in E. 
  exists r. eexists. split; [rewrite E; reflexivity|]. split; [exact HL|]. split; [apply intersect1d_sorted|]. split.
  - intros i. rewrite in_intersect1d, !(in_nonzero_map _ _ i d). tauto.
  - intros i Hi. destruct (nltb T (nth (Z.to_nat i) data d) && nltb (nth (Z.to_nat i) data d) (nopp T)) eqn:EB.
    + apply andb_true_iff in EB. assert (HI : In i rem) by (apply HR; tauto). destruct (Z.eqb_spec i 0) as [->|H0].
      * apply H3, HI.
      * apply H2; [exact HI | lia].
    + apply H1; [exact Hi|]. intros HI. apply HR in HI. apply andb_false_iff in EB. destruct EB; intuition congruence.
Qed.
Lemma rsort_unique s l : is_sorting s l -> rsort l = s.
Proof.
  intros [HP HS]. destruct (rsort_is_sorting l) as [HP' HS']. apply sorted_unique; try assumption.
  eapply Permutation_trans; [apply Permutation_sym, HP' | exact HP].
Qed.
Lemma premod_correct (l s t : list R) (c1 c2 : R) : l <> [] -> (0 <= c2)%R ->
  is_sorting s l -> is_sorting t (map (fun x => Rabs (x - rmiddle s)) l) ->
  exists unrem, premodification (fins l) (Fin c1) (Fin c2) = Ok (fins l, unrem) /\ StronglySorted Z.lt unrem /\
    forall i, In (Z.of_nat i) unrem <-> (i < length l)%nat /\ (Rabs (nth i l 0) <= c1 * rmiddle t)%R.
Proof.
  intros Hne Hc Hs Ht. pose proof (premod_exact l c1 c2 Hne Hc) as H. cbv zeta in H.
  rewrite (rsort_unique s l Hs) in H. rewrite (rsort_unique t _ Ht) in H. exact H.
Qed.
