(** The Kalman filter in binary64. *)
From Coq Require Import Reals Lra Lia.
From Flocq Require Import Core Relative Plus_error IEEE754.BinarySingleNaN.
From Verif Require Import Num Lib F64 Spec Spec6 M_descriptive M_series P_float P_float2 P_fsum.
Import ListNotations.
Local Open Scope R_scope.

Local Existing Instance F64.prec_gt_0_53.
Local Existing Instance F64.prec_lt_emax_53.

Lemma pow2_pos e : 0 < pow2 e. Proof. apply bpow_gt_0. Qed.
Lemma u64_small : 0 < u64 <= / 1000000. Proof. split; [apply bpow_gt_0|]. cbn. lra. Qed.
Lemma rnd0 : rnd 0 = 0. Proof. apply round_0. typeclasses eauto. Qed.
Lemma rnd_nonneg x : 0 <= x -> 0 <= rnd x. Proof. intros H. rewrite <- rnd0. apply rnd_mono. exact H. Qed.
Lemma rnd_nonpos x : x <= 0 -> rnd x <= 0. Proof. intros H. rewrite <- rnd0. apply rnd_mono. exact H. Qed.
Lemma gen1 : generic_format radix2 fexp64 1. Proof. apply (gen_IZR 1). vm_compute. discriminate. Qed.
Lemma rnd1 : rnd 1 = 1. Proof. apply rnd_gen, gen1. Qed.
Lemma one_fin : is_finite (f64_ofZ 1) = true /\ B2R (f64_ofZ 1) = 1. Proof. apply (ofZ_fl 1). vm_compute. discriminate. Qed.
(** Halfway between 1 and its successor: rounds to 1. *)
Lemma rnd_just_above_one x : x <= 1 + u64 -> rnd x <= 1.
Proof.
  intros H. apply Rle_trans with (rnd (1 + u64)); [apply rnd_mono; exact H|]. right.
  set (h := Bdiv mode_NE (f64_ofZ 1) (f64_ofZ (2 ^ 53))).
  assert (Hh : is_finite h = true /\ B2R h = u64).
  { destruct (div_fl (f64_ofZ 1) (f64_ofZ (2 ^ 53))) as [A B].
    - apply one_fin.
    - rewrite (proj2 (ofZ_fl (2 ^ 53) ltac:(vm_compute; discriminate))). cbn. lra.
    - rewrite (proj2 one_fin), (proj2 (ofZ_fl (2 ^ 53) ltac:(vm_compute; discriminate))).
      replace (1 / IZR (2 ^ 53)) with u64 by (change (2 ^ 53)%Z with 9007199254740992%Z; cbn; lra). rewrite rnd_pow2 by lia. rewrite Rabs_pos_eq by apply Rlt_le, pow2_pos. apply bpow_lt. lia.
    - split; [exact A|]. unfold h. rewrite B. rewrite (proj2 one_fin), (proj2 (ofZ_fl (2 ^ 53) ltac:(vm_compute; discriminate))).
      replace (1 / IZR (2 ^ 53)) with u64 by (change (2 ^ 53)%Z with 9007199254740992%Z; cbn; lra). apply rnd_pow2. lia. }
  assert (E : Bplus mode_NE (f64_ofZ 1) h = f64_ofZ 1) by (apply B2SF_eq; vm_compute; reflexivity).
  destruct Hh as [Fh Eh]. destruct (add_fl (f64_ofZ 1) h) as [_ B]; [apply one_fin | exact Fh | |].
  - rewrite Eh, (proj2 one_fin). apply rnd_lt_max with 1%Z; [lia|]. pose proof u64_small. rewrite Rabs_pos_eq by lra. change (pow2 1) with 2. lra.
  - rewrite E, Eh, (proj2 one_fin) in B. symmetry. exact B.
Qed.
Lemma mul_one (x : f64) : is_finite x = true -> is_finite (Bmult mode_NE (f64_ofZ 1) x) = true /\ B2R (Bmult mode_NE (f64_ofZ 1) x) = B2R x.
Proof.
  intros F. assert (H : rnd (B2R (f64_ofZ 1) * B2R x) = B2R x) by (rewrite (proj2 one_fin), Rmult_1_l; apply rnd_gen, B2R_gen).
  destruct (mul_fl (f64_ofZ 1) x (proj1 one_fin) F) as [A B]; [rewrite H; apply (abs_B2R_lt_emax 53 1024)|]. rewrite H in B. auto.
Qed.
Lemma one_mul (x : f64) : is_finite x = true -> is_finite (Bmult mode_NE x (f64_ofZ 1)) = true /\ B2R (Bmult mode_NE x (f64_ofZ 1)) = B2R x.
Proof.
  intros F. assert (H : rnd (B2R x * B2R (f64_ofZ 1)) = B2R x) by (rewrite (proj2 one_fin), Rmult_1_r; apply rnd_gen, B2R_gen).
  destruct (mul_fl x (f64_ofZ 1) F (proj1 one_fin)) as [A B]; [rewrite H; apply (abs_B2R_lt_emax 53 1024)|]. rewrite H in B. auto.
Qed.

(** The gain: [p <= s = rnd (p + r)], both of moderate size. *)
Lemma gain_le_one p s : 0 <= p <= s -> pow2 (-500) <= s <= pow2 500 -> 0 <= rnd (p * rnd (1 / s)) <= 1.
Proof.
  intros [Hp Hs] [Hl Hu]. pose proof (pow2_pos (-500)). assert (Hs0 : 0 < s) by lra.
  assert (Hi : pow2 (-500) <= 1 / s).
  { apply Rmult_le_reg_r with s; [exact Hs0|]. replace (1 / s * s) with 1 by (field; lra).
    apply Rle_trans with (pow2 (-500) * pow2 500); [apply Rmult_le_compat_l; lra|]. rewrite <- bpow_plus. cbn. lra. }
  assert (Hi' : Rabs (rnd (1 / s) - 1 / s) <= u64 * (1 / s)).
  { rewrite <- (Rabs_pos_eq (1 / s)) at 3 by lra. apply rnd_rel. rewrite Rabs_pos_eq by lra. apply Rle_trans with (pow2 (-500)); [apply bpow_le; lia | exact Hi]. }
  apply Rabs_le_inv in Hi'. pose proof u64_small as Hu64.
  assert (H0 : 0 <= rnd (1 / s)) by (apply rnd_nonneg; lra).
  split; [apply rnd_nonneg; apply Rmult_le_pos; lra|]. apply rnd_just_above_one.
  apply Rle_trans with (s * rnd (1 / s)); [apply Rmult_le_compat_r; lra|].
  apply Rle_trans with (s * (1 / s * (1 + u64))); [apply Rmult_le_compat_l; lra|]. right. field. lra.
Qed.

Lemma gain_ge p r s : 0 <= p -> 0 <= r -> s = rnd (p + r) -> 0 < p + r -> generic_format radix2 fexp64 p -> generic_format radix2 fexp64 r ->
  pow2 (-500) <= s <= pow2 500 -> p / (p + r) - 8 * u64 <= rnd (p * rnd (1 / s)).
Proof.
  intros Hp Hr Es Hpr Gp Gr [Hl Hu]. pose proof (pow2_pos (-500)). assert (Hs0 : 0 < s) by lra. pose proof u64_small as Hu64.
  assert (Hi : pow2 (-500) <= 1 / s).
  { apply Rmult_le_reg_r with s; [exact Hs0|]. replace (1 / s * s) with 1 by (field; lra).
    apply Rle_trans with (pow2 (-500) * pow2 500); [apply Rmult_le_compat_l; lra|]. rewrite <- bpow_plus. cbn. lra. }
  assert (Hi' : Rabs (rnd (1 / s) - 1 / s) <= u64 * (1 / s)).
  { rewrite <- (Rabs_pos_eq (1 / s)) at 3 by lra. apply rnd_rel. rewrite Rabs_pos_eq by lra. apply Rle_trans with (pow2 (-500)); [apply bpow_le; lia | exact Hi]. }
  assert (Hs' : Rabs (s - (p + r)) <= u64 * (p + r)).
  { rewrite Es. rewrite <- (Rabs_pos_eq (p + r)) at 3 by lra. apply rnd_sum; assumption. }
  apply Rabs_le_inv in Hi'. apply Rabs_le_inv in Hs'.
  set (t := p + r) in *. assert (Hq : 0 <= p / t <= 1).
  { split; [apply Rmult_le_pos; [lra | apply Rlt_le, Rinv_0_lt_compat; lra]|]. apply Rmult_le_reg_r with t; [lra|]. unfold Rdiv. rewrite Rmult_assoc, Rinv_l by lra. unfold t. lra. }
  assert (Hst : (1 - u64) / t <= 1 / s).
  { apply Rmult_le_reg_r with s; [lra|]. replace (1 / s * s) with 1 by (field; lra). apply Rmult_le_reg_r with t; [lra|].
    replace ((1 - u64) / t * s * t) with ((1 - u64) * s) by (field; lra). nra. }
  assert (Hr1 : (1 - 2 * u64) / t <= rnd (1 / s)).
  { apply Rle_trans with (1 / s * (1 - u64)); [|lra]. apply Rle_trans with ((1 - u64) / t * (1 - u64)); [|apply Rmult_le_compat_r; lra].
    unfold Rdiv. rewrite Rmult_assoc, (Rmult_comm (/ t)), <- Rmult_assoc. apply Rmult_le_compat_r; [apply Rlt_le, Rinv_0_lt_compat; lra | nra]. }
  assert (Hpi : p / t * (1 - 2 * u64) <= p * rnd (1 / s)).
  { replace (p / t * (1 - 2 * u64)) with (p * ((1 - 2 * u64) / t)) by (field; lra). apply Rmult_le_compat_l; assumption. }
  pose proof (rnd_err (p * rnd (1 / s))) as HE. apply Rabs_le_inv in HE.
  assert (H1 : 0 <= p * rnd (1 / s)) by (apply Rle_trans with (p / t * (1 - 2 * u64)); [nra | exact Hpi]).
  rewrite (Rabs_pos_eq _ H1) in HE.
  assert (Hsm : pow2 (-1075) <= u64) by (apply bpow_le; lia). nra.
Qed.

Section Step.
Variable L : Libm.
Variables Q R : f64.
Hypotheses (FQ : is_finite Q = true) (FR : is_finite R = true) (PQ : 0 <= B2R Q <= pow2 400) (PR : 0 <= B2R R <= pow2 400)
  (QR : pow2 (-400) <= B2R Q + B2R R).

Definition cov_ok (c : f64) : Prop := is_finite c = true /\ 0 <= B2R c <= pow2 401.

Lemma kalman_step_f64 (x c m : f64) M lo hi : cov_ok c -> is_finite x = true -> is_finite m = true ->
  M <= pow2 1000 -> - M <= lo -> hi <= M -> lo <= B2R m <= hi -> lo - pow2 (-50) * M <= B2R x <= hi + pow2 (-50) * M ->
  exists x' c', @kalman_step (F64 L) Q R x c m = Ok (x', c') /\ cov_ok c' /\ is_finite x' = true /\
    lo - pow2 (-50) * M <= B2R x' <= hi + pow2 (-50) * M /\
    exists g, 0 <= g <= 1 /\ B2R x' = rnd (B2R x + rnd (g * rnd (B2R m - B2R x))) /\ g = rnd (rnd (B2R c + B2R Q) * rnd (1 / rnd (rnd (B2R c + B2R Q) + B2R R))).
Proof.
  intros [Fc Pc] Fx Fm HM HlM HhM Hm Hx. pose proof u64_small as Hu. pose proof (pow2_pos 400) as H400. pose proof (pow2_pos (-400)) as H400'.
  assert (E401 : pow2 401 = 2 * pow2 400) by (change 401%Z with (1 + 400)%Z; rewrite bpow_plus; reflexivity).
  assert (E402 : pow2 402 = 4 * pow2 400) by (change 402%Z with (2 + 400)%Z; rewrite bpow_plus; cbn; lra).
  assert (E403 : pow2 403 = 8 * pow2 400) by (change 403%Z with (3 + 400)%Z; rewrite bpow_plus; cbn; lra).
  assert (E50 : pow2 (-50) = 8 * u64) by (change (-50)%Z with (3 + -53)%Z; rewrite bpow_plus; cbn; lra).
  unfold kalman_step. cbn [nadd nsub nmul ndiv neqb nofZ F64]. change (f64_ofZ 1) with (f64_ofZ 1).
  (* predicted covariance *)
  destruct (mul_one c Fc) as [F1 E1]. destruct (one_mul _ F1) as [F2 E2]. rewrite E1 in E2.
  destruct (add_fl _ Q F2 FQ) as [Fp Ep].
  { rewrite E2. apply rnd_lt_max with 402%Z; [lia|]. rewrite Rabs_pos_eq by lra. lra. }
  rewrite E2 in Ep. set (P := Bplus mode_NE (Bmult mode_NE (Bmult mode_NE (f64_ofZ 1) c) (f64_ofZ 1)) Q) in *.
  assert (HP : B2R Q <= B2R P <= pow2 402).
  { rewrite Ep. split.
    - rewrite <- (rnd_gen (B2R Q)) at 1 by apply B2R_gen. apply rnd_mono. lra.
    - rewrite <- (rnd_pow2 402) by lia. apply rnd_mono. lra. }
  (* innovation covariance *)
  destruct (mul_one P Fp) as [F3 E3]. destruct (one_mul _ F3) as [F4 E4]. rewrite E3 in E4.
  destruct (add_fl _ R F4 FR) as [Fs Es].
  { rewrite E4. apply rnd_lt_max with 403%Z; [lia|]. rewrite Rabs_pos_eq by lra. lra. }
  rewrite E4 in Es. set (s := Bplus mode_NE (Bmult mode_NE (Bmult mode_NE (f64_ofZ 1) P) (f64_ofZ 1)) R) in *.
  assert (Hs : pow2 (-400) <= B2R s <= pow2 403 /\ B2R P <= B2R s).
  { rewrite Es. repeat split.
    - rewrite <- (rnd_pow2 (-400)) by lia. apply rnd_mono. lra.
    - rewrite <- (rnd_pow2 403) by lia. apply rnd_mono. lra.
    - rewrite <- (rnd_gen (B2R P)) at 1 by apply B2R_gen. apply rnd_mono. lra. }
  destruct Hs as [[Hs1 Hs2] Hs3].
  assert (Hs500 : pow2 (-500) <= B2R s <= pow2 500) by (split; [apply Rle_trans with (pow2 (-400)); [apply bpow_le; lia | exact Hs1] | apply Rle_trans with (pow2 403); [exact Hs2 | apply bpow_le; lia]]).
  assert (Hz : Beqb s (f64_ofZ 0) = false).
  { rewrite Beqb_correct by (exact Fs || apply zero64_fin). rewrite (proj2 zero64_fin). apply Req_bool_false. lra. }
  rewrite Hz.
  (* gain *)
  destruct (div_fl (f64_ofZ 1) s (proj1 one_fin)) as [Fi Ei]; [lra| |].
  { rewrite (proj2 one_fin). apply rnd_lt_max with 400%Z; [lia|]. assert (0 < 1 / B2R s) by (apply Rdiv_lt_0_compat; lra). rewrite Rabs_pos_eq by lra.
    apply Rmult_le_reg_r with (B2R s); [lra|]. replace (1 / B2R s * B2R s) with 1 by (field; lra).
    apply Rle_trans with (pow2 400 * pow2 (-400)); [rewrite <- bpow_plus; cbn; lra | apply Rmult_le_compat_l; lra]. }
  rewrite (proj2 one_fin) in Ei. set (i := Bdiv mode_NE (f64_ofZ 1) s) in *.
  destruct (one_mul P Fp) as [F5 E5].
  assert (HG : 0 <= rnd (B2R P * B2R i) <= 1) by (rewrite Ei; apply gain_le_one; [lra | exact Hs500]).
  destruct (mul_fl _ i F5 Fi) as [Fg Eg].
  { rewrite E5. rewrite Rabs_pos_eq by tauto. apply Rle_lt_trans with 1; [tauto|]. change 1 with (pow2 0). apply bpow_lt. lia. }
  rewrite E5 in Eg. set (g := Bmult mode_NE (Bmult mode_NE P (f64_ofZ 1)) i) in *. rewrite <- Eg in HG.
  (* state *)
  destruct (mul_one x Fx) as [F6 E6]. destruct (mul_one _ F6) as [F7 E7]. rewrite E6 in E7.
  set (x1 := Bmult mode_NE (f64_ofZ 1) x) in *. set (x2 := Bmult mode_NE (f64_ofZ 1) x1) in *.
  assert (HM0 : 0 <= M) by lra.
  assert (HM2 : 4 * M <= pow2 1002) by (change 1002%Z with (2 + 1000)%Z; rewrite bpow_plus; change (pow2 2) with 4; lra).
  assert (HuM : 0 <= u64 * M <= / 1000000 * M) by (split; [apply Rmult_le_pos; lra | apply Rmult_le_compat_r; lra]).
  assert (HxM : Rabs (B2R x) <= 1.01 * M) by (rewrite E50 in Hx; apply Rabs_le; lra).
  assert (HmM : Rabs (B2R m) <= M) by (apply Rabs_le; lra).
  assert (Hmx : Rabs (B2R m - B2R x) <= 2.01 * M).
  { eapply Rle_trans; [apply Rabs_triang|]. rewrite Rabs_Ropp. lra. }
  destruct (sub_fl m x2 Fm F7) as [Fd Ed].
  { rewrite E7. apply rnd_lt_max with 1002%Z; [lia|]. lra. }
  rewrite E7 in Ed. set (d := Bminus mode_NE m x2) in *.
  assert (Hd : Rabs (B2R d - (B2R m - B2R x)) <= u64 * Rabs (B2R m - B2R x)).
  { rewrite Ed. apply (rnd_sum (B2R m) (- B2R x)); [apply B2R_gen | apply generic_format_opp, B2R_gen]. }
  assert (Hd3 : Rabs (B2R d) <= 2.02 * M).
  { replace (B2R d) with ((B2R d - (B2R m - B2R x)) + (B2R m - B2R x)) by ring. eapply Rle_trans; [apply Rabs_triang|].
    pose proof (Rmult_le_compat_r (Rabs (B2R m - B2R x)) u64 (/ 1000000) (Rabs_pos _) (proj2 Hu)). lra. }
  assert (Hgd : Rmin 0 (B2R d) <= rnd (B2R g * B2R d) <= Rmax 0 (B2R d)).
  { destruct (Rle_dec 0 (B2R d)) as [H|H].
    - rewrite Rmin_left, Rmax_right by lra. split; [apply rnd_nonneg; apply Rmult_le_pos; lra|].
      rewrite <- (rnd_gen (B2R d)) at 2 by apply B2R_gen. apply rnd_mono. nra.
    - rewrite Rmin_right, Rmax_left by lra. split; [|apply rnd_nonpos; nra].
      rewrite <- (rnd_gen (B2R d)) at 1 by apply B2R_gen. apply rnd_mono. nra. }
  destruct (mul_fl g d Fg Fd) as [Fgd Egd].
  { apply Rle_lt_trans with (2.02 * M).
    - eapply Rle_trans; [|exact Hd3]. apply Rabs_le. revert Hgd. unfold Rmin, Rmax. pose proof (Rabs_pos (B2R d)). destruct (Rle_dec 0 (B2R d)); [rewrite Rabs_pos_eq by lra | rewrite Rabs_left by lra]; lra.
    - apply Rle_lt_trans with (pow2 1002); [lra | apply bpow_lt; lia]. }
  set (gd := Bmult mode_NE g d) in *. rewrite <- Egd in Hgd.
  assert (Hxd : Rabs (rnd (B2R x + B2R d) - B2R m) <= 8 * u64 * M).
  { replace (rnd (B2R x + B2R d) - B2R m) with ((rnd (B2R x + B2R d) - (B2R x + B2R d)) + (B2R d - (B2R m - B2R x))) by ring.
    eapply Rle_trans; [apply Rabs_triang|]. pose proof (rnd_sum (B2R x) (B2R d) (B2R_gen _) (B2R_gen _)) as HS.
    assert (Rabs (B2R x + B2R d) <= 3.03 * M) by (eapply Rle_trans; [apply Rabs_triang|]; lra).
    pose proof (Rmult_le_compat_l u64 _ _ (Rlt_le _ _ (proj1 Hu)) H). pose proof (Rmult_le_compat_l u64 _ _ (Rlt_le _ _ (proj1 Hu)) Hmx).
    assert (0 <= u64 * M) by (apply Rmult_le_pos; lra). lra. }
  apply Rabs_le_inv in Hxd.
  assert (Hx' : lo - pow2 (-50) * M <= rnd (B2R x + B2R gd) <= hi + pow2 (-50) * M).
  { rewrite E50. rewrite E50 in Hx. assert (Gx : rnd (B2R x) = B2R x) by apply rnd_gen, B2R_gen. revert Hgd. unfold Rmin, Rmax. destruct (Rle_dec 0 (B2R d)) as [H|H]; intros [G1 G2].
    - split.
      + apply Rle_trans with (rnd (B2R x)); [lra | apply rnd_mono; lra].
      + apply Rle_trans with (rnd (B2R x + B2R d)); [apply rnd_mono; lra | lra].
    - split.
      + apply Rle_trans with (rnd (B2R x + B2R d)); [lra | apply rnd_mono; lra].
      + apply Rle_trans with (rnd (B2R x)); [apply rnd_mono; lra | lra]. }
  destruct (add_fl x1 gd F6 Fgd) as [Fx' Ex'].
  { rewrite E6. apply Rle_lt_trans with (pow2 1002); [|apply bpow_lt; lia]. rewrite E50 in Hx'. assert (0 <= u64 * M <= / 1000000 * M) by (split; [apply Rmult_le_pos; lra | apply Rmult_le_compat_r; lra]). apply Rabs_le. lra. }
  rewrite E6 in Ex'.
  (* covariance *)
  destruct (one_mul g Fg) as [F8 E8].
  assert (H1g : 0 <= rnd (1 - B2R g) <= 1).
  { split; [apply rnd_nonneg; lra|]. apply Rle_trans with (rnd 1); [apply rnd_mono; lra | rewrite rnd1; lra]. }
  destruct (sub_fl (f64_ofZ 1) _ (proj1 one_fin) F8) as [F9 E9].
  { rewrite E8, (proj2 one_fin). rewrite Rabs_pos_eq by tauto. apply Rle_lt_trans with 1; [tauto|]. change 1 with (pow2 0). apply bpow_lt. lia. }
  rewrite E8, (proj2 one_fin) in E9. set (g1 := Bminus mode_NE (f64_ofZ 1) (Bmult mode_NE g (f64_ofZ 1))) in *.
  assert (HQR : 0 < B2R P + B2R R) by lra.
  assert (Hc' : 0 <= B2R g1 * B2R P <= pow2 401).
  { rewrite E9. split; [apply Rmult_le_pos; lra|].
    assert (Hg : B2R P / (B2R P + B2R R) - 8 * u64 <= B2R g) by (rewrite Eg, Ei; apply gain_ge; try lra; try apply B2R_gen; try exact Hs500; exact Es).
    assert (Hr : rnd (1 - B2R g) <= (1 - B2R g) * (1 + u64)).
    { pose proof (rnd_sum 1 (- B2R g) gen1 (generic_format_opp _ _ _ (B2R_gen g))) as HS. fold (1 - B2R g) in HS. rewrite (Rabs_pos_eq (1 - B2R g)) in HS by lra.
      apply Rabs_le_inv in HS. lra. }
    assert (Hq : B2R P / (B2R P + B2R R) * B2R P >= B2R P - B2R R).
    { apply Rle_ge. apply Rmult_le_reg_r with (B2R P + B2R R); [lra|]. replace (B2R P / (B2R P + B2R R) * B2R P * (B2R P + B2R R)) with (B2R P * B2R P) by (field; lra). nra. }
    assert (HP0 : 0 <= B2R P) by lra. pose proof (Rmult_le_compat_r (B2R P) _ _ HP0 Hg) as HgP.
    assert (Hb : (1 - B2R g) * B2R P <= B2R R + 8 * u64 * B2R P) by lra.
    assert (HuP : u64 * B2R P <= / 1000000 * B2R P) by (apply Rmult_le_compat_r; lra).
    assert (HbP : 0 <= (1 - B2R g) * B2R P) by (apply Rmult_le_pos; lra).
    pose proof (Rmult_le_compat_l _ _ _ HbP (proj2 Hu)) as HbU.
    apply Rle_trans with ((1 - B2R g) * (1 + u64) * B2R P); [apply Rmult_le_compat_r; lra|].
    replace ((1 - B2R g) * (1 + u64) * B2R P) with ((1 - B2R g) * B2R P + (1 - B2R g) * B2R P * u64) by ring. lra. }
  destruct (mul_fl g1 P F9 Fp) as [Fc' Ec'].
  { apply rnd_lt_max with 401%Z; [lia|]. rewrite Rabs_pos_eq; tauto. }
  eexists _, _. split; [reflexivity|]. split.
  { split; [exact Fc'|]. rewrite Ec'. split; [apply rnd_nonneg; tauto|]. rewrite <- (rnd_pow2 401) by lia. apply rnd_mono. tauto. }
  split; [exact Fx'|]. split; [rewrite Ex'; exact Hx'|].
  exists (B2R g). split; [exact HG|]. split; [rewrite Ex', Egd, Ed; reflexivity|]. rewrite Eg, Ei, Es, Ep. reflexivity.
Qed.

Lemma kalman_loop_f64 (data : list f64) M lo hi : M <= pow2 1000 -> - M <= lo -> hi <= M ->
  (forall m, In m data -> is_finite m = true /\ lo <= B2R m <= hi) ->
  forall x c, cov_ok c -> is_finite x = true -> lo - pow2 (-50) * M <= B2R x <= hi + pow2 (-50) * M ->
  exists r, @kalman_loop (F64 L) Q R x c data = Ok r /\ length r = length data /\
    forall y, In y r -> is_finite y = true /\ lo - pow2 (-50) * M <= B2R y <= hi + pow2 (-50) * M.
Proof.
  intros HM Hlo Hhi. induction data as [|m data IH]; intros Hd x c Hc Fx Hx.
  - exists []. split; [reflexivity|]. split; [reflexivity|]. intros y [].
  - destruct (Hd m (or_introl eq_refl)) as [Fm Hm].
    destruct (kalman_step_f64 x c m M lo hi Hc Fx Fm HM Hlo Hhi Hm Hx) as (x' & c' & E & Hc' & Fx' & Hx' & _).
    destruct (IH (fun y Hy => Hd y (or_intror Hy)) x' c' Hc' Fx' Hx') as (r & Er & Hl & Hr).
    exists (x' :: r). cbn [kalman_loop]. rewrite E. cbn [bind]. rewrite Er. cbn [bind]. split; [reflexivity|]. split; [exact (f_equal S Hl)|].
    intros y [<- | Hy]; auto.
Qed.
End Step.

(** Q, R, the initial covariance are finite, not negative, at most 2^400, and Q + R is at least 2^-400. *)
Lemma kalman_f64 (L : Libm) (data : list f64) (x0 c0 Q R : f64) M lo hi :
  is_finite c0 = true -> is_finite Q = true -> is_finite R = true ->
  0 <= B2R c0 <= pow2 400 -> 0 <= B2R Q <= pow2 400 -> 0 <= B2R R <= pow2 400 -> pow2 (-400) <= B2R Q + B2R R ->
  (forall m, In m (x0 :: data) -> is_finite m = true /\ lo <= B2R m <= hi) -> - M <= lo -> hi <= M -> M <= pow2 1000 ->
  exists r, @kalman_filter (F64 L) data x0 c0 Q R = Ok r /\ length r = length data /\
    forall y, In y r -> is_finite y = true /\ lo - pow2 (-50) * M <= B2R y <= hi + pow2 (-50) * M.
Proof.
  intros Fc FQ FR Pc PQ PR HQR Hd Hlo Hhi HM. destruct (Hd x0 (or_introl eq_refl)) as [Fx Hx]. pose proof (pow2_pos 400). pose proof (pow2_pos (-50)).
  assert (0 <= pow2 (-50) * M) by (apply Rmult_le_pos; lra).
  apply kalman_loop_f64; try assumption.
  - intros m Hm. apply Hd. right. exact Hm.
  - split; [exact Fc|]. change 401%Z with (1 + 400)%Z. rewrite bpow_plus. change (pow2 1) with 2. lra.
  - lra.
Qed.
(** The estimate can leave the range: from 1 towards a tiny measurement it lands on 0, below both. *)
Lemma kalman_leaves_range (L : Libm) : exists (x0 m y : f64), is_finite x0 = true /\ is_finite m = true /\
  @kalman_filter (F64 L) [m] x0 (f64_ofZ 1) (f64_ofZ 1) (f64_ofZ 0) = Ok [y] /\ @nltb (F64 L) y m = true /\ @nltb (F64 L) m x0 = true.
Proof.
  exists (f64_ofZ 1), (Bdiv mode_NE (f64_ofZ 1) (f64_ofZ (2 ^ 60))). eexists.
  split; [reflexivity|]. split; [vm_compute; reflexivity|].
  unfold kalman_filter, kalman_loop, kalman_step. cbn [nadd nsub nmul ndiv neqb nofZ nltb F64].
  match goal with |- context [Beqb ?a ?b] => assert (E : Beqb a b = false) by (vm_compute; reflexivity); rewrite E end.
  cbn [bind]. split; [reflexivity|]. split; vm_compute; reflexivity.
Qed.
(** One measurement: a rounded step towards it, with the rounded gain between 0 and 1. *)
Lemma kalman_gain_f64 (L : Libm) (x c m Q R : f64) :
  is_finite x = true -> is_finite m = true -> is_finite c = true -> is_finite Q = true -> is_finite R = true ->
  Rabs (B2R x) <= pow2 1000 -> Rabs (B2R m) <= pow2 1000 ->
  0 <= B2R c <= pow2 400 -> 0 <= B2R Q <= pow2 400 -> 0 <= B2R R <= pow2 400 -> pow2 (-400) <= B2R Q + B2R R ->
  exists y g, @kalman_filter (F64 L) [m] x c Q R = Ok [y] /\ is_finite y = true /\ 0 <= g <= 1 /\
    g = rnd (rnd (B2R c + B2R Q) * rnd (1 / rnd (rnd (B2R c + B2R Q) + B2R R))) /\
    B2R y = rnd (B2R x + rnd (g * rnd (B2R m - B2R x))).
Proof.
  intros Fx Fm Fc FQ FR Hx Hm Pc PQ PR HQR. apply Rabs_le_inv in Hx. apply Rabs_le_inv in Hm.
  pose proof (pow2_pos 400). pose proof (pow2_pos (-50)). pose proof (pow2_pos 1000).
  assert (0 <= pow2 (-50) * pow2 1000) by (apply Rmult_le_pos; lra).
  destruct (kalman_step_f64 L Q R FQ FR PQ PR HQR x c m (pow2 1000) (- pow2 1000) (pow2 1000)) as (y & c' & E & _ & Fy & _ & g & Hg & Ey & Eg); try assumption; try lra.
  - split; [exact Fc|]. change 401%Z with (1 + 400)%Z. rewrite bpow_plus. change (pow2 1) with 2. lra.
  - exists y, g. unfold kalman_filter. cbn [kalman_loop]. rewrite E. cbn [bind]. auto.
Qed.
