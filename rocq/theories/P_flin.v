(** linear_interpolation in binary64. *)
From Coq Require Import Reals Lra Lia Psatz List Bool ZArith.
From Flocq Require Import Core Plus_error IEEE754.BinarySingleNaN.
From Verif Require Import Num F64 Lib P_float P_float2 P_fsum P_replacement P_interp.
Import ListNotations.
Local Open Scope R_scope.

Local Existing Instance F64.prec_gt_0_53.
Local Existing Instance F64.prec_lt_emax_53.

(** ** The increments, as reals *)
Definition inc (w : R) (m i : Z) : R := rnd (rnd (rnd w / IZR m) * IZR i).

Lemma inc_opp w m i : inc (- w) m i = - inc w m i.
Proof. unfold inc. rewrite rnd_opp. replace (- rnd w / IZR m) with (- (rnd w / IZR m)) by (unfold Rdiv; ring). rewrite rnd_opp, Ropp_mult_distr_l_reverse, rnd_opp. reflexivity. Qed.
Lemma Rdiv_le_0_compat a b : 0 <= a -> 0 < b -> 0 <= a / b.
Proof. intros A B. apply Rmult_le_pos; [exact A | left; apply Rinv_0_lt_compat; exact B]. Qed.
Lemma rnd0 : rnd 0 = 0. Proof. apply round_0. apply valid_rnd_N. Qed.
Lemma rnd_nn x : 0 <= x -> 0 <= rnd x. Proof. intros H. rewrite <- rnd0. apply rnd_mono, H. Qed.

Section Inc.
Variables (w : R) (m : Z).
Hypothesis Hm : (2 <= m <= 2 ^ 50)%Z.
Hypothesis Hw : w = 0 \/ pow2 (-900) <= w.
Let mR := IZR m.
Lemma m_pos : 2 <= mR <= pow2 50.
Proof. unfold mR. split; [apply (IZR_le 2); lia|]. change (pow2 50) with (IZR (2 ^ 50)). apply IZR_le. lia. Qed.
Lemma w_nn : 0 <= w. Proof. pose proof (bpow_gt_0 radix2 (-900)). destruct Hw; lra. Qed.
Lemma inc_mono i j : (0 <= i <= j)%Z -> 0 <= inc w m i <= inc w m j.
Proof.
  intros H. pose proof m_pos. pose proof w_nn. assert (0 <= rnd (rnd w / mR)) by (apply rnd_nn, Rdiv_le_0_compat; [apply rnd_nn; assumption | lra]).
  assert (0 <= IZR i <= IZR j) by (split; [apply (IZR_le 0) | apply IZR_le]; lia).
  unfold inc. fold mR. split; [apply rnd_nn; apply Rmult_le_pos; lra|]. apply rnd_mono. apply Rmult_le_compat_l; lra.
Qed.
Lemma inc_err i : (1 <= i < m)%Z -> Rabs (inc w m i - w * (IZR i / mR)) <= 33 / 10 * pow2 (-53) * (w * (IZR i / mR)).
Proof.
  intros Hi. pose proof m_pos as Hp. assert (Hi' : 1 <= IZR i <= mR - 1) by (unfold mR; split; [apply (IZR_le 1); lia | rewrite <- minus_IZR; apply IZR_le; lia]).
  pose proof pow2_53 as Hu. unfold inc. fold mR. destruct Hw as [->|H].
  - rewrite rnd0. unfold Rdiv at 1. rewrite Rmult_0_l, rnd0, Rmult_0_l, rnd0. rewrite !Rmult_0_l, Rmult_0_r, Rminus_0_r, Rabs_R0. lra.
  - set (u := pow2 (-53)) in *. pose proof (bpow_gt_0 radix2 (-900)) as P0.
    assert (B1 : pow2 (-1022) <= pow2 (-900)) by (apply bpow_le; lia).
    assert (R1 : Rabs (rnd w - w) <= u * w) by (rewrite <- (Rabs_pos_eq w) at 3 by lra; apply rnd_rel; rewrite Rabs_pos_eq by lra; lra).
    apply Rabs_le_inv in R1. set (D := rnd w) in *.
    assert (P1 : pow2 (-1000) <= D / mR).
    { apply Rmult_le_reg_r with mR; [lra|]. unfold Rdiv. rewrite Rmult_assoc, Rinv_l, Rmult_1_r by lra.
      apply Rle_trans with (pow2 (-1000) * pow2 50); [apply Rmult_le_compat_l; [apply bpow_ge_0 | lra]|]. rewrite <- bpow_plus.
      assert (pow2 (-1000 + 50) <= pow2 (-901)) by (apply bpow_le; lia). assert (pow2 (-900) = 2 * pow2 (-901)) by (change (-900)%Z with (1 + -901)%Z; rewrite bpow_plus; reflexivity).
      pose proof (bpow_gt_0 radix2 (-901)). nra. }
    assert (B2 : pow2 (-1022) <= pow2 (-1000)) by (apply bpow_le; lia). pose proof (bpow_gt_0 radix2 (-1022)) as P2.
    assert (R2 : Rabs (rnd (D / mR) - D / mR) <= u * (D / mR)) by (rewrite <- (Rabs_pos_eq (D / mR)) at 3 by lra; apply rnd_rel; rewrite Rabs_pos_eq; lra).
    apply Rabs_le_inv in R2. set (st := rnd (D / mR)) in *.
    assert (S1 : pow2 (-1000) * (1 - u) <= st) by nra.
    assert (P3 : pow2 (-1022) <= st * IZR i).
    { assert (pow2 (-1000) = 2 * pow2 (-1001)) by (change (-1000)%Z with (1 + -1001)%Z; rewrite bpow_plus; reflexivity).
      assert (pow2 (-1022) <= pow2 (-1001)) by (apply bpow_le; lia). assert (pow2 (-1001) <= st) by nra. nra. }
    assert (R3 : Rabs (rnd (st * IZR i) - st * IZR i) <= u * (st * IZR i)) by (rewrite <- (Rabs_pos_eq (st * IZR i)) at 3 by lra; apply rnd_rel; rewrite Rabs_pos_eq; lra).
    apply Rabs_le_inv in R3. set (p := rnd (st * IZR i)) in *.
    assert (Eq : w * (IZR i / mR) = w / mR * IZR i) by (field; lra). rewrite Eq. set (q := w / mR) in *.
    assert (Q : q * (1 - u) <= D / mR <= q * (1 + u)).
    { unfold q, Rdiv. split; rewrite (Rmult_comm w), Rmult_assoc, (Rmult_comm D); apply Rmult_le_compat_l; try (left; apply Rinv_0_lt_compat; lra); lra. }
    assert (Q0 : 0 < q) by (unfold q; apply Rdiv_lt_0_compat; lra).
    set (Dm := D / mR) in *. set (I := IZR i) in *.
    assert (St : q * (1 - 21 / 10 * u) <= st <= q * (1 + 21 / 10 * u)) by (split; nra).
    set (x := q * I) in *. assert (X0 : 0 < x) by (unfold x; nra).
    assert (SI : x * (1 - 21 / 10 * u) <= st * I <= x * (1 + 21 / 10 * u)) by (unfold x; split; nra).
    apply Rabs_le. set (z := st * I) in *. clearbody z x. split; nra.
Qed.
Lemma inc_le i : (1 <= i < m)%Z -> inc w m i <= w.
Proof.
  intros Hi. pose proof (inc_err i Hi) as H. apply Rabs_le_inv in H. pose proof m_pos as Hp. pose proof w_nn as W.
  assert (Hf : IZR i / mR <= 1 - pow2 (-50)).
  { assert (IZR i <= mR - 1) by (unfold mR; rewrite <- minus_IZR; apply IZR_le; lia).
    apply Rmult_le_reg_r with mR; [lra|]. unfold Rdiv. rewrite Rmult_assoc, Rinv_l, Rmult_1_r by lra.
    assert (pow2 (-50) * mR <= 1) by (apply Rle_trans with (pow2 (-50) * pow2 50); [apply Rmult_le_compat_l; [apply bpow_ge_0 | lra] | rewrite <- bpow_plus; change (pow2 (-50 + 50)) with 1; lra]). lra. }
  assert (E : pow2 (-50) = 8 * pow2 (-53)) by (change (-50)%Z with (3 + -53)%Z; rewrite bpow_plus; cbn; lra).
  pose proof pow2_53 as Hu. set (u := pow2 (-53)) in *. set (t := IZR i / mR) in *.
  assert (T0 : 0 <= t) by (unfold t; apply Rdiv_le_0_compat; [apply (IZR_le 0); lia | lra]).
  assert (w * t * (1 + 33 / 10 * u) <= w); [|lra]. rewrite Rmult_assoc. rewrite <- (Rmult_1_r w) at 2. apply Rmult_le_compat_l; [exact W|]. rewrite E in Hf. nra.
Qed.
End Inc.

(** ** The computed points *)
Section Points.
Variables (s e : f64) (m : Z).
Hypothesis Fs : is_finite s = true.
Hypothesis Fe : is_finite e = true.
Hypothesis Bs : Rabs (B2R s) <= pow2 900.
Hypothesis Be : Rabs (B2R e) <= pow2 900.
Hypothesis Hm : (2 <= m <= 2 ^ 50)%Z.
Let w := B2R e - B2R s.
Hypothesis Hw : w = 0 \/ pow2 (-900) <= Rabs w.
Definition ptf (i : Z) : f64 := Bplus mode_NE s (Bmult mode_NE (Bdiv mode_NE (Bminus mode_NE e s) (f64_ofZ m)) (f64_ofZ i)).

Lemma w_abs : Rabs w <= pow2 901.
Proof. unfold w. change 901%Z with (1 + 900)%Z. rewrite bpow_plus. change (pow2 1) with 2. apply Rabs_le_inv in Bs, Be. apply Rabs_le. lra. Qed.
Lemma inc_abs i : (1 <= i < m)%Z -> Rabs (inc w m i) <= Rabs w /\ Rabs (inc w m i - w * (IZR i / IZR m)) <= 33 / 10 * pow2 (-53) * Rabs w.
Proof.
  intros Hi. assert (Hm0 : 2 <= IZR m) by (apply (IZR_le 2); lia). assert (Hi0 : 0 <= IZR i <= IZR m) by (split; [apply (IZR_le 0) | apply IZR_le]; lia).
  assert (Ht : 0 <= IZR i / IZR m <= 1) by (split; [apply Rdiv_le_0_compat; lra | apply Rmult_le_reg_r with (IZR m); [lra|]; unfold Rdiv; rewrite Rmult_assoc, Rinv_l by lra; lra]).
  pose proof pow2_53 as Hu.
  assert (G : forall x, x = 0 \/ pow2 (-900) <= x -> Rabs (inc x m i) <= x /\ Rabs (inc x m i - x * (IZR i / IZR m)) <= 33 / 10 * pow2 (-53) * x).
  { intros x Hx. pose proof (inc_err x m Hm Hx i Hi) as H1. pose proof (inc_le x m Hm Hx i Hi) as H2. pose proof (inc_mono x m Hm Hx i i ltac:(lia)) as H3.
    assert (X0 : 0 <= x) by (pose proof (bpow_gt_0 radix2 (-900)); destruct Hx; lra).
    split; [rewrite Rabs_pos_eq; lra|]. eapply Rle_trans; [exact H1|]. apply Rmult_le_compat_l; [lra|]. rewrite <- (Rmult_1_r x) at 2. apply Rmult_le_compat_l; lra. }
  destruct (Rle_lt_dec 0 w) as [Hs|Hs].
  - rewrite (Rabs_pos_eq w) in * by lra. apply G. exact Hw.
  - rewrite (Rabs_left w) in * by lra. destruct (G (- w)) as [G1 G2]; [destruct Hw; [left; lra | right; assumption]|].
    rewrite inc_opp in G1, G2. rewrite Rabs_Ropp in G1. split; [exact G1|].
    replace (- inc w m i - - w * (IZR i / IZR m)) with (- (inc w m i - w * (IZR i / IZR m))) in G2 by ring. rewrite Rabs_Ropp in G2. exact G2.
Qed.
Lemma ptf_fl i : (1 <= i < m)%Z -> is_finite (ptf i) = true /\ B2R (ptf i) = rnd (B2R s + inc w m i).
Proof.
  intros Hi. pose proof w_abs as Wb. destruct (inc_abs i Hi) as [I1 _].
  assert (Hm0 : 2 <= IZR m) by (apply (IZR_le 2); lia). destruct (ofZ_fl m ltac:(lia)) as [Fm Em]. destruct (ofZ_fl i ltac:(lia)) as [Fi Ei].
  destruct (sub_fl e s Fe Fs) as [F1 E1]; [apply (rnd_lt_max _ 901); [lia | exact Wb]|]. fold w in E1.
  assert (B1 : Rabs (B2R (Bminus mode_NE e s)) <= pow2 901) by (rewrite E1; apply rnd_abs_le; [lia | exact Wb]).
  assert (B2 : Rabs (B2R (Bminus mode_NE e s) / B2R (f64_ofZ m)) <= pow2 901).
  { rewrite Em. unfold Rdiv. rewrite Rabs_mult, (Rabs_pos_eq (/ IZR m)) by (left; apply Rinv_0_lt_compat; lra).
    rewrite <- (Rmult_1_r (pow2 901)). apply Rmult_le_compat; [apply Rabs_pos | left; apply Rinv_0_lt_compat; lra | exact B1|].
    rewrite <- Rinv_1. apply Rinv_le_contravar; lra. }
  destruct (div_fl (Bminus mode_NE e s) (f64_ofZ m) F1) as [F2 E2]; [rewrite Em; lra | apply (rnd_lt_max _ 901); [lia | exact B2]|].
  rewrite E1, Em in E2.
  destruct (mul_fl (Bdiv mode_NE (Bminus mode_NE e s) (f64_ofZ m)) (f64_ofZ i) F2 Fi) as [F3 E3].
  { rewrite E2, Ei. fold (inc w m i). apply Rle_lt_trans with (pow2 901); [lra | apply bpow_lt; lia]. }
  rewrite E2, Ei in E3. fold (inc w m i) in E3.
  assert (B4 : Rabs (B2R s + inc w m i) <= pow2 902).
  { eapply Rle_trans; [apply Rabs_triang|]. change 902%Z with (1 + 901)%Z. rewrite bpow_plus. change (pow2 1) with 2.
    assert (pow2 900 <= pow2 901) by (apply bpow_le; lia). lra. }
  destruct (add_fl s (Bmult mode_NE (Bdiv mode_NE (Bminus mode_NE e s) (f64_ofZ m)) (f64_ofZ i)) Fs F3) as [F4 E4].
  { rewrite E3. apply (rnd_lt_max _ 902); [lia | exact B4]. }
  rewrite E3 in E4. split; [exact F4 | exact E4].
Qed.
(** The neighbours are the points 0 and [m]. *)
Definition pt (i : Z) : f64 := if (i =? 0)%Z then s else if (i =? m)%Z then e else ptf i.
Lemma pt_fl i : (0 <= i <= m)%Z -> is_finite (pt i) = true /\ exists h, B2R (pt i) = rnd (B2R s + h) /\
  (i = 0%Z /\ h = 0 \/ i = m /\ h = w \/ (1 <= i < m)%Z /\ h = inc w m i).
Proof.
  intros Hi. unfold pt. destruct (Z.eqb_spec i 0) as [->|H0].
  - split; [exact Fs|]. exists 0. split; [rewrite Rplus_0_r, rnd_gen; [reflexivity | apply B2R_gen]|]. left. auto.
  - destruct (Z.eqb_spec i m) as [->|H1].
    + split; [exact Fe|]. exists w. unfold w. split; [replace (B2R s + (B2R e - B2R s)) with (B2R e) by ring; rewrite rnd_gen; [reflexivity | apply B2R_gen]|]. right. left. auto.
    + destruct (ptf_fl i ltac:(lia)) as [F E]. split; [exact F|]. exists (inc w m i). split; [exact E|]. right. right. split; [lia | reflexivity].
Qed.
Lemma pt_up i j : 0 <= w -> (0 <= i <= j)%Z -> (j <= m)%Z -> B2R (pt i) <= B2R (pt j).
Proof.
  intros Wp Hij Hj. destruct (pt_fl i ltac:(lia)) as (_ & hi & -> & Hi). destruct (pt_fl j ltac:(lia)) as (_ & hj & -> & Hj').
  apply rnd_mono, Rplus_le_compat_l. rewrite (Rabs_pos_eq w) in Hw by exact Wp. pose proof (inc_mono w m Hm Hw) as M. pose proof (inc_le w m Hm Hw) as Le.
  destruct Hi as [[-> ->]|[[-> ->]|[Hi ->]]], Hj' as [[-> ->]|[[-> ->]|[Hj' ->]]]; try lra; try lia; try (apply Le; lia); try (apply M; lia).
  destruct (M j j ltac:(lia)). lra.
Qed.
Lemma pt_down i j : w <= 0 -> (0 <= i <= j)%Z -> (j <= m)%Z -> B2R (pt j) <= B2R (pt i).
Proof.
  intros Wp Hij Hj. destruct (pt_fl i ltac:(lia)) as (_ & hi & -> & Hi). destruct (pt_fl j ltac:(lia)) as (_ & hj & -> & Hj').
  apply rnd_mono, Rplus_le_compat_l. rewrite (Rabs_left1 w) in Hw by exact Wp. assert (Hw' : - w = 0 \/ pow2 (-900) <= - w) by (destruct Hw; [left; lra | right; assumption]).
  assert (M : forall i j, (0 <= i <= j)%Z -> inc w m j <= inc w m i <= 0).
  { intros a b Hab. destruct (inc_mono (- w) m Hm Hw' a b Hab) as [M1 M2]. rewrite !inc_opp in M1, M2. rewrite inc_opp in M2. lra. }
  assert (Le : forall i, (1 <= i < m)%Z -> w <= inc w m i).
  { intros a Ha. pose proof (inc_le (- w) m Hm Hw' a Ha) as Q. rewrite inc_opp in Q. lra. }
  destruct Hi as [[-> ->]|[[-> ->]|[Hi ->]]], Hj' as [[-> ->]|[[-> ->]|[Hj' ->]]]; try lra; try lia; try (apply Le; lia); try (apply M; lia).
  destruct (M j j ltac:(lia)). lra.
Qed.
Lemma pt_err i : (1 <= i < m)%Z -> Rabs (B2R (pt i) - (B2R s + w * (IZR i / IZR m))) <= pow2 (-50) * (Rabs (B2R s) + Rabs (B2R e)) /\
  Rabs (B2R (pt i)) <= Rabs (B2R s) + Rabs (B2R e).
Proof.
  intros Hi. assert (E : pt i = ptf i) by (unfold pt; rewrite (proj2 (Z.eqb_neq i 0)), (proj2 (Z.eqb_neq i m)) by lia; reflexivity).
  destruct (ptf_fl i Hi) as [F Ep]. destruct (inc_abs i Hi) as [I1 I2].
  assert (Bt : Rabs (B2R (pt i)) <= Rabs (B2R s) + Rabs (B2R e)).
  { destruct (Rle_lt_dec 0 w) as [W|W].
    - pose proof (pt_up 0 i W ltac:(lia) ltac:(lia)) as A. pose proof (pt_up i m W ltac:(lia) ltac:(lia)) as B.
      assert (P0 : pt 0 = s) by reflexivity. assert (Pm : pt m = e) by (unfold pt; rewrite (proj2 (Z.eqb_neq m 0)), Z.eqb_refl by lia; reflexivity). rewrite P0 in A. rewrite Pm in B.
      apply Rabs_le. pose proof (Rle_abs (B2R e)). pose proof (Rle_abs (- B2R s)) as Q. rewrite Rabs_Ropp in Q. pose proof (Rabs_pos (B2R e)). pose proof (Rabs_pos (B2R s)). lra.
    - pose proof (pt_down 0 i ltac:(lra) ltac:(lia) ltac:(lia)) as A. pose proof (pt_down i m ltac:(lra) ltac:(lia) ltac:(lia)) as B.
      assert (P0 : pt 0 = s) by reflexivity. assert (Pm : pt m = e) by (unfold pt; rewrite (proj2 (Z.eqb_neq m 0)), Z.eqb_refl by lia; reflexivity). rewrite P0 in A. rewrite Pm in B.
      apply Rabs_le. pose proof (Rle_abs (B2R s)). pose proof (Rle_abs (- B2R e)) as Q. rewrite Rabs_Ropp in Q. pose proof (Rabs_pos (B2R e)). pose proof (Rabs_pos (B2R s)). lra. }
  split; [|exact Bt]. rewrite E, Ep. set (h := inc w m i) in *. set (c := w * (IZR i / IZR m)) in *.
  assert (Rs : Rabs (rnd (B2R s + h) - (B2R s + h)) <= pow2 (-53) * Rabs (B2R s + h)).
  { apply rnd_sum; [apply B2R_gen|]. apply generic_format_round; [typeclasses eauto | apply valid_rnd_N]. }
  assert (Wb : Rabs w <= Rabs (B2R s) + Rabs (B2R e)) by (unfold w; unfold Rminus; eapply Rle_trans; [apply Rabs_triang|]; rewrite Rabs_Ropp; lra).
  assert (Sh : Rabs (B2R s + h) <= 2 * (Rabs (B2R s) + Rabs (B2R e))) by (eapply Rle_trans; [apply Rabs_triang|]; pose proof (Rabs_pos (B2R e)); lra).
  assert (E8 : pow2 (-50) = 8 * pow2 (-53)) by (change (-50)%Z with (3 + -53)%Z; rewrite bpow_plus; cbn; lra).
  pose proof pow2_53 as Hu. rewrite E8.
  replace (rnd (B2R s + h) - (B2R s + c)) with ((rnd (B2R s + h) - (B2R s + h)) + (h - c)) by ring.
  eapply Rle_trans; [apply Rabs_triang|]. set (u := pow2 (-53)) in *. set (T := Rabs (B2R s) + Rabs (B2R e)) in *.
  assert (0 <= T) by (unfold T; pose proof (Rabs_pos (B2R s)); pose proof (Rabs_pos (B2R e)); lra). nra.
Qed.
End Points.

(** ** Rounding to decimals is monotone *)
Lemma Znear_mono x y : x <= y -> (ZnearestE x <= ZnearestE y)%Z.
Proof. apply (@Zrnd_le ZnearestE). typeclasses eauto. Qed.
Definition dec_val (d : Z) (x : R) : R := rnd (IZR (ZnearestE (rnd (x * IZR (10 ^ d)))) / IZR (10 ^ d)).
Lemma ten_range d : (0 <= d <= 15)%Z -> (1 <= 10 ^ d <= 2 ^ 50)%Z.
Proof. intros H. split; [apply (Z.pow_le_mono_r 10 0 d); lia|]. apply Z.le_trans with (10 ^ 15)%Z; [apply Z.pow_le_mono_r; lia | vm_compute; discriminate]. Qed.
Lemma dec_mono d x y : (0 <= d <= 15)%Z -> x <= y -> dec_val d x <= dec_val d y.
Proof.
  intros Hd H. assert (1 <= IZR (10 ^ d)) by (apply (IZR_le 1); apply ten_range, Hd). unfold dec_val.
  apply rnd_mono. apply Rmult_le_compat_r; [left; apply Rinv_0_lt_compat; lra|]. apply IZR_le, Znear_mono, rnd_mono. apply Rmult_le_compat_r; lra.
Qed.
Lemma around_val (L : Libm) (x : F64 L) d : (0 <= d <= 15)%Z -> is_finite (x : f64) = true -> Rabs (B2R (x : f64)) <= pow2 900 ->
  is_finite (@around (F64 L) x d : f64) = true /\ B2R (@around (F64 L) x d : f64) = dec_val d (B2R (x : f64)).
Proof.
  intros Hd Fx Bx. pose proof (ten_range d Hd) as [T1 T2]. unfold around. rewrite (proj2 (Z.leb_le 0 d)) by lia.
  change (is_finite (Bdiv mode_NE (Bnearbyint mode_NE (Bmult mode_NE (x : f64) (f64_ofZ (10 ^ d)))) (f64_ofZ (10 ^ d))) = true /\
    B2R (Bdiv mode_NE (Bnearbyint mode_NE (Bmult mode_NE (x : f64) (f64_ofZ (10 ^ d)))) (f64_ofZ (10 ^ d))) = dec_val d (B2R (x : f64))).
  set (T := (10 ^ d)%Z) in *. destruct (ofZ_fl T ltac:(lia)) as [FT ET].
  assert (R1 : 1 <= IZR T <= pow2 50) by (split; [apply (IZR_le 1); lia | change (pow2 50) with (IZR (2 ^ 50)); apply IZR_le; lia]).
  assert (B1 : Rabs (B2R (x : f64) * IZR T) <= pow2 950).
  { change 950%Z with (900 + 50)%Z. rewrite bpow_plus, Rabs_mult, (Rabs_pos_eq (IZR T)) by lra. apply Rmult_le_compat; [apply Rabs_pos | lra | exact Bx | lra]. }
  destruct (mul_fl (x : f64) (f64_ofZ T) Fx FT) as [F1 E1]; [rewrite ET; apply (rnd_lt_max _ 950); [lia | exact B1]|]. rewrite ET in E1.
  destruct (rint_fl _ F1) as (F2 & E2 & _). rewrite E1 in E2.
  assert (B2 : Rabs (IZR (ZnearestE (rnd (B2R (x : f64) * IZR T)))) <= pow2 950) by (apply near_le; [lia|]; apply rnd_abs_le; [lia | exact B1]).
  assert (B3 : Rabs (IZR (ZnearestE (rnd (B2R (x : f64) * IZR T))) / IZR T) <= pow2 950).
  { unfold Rdiv. rewrite Rabs_mult, (Rabs_pos_eq (/ IZR T)) by (left; apply Rinv_0_lt_compat; lra).
    rewrite <- (Rmult_1_r (pow2 950)). apply Rmult_le_compat; [apply Rabs_pos | left; apply Rinv_0_lt_compat; lra | exact B2|]. rewrite <- Rinv_1. apply Rinv_le_contravar; lra. }
  destruct (div_fl (Bnearbyint mode_NE (Bmult mode_NE (x : f64) (f64_ofZ T))) (f64_ofZ T) F2) as [F3 E3];
    [rewrite ET; lra | rewrite E2, ET; apply (rnd_lt_max _ 950); [lia | exact B3]|].
  rewrite E2, ET in E3. split; [exact F3 | exact E3].
Qed.

(** ** The returned record *)
Local Open Scope Z_scope.
Lemma lin_points (L : Libm) (v : list (F64 L)) idx dec (d : F64 L) a b :
  StronglySorted Z.lt idx -> (forall i, In i idx -> 0 <= i < zlen v) ->
  0 < a <= b -> b < zlen v - 1 -> (forall j, a <= j <= b -> In j idx) -> ~ In (a - 1) idx -> ~ In (b + 1) idx ->
  let vs := nth (Z.to_nat (a - 1)) v d : f64 in let ve := nth (Z.to_nat (b + 1)) v d : f64 in
  is_finite vs = true -> is_finite ve = true ->
  exists r, linear_interpolation DFloat v idx dec = Ok r /\ length r = length v /\
    forall k, a - 1 <= k <= b + 1 -> nth (Z.to_nat k) r d = @around (F64 L) (pt vs ve (b - a + 2) (k - a + 1)) dec.
Proof.
  intros HS HB Hab Hb Hin Ha Hbn vs ve Fs Fe.
  assert (Nf : forall x : f64, is_finite x = true -> @nisnan (F64 L) x = false) by (intros [| | |] H; try discriminate H; reflexivity).
  destruct (li_chord (F64 L) v idx dec d a b HS HB Hab Hb Hin Ha Hbn (Nf _ Fs) (Nf _ Fe)) as (r & E & HL & HK).
  exists r. split; [exact E|]. split; [exact HL|]. intros k Hk. unfold pt.
  assert (Hv : valid_only v <> []).
  { intros C. assert (In (nth (Z.to_nat (a - 1)) v d) (valid_only v)) as I; [|rewrite C in I; destruct I].
    unfold valid_only. apply filter_In. split; [apply nth_In; unfold zlen in *; lia|]. fold vs. rewrite (Nf _ Fs). reflexivity. }
  assert (Hi : idx <> []) by (intros ->; apply (Hin a); lia).
  destruct (Z.eqb_spec (k - a + 1) 0) as [K|K].
  - destruct (li_keeps_rounded (F64 L) v idx dec d (a - 1) Hv Hi HS HB ltac:(lia) Ha) as (r' & E' & _ & H). rewrite E in E'. injection E' as <-.
    replace k with (a - 1) by lia. exact H.
  - destruct (Z.eqb_spec (k - a + 1) (b - a + 2)) as [K2|K2].
    + destruct (li_keeps_rounded (F64 L) v idx dec d (b + 1) Hv Hi HS HB ltac:(lia) Hbn) as (r' & E' & _ & H). rewrite E in E'. injection E' as <-.
      replace k with (b + 1) by lia. exact H.
    + apply HK. lia.
Qed.
Lemma lin_float (L : Libm) (v : list (F64 L)) idx dec (d : F64 L) a b :
  StronglySorted Z.lt idx -> (forall i, In i idx -> 0 <= i < zlen v) ->
  0 < a <= b -> b < zlen v - 1 -> (forall j, a <= j <= b -> In j idx) -> ~ In (a - 1) idx -> ~ In (b + 1) idx ->
  0 <= dec <= 15 -> b - a + 2 <= 2 ^ 50 ->
  let vs := nth (Z.to_nat (a - 1)) v d : f64 in let ve := nth (Z.to_nat (b + 1)) v d : f64 in
  is_finite vs = true -> is_finite ve = true -> (Rabs (B2R vs) <= pow2 900)%R -> (Rabs (B2R ve) <= pow2 900)%R ->
  (B2R ve - B2R vs = 0 \/ pow2 (-900) <= Rabs (B2R ve - B2R vs))%R ->
  exists r, linear_interpolation DFloat v idx dec = Ok r /\ length r = length v /\
    (forall k, a - 1 <= k <= b + 1 -> is_finite (nth (Z.to_nat k) r d : f64) = true) /\
    (forall j k, a - 1 <= j -> j <= k -> k <= b + 1 ->
      ((B2R vs <= B2R ve -> B2R (nth (Z.to_nat j) r d : f64) <= B2R (nth (Z.to_nat k) r d : f64)) /\
       (B2R ve <= B2R vs -> B2R (nth (Z.to_nat k) r d : f64) <= B2R (nth (Z.to_nat j) r d : f64)))%R) /\
    ((Rabs (B2R vs) + Rabs (B2R ve)) * IZR (10 ^ dec) <= pow2 50 -> forall k, (a <= k <= b)%Z ->
      Rabs (B2R (nth (Z.to_nat k) r d : f64) - (B2R vs + (B2R ve - B2R vs) * (IZR (k - (a - 1)) / IZR (b + 1 - (a - 1))))) <=
      (/ 2 + pow2 (-49) * (1 + (Rabs (B2R vs) + Rabs (B2R ve)) * IZR (10 ^ dec))) / IZR (10 ^ dec))%R.
Proof.
  intros HS HB Hab Hb Hin Ha Hbn Hd Hm vs ve Fs Fe Bs Be Hw.
  destruct (lin_points L v idx dec d a b HS HB Hab Hb Hin Ha Hbn Fs Fe) as (r & E & HL & HP). fold vs ve in HP.
  exists r. split; [exact E|]. split; [exact HL|].
  set (m := b - a + 2) in *. assert (Hm2 : 2 <= m <= 2 ^ 50) by (unfold m in *; lia).
  assert (Fin : forall i, 0 <= i <= m -> is_finite (pt vs ve m i) = true) by (intros i Hi; apply (pt_fl vs ve m Fs Fe Bs Be Hm2 Hw i Hi)).
  assert (Bnd : forall i, 0 <= i <= m -> (Rabs (B2R (pt vs ve m i)) <= pow2 900)%R).
  { intros i Hi. assert (P0 : pt vs ve m 0 = vs) by reflexivity. assert (Pm : pt vs ve m m = ve) by (unfold pt; rewrite (proj2 (Z.eqb_neq m 0)), Z.eqb_refl by lia; reflexivity).
    apply Rabs_le_inv in Bs, Be. apply Rabs_le.
    destruct (Rle_lt_dec 0 (B2R ve - B2R vs)) as [W|W].
    - pose proof (pt_up vs ve m Fs Fe ltac:(apply Rabs_le; lra) ltac:(apply Rabs_le; lra) Hm2 Hw 0 i W ltac:(lia) ltac:(lia)) as A.
      pose proof (pt_up vs ve m Fs Fe ltac:(apply Rabs_le; lra) ltac:(apply Rabs_le; lra) Hm2 Hw i m W ltac:(lia) ltac:(lia)) as B. rewrite P0 in A. rewrite Pm in B. lra.
    - pose proof (pt_down vs ve m Fs Fe ltac:(apply Rabs_le; lra) ltac:(apply Rabs_le; lra) Hm2 Hw 0 i ltac:(lra) ltac:(lia) ltac:(lia)) as A.
      pose proof (pt_down vs ve m Fs Fe ltac:(apply Rabs_le; lra) ltac:(apply Rabs_le; lra) Hm2 Hw i m ltac:(lra) ltac:(lia) ltac:(lia)) as B. rewrite P0 in A. rewrite Pm in B. lra. }
  assert (V : forall k, a - 1 <= k <= b + 1 -> is_finite (nth (Z.to_nat k) r d : f64) = true /\ B2R (nth (Z.to_nat k) r d : f64) = dec_val dec (B2R (pt vs ve m (k - a + 1)))).
  { intros k Hk. rewrite (HP k Hk). apply (around_val L (pt vs ve m (k - a + 1))); [exact Hd | apply Fin; unfold m; lia | apply Bnd; unfold m; lia]. }
  split; [intros k Hk; apply V; exact Hk|]. split.
  - intros j k Hj Hjk Hk. rewrite (proj2 (V j ltac:(lia))), (proj2 (V k ltac:(lia))). split; intros W; apply dec_mono; try exact Hd.
    + apply (pt_up vs ve m Fs Fe Bs Be Hm2 Hw); [lra | lia | unfold m; lia].
    + apply (pt_down vs ve m Fs Fe Bs Be Hm2 Hw); [lra | lia | unfold m; lia].
  - intros Hs k Hk. rewrite (HP k ltac:(lia)). replace (k - (a - 1)) with (k - a + 1) by lia. replace (b + 1 - (a - 1)) with m by (unfold m; lia).
    set (i := k - a + 1) in *. assert (Hi : 1 <= i < m) by (unfold i, m; lia).
    destruct (pt_err vs ve m Fs Fe Bs Be Hm2 Hw i Hi) as [E1 E2]. set (x := pt vs ve m i) in *. set (T := (Rabs (B2R vs) + Rabs (B2R ve))%R) in *.
    assert (T1 : (1 <= IZR (10 ^ dec))%R) by (apply (IZR_le 1); apply ten_range, Hd). set (S := IZR (10 ^ dec)) in *.
    assert (XS : (Rabs (B2R x * S) <= T * S)%R) by (rewrite Rabs_mult, (Rabs_pos_eq S) by lra; apply Rmult_le_compat_r; lra).
    destruct (around_f64 L x dec Hd (Fin i ltac:(lia)) ltac:(eapply Rle_trans; [exact XS | exact Hs])) as (_ & _ & A & _). fold S in A.
    set (y := B2R (@around (F64 L) x dec : f64)) in *. set (c := (B2R vs + (B2R ve - B2R vs) * (IZR i / IZR m))%R) in *.
    replace (y - c)%R with ((y - B2R x) + (B2R x - c))%R by ring. eapply Rle_trans; [apply Rabs_triang|].
    apply Rle_trans with ((/ 2 + pow2 (-52) + pow2 (-51) * (T * S)) / S + pow2 (-50) * T)%R.
    + apply Rplus_le_compat; [|exact E1]. eapply Rle_trans; [exact A|]. apply Rmult_le_compat_r; [left; apply Rinv_0_lt_compat; lra|].
      apply Rplus_le_compat_l, Rmult_le_compat_l; [apply bpow_ge_0 | exact XS].
    + replace (pow2 (-50) * T)%R with ((pow2 (-50) * (T * S)) / S)%R by (field; lra). unfold Rdiv. rewrite <- Rmult_plus_distr_r.
      apply Rmult_le_compat_r; [left; apply Rinv_0_lt_compat; lra|].
      replace (pow2 (-49)) with (16 * pow2 (-53))%R by (cbn; lra). replace (pow2 (-50)) with (8 * pow2 (-53))%R by (cbn; lra).
      replace (pow2 (-51)) with (4 * pow2 (-53))%R by (cbn; lra). replace (pow2 (-52)) with (2 * pow2 (-53))%R by (cbn; lra).
      assert (0 <= T * S)%R by (apply Rmult_le_pos; [unfold T; pose proof (Rabs_pos (B2R vs)); pose proof (Rabs_pos (B2R ve)); lra | lra]).
      pose proof (bpow_gt_0 radix2 (-53)). nra.
Qed.

(** ** Neighbours closer than [2^-900] are tiny: every point is then rounded to 0 *)
Local Open Scope R_scope.
Lemma gen_multiple x : generic_format radix2 fexp64 x -> pow2 (-800) <= Rabs x -> exists k, x = IZR k * pow2 (-900).
Proof.
  intros G H. assert (Hc : (-900 <= cexp radix2 fexp64 x)%Z).
  { unfold cexp, fexp64, FLT_exp, SpecFloat.fexp. assert (-800 < mag radix2 x)%Z by (apply mag_gt_bpow; exact H). unfold SpecFloat.emin. lia. }
  rewrite G. unfold F2R. cbn [Fnum Fexp]. set (z := Ztrunc _). set (c := cexp radix2 fexp64 x) in *.
  exists (z * 2 ^ (c + 900))%Z. rewrite mult_IZR, Rmult_assoc. f_equal. change (2 ^ (c + 900))%Z with (radix2 ^ (c + 900))%Z.
  rewrite IZR_Zpower by lia. rewrite <- bpow_plus. f_equal. lia.
Qed.
Lemma close_tiny (x y : f64) : B2R y - B2R x <> 0 -> Rabs (B2R y - B2R x) < pow2 (-900) -> Rabs (B2R x) <= pow2 (-799) /\ Rabs (B2R y) <= pow2 (-799).
Proof.
  intros H0 H1. assert (E : pow2 (-799) = 2 * pow2 (-800)) by (change (-799)%Z with (1 + -800)%Z; rewrite bpow_plus; reflexivity).
  assert (B : pow2 (-900) <= pow2 (-800)) by (apply bpow_le; lia). pose proof (bpow_gt_0 radix2 (-900)).
  apply Rabs_lt_inv in H1.
  destruct (Rle_lt_dec (pow2 (-800)) (Rabs (B2R x))) as [X|X]; [|apply Rabs_lt_inv in X; split; apply Rabs_le; lra].
  destruct (Rle_lt_dec (pow2 (-800)) (Rabs (B2R y))) as [Y|Y]; [|apply Rabs_lt_inv in Y; split; apply Rabs_le; lra].
  exfalso. destruct (gen_multiple _ (B2R_gen x) X) as [i Ei]. destruct (gen_multiple _ (B2R_gen y) Y) as [j Ej].
  rewrite Ei, Ej in *. rewrite <- Rmult_minus_distr_r, <- minus_IZR in *. set (p := pow2 (-900)) in *.
  assert (D : (j - i < 0 \/ j - i = 0 \/ j - i > 0)%Z) by lia. destruct D as [D|[D|D]].
  - assert (IZR (j - i) <= -1) by (apply IZR_le; lia). nra.
  - rewrite D in H0. lra.
  - assert (1 <= IZR (j - i)) by (apply (IZR_le 1); lia). nra.
Qed.
Lemma dec_tiny d x : (0 <= d <= 15)%Z -> Rabs x <= pow2 (-700) -> dec_val d x = 0.
Proof.
  intros Hd H. destruct (ten_range d Hd) as [T1 T2]. assert (R1 : 1 <= IZR (10 ^ d) <= pow2 50) by (split; [apply (IZR_le 1); lia | change (pow2 50) with (IZR (2 ^ 50)); apply IZR_le; lia]).
  assert (B : Rabs (rnd (x * IZR (10 ^ d))) <= pow2 (-650)).
  { apply rnd_abs_le; [lia|]. change (-650)%Z with (-700 + 50)%Z. rewrite bpow_plus, Rabs_mult, (Rabs_pos_eq (IZR (10 ^ d))) by lra. apply Rmult_le_compat; [apply Rabs_pos | lra | exact H | lra]. }
  unfold dec_val. replace (ZnearestE (rnd (x * IZR (10 ^ d)))) with 0%Z; [unfold Rdiv; rewrite Rmult_0_l; apply rnd0|].
  symmetry. apply Znearest_imp. rewrite Rminus_0_r. eapply Rle_lt_trans; [exact B|]. apply Rle_lt_trans with (pow2 (-2)); [apply bpow_le; lia | cbn; lra].
Qed.
Lemma ptf_tiny (s e : f64) m i : is_finite s = true -> is_finite e = true -> Rabs (B2R s) <= pow2 (-799) -> Rabs (B2R e) <= pow2 (-799) ->
  (2 <= m <= 2 ^ 50)%Z -> (1 <= i < m)%Z -> is_finite (ptf s e m i) = true /\ Rabs (B2R (ptf s e m i)) <= pow2 (-700).
Proof.
  intros Fs Fe Bs Be Hm Hi. unfold ptf. destruct (ofZ_fl m ltac:(lia)) as [Fm Em]. destruct (ofZ_fl i ltac:(lia)) as [Fi Ei].
  assert (Hm0 : 2 <= IZR m) by (apply (IZR_le 2); lia). assert (Hi0 : 0 <= IZR i <= pow2 50) by (split; [apply (IZR_le 0); lia | change (pow2 50) with (IZR (2 ^ 50)); apply IZR_le; lia]).
  assert (B0 : Rabs (B2R e - B2R s) <= pow2 (-798)) by (change (-798)%Z with (1 + -799)%Z; rewrite bpow_plus; change (pow2 1) with 2; apply Rabs_le_inv in Bs, Be; apply Rabs_le; lra).
  destruct (sub_fl e s Fe Fs) as [F1 E1]; [apply (rnd_lt_max _ (-798)); [lia | exact B0]|].
  assert (B1 : Rabs (B2R (Bminus mode_NE e s)) <= pow2 (-798)) by (rewrite E1; apply rnd_abs_le; [lia | exact B0]).
  assert (B2 : Rabs (B2R (Bminus mode_NE e s) / B2R (f64_ofZ m)) <= pow2 (-798)).
  { rewrite Em. unfold Rdiv. rewrite Rabs_mult, (Rabs_pos_eq (/ IZR m)) by (left; apply Rinv_0_lt_compat; lra).
    rewrite <- (Rmult_1_r (pow2 (-798))). apply Rmult_le_compat; [apply Rabs_pos | left; apply Rinv_0_lt_compat; lra | exact B1|].
    rewrite <- Rinv_1. apply Rinv_le_contravar; lra. }
  destruct (div_fl (Bminus mode_NE e s) (f64_ofZ m) F1) as [F2 E2]; [rewrite Em; lra | apply (rnd_lt_max _ (-798)); [lia | exact B2]|].
  set (D := Bdiv mode_NE (Bminus mode_NE e s) (f64_ofZ m)) in *.
  assert (B3 : Rabs (B2R D * B2R (f64_ofZ i)) <= pow2 (-748)).
  { rewrite Ei, Rabs_mult, (Rabs_pos_eq (IZR i)) by lra. change (-748)%Z with (-798 + 50)%Z. rewrite bpow_plus. apply Rmult_le_compat; [apply Rabs_pos | lra | | lra].
    rewrite E2. apply rnd_abs_le; [lia | exact B2]. }
  destruct (mul_fl D (f64_ofZ i) F2 Fi) as [F3 E3]; [apply (rnd_lt_max _ (-748)); [lia | exact B3]|]. set (P := Bmult mode_NE D (f64_ofZ i)) in *.
  assert (B4 : Rabs (B2R s + B2R P) <= pow2 (-700)).
  { assert (Rabs (B2R P) <= pow2 (-748)) as BP by (rewrite E3; apply rnd_abs_le; [lia | exact B3]).
    assert (pow2 (-799) <= pow2 (-701)) by (apply bpow_le; lia). assert (pow2 (-748) <= pow2 (-701)) by (apply bpow_le; lia).
    replace (pow2 (-700)) with (2 * pow2 (-701)) by (change (-700)%Z with (1 + -701)%Z; rewrite bpow_plus; reflexivity).
    eapply Rle_trans; [apply Rabs_triang|]. lra. }
  destruct (add_fl s P Fs F3) as [F4 E4]; [apply (rnd_lt_max _ (-700)); [lia | exact B4]|].
  split; [exact F4|]. rewrite E4. apply rnd_abs_le; [lia | exact B4].
Qed.
Lemma pt_tiny (s e : f64) m i : is_finite s = true -> is_finite e = true -> Rabs (B2R s) <= pow2 (-799) -> Rabs (B2R e) <= pow2 (-799) ->
  (2 <= m <= 2 ^ 50)%Z -> (0 <= i <= m)%Z -> is_finite (pt s e m i) = true /\ Rabs (B2R (pt s e m i)) <= pow2 (-700).
Proof.
  intros Fs Fe Bs Be Hm Hi. assert (pow2 (-799) <= pow2 (-700)) by (apply bpow_le; lia). unfold pt.
  destruct (Z.eqb_spec i 0) as [->|H0]; [split; [exact Fs | lra]|]. destruct (Z.eqb_spec i m) as [->|H1]; [split; [exact Fe | lra]|].
  apply ptf_tiny; try assumption. lia.
Qed.
Lemma lin_float_all (L : Libm) (v : list (F64 L)) idx dec (d : F64 L) a b :
  StronglySorted Z.lt idx -> (forall i, In i idx -> (0 <= i < zlen v)%Z) ->
  (0 < a <= b)%Z -> (b < zlen v - 1)%Z -> (forall j, (a <= j <= b)%Z -> In j idx) -> ~ In (a - 1)%Z idx -> ~ In (b + 1)%Z idx ->
  (0 <= dec <= 15)%Z -> (b - a + 2 <= 2 ^ 50)%Z ->
  let vs := nth (Z.to_nat (a - 1)) v d : f64 in let ve := nth (Z.to_nat (b + 1)) v d : f64 in
  is_finite vs = true -> is_finite ve = true -> Rabs (B2R vs) <= pow2 900 -> Rabs (B2R ve) <= pow2 900 ->
  exists r, linear_interpolation DFloat v idx dec = Ok r /\ length r = length v /\
    (forall k, (a - 1 <= k <= b + 1)%Z -> is_finite (nth (Z.to_nat k) r d : f64) = true) /\
    (forall j k, (a - 1 <= j)%Z -> (j <= k)%Z -> (k <= b + 1)%Z ->
      (B2R vs <= B2R ve -> B2R (nth (Z.to_nat j) r d : f64) <= B2R (nth (Z.to_nat k) r d : f64)) /\
      (B2R ve <= B2R vs -> B2R (nth (Z.to_nat k) r d : f64) <= B2R (nth (Z.to_nat j) r d : f64))) /\
    ((Rabs (B2R vs) + Rabs (B2R ve)) * IZR (10 ^ dec) <= pow2 50 -> forall k, (a <= k <= b)%Z ->
      Rabs (B2R (nth (Z.to_nat k) r d : f64) - (B2R vs + (B2R ve - B2R vs) * (IZR (k - (a - 1)) / IZR (b + 1 - (a - 1))))) <=
      (/ 2 + pow2 (-49) * (1 + (Rabs (B2R vs) + Rabs (B2R ve)) * IZR (10 ^ dec))) / IZR (10 ^ dec)).
Proof.
  intros HS HB Hab Hb Hin Ha Hbn Hd Hm vs ve Fs Fe Bs Be.
  assert (C : (B2R ve - B2R vs = 0 \/ pow2 (-900) <= Rabs (B2R ve - B2R vs)) \/ (B2R ve - B2R vs <> 0 /\ Rabs (B2R ve - B2R vs) < pow2 (-900))).
  { destruct (Req_dec (B2R ve - B2R vs) 0) as [|N]; [left; left; assumption|]. destruct (Rle_lt_dec (pow2 (-900)) (Rabs (B2R ve - B2R vs))); [left; right; assumption | right; split; assumption]. }
  destruct C as [C|[C1 C2]]; [exact (lin_float L v idx dec d a b HS HB Hab Hb Hin Ha Hbn Hd Hm Fs Fe Bs Be C)|].
  destruct (close_tiny vs ve C1 C2) as [Ts Te].
  destruct (lin_points L v idx dec d a b HS HB Hab Hb Hin Ha Hbn Fs Fe) as (r & E & HL & HP). fold vs ve in HP.
  exists r. split; [exact E|]. split; [exact HL|]. set (m := (b - a + 2)%Z) in *.
  assert (V : forall k, (a - 1 <= k <= b + 1)%Z -> is_finite (nth (Z.to_nat k) r d : f64) = true /\ B2R (nth (Z.to_nat k) r d : f64) = 0).
  { intros k Hk. rewrite (HP k Hk). destruct (pt_tiny vs ve m (k - a + 1) Fs Fe Ts Te) as [F B]; [unfold m in *; lia | unfold m; lia|].
    destruct (around_val L (pt vs ve m (k - a + 1)) dec Hd F) as [F2 E2]; [eapply Rle_trans; [exact B | apply bpow_le; lia]|].
    split; [exact F2|]. etransitivity; [exact E2|]. apply dec_tiny; [exact Hd | exact B]. }
  split; [intros k Hk; apply V; exact Hk|]. split.
  - intros j k Hj Hjk Hk. rewrite (proj2 (V j ltac:(lia))), (proj2 (V k ltac:(lia))). lra.
  - intros Hs k Hk. rewrite (proj2 (V k ltac:(lia))).
    assert (T1 : 1 <= IZR (10 ^ dec) <= pow2 50) by (destruct (ten_range dec Hd); split; [apply (IZR_le 1); lia | change (pow2 50) with (IZR (2 ^ 50)); apply IZR_le; lia]). set (S := IZR (10 ^ dec)) in *.
    assert (Ht : 0 <= IZR (k - (a - 1)) / IZR (b + 1 - (a - 1)) <= 1).
    { assert (P : 0 < IZR (b + 1 - (a - 1))) by (apply (IZR_lt 0); lia). split; [apply Rdiv_le_0_compat; [apply (IZR_le 0); lia | exact P]|].
      apply Rmult_le_reg_r with (IZR (b + 1 - (a - 1))); [exact P|]. unfold Rdiv. rewrite Rmult_assoc, Rinv_l by lra. rewrite Rmult_1_r, Rmult_1_l. apply IZR_le. lia. }
    set (t := IZR (k - (a - 1)) / IZR (b + 1 - (a - 1))) in *.
    apply Rle_trans with (/ 2 / S).
    + apply Rle_trans with (pow2 (-51)).
      * rewrite Rminus_0_l, Rabs_Ropp. apply Rle_trans with (pow2 (-799)); [|apply bpow_le; lia]. apply Rabs_le_inv in Ts, Te. apply Rabs_le. split; nra.
      * apply Rmult_le_reg_r with S; [lra|]. unfold Rdiv. rewrite Rmult_assoc, Rinv_l by lra. apply Rle_trans with (pow2 (-51) * pow2 50); [apply Rmult_le_compat_l; [apply bpow_ge_0 | lra]|].
        rewrite <- bpow_plus. cbn. lra.
    + apply Rmult_le_compat_r; [left; apply Rinv_0_lt_compat; lra|]. pose proof (Rabs_pos (B2R vs)). pose proof (Rabs_pos (B2R ve)). pose proof (bpow_gt_0 radix2 (-49)).
      assert (0 <= (Rabs (B2R vs) + Rabs (B2R ve)) * S) by (apply Rmult_le_pos; lra). nra.
Qed.
(** Near the largest double the product with [10^dec] overflows: neighbours and replaced sample become infinite. *)
Lemma lin_overflow (L : Libm) : exists (v : list (F64 L)) r,
  (forall x : F64 L, In x v -> is_finite (x : f64) = true) /\ linear_interpolation DFloat v [1%Z] 4 = Ok r /\
  r = [B754_infinity false; B754_infinity false; B754_infinity false].
Proof.
  exists [f64_ofZ (2 ^ 1015); f64_ofZ 1; f64_ofZ (2 ^ 1016)]. eexists. split; [|split; [|reflexivity]].
  - intros x [<-|[<-|[<-|[]]]]; vm_compute; reflexivity.
  - vm_compute. reflexivity.
Qed.
