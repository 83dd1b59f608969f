(** [np.around] in binary64. *)
From Coq Require Import Reals Lra Lia.
From Flocq Require Import Core Relative Calc.Bracket IEEE754.BinarySingleNaN.
From Verif Require Import Num F64 P_float.
Local Open Scope R_scope.

Local Existing Instance F64.prec_gt_0_53.
Local Existing Instance F64.prec_lt_emax_53.

Lemma rnd_err x : Rabs (rnd x - x) <= pow2 (-53) * Rabs x + pow2 (-1075).
Proof.
  destruct (Rle_or_lt (pow2 (-1022)) (Rabs x)) as [H|H].
  - pose proof (rnd_rel x H). pose proof (bpow_gt_0 radix2 (-1075)). lra.
  - assert (E : Rabs (rnd x - x) <= / 2 * ulp radix2 fexp64 x) by (apply error_le_half_ulp; typeclasses eauto).
    rewrite (ulp_FLT_small radix2 (-1074) 53 x) in E by (apply Rlt_le_trans with (1 := H); apply bpow_le; lia).
    assert (E2 : / 2 * pow2 (-1074) = pow2 (-1075)).
    { change (-1074)%Z with (1 + -1075)%Z. rewrite bpow_plus. change (pow2 1) with 2. field. }
    pose proof (bpow_gt_0 radix2 (-53)). pose proof (Rabs_pos x). nra.
Qed.
Lemma rint_fl (x : f64) : is_finite x = true ->
  is_finite (Bnearbyint mode_NE x) = true /\ B2R (Bnearbyint mode_NE x) = IZR (ZnearestE (B2R x)) /\ Bsign (Bnearbyint mode_NE x) = Bsign x.
Proof.
  intros H. destruct (Bnearbyint_correct 53 1024 _ mode_NE x) as (E & F & S). rewrite H in F. cbn [round_mode] in E.
  split; [exact F|]. split.
  - rewrite E. unfold round, scaled_mantissa, F2R, cexp, FIX_exp. cbn [Fnum Fexp Z.opp]. change (pow2 0) with 1. rewrite !Rmult_1_r. reflexivity.
  - apply S. destruct (Bnearbyint mode_NE x); cbn in *; congruence.
Qed.
Lemma Bsign_mul (x y : f64) : is_finite (Bmult mode_NE x y) = true -> Bsign (Bmult mode_NE x y) = xorb (Bsign x) (Bsign y).
Proof.
  intros H. pose proof (Bmult_correct 53 1024 _ _ mode_NE x y) as C.
  destruct (Rlt_bool _ _) in C.
  - destruct C as (_ & _ & S). apply S. destruct (Bmult mode_NE x y); cbn in *; congruence.
  - destruct (Bmult mode_NE x y); cbn in *; congruence.
Qed.
Lemma Bsign_div (x y : f64) : B2R y <> 0 -> is_finite (Bdiv mode_NE x y) = true -> Bsign (Bdiv mode_NE x y) = xorb (Bsign x) (Bsign y).
Proof.
  intros Hy H. pose proof (Bdiv_correct 53 1024 _ _ mode_NE x y Hy) as C.
  destruct (Rlt_bool _ _) in C.
  - destruct C as (_ & _ & S). apply S. destruct (Bdiv mode_NE x y); cbn in *; congruence.
  - destruct (Bdiv mode_NE x y); cbn in *; congruence.
Qed.
Lemma near_int x k : Rabs (x - IZR k) < / 2 -> ZnearestE x = k.
Proof. intros H. apply Znearest_imp. exact H. Qed.
Lemma near_le x e : (0 <= e)%Z -> Rabs x <= pow2 e -> Rabs (IZR (ZnearestE x)) <= pow2 e.
Proof.
  intros He H. rewrite <- (IZR_Zpower radix2 e He) in H |- *. set (z := (radix2 ^ e)%Z) in *. apply Rabs_le_inv in H.
  assert (valid : Valid_rnd ZnearestE) by typeclasses eauto. destruct valid as [mono ident].
  apply Rabs_le. split.
  - rewrite <- opp_IZR. apply IZR_le. rewrite <- (ident (- z)%Z). apply mono. rewrite opp_IZR. tauto.
  - apply IZR_le. rewrite <- (ident z). apply mono. tauto.
Qed.

(** The three steps of [around] for [0 <= d <= 15]. *)
Lemma ten_range d : (0 <= d <= 15)%Z -> (1 <= 10 ^ d <= 2 ^ 53)%Z.
Proof.
  intros H. split.
  - apply (Z.pow_le_mono_r 10 0 d); lia.
  - apply Z.le_trans with (10 ^ 15)%Z; [apply Z.pow_le_mono_r; lia | vm_compute; discriminate].
Qed.
Section Around.
Context (s : Z) (Hs : (1 <= s <= 2 ^ 53)%Z).
Notation S := (IZR s).
Let fs := f64_ofZ s.
Lemma S_ge : 1 <= S. Proof. apply IZR_le. lia. Qed.
Lemma S_le : S <= pow2 53. Proof. change (pow2 53) with (IZR (2 ^ 53)). apply IZR_le. lia. Qed.
Lemma fs_fin : is_finite fs = true /\ B2R fs = S. Proof. apply ofZ_fl. lia. Qed.
Lemma fs_sign : Bsign fs = false.
Proof.
  destruct fs_fin as [F E]. destruct (Bsign fs) eqn:Hb; [|reflexivity]. exfalso. pose proof S_ge.
  assert (B2R fs <= 0); [|lra]. destruct fs as [b| | |b m e H0]; cbn in *; try discriminate; subst; try lra.
  apply F2R_le_0. cbn. lia.
Qed.
(** From a whole number [k] to [k / s] and back. *)
Lemma back_and_forth (fk : f64) k : is_finite fk = true -> B2R fk = IZR k -> Rabs (IZR k) <= pow2 50 ->
  let y := Bdiv mode_NE fk fs in
  is_finite y = true /\ Bsign y = Bsign fk /\ Rabs (B2R y - IZR k / S) <= pow2 (-53) * Rabs (IZR k / S) /\
  is_finite (Bmult mode_NE y fs) = true /\ Bsign (Bmult mode_NE y fs) = Bsign fk /\
  Bnearbyint mode_NE (Bmult mode_NE y fs) = fk.
Proof.
  intros Fk Ek Hk y. destruct fs_fin as [Ff Ef]. pose proof S_ge as S1. pose proof S_le as S2.
  assert (HkS : Rabs (IZR k / S) <= pow2 50).
  { unfold Rdiv. rewrite Rabs_mult, (Rabs_pos_eq (/ S)) by (left; apply Rinv_0_lt_compat; lra).
    apply Rle_trans with (Rabs (IZR k) * 1); [|lra]. apply Rmult_le_compat_l; [apply Rabs_pos|]. rewrite <- Rinv_1. apply Rinv_le_contravar; lra. }
  destruct (div_fl fk fs) as [Fy Ey].
  { exact Fk. } { rewrite Ef. lra. } { rewrite Ef, Ek. apply rnd_lt_max with 50%Z; [lia | exact HkS]. }
  fold y in Fy, Ey. rewrite Ef, Ek in Ey.
  assert (Sy : Bsign y = Bsign fk).
  { unfold y. rewrite Bsign_div; [rewrite fs_sign; apply Bool.xorb_false_r | rewrite Ef; lra | exact Fy]. }
  assert (Err : Rabs (B2R y - IZR k / S) <= pow2 (-53) * Rabs (IZR k / S)).
  { rewrite Ey. destruct (Z.eq_dec k 0) as [->|Hk0].
    - unfold Rdiv. rewrite Rmult_0_l, round_0 by typeclasses eauto. rewrite Rminus_0_r, Rabs_R0. lra.
    - apply rnd_rel. apply Rle_trans with (pow2 (-53)); [apply bpow_le; lia|]. unfold Rdiv. rewrite Rabs_mult, (Rabs_pos_eq (/ S)) by (left; apply Rinv_0_lt_compat; lra).
      change (-53)%Z with (- (53))%Z. rewrite bpow_opp. rewrite <- (Rmult_1_l (/ pow2 53)). apply Rmult_le_compat.
      + lra.
      + left. apply Rinv_0_lt_compat, bpow_gt_0.
      + rewrite <- abs_IZR. apply IZR_le. lia.
      + apply Rinv_le_contravar; lra. }
  assert (HyS : Rabs (B2R y * S - IZR k) <= / 8).
  { replace (B2R y * S - IZR k) with ((B2R y - IZR k / S) * S) by (field; lra). rewrite Rabs_mult, (Rabs_pos_eq S) by lra.
    apply Rle_trans with (pow2 (-53) * Rabs (IZR k / S) * S); [apply Rmult_le_compat_r; lra|].
    unfold Rdiv. rewrite Rabs_mult, (Rabs_pos_eq (/ S)) by (left; apply Rinv_0_lt_compat; lra).
    replace (pow2 (-53) * (Rabs (IZR k) * / S) * S) with (pow2 (-53) * Rabs (IZR k)) by (field; lra).
    apply Rle_trans with (pow2 (-53) * pow2 50); [apply Rmult_le_compat_l; [apply bpow_ge_0 | exact Hk]|].
    rewrite <- bpow_plus. cbn. lra. }
  assert (HyB : Rabs (B2R y * S) <= pow2 51).
  { replace (B2R y * S) with ((B2R y * S - IZR k) + IZR k) by ring. eapply Rle_trans; [apply Rabs_triang|].
    change 51%Z with (1 + 50)%Z. rewrite bpow_plus. change (pow2 1) with 2. assert (1 <= pow2 50) by (change 1 with (pow2 0); apply bpow_le; lia). lra. }
  destruct (mul_fl y fs) as [Fz Ez].
  { exact Fy. } { exact Ff. } { rewrite Ef. apply rnd_lt_max with 51%Z; [lia | exact HyB]. }
  rewrite Ef in Ez.
  assert (Sz : Bsign (Bmult mode_NE y fs) = Bsign fk) by (rewrite Bsign_mul by exact Fz; rewrite fs_sign, Bool.xorb_false_r; exact Sy).
  split; [exact Fy|]. split; [exact Sy|]. split; [exact Err|]. split; [exact Fz|]. split; [exact Sz|].
  destruct (rint_fl _ Fz) as (Fr & Er & Sr). apply B2R_Bsign_inj; [exact Fr | exact Fk | | congruence].
  rewrite Er, Ek, Ez. f_equal. apply near_int.
  replace (rnd (B2R y * S) - IZR k) with ((rnd (B2R y * S) - B2R y * S) + (B2R y * S - IZR k)) by ring.
  eapply Rle_lt_trans; [apply Rabs_triang|]. pose proof (rnd_err (B2R y * S)) as HE.
  assert (pow2 (-53) * Rabs (B2R y * S) <= / 4).
  { apply Rle_trans with (pow2 (-53) * pow2 51); [apply Rmult_le_compat_l; [apply bpow_ge_0 | exact HyB]|]. rewrite <- bpow_plus. cbn. lra. }
  assert (pow2 (-1075) <= pow2 (-4)) by (apply bpow_le; lia). change (pow2 (-4)) with (/ 16) in H0. lra.
Qed.
Lemma around_core (x : f64) : is_finite x = true -> Rabs (B2R x * S) <= pow2 50 ->
  let y := Bdiv mode_NE (Bnearbyint mode_NE (Bmult mode_NE x fs)) fs in
  is_finite y = true /\ Bdiv mode_NE (Bnearbyint mode_NE (Bmult mode_NE y fs)) fs = y /\
  Rabs (B2R y - B2R x) <= (/ 2 + pow2 (-52) + pow2 (-51) * Rabs (B2R x * S)) / S /\
  exists k, Rabs (B2R y - IZR k / S) <= pow2 (-53) * Rabs (IZR k / S).
Proof.
  intros Fx Hx y. destruct fs_fin as [Ff Ef]. pose proof S_ge as S1.
  destruct (mul_fl x fs) as [Fp Ep].
  { exact Fx. } { exact Ff. } { rewrite Ef. apply rnd_lt_max with 50%Z; [lia | exact Hx]. }
  rewrite Ef in Ep. destruct (rint_fl _ Fp) as (Fk & Ek & Sk). set (p := Bmult mode_NE x fs) in *. set (k := ZnearestE (B2R p)) in *.
  assert (Hk : Rabs (IZR k) <= pow2 50). { unfold k. apply near_le; [lia|]. rewrite Ep. apply rnd_abs_le; [lia | exact Hx]. }
  destruct (back_and_forth (Bnearbyint mode_NE p) k Fk Ek Hk) as (Fy & Sy & Err & Fz & Sz & Eq). fold y in Fy, Sy, Err, Fz, Sz, Eq.
  split; [exact Fy|]. split; [rewrite Eq; reflexivity|]. split; [|exists k; exact Err].
  apply Rmult_le_reg_r with S; [lra|]. unfold Rdiv. rewrite Rmult_assoc, Rinv_l, Rmult_1_r by lra.
  assert (Ey : Rabs (B2R y * S - IZR k) <= pow2 (-53) * Rabs (IZR k)).
  { replace (B2R y * S - IZR k) with ((B2R y - IZR k / S) * S) by (field; lra). rewrite Rabs_mult, (Rabs_pos_eq S) by lra.
    apply Rle_trans with (pow2 (-53) * Rabs (IZR k / S) * S); [apply Rmult_le_compat_r; lra|].
    unfold Rdiv. rewrite Rabs_mult, (Rabs_pos_eq (/ S)) by (left; apply Rinv_0_lt_compat; lra). right. field. lra. }
  assert (En : Rabs (IZR k - B2R p) <= / 2).
  { rewrite Rabs_minus_sym. unfold k. apply Znearest_half || (rewrite Rabs_minus_sym; apply Znearest_half). }
  assert (EP : Rabs (B2R p - B2R x * S) <= pow2 (-53) * Rabs (B2R x * S) + pow2 (-1075)) by (rewrite Ep; apply rnd_err).
  replace (Rabs (B2R y - B2R x) * S) with (Rabs (B2R y * S - B2R x * S)).
  2:{ rewrite <- Rmult_minus_distr_r, Rabs_mult, (Rabs_pos_eq S) by lra. reflexivity. }
  set (X := B2R x * S) in *. set (Y := B2R y * S) in *. set (K := IZR k) in *. set (P := B2R p) in *.
  assert (Rabs (Y - X) <= Rabs (Y - K) + Rabs (K - P) + Rabs (P - X)).
  { replace (Y - X) with ((Y - K) + (K - P) + (P - X)) by ring. eapply Rle_trans; [apply Rabs_triang|]. apply Rplus_le_compat_r. apply Rabs_triang. }
  assert (Rabs K <= / 2 + Rabs P).
  { replace K with ((K - P) + P) by ring. eapply Rle_trans; [apply Rabs_triang|]. lra. }
  assert (Rabs P <= Rabs X + (pow2 (-53) * Rabs X + pow2 (-1075))).
  { replace P with ((P - X) + X) at 1 by ring. eapply Rle_trans; [apply Rabs_triang|]. lra. }
  assert (HU : 0 < pow2 (-53) < / 1000) by (pose proof pow2_53; lra).
  replace (pow2 (-52)) with (2 * pow2 (-53)) by (cbn; lra). replace (pow2 (-51)) with (4 * pow2 (-53)) by (cbn; lra).
  assert (HT : pow2 (-1075) <= pow2 (-53) * / 8). { change (/ 8) with (pow2 (-3)). rewrite <- bpow_plus. apply bpow_le. lia. }
  pose proof (bpow_gt_0 radix2 (-1075)).
  set (u := pow2 (-53)) in *. set (t := pow2 (-1075)) in *. pose proof (Rabs_pos X). pose proof (Rabs_pos P).
  assert (u * Rabs K <= u * (/ 2 + (Rabs X + (u * Rabs X + t)))) by (apply Rmult_le_compat_l; lra).
  assert (u * (u * Rabs X + t) <= / 1000 * (u * Rabs X + t)) by (apply Rmult_le_compat_r; nra).
  nra.
Qed.
End Around.
Lemma around_f64 (L : Libm) (x : F64 L) d : (0 <= d <= 15)%Z -> is_finite x = true -> Rabs (B2R x * IZR (10 ^ d)) <= pow2 50 ->
  let y := @around (F64 L) x d in
  is_finite y = true /\ @around (F64 L) y d = y /\
  Rabs (B2R y - B2R x) <= (/ 2 + pow2 (-52) + pow2 (-51) * Rabs (B2R x * IZR (10 ^ d))) / IZR (10 ^ d) /\
  exists k, Rabs (B2R y - IZR k / IZR (10 ^ d)) <= pow2 (-53) * Rabs (IZR k / IZR (10 ^ d)).
Proof.
  intros Hd Fx Hx. unfold around. rewrite (proj2 (Z.leb_le 0 d)) by lia. cbn [nrint nmul ndiv nofZ F64].
  apply around_core; [apply ten_range; exact Hd | exact Fx | exact Hx].
Qed.
