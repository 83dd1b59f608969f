(** The normal distribution function in binary64. *)
From Coq Require Import Reals Lra Lia.
From Coquelicot Require Import Coquelicot.
From Flocq Require Import Core Relative IEEE754.BinarySingleNaN.
From Verif Require Import Num Lib XR F64 Spec Spec2 Spec6 Spec7 M_normal P_gauss P_normal P_float P_float2 P_fsum P_fkalman.
Import ListNotations.
Local Open Scope R_scope.

Local Existing Instance F64.prec_gt_0_53.
Local Existing Instance F64.prec_lt_emax_53.

(** ** Real analysis *)
Lemma PI_gt_3 : 3 < PI. Proof. pose proof PI2_3_2. lra. Qed.
Lemma exp_neg_le t : 0 <= t -> exp (- t) <= 1 / (1 + t).
Proof.
  intros H. pose proof (exp_ineq1_le t) as E. rewrite exp_Ropp. unfold Rdiv. rewrite Rmult_1_l. apply Rinv_le_contravar; lra.
Qed.
Lemma sqrt_2PI_ge : 2 <= sqrt (2 * PI).
Proof.
  pose proof PI_gt_3. apply Rsqr_incr_0_var; [|apply sqrt_pos]. rewrite Rsqr_sqrt by lra. unfold Rsqr. lra.
Qed.
Lemma gauss_le x : 0 < gauss 0 1 x <= 1 / 2 /\ Rabs x * gauss 0 1 x <= 1 / 2.
Proof.
  unfold gauss. pose proof sqrt_2PI_ge as S. replace (- ((x - 0) * (x - 0)) / (2 * (1 * 1))) with (- (x * x / 2)) by field.
  pose proof (Rle_0_sqr x) as X. unfold Rsqr in X. pose proof (exp_pos (- (x * x / 2))) as P. pose proof (exp_neg_le (x * x / 2) ltac:(lra)) as E.
  set (e := exp (- (x * x / 2))) in *. rewrite !Rmult_1_l.
  assert (I : 0 < / sqrt (2 * PI) <= 1 / 2).
  { split; [apply Rinv_0_lt_compat; lra|]. replace (1 / 2) with (/ 2) by lra. apply Rinv_le_contravar; lra. }
  change (e / sqrt (2 * PI)) with (e * / sqrt (2 * PI)). set (i := / sqrt (2 * PI)) in *.
  assert (D : 1 / (1 + x * x / 2) <= 1).
  { apply Rmult_le_reg_r with (1 + x * x / 2); [lra|]. replace (1 / (1 + x * x / 2) * (1 + x * x / 2)) with 1 by (field; lra). lra. }
  assert (D2 : Rabs x * (1 / (1 + x * x / 2)) <= 1).
  { apply Rmult_le_reg_r with (1 + x * x / 2); [lra|]. replace (Rabs x * (1 / (1 + x * x / 2)) * (1 + x * x / 2)) with (Rabs x) by (field; lra).
    pose proof (Rle_0_sqr (Rabs x - 1)) as Q. unfold Rsqr in Q. assert (Rabs x * Rabs x = x * x) by (rewrite <- Rabs_mult; apply Rabs_pos_eq; lra). lra. }
  assert (A : Rabs x * e <= 1).
  { apply Rle_trans with (Rabs x * (1 / (1 + x * x / 2))); [|exact D2]. apply Rmult_le_compat_l; [apply Rabs_pos | exact E]. }
  pose proof (Rabs_pos x) as Px.
  assert (0 < e * i) by (apply Rmult_lt_0_compat; lra).
  assert (e * i <= 1 * (1 / 2)) by (apply Rmult_le_compat; lra).
  assert (0 <= Rabs x * e) by (apply Rmult_le_pos; lra).
  assert (Rabs x * e * i <= 1 * (1 / 2)) by (apply Rmult_le_compat; lra).
  repeat split; try lra. 
Qed.
(** A small relative (plus absolute) change of the argument. *)
Lemma Phi_near x z a b : 0 <= a <= / 1000 -> 0 <= b <= / 1000 -> Rabs (z - x) <= a * Rabs x + b -> Rabs (Phi z - Phi x) <= a + b.
Proof.
  intros Ha Hb H. destruct (Req_dec x z) as [<-|Hne]; [replace (Phi x - Phi x) with 0 by ring; rewrite Rabs_R0; lra|].
  destruct (MVT_gen Phi x z (gauss 0 1)) as (xi & [L U] & E).
  - intros t _. apply Phi_derive.
  - intros t _. apply continuity_pt_filterlim. apply (ex_derive_continuous (K := R_AbsRing) (V := R_NormedModule)). eexists. apply Phi_derive.
  - rewrite E. pose proof (gauss_le xi) as [[G0 G1] G2]. set (g := gauss 0 1 xi) in *.
    rewrite Rabs_mult, (Rabs_pos_eq g) by lra.
    assert (X : Rabs x <= Rabs xi + Rabs (z - x)).
    { unfold Rmin, Rmax in L, U. destruct (Rle_dec x z); unfold Rabs; repeat destruct Rcase_abs; lra. }
    assert (K : Rabs x * (999 / 1000) <= Rabs xi + b).
    { assert (a * Rabs x <= / 1000 * Rabs x) by (apply Rmult_le_compat_r; [apply Rabs_pos | lra]). lra. }
    apply Rle_trans with (g * (a * Rabs x + b)); [apply Rmult_le_compat_l; lra|].
    assert (Kg : g * (Rabs x * (999 / 1000)) <= g * (Rabs xi + b)) by (apply Rmult_le_compat_l; lra).
    assert (gb : g * b <= 1 / 2 * b) by (apply Rmult_le_compat_r; lra).
    assert (gx : g * Rabs x <= 1) by lra.
    assert (a * (g * Rabs x) <= a * 1) by (apply Rmult_le_compat_l; lra). lra.
Qed.
Lemma erfc_pos y : 0 < erfcR y. Proof. unfold erfcR. pose proof (erf_bound y). lra. Qed.
Lemma erfc_le y : 0 <= y -> erfcR y <= 2 * exp (- (y * y)).
Proof.
  intros H. pose proof (gauss_id y) as G. pose proof (gG_le y) as L. pose proof (gI_nonneg y H) as P. unfold ex2 in L.
  pose proof sqrt_PI_pos as S. pose proof sqrt_PI_sq as Q. pose proof (exp_pos (- (y * y))) as X. set (e := exp (- (y * y))) in *.
  assert (E : erfR y * erfR y * PI = 4 * (gI y * gI y)) by (rewrite erf_gI; set (q := sqrt PI) in *; rewrite <- Q; field; lra).
  assert (E0 : 0 <= erfR y) by (rewrite erf_gI; apply Rmult_le_pos; [apply Rlt_le, Rdiv_lt_0_compat; lra | exact P]).
  pose proof (erf_bound y) as B. unfold erfcR. pose proof PI_gt_3 as PI3.
  assert (K : (1 - erfR y * erfR y) * PI <= 4 * e) by lra.
  assert (K2 : (1 - erfR y) * (erfR y) >= 0) by (apply Rle_ge, Rmult_le_pos; lra).
  assert (K3 : (1 - erfR y) * PI <= (1 - erfR y * erfR y) * PI) by (apply Rmult_le_compat_r; lra).
  assert (K4 : (1 - erfR y) * 3 <= (1 - erfR y) * PI) by (apply Rmult_le_compat_l; lra). lra.
Qed.
Lemma erf_small_arg : forall y, Rabs y <= 3 / 4 -> Rabs (erfR y) <= 15 / 17.
Proof.
  assert (S : 17 / 10 <= sqrt PI).
  { pose proof PI_gt_3. apply Rsqr_incr_0_var; [|apply sqrt_pos]. rewrite Rsqr_sqrt by lra. unfold Rsqr. lra. }
  assert (B : forall y, 0 <= y <= 3 / 4 -> Rabs (erfR y) <= 15 / 17).
  { intros y Hy. rewrite erf_gI. assert (P : 0 <= gI y) by (apply gI_nonneg; lra).
    assert (U : gI y <= y * 1).
    { unfold gI. replace (y * 1) with (RInt (fun _ => 1) 0 y) by (rewrite RInt_const; unfold scal; cbn; unfold mult; cbn; ring).
      apply RInt_le; [lra | apply ex2_RInt | apply ex_RInt_const |]. intros t _. unfold ex2. pose proof (Rle_0_sqr t) as T. unfold Rsqr in T.
      pose proof (exp_neg_le (t * t) T) as E. apply Rle_trans with (1 := E). apply Rmult_le_reg_r with (1 + t * t); [lra|].
      replace (1 / (1 + t * t) * (1 + t * t)) with 1 by (field; lra). lra. }
    rewrite Rabs_pos_eq.
    - assert (2 / sqrt PI <= 20 / 17). { apply Rmult_le_reg_r with (sqrt PI); [lra|]. replace (2 / sqrt PI * sqrt PI) with 2 by (field; lra). lra. }
      assert (2 / sqrt PI * gI y <= 20 / 17 * (3 / 4)) by (apply Rmult_le_compat; try lra; apply Rlt_le, Rdiv_lt_0_compat; lra). lra.
    - apply Rmult_le_pos; [apply Rlt_le, Rdiv_lt_0_compat; lra | exact P]. }
  intros y H. apply Rabs_le_inv in H. destruct (Rle_dec 0 y) as [P|P]; [apply B; lra|].
  replace y with (- - y) by ring. rewrite erf_odd, Rabs_Ropp. apply B. lra.
Qed.

(** ** The constants *)
Definition c64 : f64 := Bdiv mode_NE (f64_ofZ 1) (Bsqrt mode_NE (f64_ofZ 2)).
Lemma c64_val : is_finite c64 = true /\ B2R c64 = IZR 6369051672525772 * pow2 (-53).
Proof. split; [vm_compute; reflexivity|]. rewrite <- SF2R_B2SF. replace (B2SF c64) with (SpecFloat.S754_finite false 6369051672525772 (-53)) by (vm_compute; reflexivity). reflexivity. Qed.
Definition half64 : f64 := Bdiv mode_NE (f64_ofZ 5) (f64_ofZ 10).
Lemma half64_val : is_finite half64 = true /\ B2R half64 = 1 / 2.
Proof.
  split; [vm_compute; reflexivity|]. rewrite <- SF2R_B2SF. replace (B2SF half64) with (SpecFloat.S754_finite false 4503599627370496 (-53)) by (vm_compute; reflexivity).
  cbn. unfold F2R. cbn. lra.
Qed.
Lemma sqrt2_val : 14142 / 10000 < sqrt 2 < 14143 / 10000 /\ sqrt 2 * sqrt 2 = 2.
Proof.
  assert (Q : sqrt 2 * sqrt 2 = 2) by (apply sqrt_sqrt; lra). pose proof sqrt2_pos as P. split; [|exact Q].
  split; apply Rnot_le_lt; intros H.
  - assert (sqrt 2 * sqrt 2 <= (14142 / 10000) * (14142 / 10000)) by (apply Rmult_le_compat; lra). lra.
  - assert ((14143 / 10000) * (14143 / 10000) <= sqrt 2 * sqrt 2) by (apply Rmult_le_compat; lra). lra.
Qed.
Lemma c64_near : Rabs (B2R c64 - 1 / sqrt 2) <= u64.
Proof.
  rewrite (proj2 c64_val). destruct sqrt2_val as [[S1 S2] Q]. set (q := sqrt 2) in *.
  assert (E : 1 / q = q / 2) by (apply Rmult_eq_reg_r with q; [|lra]; replace (1 / q * q) with 1 by (field; lra); lra). rewrite E.
  set (c := IZR 6369051672525772 * pow2 (-53)).
  assert (Hc : c = 6369051672525772 / 9007199254740992) by (unfold c; cbn; lra).
  assert (Hu : u64 = 1 / 9007199254740992) by (cbn; lra). rewrite Hu.
  assert (D : (q / 2 - c) * (q / 2 + c) = 1 / 2 - c * c) by lra.
  assert (V : - (1 / 9007199254740992) <= 1 / 2 - c * c <= 1 / 9007199254740992) by (rewrite Hc; lra).
  rewrite Rabs_minus_sym. apply Rabs_le. set (w := q / 2 - c) in *.
  assert (T : 1 <= q / 2 + c) by lra. split; apply Rnot_lt_le; intros H.
  - assert (w * (q / 2 + c) <= w * 1) by (apply Rmult_le_compat_neg_l; lra). lra.
  - assert (w * 1 <= w * (q / 2 + c)) by (apply Rmult_le_compat_l; lra). lra.
Qed.

Lemma pow_1000 e : (e <= -1000)%Z -> pow2 e <= u64 * / 1000.
Proof. intros H. apply Rle_trans with (pow2 (-1000)); [apply bpow_le; exact H|]. apply Rle_trans with (pow2 (-63)); [apply bpow_le; lia|]. cbn. lra. Qed.

Lemma float_nonneg (e : f64) : - pow2 (-1074) < B2R e -> 0 <= B2R e.
Proof.
  intros H. apply Rnot_lt_le. intros N.
  pose proof (generic_format_opp _ _ _ (B2R_gen e)) as G.
  assert (K : pow2 (-1074) <= - B2R e); [|lra].
  apply generic_format_ge_bpow with fexp64; [intros k; unfold FLT_exp; lia | lra | exact G].
Qed.
Lemma half_mul (e : f64) : is_finite e = true -> Rabs (B2R e) <= 4 ->
  is_finite (Bmult mode_NE half64 e) = true /\ B2R (Bmult mode_NE half64 e) = rnd (1 / 2 * B2R e).
Proof.
  intros F B. destruct half64_val as [FH EH]. rewrite <- EH. apply mul_fl; [exact FH | exact F|]. rewrite EH.
  apply rnd_lt_max with 1%Z; [lia|]. rewrite Rabs_mult, (Rabs_pos_eq (1 / 2)) by lra. change (pow2 1) with 2. lra.
Qed.
Lemma gen_half : generic_format radix2 fexp64 (1 / 2).
Proof. replace (1 / 2) with (pow2 (-1)) by (cbn; lra). apply gen_pow2. lia. Qed.
Lemma small_err : forall d, Rabs d <= 2 -> Rabs (rnd d - d) <= u64 * Rabs d + u64 * / 1000.
Proof. intros d _. pose proof (rnd_err d) as R. fold u64 in R. pose proof (pow_1000 (-1075) ltac:(lia)). lra. Qed.
(** ** One sample *)
Section One.
Variable L : Libm.
Hypothesis HL : erf_accurate L.
Variable x : f64.
Hypothesis Fx : is_finite x = true.
Let y : f64 := Bmult mode_NE x c64.
Let X := B2R x.
Let Y := B2R y.

Lemma y_val : is_finite y = true /\ Y = rnd (X * B2R c64).
Proof.
  apply mul_fl; [exact Fx | apply c64_val |].
  apply Rle_lt_trans with (Rabs X); [|apply (abs_B2R_lt_emax 53 1024)].
  assert (C : 0 <= B2R c64 <= 1) by (rewrite (proj2 c64_val); cbn; lra).
  assert (G : generic_format radix2 fexp64 (Rabs X)) by (apply generic_format_abs, B2R_gen).
  assert (A : Rabs (X * B2R c64) <= Rabs X).
  { rewrite Rabs_mult, (Rabs_pos_eq (B2R c64)) by lra. pose proof (Rabs_pos X) as P.
    assert (Rabs X * B2R c64 <= Rabs X * 1) by (apply Rmult_le_compat_l; lra). unfold X in *. lra. }
  apply Rabs_le_inv in A. apply Rabs_le. rewrite <- (rnd_gen (Rabs X) G). rewrite <- rnd_opp. split; apply rnd_mono; apply A.
Qed.
(** The real number whose quantile is computed. *)
Lemma z_near : Rabs (Phi (Y * sqrt 2) - Phi X) <= 4 * u64.
Proof.
  destruct y_val as [_ E]. destruct sqrt2_val as [[S1 S2] Q]. pose proof c64_near as C. pose proof (pow2_pos (-1075)) as T0.
  pose proof (pow_1000 (-1075) ltac:(lia)) as T1. pose proof u64_small as U. pose proof (Rabs_pos X) as PX.
  assert (N : Rabs (Y * sqrt 2 - X) <= 3 * u64 * Rabs X + 2 * pow2 (-1075)).
  { pose proof (rnd_err (X * B2R c64)) as R. fold u64 in R. rewrite <- E in R.
    assert (Hc : Rabs (B2R c64) <= 3 / 4) by (rewrite (proj2 c64_val), Rabs_pos_eq; cbn; lra).
    assert (A1 : Rabs (X * B2R c64) <= 3 / 4 * Rabs X).
    { rewrite Rabs_mult. assert (Rabs X * Rabs (B2R c64) <= Rabs X * (3 / 4)) by (apply Rmult_le_compat_l; lra). lra. }
    assert (A2 : Rabs (X * (B2R c64 - 1 / sqrt 2)) <= u64 * Rabs X).
    { rewrite Rabs_mult. assert (Rabs X * Rabs (B2R c64 - 1 / sqrt 2) <= Rabs X * u64) by (apply Rmult_le_compat_l; lra). lra. }
    assert (A3 : u64 * Rabs (X * B2R c64) <= u64 * (3 / 4 * Rabs X)) by (apply Rmult_le_compat_l; lra).
    replace (Y * sqrt 2 - X) with (sqrt 2 * ((Y - X * B2R c64) + X * (B2R c64 - 1 / sqrt 2))) by (field; lra).
    rewrite Rabs_mult, (Rabs_pos_eq (sqrt 2)) by lra.
    set (d := Y - X * B2R c64 + X * (B2R c64 - 1 / sqrt 2)).
    assert (D : Rabs d <= 7 / 4 * (u64 * Rabs X) + pow2 (-1075)).
    { unfold d. eapply Rle_trans; [apply Rabs_triang|]. lra. }
    assert (UX : 0 <= u64 * Rabs X) by (apply Rmult_le_pos; lra).
    assert (sqrt 2 * Rabs d <= 14143 / 10000 * (7 / 4 * (u64 * Rabs X) + pow2 (-1075))) by (apply Rmult_le_compat; try lra; apply Rabs_pos). lra. }
  eapply Rle_trans; [apply (Phi_near X (Y * sqrt 2) (3 * u64) (2 * pow2 (-1075))); [| | exact N]; lra|]. lra.
Qed.
Lemma Phi_Y : Phi (Y * sqrt 2) = 1 / 2 + 1 / 2 * erfR Y.
Proof. rewrite Phi_erf. do 3 f_equal. destruct sqrt2_val as [[S1 S2] Q]. field. lra. Qed.

Lemma close_abs p r : close p r -> Rabs r <= 1 -> is_finite p = true /\ Rabs (B2R p - r) <= 8 * u64 * Rabs r + u64 * / 1000.
Proof.
  intros [F C] H. split; [exact F|]. replace (pow2 (-50)) with (8 * u64) in C by (cbn; lra). pose proof (pow_1000 (-1075) ltac:(lia)). lra.
Qed.
Let ok (p : f64) : Prop := is_finite p = true /\ 0 <= B2R p <= 1 /\ Rabs (B2R p - Phi X) <= 16 * u64.

Lemma branch_erf : Rabs Y <= 3 / 4 -> ok (Bplus mode_NE half64 (Bmult mode_NE half64 (l_erf L y))).
Proof.
  intros HY. destruct y_val as [Fy _]. destruct (HL y Fy) as [Ce _]. fold Y in Ce. pose proof (erf_small_arg Y HY) as Es. pose proof u64_small as U.
  destruct (close_abs _ _ Ce ltac:(lra)) as [Fe Ee]. set (e := l_erf L y) in *. set (E := erfR Y) in *.
  assert (Ea : Rabs (B2R e) <= 1).
  { replace (B2R e) with (B2R e - E + E) by ring. eapply Rle_trans; [apply Rabs_triang|].
    assert (8 * u64 * Rabs E <= 8 * u64 * 1) by (apply Rmult_le_compat_l; lra). lra. }
  destruct (half_mul e Fe ltac:(lra)) as [Fh Eh]. set (h := Bmult mode_NE half64 e) in *.
  pose proof gen_half as GH.
  assert (Hb : - (1 / 2) <= B2R h <= 1 / 2).
  { rewrite Eh. apply Rabs_le_inv in Ea. rewrite <- (rnd_gen (1 / 2) GH) at 1 4. rewrite <- rnd_opp. split; apply rnd_mono; lra. }
  assert (Hd : Rabs (B2R h - 1 / 2 * B2R e) <= u64 * (1 / 2) + u64 * / 1000).
  { rewrite Eh. eapply Rle_trans; [apply small_err|]; rewrite Rabs_mult, (Rabs_pos_eq (1 / 2)) by lra; [lra|].
    assert (u64 * (1 / 2 * Rabs (B2R e)) <= u64 * (1 / 2)) by (apply Rmult_le_compat_l; lra). lra. }
  destruct half64_val as [FH EH].
  destruct (add_fl half64 h FH Fh) as [Fs Es'].
  { rewrite EH. apply rnd_lt_max with 1%Z; [lia|]. change (pow2 1) with 2. apply Rabs_le. lra. }
  rewrite EH in Es'. split; [exact Fs|]. rewrite Es'. split.
  { split; [apply rnd_nonneg; lra|]. apply Rle_trans with (rnd 1); [apply rnd_mono; lra | rewrite rnd1; lra]. }
  assert (Hs : Rabs (rnd (1 / 2 + B2R h) - (1 / 2 + B2R h)) <= u64 * 1 + u64 * / 1000).
  { eapply Rle_trans; [apply small_err; apply Rabs_le; lra|].
    assert (u64 * Rabs (1 / 2 + B2R h) <= u64 * 1) by (apply Rmult_le_compat_l; [lra | apply Rabs_le; lra]). lra. }
  pose proof z_near as Z. rewrite Phi_Y in Z. fold E in Z.
  assert (8 * u64 * Rabs E <= 8 * u64 * 1) by (apply Rmult_le_compat_l; lra).
  apply Rabs_le_inv in Hs. apply Rabs_le_inv in Hd. apply Rabs_le_inv in Ee. apply Rabs_le_inv in Z. apply Rabs_le. lra.
Qed.
Section Tail.
Let q := Bmult mode_NE half64 (l_erfc L (Babs y)).
Lemma tail_val : is_finite q = true /\ 0 <= B2R q <= 1 /\ Rabs (B2R q - 1 / 2 * erfcR (Rabs Y)) <= 6 * u64 /\ B2R q <= 1 / 2 * erfcR (Rabs Y) * (1 + 10 * u64) + pow2 (-1000).
Proof.
  destruct y_val as [Fy _]. assert (Fa : is_finite (Babs y) = true) by (rewrite is_finite_Babs; exact Fy).
  destruct (HL (Babs y) Fa) as [_ Ce]. rewrite B2R_Babs in Ce. fold Y in Ce. pose proof u64_small as U.
  pose proof (erfc_pos (Rabs Y)) as P. assert (P1 : erfcR (Rabs Y) <= 1).
  { unfold erfcR. rewrite erf_gI. pose proof (gI_nonneg (Rabs Y) (Rabs_pos Y)) as G. pose proof sqrt_PI_pos as S.
    assert (0 <= 2 / sqrt PI * gI (Rabs Y)) by (apply Rmult_le_pos; [apply Rlt_le, Rdiv_lt_0_compat; lra | exact G]). lra. }
  unfold q. set (e := l_erfc L (Babs y)) in *. set (E := erfcR (Rabs Y)) in *.
  destruct Ce as [Fe Ce]. rewrite (Rabs_pos_eq E) in Ce by lra. replace (pow2 (-50)) with (8 * u64) in Ce by (cbn; lra).
  pose proof (pow_1000 (-1075) ltac:(lia)) as T1. pose proof (pow2_pos (-1075)) as T0.
  assert (Ub : 8 * u64 * E <= 8 * u64 * 1) by (apply Rmult_le_compat_l; lra).
  assert (UE : 0 < u64 * E) by (apply Rmult_lt_0_compat; lra).
  apply Rabs_le_inv in Ce.
  assert (N : 0 <= B2R e).
  { apply float_nonneg. assert (pow2 (-1074) = 2 * pow2 (-1075)) by (change (-1074)%Z with (1 + -1075)%Z; rewrite bpow_plus; reflexivity).
    assert (8 * u64 * E <= E) by (assert (8 * u64 * E <= 1 * E) by (apply Rmult_le_compat_r; lra); lra). lra. }
  assert (A : B2R e <= 2) by lra.
  destruct (half_mul e Fe ltac:(rewrite Rabs_pos_eq by lra; lra)) as [Fh Eh]. set (h := Bmult mode_NE half64 e) in *.
  assert (R : Rabs (B2R h - 1 / 2 * B2R e) <= u64 * (1 / 2 * B2R e) + pow2 (-1075)).
  { rewrite Eh. pose proof (rnd_err (1 / 2 * B2R e)) as R. fold u64 in R. rewrite (Rabs_pos_eq (1 / 2 * B2R e)) in R by lra. exact R. }
  assert (ue : u64 * (1 / 2 * B2R e) <= u64 * (1 / 2 * (E + 8 * u64 * E + pow2 (-1075)))) by (apply Rmult_le_compat_l; lra).
  assert (uu : u64 * (8 * u64 * E + pow2 (-1075)) <= / 1000000 * (8 * u64 * E + pow2 (-1075))) by (apply Rmult_le_compat_r; lra).
  apply Rabs_le_inv in R.
  split; [exact Fh|]. split.
  { rewrite Eh. split; [apply rnd_nonneg; lra|]. apply Rle_trans with (rnd 1); [apply rnd_mono; lra | rewrite rnd1; lra]. }
  split; [apply Rabs_le; lra|].
  assert (pow2 (-1075) * 10 <= pow2 (-1000)).
  { apply Rle_trans with (pow2 (-1075) * pow2 75); [apply Rmult_le_compat_l; [lra|]; cbn; lra|]. rewrite <- bpow_plus. apply bpow_le. lia. }
  lra.
Qed.
Lemma branch_neg : Y <= 0 -> ok q.
Proof.
  intros HY. destruct tail_val as (F & R & Er & _). split; [exact F|]. split; [exact R|].
  pose proof z_near as Z. rewrite Phi_Y in Z. rewrite (Rabs_left1 Y) in Er by lra. unfold erfcR in Er. rewrite erf_odd in Er.
  apply Rabs_le_inv in Er. apply Rabs_le_inv in Z. pose proof u64_small. apply Rabs_le. lra.
Qed.
Lemma branch_pos : 0 < Y -> ok (Bminus mode_NE (f64_ofZ 1) q).
Proof.
  intros HY. destruct tail_val as (F & R & Er & _). destruct one_fin as [F1 E1]. pose proof u64_small as U.
  destruct (sub_fl (f64_ofZ 1) q F1 F) as [Fs Es].
  { rewrite E1. apply rnd_lt_max with 1%Z; [lia|]. change (pow2 1) with 2. apply Rabs_le. lra. }
  rewrite E1 in Es. split; [exact Fs|]. rewrite Es. split.
  { split; [apply rnd_nonneg; lra|]. apply Rle_trans with (rnd 1); [apply rnd_mono; lra | rewrite rnd1; lra]. }
  assert (Hs : Rabs (rnd (1 - B2R q) - (1 - B2R q)) <= u64 * 1 + u64 * / 1000).
  { eapply Rle_trans; [apply small_err; apply Rabs_le; lra|].
    assert (u64 * Rabs (1 - B2R q) <= u64 * 1) by (apply Rmult_le_compat_l; [lra | apply Rabs_le; lra]). lra. }
  pose proof z_near as Z. rewrite Phi_Y in Z. rewrite (Rabs_pos_eq Y) in Er by lra. unfold erfcR in Er.
  apply Rabs_le_inv in Hs. apply Rabs_le_inv in Er. apply Rabs_le_inv in Z. apply Rabs_le. lra.
Qed.
End Tail.
Lemma ltb_val (a b : f64) : is_finite a = true -> is_finite b = true -> Bltb a b = Rlt_bool (B2R a) (B2R b).
Proof. intros Ha Hb. apply Bltb_correct; assumption. Qed.
Lemma zero_val : is_finite (f64_ofZ 0) = true /\ B2R (f64_ofZ 0) = 0. Proof. apply (ofZ_fl 0). vm_compute. discriminate. Qed.
Lemma cdf_val_f64 : ok (@cdf_val (F64 L) c64 y).
Proof.
  unfold cdf_val. change (@lit (F64 L) 5 1) with half64. cbn [nabs F64 nltb nadd nmul nsub nofZ nerf nerfc car].
  destruct y_val as [Fy _]. assert (Fa : is_finite (Babs y) = true) by (rewrite is_finite_Babs; exact Fy).
  rewrite (ltb_val (Babs y) c64 Fa (proj1 c64_val)), B2R_Babs. fold Y.
  destruct (Rlt_bool_spec (Rabs Y) (B2R c64)) as [A|A].
  - apply branch_erf. rewrite (proj2 c64_val) in A. cbn in A. lra.
  - rewrite (ltb_val (f64_ofZ 0) y (proj1 zero_val) Fy), (proj2 zero_val). fold Y.
    destruct (Rlt_bool_spec 0 Y) as [B|B]; [apply branch_pos; exact B | apply branch_neg; exact B].
Qed.
End One.

(** ** The arrays *)
Lemma finite_no_nan (d : list f64) : all_finite d -> existsb is_nan d = false.
Proof.
  intros H. induction d as [|x d IH]; [reflexivity|]. cbn [existsb]. rewrite IH by (intros z Hz; apply H; right; exact Hz).
  pose proof (H x (or_introl eq_refl)) as F. destruct x; cbn in *; try reflexivity; discriminate.
Qed.
Lemma cdf_run64 (L : Libm) s (d : list f64) : d <> [] -> all_finite d ->
  cdf (N := F64 L) DFloat (Arr (N := F64 L) s d) = Ok (Arr (N := F64 L) s (map (fun x : f64 => @cdf_val (F64 L) c64 (Bmult mode_NE x c64)) d)).
Proof. intros H F. exact (cdf_run (N := F64 L) DFloat s d H (finite_no_nan d F)). Qed.
Lemma nd_check64 (L : Libm) s (d : list f64) : d <> [] -> all_finite d -> nd_check (N := F64 L) (Arr (N := F64 L) s d) = Ok tt.
Proof. intros H F. exact (nd_check_ok (N := F64 L) (Arr (N := F64 L) s d) H (finite_no_nan d F)). Qed.
Lemma sf_run64 (L : Libm) s (d : list f64) : d <> [] -> all_finite d ->
  sf (N := F64 L) DFloat (Arr (N := F64 L) s d) =
  Ok (Arr (N := F64 L) s (map (fun x : f64 => Bminus mode_NE (f64_ofZ 1) (@cdf_val (F64 L) c64 (Bmult mode_NE x c64))) d)).
Proof. intros H F. unfold sf. rewrite nd_check64 by assumption. cbn [bind]. rewrite cdf_run64 by assumption. cbn [bind nd_map]. rewrite map_map. reflexivity. Qed.

Lemma cdf_f64 (L : Libm) s (d : list f64) : erf_accurate L -> d <> [] -> all_finite d ->
  exists c t : list f64, cdf (N := F64 L) DFloat (Arr (N := F64 L) s d) = Ok (Arr (N := F64 L) s c) /\
    sf (N := F64 L) DFloat (Arr (N := F64 L) s d) = Ok (Arr (N := F64 L) s t) /\ length c = length d /\ length t = length d /\
    forall i x, nth_error d i = Some x -> exists p q, nth_error c i = Some p /\ nth_error t i = Some q /\
      is_finite p = true /\ is_finite q = true /\ 0 <= B2R p <= 1 /\ 0 <= B2R q <= 1 /\
      Rabs (B2R p - Phi (B2R x)) <= pow2 (-49) /\ Rabs (B2R q - (1 - Phi (B2R x))) <= pow2 (-48).
Proof.
  intros HL H F. eexists. eexists. split; [exact (cdf_run64 L s d H F)|]. split; [exact (sf_run64 L s d H F)|].
  rewrite !map_length. split; [reflexivity|]. split; [reflexivity|].
  intros i x Hx. rewrite !nth_error_map, Hx. do 2 eexists. split; [reflexivity|]. split; [reflexivity|].
  pose proof (cdf_val_f64 L HL x (F x (nth_error_In _ _ Hx))) as (Fp & Rp & Ep). set (p := cdf_val (N := F64 L) c64 (Bmult mode_NE x c64)) in *.
  change (car (F64 L)) with f64 in p.
  destruct one_fin as [F1 E1]. pose proof u64_small as U.
  destruct (sub_fl (f64_ofZ 1) p F1 Fp) as [Fs Es].
  { rewrite E1. apply rnd_lt_max with 1%Z; [lia|]. change (pow2 1) with 2. apply Rabs_le. lra. }
  rewrite E1 in Es. split; [exact Fp|]. split; [exact Fs|]. split; [exact Rp|]. rewrite Es. split.
  { split; [apply rnd_nonneg; lra|]. apply Rle_trans with (rnd 1); [apply rnd_mono; lra | rewrite rnd1; lra]. }
  replace (pow2 (-49)) with (16 * u64) by (cbn; lra). replace (pow2 (-48)) with (32 * u64) by (cbn; lra).
  split; [exact Ep|].
  assert (Hs : Rabs (rnd (1 - B2R p) - (1 - B2R p)) <= u64 * 1 + u64 * / 1000).
  { eapply Rle_trans; [apply small_err; apply Rabs_le; lra|].
    assert (u64 * Rabs (1 - B2R p) <= u64 * 1) by (apply Rmult_le_compat_l; [lra | apply Rabs_le; lra]). lra. }
  apply Rabs_le_inv in Hs. apply Rabs_le_inv in Ep. apply Rabs_le. lra.
Qed.

(** ** The upper tail *)
Lemma exp_mult_INR t n : exp (INR n * t) = exp t ^ n.
Proof. induction n as [|n IH]; [cbn [INR pow]; rewrite Rmult_0_l; apply exp_0|]. rewrite S_INR. replace ((INR n + 1) * t) with (t + INR n * t) by ring. rewrite exp_plus, IH. reflexivity. Qed.
Lemma exp_39 : exp (-39) <= / IZR (33 * 10 ^ 15).
Proof.
  replace (-39) with (- (INR 780 * (/ 20))) by (rewrite INR_IZR_INZ; replace (Z.of_nat 780) with 780%Z by (vm_compute; reflexivity); lra). rewrite exp_Ropp, exp_mult_INR.
  apply Rinv_le_contravar; [apply IZR_lt; reflexivity|]. apply Rle_trans with ((21 / 20) ^ 780).
  - assert (E : (21 / 20) ^ 780 * IZR (20 ^ 780) = IZR (21 ^ 780)).
    { change (20 ^ 780)%Z with (20 ^ Z.of_nat 780)%Z. change (21 ^ 780)%Z with (21 ^ Z.of_nat 780)%Z. rewrite <- !pow_IZR, <- Rpow_mult_distr. f_equal. lra. }
    assert (P : 0 < IZR (20 ^ 780)) by (apply IZR_lt; vm_compute; reflexivity).
    apply Rmult_le_reg_r with (IZR (20 ^ 780)); [exact P|]. rewrite E, <- mult_IZR. apply IZR_le. vm_compute. discriminate.
  - apply pow_incr. split; [lra|]. pose proof (exp_ineq1_le (/ 20)). lra.
Qed.
Lemma rnd_just_below_one t : 0 <= t <= pow2 (-54) -> rnd (1 - t) = 1.
Proof.
  intros [H0 H]. apply Rle_antisym; [apply Rle_trans with (rnd 1); [apply rnd_mono; lra | rewrite rnd1; lra]|].
  apply Rle_trans with (rnd (1 - pow2 (-54))); [right; symmetry | apply rnd_mono; lra].
  set (h := Bdiv mode_NE (f64_ofZ 1) (f64_ofZ (2 ^ 54))).
  assert (Hh : is_finite h = true /\ B2R h = pow2 (-54)).
  { split; [vm_compute; reflexivity|]. rewrite <- SF2R_B2SF. replace (B2SF h) with (SpecFloat.S754_finite false 4503599627370496 (-106)) by (vm_compute; reflexivity).
    cbn. unfold F2R. cbn. lra. }
  assert (E : Bminus mode_NE (f64_ofZ 1) h = f64_ofZ 1) by (apply B2SF_eq; vm_compute; reflexivity).
  destruct Hh as [Fh Eh]. destruct (sub_fl (f64_ofZ 1) h) as [_ B]; [apply one_fin | exact Fh | |].
  - rewrite Eh, (proj2 one_fin). apply rnd_lt_max with 1%Z; [lia|]. cbn. apply Rabs_le. lra.
  - rewrite E, Eh, (proj2 one_fin) in B. symmetry. exact B.
Qed.
Lemma one_unique (p : f64) : is_finite p = true -> B2R p = 1 -> p = f64_ofZ 1.
Proof.
  intros F E. destruct one_fin as [F1 E1]. apply B2R_inj; [| |congruence].
  - destruct p; cbn in *; try discriminate; try lra; reflexivity.
  - vm_compute. reflexivity.
Qed.
Lemma cdf_is_one (L : Libm) (x : f64) : erf_accurate L -> is_finite x = true -> 9 <= B2R x ->
  cdf_val (N := F64 L) c64 (Bmult mode_NE x c64) = f64_ofZ 1.
Proof.
  intros HL Fx Hx. destruct (y_val x Fx) as [Fy Ey]. destruct (tail_val L HL x Fx) as (Fq & Rq & _ & Uq).
  set (y := Bmult mode_NE x c64) in *. set (q := Bmult mode_NE half64 (l_erfc L (Babs y))) in *. set (Y := B2R y) in *.
  assert (HY : 25 / 4 <= Y).
  { rewrite Ey. assert (G : generic_format radix2 fexp64 (25 / 4)).
    { apply generic_format_FLT. exists (Float radix2 25 (-2)); cbn; [unfold F2R; cbn; lra | reflexivity | lia]. }
    rewrite <- (rnd_gen _ G) at 1. apply rnd_mono. assert (C : 7 / 10 <= B2R c64) by (rewrite (proj2 c64_val); cbn; lra).
    assert (9 * (7 / 10) <= B2R x * B2R c64) by (apply Rmult_le_compat; lra). lra. }
  assert (Q : B2R q <= pow2 (-54)).
  { rewrite (Rabs_pos_eq Y) in Uq by lra. pose proof (erfc_le Y ltac:(lra)) as B. pose proof (erfc_pos Y) as P. pose proof u64_small as U.
    assert (X : exp (- (Y * Y)) <= exp (-39)).
    { assert (25 / 4 * (25 / 4) <= Y * Y) by (apply Rmult_le_compat; lra). apply Rlt_le, exp_increasing. lra. }
    pose proof exp_39 as X9. change (33 * 10 ^ 15)%Z with 33000000000000000%Z in X9.
    assert (T : pow2 (-1000) <= pow2 (-60)) by (apply bpow_le; lia). replace (pow2 (-60)) with (/ 1152921504606846976) in T by (cbn; lra).
    assert (K : 1 / 2 * erfcR Y * (1 + 10 * u64) <= / 33000000000000000 * (1 + 10 * u64)) by (apply Rmult_le_compat_r; lra).
    assert (u : u64 * / 33000000000000000 <= / 1000000 * / 33000000000000000) by (apply Rmult_le_compat_r; lra).
    replace (pow2 (-54)) with (/ 18014398509481984) by (cbn; lra). lra. }
  unfold cdf_val. change (@lit (F64 L) 5 1) with half64. cbn [nabs F64 nltb nadd nmul nsub nofZ nerf nerfc car].
  assert (Fa : is_finite (Babs y) = true) by (rewrite is_finite_Babs; exact Fy).
  rewrite (ltb_val (Babs y) c64 Fa (proj1 c64_val)), B2R_Babs. fold Y.
  rewrite Rlt_bool_false by (rewrite Rabs_pos_eq by lra; rewrite (proj2 c64_val); cbn; lra).
  rewrite (ltb_val (f64_ofZ 0) y (proj1 zero_val) Fy), (proj2 zero_val). fold Y. rewrite Rlt_bool_true by lra.
  fold q. destruct one_fin as [F1 E1]. destruct (sub_fl (f64_ofZ 1) q F1 Fq) as [Fs Es].
  { rewrite E1. apply rnd_lt_max with 1%Z; [lia|]. change (pow2 1) with 2. apply Rabs_le. lra. }
  apply one_unique; [exact Fs|]. rewrite Es, E1. apply rnd_just_below_one. lra.
Qed.
Lemma sf_tail (L : Libm) s (d : list f64) : erf_accurate L -> d <> [] -> all_finite d -> (forall x, In x d -> 9 <= B2R x) ->
  cdf (N := F64 L) DFloat (Arr (N := F64 L) s d) = Ok (Arr (N := F64 L) s (map (fun _ => f64_ofZ 1) d)) /\
  sf (N := F64 L) DFloat (Arr (N := F64 L) s d) = Ok (Arr (N := F64 L) s (map (fun _ => f64_ofZ 0) d)) /\
  log_sf (N := F64 L) DFloat (Arr (N := F64 L) s d) = Ok (Arr (N := F64 L) s (map (fun _ => l_log L (f64_ofZ 0)) d)) /\
  (forall x, In x d -> 0 < 1 - Phi (B2R x)).
Proof.
  intros HL H F H9.
  assert (S : sf (N := F64 L) DFloat (Arr (N := F64 L) s d) = Ok (Arr (N := F64 L) s (map (fun _ => f64_ofZ 0) d))).
  { rewrite (sf_run64 L s d H F). do 2 f_equal. apply map_ext_in. intros x Hx. rewrite (cdf_is_one L x HL (F x Hx) (H9 x Hx)).
    apply B2SF_eq. vm_compute. reflexivity. }
  split; [|split; [exact S|split]].
  - rewrite (cdf_run64 L s d H F). do 2 f_equal. apply map_ext_in. intros x Hx. apply (cdf_is_one L x HL (F x Hx) (H9 x Hx)).
  - unfold log_sf. rewrite S. cbn [bind nd_map]. rewrite map_map. reflexivity.
  - intros x _. pose proof (Phi_bound (B2R x)). lra.
Qed.

(** ** A correctly rounded libm is accurate *)
Definition fl (r : R) : f64 :=
  binary_normalize 53 1024 _ _ mode_NE (Ztrunc (scaled_mantissa radix2 fexp64 (rnd r))) (cexp radix2 fexp64 (rnd r)) false.
Lemma fl_val r : Rabs (rnd r) < pow2 1024 -> is_finite (fl r) = true /\ B2R (fl r) = rnd r.
Proof.
  intros H. pose proof (binary_normalize_correct 53 1024 _ _ mode_NE (Ztrunc (scaled_mantissa radix2 fexp64 (rnd r))) (cexp radix2 fexp64 (rnd r)) false) as C.
  cbn [round_mode] in C. change (SpecFloat.fexp 53 1024) with fexp64 in C.
  assert (G : generic_format radix2 fexp64 (rnd r)) by (apply generic_format_round; typeclasses eauto).
  assert (E : F2R (Float radix2 (Ztrunc (scaled_mantissa radix2 fexp64 (rnd r))) (cexp radix2 fexp64 (rnd r))) = rnd r) by (symmetry; exact G).
  rewrite E in C. rewrite (rnd_gen _ G) in C. rewrite Rlt_bool_true in C by exact H. destruct C as (E1 & E2 & _). split; [exact E2 | exact E1].
Qed.
Definition libm_round : Libm := {|
  l_sum := l_sum libm_basic; l_prod := l_prod libm_basic; l_ipow := l_ipow libm_basic; l_pow := fun x y => fl (Rpower (B2R x) (B2R y));
  l_sin := fun x => fl (sin (B2R x)); l_cos := fun x => fl (cos (B2R x)); l_tan := fun x => fl (tan (B2R x)); l_atan := fun x => fl (atan (B2R x));
  l_atan2 := l_atan2 libm_basic; l_exp := fun x => fl (exp (B2R x)); l_log := fun x => fl (ln (B2R x));
  l_erf := fun x => fl (erfR (B2R x)); l_erfc := fun x => fl (erfcR (B2R x)); l_pi := fl PI |}.
Lemma fl_close r : Rabs r <= 2 -> close (fl r) r.
Proof.
  intros H. destruct (fl_val r) as [F E]; [apply rnd_lt_max with 1%Z; [lia | exact H]|]. split; [exact F|]. rewrite E.
  pose proof (rnd_err r) as R. assert (pow2 (-53) <= pow2 (-50)) by (apply bpow_le; lia).
  assert (pow2 (-53) * Rabs r <= pow2 (-50) * Rabs r) by (apply Rmult_le_compat_r; [apply Rabs_pos | lra]). lra.
Qed.
Lemma libm_round_accurate : erf_accurate libm_round.
Proof. intros y _. pose proof (erf_bound (B2R y)). split; apply fl_close; unfold erfcR; apply Rabs_le; lra. Qed.
