(** The normal density in binary64. *)
From Coq Require Import Reals Lra Lia.
From Coquelicot Require Import Coquelicot.
From Flocq Require Import Core Relative IEEE754.BinarySingleNaN.
From Verif Require Export Num Lib XR F64 Spec Spec2 Spec6 Spec7 Spec19 M_normal P_gauss P_normal P_float P_float2 P_fsum P_fkalman P_fnormal.
Import ListNotations.
Local Open Scope R_scope.

Local Existing Instance F64.prec_gt_0_53.
Local Existing Instance F64.prec_lt_emax_53.

(** ** Real analysis *)
Lemma exp_diff a b : Rabs (exp a - exp b) <= Rabs (a - b) * (exp a + exp b).
Proof.
  assert (G : forall x y, x <= y -> exp y - exp x <= (y - x) * exp y).
  { intros x y _. pose proof (exp_ineq1_le (x - y)) as E. replace (exp x) with (exp y * exp (x - y)) by (rewrite <- exp_plus; f_equal; ring).
    pose proof (exp_pos y) as P. apply (Rmult_le_compat_l (exp y)) in E; [|lra]. lra. }
  pose proof (exp_pos a) as Pa. pose proof (exp_pos b) as Pb. destruct (Rle_dec a b) as [H|H].
  - pose proof (G a b H) as D. rewrite (Rabs_left1 (a - b)) by lra. assert (exp a <= exp b) by (destruct H as [H|<-]; [left; apply exp_increasing, H | right; reflexivity]).
    rewrite Rabs_left1 by lra. assert (0 <= (b - a) * exp a) by (apply Rmult_le_pos; lra). lra.
  - pose proof (G b a ltac:(lra)) as D. rewrite (Rabs_pos_eq (a - b)) by lra. assert (exp b < exp a) by (apply exp_increasing; lra).
    rewrite Rabs_pos_eq by lra. assert (0 <= (a - b) * exp b) by (apply Rmult_le_pos; lra). lra.
Qed.
Lemma ln_diff a b : 0 < a -> 0 < b -> Rabs (ln a - ln b) <= Rabs (a - b) / Rmin a b.
Proof.
  assert (G : forall x y, 0 < x -> x <= y -> 0 <= ln y - ln x <= (y - x) / x).
  { intros x y Hx Hy. assert (ln x <= ln y) by (destruct Hy as [Hy|<-]; [left; apply ln_increasing; lra | right; reflexivity]).
    replace (ln y - ln x) with (ln (y / x)) by (unfold Rdiv; rewrite ln_mult, ln_Rinv by (try apply Rinv_0_lt_compat; lra); ring).
    split; [unfold Rdiv; rewrite ln_mult, ln_Rinv by (try apply Rinv_0_lt_compat; lra); lra|].
    assert (P : 0 < y / x) by (apply Rdiv_lt_0_compat; lra).
    pose proof (exp_ineq1_le (ln (y / x))) as E. rewrite exp_ln in E by exact P. replace ((y - x) / x) with (y / x - 1) by (field; lra). lra. }
  intros Ha Hb. destruct (Rle_dec a b) as [H|H].
  - rewrite Rmin_left by exact H. pose proof (G a b Ha H). rewrite !(Rabs_left1 (_ - _)) by lra. replace (- (a - b)) with (b - a) by ring. lra.
  - rewrite Rmin_right by lra. pose proof (G b a Hb ltac:(lra)). rewrite !(Rabs_pos_eq (_ - _)) by lra. lra.
Qed.
Lemma ln_2_le : ln 2 <= 1.
Proof. pose proof (exp_ineq1_le (ln 2)) as E. rewrite exp_ln in E by lra. lra. Qed.
Lemma ln_2PI : 1 <= ln (2 * PI) <= 3.
Proof.
  pose proof PI_gt_3. pose proof PI_4. pose proof exp_le_3 as E3. pose proof ln_2_le as L2. split.
  - rewrite <- (ln_exp 1). left. apply ln_increasing; [apply exp_pos | lra].
  - apply Rle_trans with (ln 8); [destruct (Req_dec (2 * PI) 8) as [->|]; [lra | left; apply ln_increasing; lra]|].
    replace 8 with (2 * (2 * 2)) by ring. rewrite !ln_mult by lra. lra.
Qed.
Lemma ln_pow2 e : ln (pow2 e) = IZR e * ln 2.
Proof. rewrite bpow_exp, ln_exp. reflexivity. Qed.
Lemma ln_range (x : R) (k : Z) : pow2 (- k) <= x <= pow2 k -> Rabs (ln x) <= IZR k.
Proof.
  intros [H1 H2]. pose proof (bpow_gt_0 radix2 (- k)) as P. pose proof ln_2_le as L2. pose proof ln_lt_2 as L0.
  assert (M : forall a b, 0 < a -> a <= b -> ln a <= ln b) by (intros a b Ha [Hb|<-]; [left; apply ln_increasing; lra | right; reflexivity]).
  pose proof (M _ _ P H1) as A. pose proof (M x _ ltac:(lra) H2) as B. rewrite ln_pow2 in A, B. rewrite opp_IZR in A.
  assert (K : 0 <= IZR k).
  { apply Rnot_lt_le. intros K. apply lt_IZR in K. assert (pow2 k < pow2 (- k)) by (apply bpow_lt; lia). lra. }
  assert (IZR k * ln 2 <= IZR k * 1) by (apply Rmult_le_compat_l; lra). apply Rabs_le. lra.
Qed.

Lemma exp_nat n x : exp (INR n * x) = exp x ^ n.
Proof. induction n as [|n IH]; [rewrite Rmult_0_l, exp_0; reflexivity | rewrite S_INR, Rmult_plus_distr_r, Rmult_1_l, exp_plus, IH; cbn; ring]. Qed.
Lemma exp_minus_760 z : z <= -760 -> exp z <= pow2 (-1077).
Proof.
  intros H. assert (L2 : ln 2 <= 704 / 1000).
  { assert (E : 2 <= exp (704 / 1000)).
    { replace (704 / 1000) with (INR 32 * (22 / 1000)) by (cbn; lra). rewrite exp_nat.
      apply Rle_trans with ((1022 / 1000) ^ 32); [cbn; lra|]. apply pow_incr. pose proof (exp_ineq1_le (22 / 1000)). lra. }
    rewrite <- (ln_exp (704 / 1000)). destruct E as [E|<-]; [left; apply ln_increasing; lra | right; reflexivity]. }
  rewrite bpow_exp. assert (X : z <= IZR (-1077) * ln (IZR radix2)) by (change (IZR radix2) with 2; lra).
  destruct X as [X | ->]; [left; apply exp_increasing; exact X | right; reflexivity].
Qed.
Lemma abs_B2R_ge_emin_64 (x : f64) : B2R x <> 0 -> pow2 (-1074) <= Rabs (B2R x).
Proof.
  intros H. apply generic_format_ge_bpow with fexp64; [intros k; unfold FLT_exp; lia | apply Rabs_pos_lt; exact H | apply generic_format_abs, B2R_gen].
Qed.
Lemma B2R_finite_nz b m e H : B2R (B754_finite b m e H : f64) <> 0.
Proof. cbn. unfold F2R. cbn. intros E. apply Rmult_integral in E. pose proof (bpow_gt_0 radix2 e). destruct E as [E|E]; [destruct b; apply eq_IZR in E; discriminate | lra]. Qed.

(** ** The argument of the exponential *)
Notation eta := (pow2 (-1075)).
Lemma eta_small : 0 < eta <= u64 * / 1000. Proof. split; [apply bpow_gt_0 | apply pow_1000; lia]. Qed.
Lemma u64_tiny : 0 < u64 <= / 9000000000000000. Proof. pose proof pow2_53. lra. Qed.
Lemma close_8 p r : close p r -> is_finite p = true /\ Rabs (B2R p - r) <= 8 * u64 * Rabs r + eta.
Proof. intros [F H]. split; [exact F|]. replace (8 * u64) with (pow2 (-50)) by (cbn; lra). exact H. Qed.

Section One.
Variable L : Libm.
Hypothesis HL : exp_accurate L.
Variables s m a : f64.
Hypothesis Fs : is_finite s = true.
Hypothesis Fm : is_finite m = true.
Hypothesis Fa : is_finite a = true.
Let S := B2R s. Let M := B2R m. Let A := B2R a.
Hypothesis HS : pow2 (-100) <= S <= pow2 100.
Hypothesis HM : Rabs M <= pow2 400.
Hypothesis HA : Rabs A <= pow2 400.
Let D := A - M.
Let Y := D * D / (2 * (S * S)).
Let lam := 1 + Rabs (ln S).

Lemma S_pos : 0 < S. Proof. pose proof (bpow_gt_0 radix2 (-100)). lra. Qed.
Lemma lnS_le : Rabs (ln S) <= 100. Proof. apply (ln_range S 100). exact HS. Qed.
Lemma Y_nonneg : 0 <= Y.
Proof. unfold Y. pose proof S_pos. apply Rmult_le_pos; [apply Rle_0_sqr|]. left. apply Rinv_0_lt_compat. assert (0 < S * S) by (apply Rmult_lt_0_compat; lra). lra. Qed.

Let p2 : f64 := Bmult mode_NE (f64_ofZ 2) (l_pi L).
Lemma p2_val : is_finite p2 = true /\ Rabs (B2R p2 - 2 * PI) <= 65 * u64.
Proof.
  destruct HL as (_ & _ & HP). destruct (close_8 _ _ HP) as [FP EP]. destruct (ofZ_fl 2) as [F2 E2]; [vm_compute; discriminate|].
  pose proof PI_gt_3. pose proof PI_4. pose proof eta_small. pose proof u64_tiny. rewrite (Rabs_pos_eq PI) in EP by lra. 
  assert (8 * u64 * PI <= 8 * u64 * 4) by (apply Rmult_le_compat_l; lra). apply Rabs_le_inv in EP.
  assert (G : rnd (IZR 2 * B2R (l_pi L)) = 2 * B2R (l_pi L)) by (apply rnd_gen, double_gen, B2R_gen).
  destruct (mul_fl (f64_ofZ 2) (l_pi L) F2 FP) as [F E].
  - rewrite E2. apply rnd_lt_max with 4%Z; [lia|]. change (pow2 4) with 16. rewrite Rabs_pos_eq by lra. lra.
  - split; [exact F|]. unfold p2. rewrite E, E2, G. apply Rabs_le. lra.
Qed.
Let lg : f64 := l_log L p2.
Lemma lg_val : is_finite lg = true /\ Rabs (B2R lg - ln (2 * PI)) <= 50 * u64.
Proof.
  destruct p2_val as [F2 E2]. pose proof PI_gt_3. pose proof PI_4. pose proof eta_small. pose proof u64_tiny. pose proof ln_2PI.
  pose proof E2 as E2'. apply Rabs_le_inv in E2'.
  assert (P : 5 < B2R p2) by lra. destruct HL as (_ & HG & _). destruct (close_8 _ _ (HG p2 F2 ltac:(lra))) as [FL EL]. split; [exact FL|]. fold lg in EL.
  assert (Dl : Rabs (ln (B2R p2) - ln (2 * PI)) <= 13 * u64).
  { eapply Rle_trans; [apply ln_diff; lra|]. assert (Q : 5 <= Rmin (B2R p2) (2 * PI)) by (apply Rmin_glb; lra).
    apply Rmult_le_reg_r with (Rmin (B2R p2) (2 * PI)); [lra|]. unfold Rdiv. rewrite Rmult_assoc, Rinv_l, Rmult_1_r by lra.
    apply Rle_trans with (65 * u64); [exact E2|]. assert (13 * u64 * 5 <= 13 * u64 * Rmin (B2R p2) (2 * PI)) by (apply Rmult_le_compat_l; lra). lra. }
  apply Rabs_le_inv in Dl. assert (Rabs (ln (B2R p2)) <= 4) by (apply Rabs_le; lra).
  assert (8 * u64 * Rabs (ln (B2R p2)) <= 8 * u64 * 4) by (apply Rmult_le_compat_l; lra). apply Rabs_le_inv in EL. apply Rabs_le. lra.
Qed.
Let h : f64 := Bmult mode_NE (Bopp half64) lg.
Lemma h_val : is_finite h = true /\ Rabs (B2R h + 1 / 2 * ln (2 * PI)) <= 28 * u64.
Proof.
  destruct lg_val as [FL EL]. pose proof eta_small. pose proof u64_tiny. pose proof ln_2PI. apply Rabs_le_inv in EL.
  destruct half64_val as [FH EH].
  assert (EO : B2R (Bopp half64) = - (1 / 2)) by (rewrite B2R_Bopp, EH; reflexivity).
  destruct (mul_fl (Bopp half64) lg) as [F E]; [rewrite is_finite_Bopp; exact FH | exact FL | |].
  - rewrite EO. apply rnd_lt_max with 2%Z; [lia|]. change (pow2 2) with 4. apply Rabs_le. lra.
  - split; [exact F|]. unfold h. rewrite E, EO. pose proof (rnd_err (- (1 / 2) * B2R lg)) as R. 
    assert (Rabs (- (1 / 2) * B2R lg) <= 2) by (apply Rabs_le; lra). assert (u64 * Rabs (- (1 / 2) * B2R lg) <= u64 * 2) by (apply Rmult_le_compat_l; lra).
    apply Rabs_le_inv in R. apply Rabs_le. lra.
Qed.
Let ls : f64 := l_log L s.
Lemma ls_val : is_finite ls = true /\ Rabs (B2R ls - ln S) <= 8 * u64 * Rabs (ln S) + eta.
Proof. destruct HL as (_ & HG & _). apply close_8. apply HG; [exact Fs | exact S_pos]. Qed.
Let cx : f64 := Bminus mode_NE h ls.
Lemma cx_val : is_finite cx = true /\ Rabs (B2R cx - (- (1 / 2) * ln (2 * PI) - ln S)) <= 32 * u64 * lam /\ Rabs (B2R cx) <= 3 + 2 * Rabs (ln S).
Proof.
  destruct h_val as [Fh Eh]. destruct ls_val as [Fl El]. pose proof eta_small. pose proof u64_tiny. pose proof ln_2PI. pose proof lnS_le as B.
  pose proof (Rabs_pos (ln S)) as P. set (n := Rabs (ln S)) in *.
  assert (N1 : - n <= ln S <= n) by (apply Rabs_le_inv; unfold n; lra).
  assert (U : u64 * n <= / 9000000000000000 * n) by (apply Rmult_le_compat_r; lra).
  apply Rabs_le_inv in Eh. apply Rabs_le_inv in El. 
  assert (Q : Rabs (B2R h - B2R ls) <= 2 + n + / 1000 * n) by (apply Rabs_le; lra).
  destruct (sub_fl h ls Fh Fl) as [F E]; [apply rnd_lt_max with 10%Z; [lia|]; change (pow2 10) with 1024; lra|].
  fold cx in F, E. split; [exact F|]. pose proof (rnd_err (B2R h - B2R ls)) as R.  rewrite <- E in R.
  assert (V : u64 * Rabs (B2R h - B2R ls) <= u64 * (2 + n + / 1000 * n)) by (apply Rmult_le_compat_l; lra).
  assert (W : 0 <= u64 * n) by (apply Rmult_le_pos; lra).
  apply Rabs_le_inv in R. split.
  - unfold lam. fold n. apply Rabs_le. lra.
  - apply Rabs_le. lra.
Qed.
Let d : f64 := Bminus mode_NE a m.
Lemma d_val : is_finite d = true /\ Rabs (B2R d - D) <= u64 * Rabs D.
Proof.
  assert (Q : Rabs (A - M) <= pow2 401).
  { replace (pow2 401) with (pow2 400 + pow2 400) by (change 401%Z with (1 + 400)%Z; rewrite bpow_plus; change (pow2 1) with 2; ring).
    eapply Rle_trans; [apply Rabs_triang|]. rewrite Rabs_Ropp. lra. }
  destruct (sub_fl a m Fa Fm) as [F E]; [apply rnd_lt_max with 401%Z; [lia | exact Q]|]. split; [exact F|]. unfold d. rewrite E. fold A M.
  unfold D, Rminus at 1 3. apply (rnd_sum A (- M)); [apply B2R_gen | apply generic_format_opp, B2R_gen].
Qed.
Lemma D_le : Rabs D <= pow2 401.
Proof.
  replace (pow2 401) with (pow2 400 + pow2 400) by (change 401%Z with (1 + 400)%Z; rewrite bpow_plus; change (pow2 1) with 2; ring).
  unfold D. eapply Rle_trans; [apply Rabs_triang|]. rewrite Rabs_Ropp. lra.
Qed.
Let q : f64 := Bmult mode_NE d d.
Lemma q_val : is_finite q = true /\ Rabs (B2R q - D * D) <= 5 * u64 * (D * D) + eta /\ D * D <= pow2 802.
Proof.
  destruct d_val as [Fd Ed]. pose proof D_le as DL. pose proof u64_tiny. pose proof eta_small. set (x := B2R d) in *. set (w := Rabs D) in *.
  assert (W : 0 <= w) by apply Rabs_pos. assert (WW : D * D = w * w) by (unfold w; rewrite <- Rabs_mult; symmetry; apply Rabs_pos_eq, Rle_0_sqr). rewrite WW.
  assert (B : w * w <= pow2 802) by (change 802%Z with (401 + 401)%Z; rewrite bpow_plus; apply Rmult_le_compat; assumption).
  assert (Xd : Rabs (x * x - w * w) <= 3 * u64 * (w * w)).
  { replace (x * x - w * w) with ((x - D) * ((x - D) + 2 * D)) by (rewrite <- WW; ring). rewrite Rabs_mult.
    assert (T : Rabs (x - D + 2 * D) <= 3 * w).
    { eapply Rle_trans; [apply Rabs_triang|]. rewrite (Rabs_mult 2), (Rabs_pos_eq 2) by lra. fold w. assert (u64 * w <= 1 * w) by (apply Rmult_le_compat_r; lra). lra. }
    apply Rle_trans with (u64 * w * (3 * w)); [apply Rmult_le_compat; try apply Rabs_pos; assumption | lra]. }
  apply Rabs_le_inv in Xd. assert (N : 0 <= w * w) by (apply Rmult_le_pos; lra). assert (UN : 0 <= u64 * (w * w) <= / 1000 * (w * w)).
  { split; [apply Rmult_le_pos; lra | apply Rmult_le_compat_r; lra]. }
  assert (XX : Rabs (x * x) <= 101 / 100 * (w * w)) by (apply Rabs_le; lra).
  destruct (mul_fl d d Fd Fd) as [F E].
  { apply rnd_lt_max with 803%Z; [lia|]. fold x. change 803%Z with (1 + 802)%Z. rewrite bpow_plus. change (pow2 1) with 2. lra. }
  split; [exact F|]. split; [|exact B]. unfold q. rewrite E. fold x. pose proof (rnd_err (x * x)) as R. 
  assert (u64 * Rabs (x * x) <= u64 * (101 / 100 * (w * w))) by (apply Rmult_le_compat_l; lra).
  apply Rabs_le_inv in R. apply Rabs_le. lra.
Qed.
Let ss : f64 := Bmult mode_NE s s.
Let t : f64 := Bmult mode_NE (f64_ofZ 2) ss.
Lemma t_val : is_finite t = true /\ Rabs (B2R t - 2 * (S * S)) <= u64 * (2 * (S * S)) /\ pow2 (-200) <= S * S <= pow2 200.
Proof.
  pose proof S_pos. pose proof u64_tiny. 
  assert (B : pow2 (-200) <= S * S <= pow2 200).
  { split; [change (-200)%Z with (-100 + -100)%Z | change 200%Z with (100 + 100)%Z]; rewrite bpow_plus; apply Rmult_le_compat; try apply bpow_ge_0; lra. }
  pose proof (bpow_gt_0 radix2 (-200)) as P.
  destruct (mul_fl s s Fs Fs) as [F E]; [apply rnd_lt_max with 200%Z; [lia|]; fold S; rewrite Rabs_pos_eq by lra; lra|]. fold ss in F, E. fold S in E.
  assert (R : Rabs (B2R ss - S * S) <= u64 * (S * S)).
  { rewrite E. rewrite <- (Rabs_pos_eq (S * S)) at 3 by lra. apply rnd_rel. rewrite Rabs_pos_eq by lra. eapply Rle_trans; [|apply B]. apply bpow_le. lia. }
  assert (UB : u64 * (S * S) <= 1 * (S * S)) by (apply Rmult_le_compat_r; lra).
  assert (UP : 0 <= u64 * (S * S)) by (apply Rmult_le_pos; lra).
  apply Rabs_le_inv in R. destruct (ofZ_fl 2) as [F2 E2]; [vm_compute; discriminate|].
  destruct (mul_fl (f64_ofZ 2) ss F2 F) as [Ft Et].
  { rewrite E2. apply rnd_lt_max with 202%Z; [lia|]. change 202%Z with (2 + 200)%Z. rewrite bpow_plus. change (pow2 2) with 4. apply Rabs_le. lra. }
  fold t in Ft, Et. rewrite E2, rnd_gen in Et by (apply double_gen, B2R_gen). split; [exact Ft|]. split; [|exact B]. rewrite Et. apply Rabs_le. lra.
Qed.
Let y : f64 := Bdiv mode_NE q t.
Lemma y_val : is_finite y = true /\ Rabs (B2R y - Y) <= 9 * u64 * Y + u64 / 100.
Proof.
  destruct q_val as (Fq & Eq & BD). destruct t_val as (Ft & Et & BS). pose proof u64_tiny. pose proof eta_small. pose proof Y_nonneg as Y0.
  pose proof (bpow_gt_0 radix2 (-200)) as P. set (T := 2 * (S * S)) in *.
  assert (T0 : 0 < T) by (unfold T; lra).
  assert (YT : Y * T = D * D) by (unfold Y; fold T; field; lra).
  assert (UT : 0 <= u64 * T <= / 1000 * T) by (split; [apply Rmult_le_pos; lra | apply Rmult_le_compat_r; lra]).
  apply Rabs_le_inv in Et. set (z := B2R t) in *. assert (Z0 : 99 / 100 * T <= z) by lra. assert (Zp : 0 < z) by lra.
  assert (C : Rabs (B2R q / z - Y) <= 7 * u64 * Y + u64 / 1000).
  { apply Rmult_le_reg_r with z; [exact Zp|]. rewrite <- (Rabs_pos_eq z) at 2 by lra. rewrite <- Rabs_mult.
    replace ((B2R q / z - Y) * z) with (B2R q - D * D + Y * (T - z)) by (rewrite <- YT; field; lra).
    eapply Rle_trans; [apply Rabs_triang|].
    assert (V : Rabs (Y * (T - z)) <= u64 * (D * D)).
    { rewrite <- YT, Rabs_mult, (Rabs_pos_eq Y) by exact Y0. replace (u64 * (Y * T)) with (Y * (u64 * T)) by ring. apply Rmult_le_compat_l; [exact Y0|]. apply Rabs_le. lra. }
    assert (W : 7 * u64 * Y * (99 / 100 * T) <= 7 * u64 * Y * z) by (apply Rmult_le_compat_l; [apply Rmult_le_pos; lra | exact Z0]).
    assert (G : eta <= u64 / 1000 * z).
    { apply Rle_trans with (u64 / 1000 * (99 / 100 * T)); [|apply Rmult_le_compat_l; lra].
      apply Rle_trans with (pow2 (-63) * pow2 (-200)); [rewrite <- bpow_plus; apply bpow_le; lia|].
      apply Rmult_le_compat; try apply bpow_ge_0; [cbn; lra | unfold T; lra]. }
    replace (7 * u64 * Y * (99 / 100 * T)) with (693 / 100 * (u64 * (D * D))) in W by (rewrite <- YT; field).
    assert (0 <= u64 * (D * D)) by (apply Rmult_le_pos; [lra | apply Rle_0_sqr]). lra. }
  assert (UY : 0 <= u64 * Y <= / 1000000 * Y) by (split; [apply Rmult_le_pos; lra | apply Rmult_le_compat_r; lra]).
  apply Rabs_le_inv in C. assert (QB : Rabs (B2R q / z) <= 101 / 100 * Y + u64 / 100) by (apply Rabs_le; lra).
  assert (YB : Y <= pow2 1002).
  { apply Rmult_le_reg_r with T; [exact T0|]. rewrite YT. apply Rle_trans with (pow2 802); [exact BD|].
    apply Rle_trans with (pow2 1002 * pow2 (-200)); [rewrite <- bpow_plus; apply bpow_le; lia | apply Rmult_le_compat_l; [apply bpow_ge_0 | unfold T; lra]]. }
  destruct (div_fl q t Fq) as [F E]; [fold z; lra | |].
  { fold z. apply rnd_lt_max with 1004%Z; [lia|]. change 1004%Z with (2 + 1002)%Z. rewrite bpow_plus. change (pow2 2) with 4.
    assert (pow2 0 <= pow2 1002) by (apply bpow_le; lia). change (pow2 0) with 1 in *. lra. }
  fold y in F, E. fold z in E. split; [exact F|]. pose proof (rnd_err (B2R q / z)) as R. rewrite <- E in R.
  assert (u64 * Rabs (B2R q / z) <= u64 * (101 / 100 * Y + u64 / 100)) by (apply Rmult_le_compat_l; lra).
  assert (u64 * (u64 / 100) <= / 1000 * (u64 / 100)) by (apply Rmult_le_compat_r; lra).
  apply Rabs_le_inv in R. apply Rabs_le. lra.
Qed.
Definition density_arg : f64 :=
  Bminus mode_NE (Bminus mode_NE (Bmult mode_NE (Bopp half64) (l_log L (Bmult mode_NE (f64_ofZ 2) (l_pi L)))) (l_log L s))
    (Bdiv mode_NE (Bmult mode_NE (Bminus mode_NE a m) (Bminus mode_NE a m)) (Bmult mode_NE (f64_ofZ 2) (Bmult mode_NE s s))).
Lemma arg_val : is_finite density_arg = true /\
  Rabs (B2R density_arg - (- (1 / 2) * ln (2 * PI) - ln S - Y)) <= 40 * u64 * (lam + Y).
Proof.
  destruct cx_val as (Fc & Ec & Bc). destruct y_val as (Fy & Ey). pose proof u64_tiny. pose proof eta_small. pose proof Y_nonneg as Y0.
  pose proof (Rabs_pos (ln S)) as N0. pose proof lnS_le as NB.
  assert (YB : Y <= pow2 1002).
  { destruct q_val as (_ & _ & BD). destruct t_val as (_ & _ & BS). pose proof (bpow_gt_0 radix2 (-200)) as P. 
    assert (T0 : 0 < 2 * (S * S)) by lra.
    apply Rmult_le_reg_r with (2 * (S * S)); [exact T0|]. replace (Y * (2 * (S * S))) with (D * D) by (unfold Y; field; intros E; rewrite E in T0; lra).
    apply Rle_trans with (pow2 802); [exact BD|].
    apply Rle_trans with (pow2 1002 * pow2 (-200)); [rewrite <- bpow_plus; apply bpow_le; lia | apply Rmult_le_compat_l; [apply bpow_ge_0 | lra]]. }
  assert (UY : 0 <= u64 * Y <= / 1000000 * Y) by (split; [apply Rmult_le_pos; lra | apply Rmult_le_compat_r; lra]).
  unfold lam in *. set (n := Rabs (ln S)) in *.
  assert (Un : 0 <= u64 * n <= / 1000000 * n) by (split; [apply Rmult_le_pos; lra | apply Rmult_le_compat_r; lra]).
  apply Rabs_le_inv in Ec. apply Rabs_le_inv in Ey. apply Rabs_le_inv in Bc.
  assert (Q : Rabs (B2R cx - B2R y) <= 4 + 2 * n + 2 * Y) by (apply Rabs_le; lra).
  destruct (sub_fl cx y Fc Fy) as [F E].
  { apply rnd_lt_max with 1004%Z; [lia|]. change 1004%Z with (2 + 1002)%Z. rewrite bpow_plus. change (pow2 2) with 4.
    assert (pow2 10 <= pow2 1002) by (apply bpow_le; lia). change (pow2 10) with 1024 in *. lra. }
  change (Bminus mode_NE cx y) with density_arg in F, E. split; [exact F|]. pose proof (rnd_err (B2R cx - B2R y)) as R. rewrite <- E in R.
  assert (u64 * Rabs (B2R cx - B2R y) <= u64 * (4 + 2 * n + 2 * Y)) by (apply Rmult_le_compat_l; lra).
  apply Rabs_le_inv in R. apply Rabs_le. lra.
Qed.
Let l := log_gauss M S A.
Lemma l_val : l = - (1 / 2) * ln (2 * PI) - ln S - Y. Proof. reflexivity. Qed.
Let P := B2R (l_exp L density_arg).
Let G := gauss M S A.
Lemma G_val : G = exp l. Proof. symmetry. apply gauss_exp, S_pos. Qed.

Lemma arg_half : B2R density_arg <= - ln S - Y / 2 /\ l <= - ln S - Y / 2.
Proof.
  destruct arg_val as [_ E]. pose proof u64_tiny. pose proof ln_2PI. pose proof Y_nonneg as Y0. pose proof lnS_le as B.
  assert (UY : 0 <= u64 * Y <= / 1000000 * Y) by (split; [apply Rmult_le_pos; lra | apply Rmult_le_compat_r; lra]).
  assert (UN : u64 * Rabs (ln S) <= / 1000000 * 100) by (apply Rmult_le_compat; try lra; apply Rabs_pos).
  rewrite l_val. unfold lam in E. apply Rabs_le_inv in E. lra.
Qed.
Lemma exp_ok : is_finite (l_exp L density_arg) = true /\ Rabs (P - exp (B2R density_arg)) <= 8 * u64 * exp (B2R density_arg) + eta.
Proof.
  destruct arg_val as [F _]. destruct arg_half as [H _]. pose proof Y_nonneg. pose proof lnS_le as B. apply Rabs_le_inv in B.
  destruct HL as (HE & _). destruct (close_8 _ _ (HE density_arg F ltac:(lra))) as [Fe Ee]. split; [exact Fe|].
  rewrite (Rabs_pos_eq (exp _)) in Ee by (left; apply exp_pos). exact Ee.
Qed.
Lemma exp_half_S z : z <= - ln S - Y / 2 -> exp z <= exp (- (Y / 2)) / S.
Proof.
  intros H. pose proof S_pos as SP. apply Rle_trans with (exp (- ln S + - (Y / 2))).
  - assert (E : z <= - ln S + - (Y / 2)) by lra. destruct E as [E | ->]; [left; apply exp_increasing; exact E | right; reflexivity].
  - right. rewrite exp_plus, exp_Ropp, exp_ln by exact SP. field. lra.
Qed.
Lemma eta_S : eta <= u64 / 1000 * / S.
Proof.
  pose proof S_pos. apply Rle_trans with (pow2 (-63) * pow2 (-100)); [rewrite <- bpow_plus; apply bpow_le; lia|].
  apply Rmult_le_compat; try apply bpow_ge_0; [cbn; lra|]. replace (-100)%Z with (- (100))%Z by reflexivity. rewrite bpow_opp.
  apply Rinv_le_contravar; lra.
Qed.
(** The density is accurate relative to its scale, however far the sample is. *)
Lemma pdf_abs : Rabs (P - G) <= pow2 (-45) * (1 + Rabs (ln S)) / S.
Proof.
  destruct exp_ok as [_ E]. destruct arg_val as [_ EA]. destruct arg_half as [H1 H2]. pose proof u64_tiny. pose proof Y_nonneg as Y0.
  pose proof S_pos as SP. rewrite <- l_val in EA. fold lam. 
  pose proof (exp_half_S _ H1) as X1. pose proof (exp_half_S _ H2) as X2. rewrite <- G_val in X2. pose proof (exp_diff (B2R density_arg) l) as X3. rewrite <- G_val in X3.
  assert (LP : 1 <= lam) by (unfold lam; pose proof (Rabs_pos (ln S)); lra).
  set (e := exp (B2R density_arg)) in *. set (i := exp (- (Y / 2))) in *. 
  assert (I0 : 0 < i <= 1).
  { unfold i. split; [apply exp_pos|]. rewrite <- exp_0. destruct (Req_dec Y 0) as [E0|E0]; [rewrite E0; right; f_equal; lra | left; apply exp_increasing; lra]. }
  assert (I1 : Y * i <= 2).
  { unfold i. rewrite exp_Ropp. pose proof (exp_pos (Y / 2)) as EP. apply Rmult_le_reg_r with (exp (Y / 2)); [exact EP|].
    rewrite Rmult_assoc, Rinv_l, Rmult_1_r by lra. pose proof (exp_ineq1_le (Y / 2)). lra. }
  assert (e0 : 0 < e) by apply exp_pos. assert (G0 : 0 < G) by (rewrite G_val; apply exp_pos).
  assert (J : i / S <= / S) by (unfold Rdiv; rewrite <- (Rmult_1_l (/ S)) at 2; apply Rmult_le_compat_r; [left; apply Rinv_0_lt_compat; exact SP | lra]).
  assert (K : (lam + Y) * (i / S) <= 3 * lam * / S).
  { unfold Rdiv. rewrite <- Rmult_assoc. apply Rmult_le_compat_r; [left; apply Rinv_0_lt_compat; exact SP|].
    assert (lam * i <= lam * 1) by (apply Rmult_le_compat_l; lra). lra. }
  assert (Q : Rabs (e - G) <= 240 * u64 * (lam * / S)).
  { eapply Rle_trans; [exact X3|]. apply Rle_trans with (40 * u64 * (lam + Y) * (2 * (i / S))).
    - apply Rmult_le_compat; [apply Rabs_pos | lra | exact EA | lra].
    - replace (40 * u64 * (lam + Y) * (2 * (i / S))) with (80 * u64 * ((lam + Y) * (i / S))) by ring.
      replace (240 * u64 * (lam * / S)) with (80 * u64 * (3 * lam * / S)) by ring. apply Rmult_le_compat_l; [lra | exact K]. }
  pose proof eta_S as ES. assert (IS : 0 < / S) by (apply Rinv_0_lt_compat; exact SP).
  assert (W : u64 * / S <= u64 * (lam * / S)) by (apply Rmult_le_compat_l; [lra|]; rewrite <- (Rmult_1_l (/ S)) at 1; apply Rmult_le_compat_r; lra).
  assert (V : 8 * u64 * e <= 8 * u64 * / S) by (apply Rmult_le_compat_l; lra).
  apply Rabs_le_inv in E. apply Rabs_le_inv in Q. replace (pow2 (-45) * lam / S) with (256 * u64 * (lam * / S)) by (replace (pow2 (-45)) with (256 * u64) by (cbn; lra); unfold Rdiv; ring).
  apply Rabs_le. lra.
Qed.

(** Far from the mean it underflows. *)
Lemma pdf_zero : 760 <= Y + ln S -> exists b, l_exp L density_arg = B754_zero b.
Proof.
  intros H. destruct exp_ok as [F E]. destruct arg_val as [_ EA]. pose proof u64_tiny. pose proof lnS_le as NB. pose proof ln_2PI. pose proof Y_nonneg.
  assert (AB : B2R density_arg <= -760).
  { assert (N1 : - Rabs (ln S) <= ln S <= Rabs (ln S)) by (apply Rabs_le_inv; lra). unfold lam in EA. 
    assert (u64 * Rabs (ln S) <= / 1000000 * 100) by (apply Rmult_le_compat; try lra; apply Rabs_pos).
    assert (u64 * Y <= / 9000000000000000 * Y) by (apply Rmult_le_compat_r; lra).
    destruct (Rle_or_lt Y 1000); apply Rabs_le_inv in EA; lra. }
  pose proof (exp_minus_760 _ AB) as X. set (e := exp (B2R density_arg)) in *. assert (e0 : 0 < e) by apply exp_pos.
  assert (X1 : 4 * pow2 (-1077) = eta) by (change (-1075)%Z with (2 + -1077)%Z; rewrite bpow_plus; change (pow2 2) with 4; ring).
  assert (X2 : 2 * eta = pow2 (-1074)) by (change (-1074)%Z with (1 + -1075)%Z; rewrite bpow_plus; change (pow2 1) with 2; ring).
  assert (U8 : 8 * u64 * e <= 1 * e) by (apply Rmult_le_compat_r; lra).
  assert (Q : Rabs P < pow2 (-1074)).
  { replace P with ((P - e) + e) by ring. eapply Rle_lt_trans; [apply Rabs_triang|]. rewrite (Rabs_pos_eq e) by lra. pose proof (bpow_gt_0 radix2 (-1077)). lra. }
  assert (Z : P = 0).
  { destruct (Req_dec P 0) as [Z|Z]; [exact Z|]. exfalso. apply (Rlt_not_le _ _ Q).
    apply abs_B2R_ge_emin_64. exact Z. }
  unfold P in Z. set (w := l_exp L density_arg) in *. destruct w as [b|b| |b mm ee Hb]; try discriminate F; [exists b; reflexivity|].
  exfalso. revert Z. apply B2R_finite_nz.
Qed.

(** Near the mean it is accurate relative to its value. *)
Hypothesis HY : Y + ln S <= 500.
Lemma Y_le : Y <= 600. Proof. pose proof lnS_le as B. apply Rabs_le_inv in B. lra. Qed.
Let kap := lam + Y.
Lemma kap_le : 1 <= kap <= 701. Proof. pose proof lnS_le. pose proof Y_le. pose proof Y_nonneg. pose proof (Rabs_pos (ln S)). unfold kap, lam. lra. Qed.
Lemma G_big : eta <= u64 / 1000 * G.
Proof.
  pose proof ln_2PI. pose proof ln_lt_2 as L2.
  assert (B : exp (-1006 * ln 2) <= G).
  { rewrite G_val. assert (X : -1006 * ln 2 <= l) by (rewrite l_val; lra). destruct X as [X | ->]; [left; apply exp_increasing; exact X | right; reflexivity]. }
  change (exp (IZR (-1006) * ln (IZR radix2)) <= G) in B. rewrite <- (bpow_exp radix2 (-1006)) in B. apply Rle_trans with (pow2 (-63) * pow2 (-1006)); [rewrite <- bpow_plus; apply bpow_le; lia|].
  apply Rmult_le_compat; try apply bpow_ge_0; [cbn; lra | exact B].
Qed.
Lemma pdf_rel : Rabs (P - G) <= pow2 (-46) * (1 + Rabs (ln S) + Y) * G.
Proof.
  destruct exp_ok as [_ E]. destruct arg_val as [_ EA]. pose proof u64_tiny. pose proof kap_le as KB. pose proof G_big as GB.
  rewrite <- l_val in EA. fold lam. fold kap in EA |- *. pose proof (exp_diff (B2R density_arg) l) as X3. rewrite <- G_val in X3.
  assert (G0 : 0 < G) by (rewrite G_val; apply exp_pos).
  set (e := exp (B2R density_arg)) in *. assert (e0 : 0 < e) by apply exp_pos.
  assert (T : 40 * u64 * kap <= / 100000) by (assert (u64 * kap <= / 9000000000000000 * 701) by (apply Rmult_le_compat; lra); lra).
  assert (Q0 : Rabs (e - G) <= / 100000 * (e + G)) by (eapply Rle_trans; [exact X3|]; apply Rmult_le_compat_r; lra).
  apply Rabs_le_inv in Q0. assert (eB : e <= 101 / 100 * G) by lra.
  assert (Q : Rabs (e - G) <= 40 * u64 * kap * (201 / 100 * G)).
  { eapply Rle_trans; [exact X3|]. apply Rmult_le_compat; [apply Rabs_pos | lra | exact EA | lra]. }
  assert (V : 8 * u64 * e <= 8 * u64 * (101 / 100 * G)) by (apply Rmult_le_compat_l; lra).
  assert (W : u64 * G <= u64 * kap * G) by (apply Rmult_le_compat_r; [lra|]; rewrite <- (Rmult_1_r u64) at 1; apply Rmult_le_compat_l; lra).
  apply Rabs_le_inv in E. apply Rabs_le_inv in Q. replace (pow2 (-46)) with (128 * u64) by (cbn; lra). apply Rabs_le. lra.
Qed.
Lemma log_abs : is_finite (l_log L (l_exp L density_arg)) = true /\
  Rabs (B2R (l_log L (l_exp L density_arg)) - l) <= pow2 (-45) * (1 + Rabs (ln S) + Y).
Proof.
  pose proof pdf_rel as R. destruct exp_ok as [F _]. pose proof u64_tiny. pose proof kap_le as KB. pose proof eta_small. fold lam in R |- *. fold kap in R |- *.
  assert (G0 : 0 < G) by (rewrite G_val; apply exp_pos). replace (pow2 (-46)) with (128 * u64) in R by (cbn; lra).
  assert (T : 128 * u64 * kap <= / 100000) by (assert (u64 * kap <= / 9000000000000000 * 701) by (apply Rmult_le_compat; lra); lra).
  assert (R' : Rabs (P - G) <= / 100000 * G) by (eapply Rle_trans; [exact R|]; apply Rmult_le_compat_r; lra).
  apply Rabs_le_inv in R'. assert (P0 : 99 / 100 * G <= P) by lra.
  destruct HL as (_ & HG & _). destruct (close_8 _ _ (HG (l_exp L density_arg) F ltac:(fold P; lra))) as [FL EL]. fold P in EL. split; [exact FL|].
  assert (LG : ln G = l) by (rewrite G_val; apply ln_exp).
  assert (Dl : Rabs (ln P - l) <= 130 * u64 * kap).
  { rewrite <- LG. eapply Rle_trans; [apply ln_diff; lra|]. assert (Q : 99 / 100 * G <= Rmin P G) by (apply Rmin_glb; lra).
    apply Rmult_le_reg_r with (Rmin P G); [lra|]. unfold Rdiv. rewrite Rmult_assoc, Rinv_l, Rmult_1_r by lra.
    eapply Rle_trans; [exact R|]. apply Rle_trans with (130 * u64 * kap * (99 / 100 * G)).
    - assert (0 <= u64 * kap * G) by (apply Rmult_le_pos; [apply Rmult_le_pos; lra | lra]). lra.
    - apply Rmult_le_compat_l; [apply Rmult_le_pos; lra | exact Q]. }
  assert (LB : Rabs l <= kap + 1).
  { rewrite l_val. pose proof ln_2PI. pose proof Y_nonneg. assert (N1 : - Rabs (ln S) <= ln S <= Rabs (ln S)) by (apply Rabs_le_inv; lra).
    unfold kap, lam. apply Rabs_le. lra. }
  apply Rabs_le_inv in Dl. apply Rabs_le_inv in LB. assert (LP : Rabs (ln P) <= 3 * kap) by (apply Rabs_le; lra).
  assert (8 * u64 * Rabs (ln P) <= 8 * u64 * (3 * kap)) by (apply Rmult_le_compat_l; lra).
  assert (u64 * 1 <= u64 * kap) by (apply Rmult_le_compat_l; lra).
  apply Rabs_le_inv in EL. replace (pow2 (-45)) with (256 * u64) by (cbn; lra). apply Rabs_le. lra.
Qed.
End One.

(** ** Whole arrays *)
Lemma pdf_run64 (L : Libm) sh (d : list f64) (s m : f64) : d <> [] -> all_finite d ->
  pdf (N := F64 L) (Arr (N := F64 L) sh d) s m = Ok (Arr (N := F64 L) sh (map (fun a => l_exp L (density_arg L s m a)) d)).
Proof. intros H F. unfold pdf. rewrite nd_check64 by assumption. cbn [bind]. reflexivity. Qed.
Lemma log_pdf_run64 (L : Libm) sh (d : list f64) (s m : f64) : d <> [] -> all_finite d ->
  log_pdf (N := F64 L) (Arr (N := F64 L) sh d) s m = Ok (Arr (N := F64 L) sh (map (fun a => l_log L (l_exp L (density_arg L s m a))) d)).
Proof. intros H F. unfold log_pdf. rewrite nd_check64 by assumption. cbn [bind]. rewrite pdf_run64 by assumption. cbn [bind nd_map]. rewrite map_map. reflexivity. Qed.

Theorem density_f64 : forall (L : Libm) sh (d : list f64) (s m : f64), exp_accurate L -> d <> [] -> all_finite d ->
  is_finite s = true -> is_finite m = true -> pow2 (-100) <= B2R s <= pow2 100 -> Rabs (B2R m) <= pow2 400 ->
  (forall a, In a d -> Rabs (B2R a) <= pow2 400) ->
  exists r : list f64, pdf (N := F64 L) (Arr (N := F64 L) sh d) s m = Ok (Arr (N := F64 L) sh r) /\ length r = length d /\
    forall i a, nth_error d i = Some a -> exists p, nth_error r i = Some p /\ is_finite p = true /\
      Rabs (B2R p - gauss (B2R m) (B2R s) (B2R a)) <= pow2 (-45) * (1 + Rabs (ln (B2R s))) / B2R s /\
      (half_dist (B2R m) (B2R s) (B2R a) + ln (B2R s) <= 500 ->
       Rabs (B2R p - gauss (B2R m) (B2R s) (B2R a)) <=
       pow2 (-46) * (1 + Rabs (ln (B2R s)) + half_dist (B2R m) (B2R s) (B2R a)) * gauss (B2R m) (B2R s) (B2R a)).
Proof.
  intros L sh d s m HL H F Fs Fm HS HM HA. eexists. split; [exact (pdf_run64 L sh d s m H F)|]. rewrite map_length. split; [reflexivity|].
  intros i a Ha. rewrite nth_error_map, Ha. eexists. split; [reflexivity|]. pose proof (nth_error_In _ _ Ha) as Hi.
  pose proof (F a Hi) as Fa. pose proof (HA a Hi) as Ba. split; [apply (exp_ok L HL s m a Fs Fm Fa HS HM Ba)|].
  split; [exact (pdf_abs L HL s m a Fs Fm Fa HS HM Ba) | exact (pdf_rel L HL s m a Fs Fm Fa HS HM Ba)].
Qed.
Theorem log_density_f64 : forall (L : Libm) sh (d : list f64) (s m : f64), exp_accurate L -> log_zero L -> d <> [] -> all_finite d ->
  is_finite s = true -> is_finite m = true -> pow2 (-100) <= B2R s <= pow2 100 -> Rabs (B2R m) <= pow2 400 ->
  (forall a, In a d -> Rabs (B2R a) <= pow2 400) ->
  exists r : list f64, log_pdf (N := F64 L) (Arr (N := F64 L) sh d) s m = Ok (Arr (N := F64 L) sh r) /\ length r = length d /\
    forall i a, nth_error d i = Some a -> exists p, nth_error r i = Some p /\
      (half_dist (B2R m) (B2R s) (B2R a) + ln (B2R s) <= 500 ->
       is_finite p = true /\ Rabs (B2R p - ln (gauss (B2R m) (B2R s) (B2R a))) <=
                             pow2 (-45) * (1 + Rabs (ln (B2R s)) + half_dist (B2R m) (B2R s) (B2R a))) /\
      (760 <= half_dist (B2R m) (B2R s) (B2R a) + ln (B2R s) -> p = B754_infinity true).
Proof.
  intros L sh d s m HL HZ H F Fs Fm HS HM HA. eexists. split; [exact (log_pdf_run64 L sh d s m H F)|]. rewrite map_length. split; [reflexivity|].
  intros i a Ha. rewrite nth_error_map, Ha. eexists. split; [reflexivity|]. pose proof (nth_error_In _ _ Ha) as Hi.
  pose proof (F a Hi) as Fa. pose proof (HA a Hi) as Ba. split.
  - intros Y. rewrite ln_gauss by (pose proof (bpow_gt_0 radix2 (-100)); lra). exact (log_abs L HL s m a Fs Fm Fa HS HM Ba Y).
  - intros Y. destruct (pdf_zero L HL s m a Fs Fm Fa HS HM Ba Y) as [b ->]. apply HZ.
Qed.
(** With the default parameters. *)
Theorem log_pdf_minus_infinity : forall (L : Libm) (x : f64), exp_accurate L -> log_zero L -> is_finite x = true -> 39 <= Rabs (B2R x) <= pow2 400 ->
  (exists b, pdf (N := F64 L) (Arr (N := F64 L) [1%Z] [x]) (f64_ofZ 1) (f64_ofZ 0) = Ok (Arr (N := F64 L) [1%Z] [B754_zero b : f64])) /\
  log_pdf (N := F64 L) (Arr (N := F64 L) [1%Z] [x]) (f64_ofZ 1) (f64_ofZ 0) = Ok (Arr (N := F64 L) [1%Z] [B754_infinity true : f64]) /\
  ln (gauss 0 1 (B2R x)) = - (1 / 2) * ln (2 * PI) - B2R x * B2R x / 2.
Proof.
  intros L x HL HZ F [H1 H2].
  destruct (ofZ_fl 1) as [F1 E1]; [vm_compute; discriminate|]. destruct (ofZ_fl 0) as [F0 E0]; [vm_compute; discriminate|].
  assert (P1 : pow2 (-100) <= B2R (f64_ofZ 1) <= pow2 100).
  { rewrite E1. change 1 with (pow2 0). split; apply bpow_le; lia. }
  assert (P0 : Rabs (B2R (f64_ofZ 0)) <= pow2 400) by (rewrite E0, Rabs_R0; apply bpow_ge_0).
  assert (AF : all_finite [x]) by (intros z [<-|[]]; exact F).
  destruct (pdf_zero L HL (f64_ofZ 1) (f64_ofZ 0) x F1 F0 F P1 P0 H2) as [b E].
  { rewrite E1, E0, ln_1. assert (Q : 39 * 39 <= B2R x * B2R x).
    { rewrite <- (Rabs_pos_eq (B2R x * B2R x)) by apply Rle_0_sqr. rewrite Rabs_mult. apply Rmult_le_compat; lra. }
    replace ((B2R x - 0) * (B2R x - 0) / (2 * (1 * 1)) + 0) with (B2R x * B2R x / 2) by field. lra. }
  split; [|split].
  - exists b. rewrite pdf_run64 by (try discriminate; exact AF). cbn [map]. rewrite E. reflexivity.
  - rewrite log_pdf_run64 by (try discriminate; exact AF). cbn [map]. rewrite E, HZ. reflexivity.
  - rewrite ln_gauss by lra. unfold log_gauss. rewrite ln_1. field.
Qed.

(** ** A correctly rounded libm *)
Definition libm_round0 : Libm := {|
  l_sum := l_sum libm_round; l_prod := l_prod libm_round; l_ipow := l_ipow libm_round; l_pow := l_pow libm_round;
  l_sin := l_sin libm_round; l_cos := l_cos libm_round; l_tan := l_tan libm_round; l_atan := l_atan libm_round;
  l_atan2 := l_atan2 libm_round; l_exp := l_exp libm_round;
  l_log := fun x => match x with B754_zero _ => B754_infinity true | _ => fl (ln (B2R x)) end;
  l_erf := l_erf libm_round; l_erfc := l_erfc libm_round; l_pi := l_pi libm_round |}.
Lemma fl_close_big r e : (-1074 <= e < 1024)%Z -> Rabs r <= pow2 e -> close (fl r) r.
Proof.
  intros He H. destruct (fl_val r) as [F E]; [apply rnd_lt_max with e; [exact He | exact H]|]. split; [exact F|]. rewrite E.
  pose proof (rnd_err r) as R. assert (pow2 (-53) <= pow2 (-50)) by (apply bpow_le; lia).
  assert (pow2 (-53) * Rabs r <= pow2 (-50) * Rabs r) by (apply Rmult_le_compat_r; [apply Rabs_pos | lra]). lra.
Qed.
Lemma bpow_mul_nat e n : pow2 (e * Z.of_nat n) = pow2 e ^ n.
Proof. induction n as [|n IH]; [rewrite Z.mul_0_r; reflexivity | rewrite Nat2Z.inj_succ, Z.mul_succ_r, bpow_plus, IH; cbn [pow]; ring]. Qed.
Lemma exp_600 z : z <= 600 -> exp z <= pow2 960.
Proof.
  intros H. apply Rle_trans with (exp 600).
  - destruct H as [H | ->]; [left; apply exp_increasing; exact H | right; reflexivity].
  - replace 600 with (INR 120 * (INR 5 * 1)) by (cbn; lra). rewrite !exp_nat.
    assert (E : pow2 960 = 256 ^ 120) by (exact (bpow_mul_nat 8 120)). rewrite E.
    apply pow_incr. split; [apply pow_le; left; apply exp_pos|]. apply Rle_trans with (3 ^ 5); [apply pow_incr; split; [left; apply exp_pos | exact exp_le_3] | cbn; lra].
Qed.
Lemma round0_ok : exp_accurate libm_round0 /\ log_zero libm_round0.
Proof.
  split; [|intros s; reflexivity]. split; [|split].
  - intros y _ H. apply fl_close_big with 960%Z; [lia|]. rewrite Rabs_pos_eq by (left; apply exp_pos). apply exp_600, H.
  - intros y F H. assert (E : l_log libm_round0 y = fl (ln (B2R y))) by (destruct y; cbn in H; try lra; reflexivity). rewrite E.
    apply fl_close_big with 11%Z; [lia|]. apply Rle_trans with 1074; [|cbn; lra]. apply (ln_range _ 1074). split.
    + change (- (1074))%Z with (-1074)%Z. rewrite <- (Rabs_pos_eq (B2R y)) by lra. apply abs_B2R_ge_emin_64. lra.
    + apply Rle_trans with (pow2 1024); [|apply bpow_le; lia]. apply Rle_trans with (Rabs (B2R y)); [apply Rle_abs | left; apply abs_B2R_lt_emax].
  - apply fl_close_big with 2%Z; [lia|]. change (pow2 2) with 4. pose proof PI_4. pose proof PI_gt_3. rewrite Rabs_pos_eq; lra.
Qed.
Theorem libm_exists : exists L, exp_accurate L /\ log_zero L.
Proof. exists libm_round0. exact round0_ok. Qed.
(** A sample at 40 standard deviations, and one at 2. *)
Example log_pdf_example : exists r : list f64,
  log_pdf (N := F64 libm_round0) (Arr (N := F64 libm_round0) [2%Z] [f64_ofZ 40; f64_ofZ 2]) (f64_ofZ 1) (f64_ofZ 0) = Ok (Arr (N := F64 libm_round0) [2%Z] r) /\
  nth_error r 0 = Some (B754_infinity true) /\
  exists p, nth_error r 1 = Some p /\ Rabs (B2R p - (- (1 / 2) * ln (2 * PI) - 2)) <= pow2 (-43).
Proof.
  destruct round0_ok as [HL HZ]. destruct (ofZ_fl 1) as [F1 E1]; [vm_compute; discriminate|]. destruct (ofZ_fl 0) as [F0 E0]; [vm_compute; discriminate|].
  destruct (ofZ_fl 40) as [F4 E4]; [vm_compute; discriminate|]. destruct (ofZ_fl 2) as [F2 E2]; [vm_compute; discriminate|].
  assert (B : forall a, In a [f64_ofZ 40; f64_ofZ 2] -> Rabs (B2R a) <= pow2 400).
  { assert (pow2 10 <= pow2 400) by (apply bpow_le; lia). change (pow2 10) with 1024 in *.
    intros a [<-|[<-|[]]]; [rewrite E4 | rewrite E2]; rewrite Rabs_pos_eq; lra. }
  destruct (log_density_f64 libm_round0 [2%Z] [f64_ofZ 40; f64_ofZ 2] (f64_ofZ 1) (f64_ofZ 0) HL HZ) as (r & R & _ & V).
  - discriminate.
  - intros a [<-|[<-|[]]]; assumption.
  - exact F1.
  - exact F0.
  - rewrite E1. change 1 with (pow2 0). split; apply bpow_le; lia.
  - rewrite E0, Rabs_R0. apply bpow_ge_0.
  - exact B.
  - rewrite E1, E0 in V. unfold half_dist in V. rewrite ln_1, Rabs_R0 in V. exists r. split; [exact R|]. split.
    + destruct (V 0%nat _ eq_refl) as (p & Hp & _ & Q). rewrite E4 in Q. rewrite Hp. f_equal. apply Q. lra.
    + destruct (V 1%nat _ eq_refl) as (p & Hp & Q & _). rewrite E2 in Q. exists p. split; [exact Hp|]. destruct Q as [_ Q]; [lra|].
      rewrite ln_gauss in Q by lra. unfold log_gauss in Q. rewrite ln_1 in Q. replace (- (1 / 2) * ln (2 * PI) - 2) with (- (1 / 2) * ln (2 * PI) - 0 - (2 - 0) * (2 - 0) / (2 * (1 * 1))) by field.
      eapply Rle_trans; [exact Q|]. cbn. lra.
Qed.
Example pdf_example : exists r : list f64,
  pdf (N := F64 libm_round0) (Arr (N := F64 libm_round0) [1%Z] [f64_ofZ 3]) (f64_ofZ 1) (f64_ofZ 2) = Ok (Arr (N := F64 libm_round0) [1%Z] r) /\
  exists p, nth_error r 0 = Some p /\ Rabs (B2R p - exp (- (1 / 2)) / sqrt (2 * PI)) <= pow2 (-45).
Proof.
  destruct round0_ok as [HL HZ]. destruct (ofZ_fl 1) as [F1 E1]; [vm_compute; discriminate|].
  destruct (ofZ_fl 3) as [F3 E3]; [vm_compute; discriminate|]. destruct (ofZ_fl 2) as [F2 E2]; [vm_compute; discriminate|].
  assert (K : pow2 10 <= pow2 400) by (apply bpow_le; lia). change (pow2 10) with 1024 in K.
  destruct (density_f64 libm_round0 [1%Z] [f64_ofZ 3] (f64_ofZ 1) (f64_ofZ 2) HL) as (r & R & _ & V).
  - discriminate.
  - intros a [<-|[]]; assumption.
  - exact F1.
  - exact F2.
  - rewrite E1. change 1 with (pow2 0). split; apply bpow_le; lia.
  - rewrite E2. rewrite Rabs_pos_eq; lra.
  - intros a [<-|[]]. rewrite E3. rewrite Rabs_pos_eq; lra.
  - exists r. split; [exact R|]. destruct (V 0%nat _ eq_refl) as (p & Hp & _ & Q & _). exists p. split; [exact Hp|].
    rewrite E1, E2, E3 in Q. rewrite ln_1, Rabs_R0 in Q. unfold gauss in Q.
    replace (pow2 (-45)) with (pow2 (-45) * (1 + 0) / 1) by field.
    replace (exp (- (1 / 2)) / sqrt (2 * PI)) with (exp (- ((3 - 2) * (3 - 2)) / (2 * (1 * 1))) / (1 * sqrt (2 * PI))); [exact Q|].
    f_equal; [f_equal; field | ring].
Qed.
