(** Rounding error of the running averages in binary64. *)
From Coq Require Import Reals Lra Lia Permutation.
From Flocq Require Import Core Relative Plus_error IEEE754.BinarySingleNaN.
From Verif Require Import Num Lib F64 Spec Spec6 LibR M_descriptive M_series P_series P_float P_float2 P_fsum P_fkalman.
Import ListNotations.
Local Open Scope R_scope.

Local Existing Instance F64.prec_gt_0_53.
Local Existing Instance F64.prec_lt_emax_53.

Lemma E50 : pow2 (-50) = 8 * u64. Proof. change (-50)%Z with (3 + -53)%Z. rewrite bpow_plus. cbn. lra. Qed.
Lemma tiny M : pow2 (-1000) <= M -> pow2 (-1075) <= / 1000 * (u64 * M).
Proof.
  intros H. assert (E : pow2 (-1053) = u64 * pow2 (-1000)) by (rewrite <- bpow_plus; reflexivity).
  assert (E2 : pow2 (-1075) = pow2 (-22) * pow2 (-1053)) by (rewrite <- bpow_plus; reflexivity).
  assert (pow2 (-22) <= / 1000) by (cbn; lra). pose proof (pow2_pos (-53)). pose proof (pow2_pos (-1000)).
  assert (u64 * pow2 (-1000) <= u64 * M) by (apply Rmult_le_compat_l; lra).
  assert (0 <= u64 * pow2 (-1000)) by (apply Rmult_le_pos; lra). rewrite E2, E. nra.
Qed.
Lemma fin_lt (x : R) : Rabs x <= pow2 1010 -> Rabs (rnd x) < pow2 1024.
Proof. intros H. apply rnd_lt_max with 1010%Z; [lia | exact H]. Qed.
Lemma M_max M : M <= pow2 1000 -> 1000 * M <= pow2 1010.
Proof. intros H. change 1010%Z with (10 + 1000)%Z. rewrite bpow_plus. change (pow2 10) with 1024. pose proof (pow2_pos 1000). lra. Qed.

(** ** Exponential average *)
Lemma ema_step_f64 (a d e : f64) M : is_finite a = true -> is_finite d = true -> is_finite e = true ->
  0 < B2R a <= 1 -> pow2 (-1000) <= M -> M <= pow2 1000 -> Rabs (B2R d) <= M -> Rabs (B2R e) <= 2 * M ->
  let y := Bplus mode_NE (Bmult mode_NE a d) (Bmult mode_NE (Bminus mode_NE (f64_ofZ 1) a) e) in
  is_finite y = true /\ Rabs (B2R y - (B2R a * B2R d + (1 - B2R a) * B2R e)) <= pow2 (-50) * M.
Proof.
  intros Fa Fd Fe Ha Ml Mh Hd He y. pose proof u64_small as Hu. pose proof (tiny M Ml) as Ht. pose proof (M_max M Mh) as HMx. pose proof (pow2_pos (-1000)).
  assert (HuM : 0 <= u64 * M <= / 1000000 * M) by (split; [apply Rmult_le_pos; lra | apply Rmult_le_compat_r; lra]).
  set (A := B2R a) in *. set (D := B2R d) in *. set (E := B2R e) in *.
  assert (HAD : Rabs (A * D) <= M) by (rewrite Rabs_mult, (Rabs_pos_eq A) by lra; pose proof (Rabs_pos D); nra).
  destruct (mul_fl a d Fa Fd) as [F1 E1]; [apply fin_lt; fold A D; lra|]. fold A D in E1.
  pose proof (rnd_err (A * D)) as R1. rewrite <- E1 in R1. set (T1 := B2R (Bmult mode_NE a d)) in *.
  assert (HT1 : Rabs (T1 - A * D) <= 1.01 * (u64 * M)) by (pose proof (Rmult_le_compat_l u64 _ _ (Rlt_le _ _ (proj1 Hu)) HAD); lra).
  destruct (sub_fl (f64_ofZ 1) a (proj1 one_fin) Fa) as [F2 E2].
  { rewrite (proj2 one_fin). fold A. apply fin_lt. apply Rle_trans with 1; [apply Rabs_le; lra|]. change 1 with (pow2 0). apply bpow_le. lia. }
  rewrite (proj2 one_fin) in E2. fold A in E2.
  pose proof (rnd_sum 1 (- A) gen1 (generic_format_opp _ _ _ (B2R_gen a))) as R2. fold (1 - A) in R2. rewrite <- E2 in R2.
  set (B := B2R (Bminus mode_NE (f64_ofZ 1) a)) in *. rewrite (Rabs_pos_eq (1 - A)) in R2 by lra.
  assert (HB1 : Rabs (B - (1 - A)) <= u64) by (eapply Rle_trans; [exact R2|]; nra).
  assert (HBabs : Rabs B <= 1.01) by (replace B with ((B - (1 - A)) + (1 - A)) by ring; eapply Rle_trans; [apply Rabs_triang|]; rewrite (Rabs_pos_eq (1 - A)) by lra; lra).
  assert (HBE : Rabs (B * E) <= 2.02 * M) by (rewrite Rabs_mult; pose proof (Rabs_pos B); pose proof (Rabs_pos E); apply Rle_trans with (1.01 * (2 * M)); [apply Rmult_le_compat; assumption | lra]).
  destruct (mul_fl _ e F2 Fe) as [F3 E3]; [apply fin_lt; fold B E; lra|]. fold B E in E3.
  pose proof (rnd_err (B * E)) as R3. rewrite <- E3 in R3. set (T2 := B2R (Bmult mode_NE (Bminus mode_NE (f64_ofZ 1) a) e)) in *.
  assert (HT2 : Rabs (T2 - B * E) <= 2.03 * (u64 * M)) by (pose proof (Rmult_le_compat_l u64 _ _ (Rlt_le _ _ (proj1 Hu)) HBE); lra).
  assert (HB2 : Rabs (B * E - (1 - A) * E) <= 2 * (u64 * M)).
  { replace (B * E - (1 - A) * E) with ((B - (1 - A)) * E) by ring. rewrite Rabs_mult. apply Rle_trans with (u64 * (2 * M)); [|lra].
    apply Rmult_le_compat; try apply Rabs_pos; assumption. }
  (* the convex combination is at most 2 M in magnitude *)
  assert (HC : Rabs (A * D + (1 - A) * E) <= 2 * M).
  { eapply Rle_trans; [apply Rabs_triang|]. rewrite !Rabs_mult, (Rabs_pos_eq A), (Rabs_pos_eq (1 - A)) by lra. nra. }
  assert (HS : Rabs (T1 + T2 - (A * D + (1 - A) * E)) <= 5.1 * (u64 * M)).
  { replace (T1 + T2 - (A * D + (1 - A) * E)) with ((T1 - A * D) + ((T2 - B * E) + (B * E - (1 - A) * E))) by ring.
    eapply Rle_trans; [apply Rabs_triang|]. eapply Rle_trans; [apply Rplus_le_compat_l, Rabs_triang|]. lra. }
  assert (HT : Rabs (T1 + T2) <= 2.1 * M).
  { replace (T1 + T2) with ((T1 + T2 - (A * D + (1 - A) * E)) + (A * D + (1 - A) * E)) by ring. eapply Rle_trans; [apply Rabs_triang|]. lra. }
  destruct (add_fl _ _ F1 F3) as [F4 E4]; [apply fin_lt; fold T1 T2; lra|]. fold T1 T2 in E4.
  split; [exact F4|]. unfold y. rewrite E4.
  pose proof (rnd_sum T1 T2 (B2R_gen _) (B2R_gen _)) as R4.
  replace (rnd (T1 + T2) - (A * D + (1 - A) * E)) with ((rnd (T1 + T2) - (T1 + T2)) + (T1 + T2 - (A * D + (1 - A) * E))) by ring.
  eapply Rle_trans; [apply Rabs_triang|]. rewrite E50.
  pose proof (Rmult_le_compat_l u64 _ _ (Rlt_le _ _ (proj1 Hu)) HT). lra.
Qed.

Lemma min_inv_step (a e : R) i : 0 < a <= 1 -> 0 <= e -> (1 - a) * (Rmin (INR i) (/ a) * e) + e <= Rmin (INR (S i)) (/ a) * e.
Proof.
  intros Ha He. rewrite S_INR. pose proof (pos_INR i) as Hi. assert (Hinv : / a * a = 1) by (field; lra). assert (Hia : 0 < / a) by (apply Rinv_0_lt_compat; lra).
  assert (H : (1 - a) * Rmin (INR i) (/ a) + 1 <= Rmin (INR i + 1) (/ a)).
  { apply Rmin_glb.
    - apply Rle_trans with (Rmin (INR i) (/ a) + 1); [|pose proof (Rmin_l (INR i) (/ a)); lra].
      assert (0 <= Rmin (INR i) (/ a)) by (apply Rmin_glb; lra). nra.
    - pose proof (Rmin_r (INR i) (/ a)) as Hr. assert ((1 - a) * Rmin (INR i) (/ a) <= (1 - a) * / a) by (apply Rmult_le_compat_l; lra). nra. }
  nra.
Qed.

Lemma nth_reals' (l : list f64) k (d : f64) : (k < length l)%nat -> nth k (reals l) 0 = B2R (nth k l d).
Proof. intros H. rewrite nth_reals by exact H. f_equal. apply nth_indep. exact H. Qed.

Lemma ema_f64 (L : Libm) (data : list f64) (a : f64) M : data <> [] -> is_finite a = true -> 0 < B2R a <= 1 ->
  (zlen data <= 2 ^ 48)%Z -> pow2 (-1000) <= M <= pow2 1000 -> (forall x, In x data -> is_finite x = true /\ Rabs (B2R x) <= M) ->
  exists r : list f64, @exponential_moving_average (F64 L) DFloat data a = Ok r /\ length r = length data /\
    forall i, (i < length data)%nat -> is_finite (nth i r B754_nan) = true /\
      Rabs (B2R (nth i r B754_nan) - Rsum (map (fun j => ema_weight (B2R a) i j * nth j (reals data) 0) (seq 0 (S i)))) <= Rmin (INR i) (/ B2R a) * (pow2 (-50) * M).
Proof.
  intros Hne Fa Ha Hlen [Ml Mh] Hd. destruct one_fin as [F1 E1]. destruct zero64_fin as [F0 E0].
  assert (HA : @nleb (F64 L) a (nofZ 0) || @nltb (F64 L) (nofZ 1) a = false).
  { cbn [nleb nltb nofZ F64]. rewrite Bleb_correct, Bltb_correct by assumption. rewrite E0, E1. rewrite Rle_bool_false, Rlt_bool_false by lra. reflexivity. }
  destruct (ema_recurrence (F64 L) DFloat data a HA Hne) as (r & E & Hl & H0 & HS). exists r. split; [exact E|]. split; [exact Hl|].
  change (car (F64 L)) with f64 in *. change (@nnan (F64 L)) with (B754_nan : f64) in *.
  pose proof (pow2_pos (-50)) as H50. pose proof (pow2_pos (-1000)).
  assert (HdN : forall i, (i < length data)%nat -> is_finite (nth i data B754_nan) = true /\ Rabs (B2R (nth i data B754_nan)) <= M) by (intros i Hi; apply Hd, nth_In; exact Hi).
  assert (HR : forall i, (i < length data)%nat -> Rabs (rema (B2R a) (reals data) i) <= M).
  { intros i Hi. apply Rabs_le. apply rema_between; [exact Ha|]. intros j Hj. rewrite (nth_reals' _ _ B754_nan) by lia. apply Rabs_le_inv, HdN. lia. }
  intros i. rewrite <- rema_closed. induction i as [|i IH]; intros Hi.
  - rewrite H0. cbn [store rema]. destruct (HdN O Hi) as [A _]. split; [exact A|].
    rewrite (nth_reals' _ _ B754_nan) by exact Hi. unfold Rminus. rewrite Rplus_opp_r, Rabs_R0. rewrite Rmin_left; [cbn; lra|]. cbn. left. apply Rinv_0_lt_compat. lra.
  - destruct (IH ltac:(lia)) as [Fi Ei]. rewrite HS by lia. replace (S i - 1)%nat with i by lia. cbn [store].
    destruct (HdN (S i) Hi) as [Fd Hdm]. set (e := nth i r B754_nan) in *. set (x := rema (B2R a) (reals data) i) in *. pose proof (HR i ltac:(lia)) as Hx. fold x in Hx.
    assert (HMin : Rmin (INR i) (/ B2R a) <= pow2 48).
    { eapply Rle_trans; [apply Rmin_l|]. rewrite INR_IZR_INZ. change (pow2 48) with (IZR (2 ^ 48)). apply IZR_le. unfold zlen in Hlen. lia. }
    assert (HeM : Rabs (B2R e) <= 2 * M).
    { replace (B2R e) with ((B2R e - x) + x) by ring. eapply Rle_trans; [apply Rabs_triang|].
      assert (Rmin (INR i) (/ B2R a) * (pow2 (-50) * M) <= pow2 48 * (pow2 (-50) * M)) by (apply Rmult_le_compat_r; [apply Rmult_le_pos; lra | exact HMin]).
      assert (E2 : pow2 48 * (pow2 (-50) * M) = pow2 (-2) * M) by (rewrite <- Rmult_assoc, <- bpow_plus; reflexivity). change (pow2 (-2)) with (/ 4) in E2. lra. }
    destruct (ema_step_f64 a (nth (S i) data B754_nan) e M Fa Fd Fi Ha Ml Mh Hdm HeM) as [Fy Ey]. split; [exact Fy|].
    cbn [rema]. fold x. rewrite (nth_reals' _ _ B754_nan) by exact Hi.
    change (@nadd (F64 L) (@nmul (F64 L) a (nth (S i) data B754_nan)) (@nmul (F64 L) (@nsub (F64 L) (nofZ 1) a) e)) with
      (Bplus mode_NE (Bmult mode_NE a (nth (S i) data B754_nan)) (Bmult mode_NE (Bminus mode_NE (f64_ofZ 1) a) e)).
    set (y := Bplus mode_NE _ _) in *. set (D := B2R (nth (S i) data B754_nan)) in *.
    replace (B2R y - (B2R a * D + (1 - B2R a) * x)) with ((B2R y - (B2R a * D + (1 - B2R a) * B2R e)) + (1 - B2R a) * (B2R e - x)) by ring.
    eapply Rle_trans; [apply Rabs_triang|]. rewrite Rabs_mult, (Rabs_pos_eq (1 - B2R a)) by lra.
    apply Rle_trans with ((1 - B2R a) * (Rmin (INR i) (/ B2R a) * (pow2 (-50) * M)) + pow2 (-50) * M).
    + assert ((1 - B2R a) * Rabs (B2R e - x) <= (1 - B2R a) * (Rmin (INR i) (/ B2R a) * (pow2 (-50) * M))) by (apply Rmult_le_compat_l; lra). lra.
    + apply min_inv_step; [exact Ha|]. apply Rmult_le_pos; lra.
Qed.

(** ** Simple moving average *)
Lemma pow_small n : (INR n * u64 <= / 2) -> (1 + u64) ^ n - 1 <= 2 * INR n * u64.
Proof.
  pose proof u64_small as Hu. induction n as [|n IH]; intros H; [cbn; lra|]. rewrite S_INR in *. cbn [pow]. pose proof (pos_INR n).
  assert (HI : (1 + u64) ^ n - 1 <= 2 * INR n * u64) by (apply IH; nra). assert (INR n * u64 <= / 2) by nra. nra.
Qed.
Lemma pow_two n : INR n <= pow2 48 -> (1 + u64) ^ n <= 2.
Proof.
  intros H. pose proof u64_small as Hu. assert (INR n * u64 <= pow2 48 * u64) by (apply Rmult_le_compat_r; lra).
  assert (E : pow2 48 * u64 = pow2 (-5)) by (rewrite <- bpow_plus; reflexivity). change (pow2 (-5)) with (/ 32) in E.
  pose proof (pow_small n ltac:(lra)). lra.
Qed.
Lemma Rasum_le l M : (forall x, In x l -> Rabs x <= M) -> Rasum l <= INR (length l) * M.
Proof.
  induction l as [|x l IH]; intros H; [cbn; lra|]. unfold Rasum in *. cbn [map length]. change (Rsum (Rabs x :: map Rabs l)) with (Rabs x + Rsum (map Rabs l)). rewrite S_INR.
  pose proof (H x (or_introl eq_refl)). pose proof (IH (fun y Hy => H y (or_intror Hy))). lra.
Qed.
Lemma Rsum_le_Rasum l : Rabs (Rsum l) <= Rasum l.
Proof. unfold Rasum. induction l as [|x l IH]; cbn; [rewrite Rabs_R0; lra|]. eapply Rle_trans; [apply Rabs_triang|]. unfold Rsum in *. lra. Qed.
Lemma reals_bound (l : list f64) M : (forall x, In x l -> Rabs (B2R x) <= M) -> forall y, In y (reals l) -> Rabs y <= M.
Proof. intros H y Hy. unfold reals in Hy. apply in_map_iff in Hy. destruct Hy as (x & <- & Hx). apply H, Hx. Qed.

Lemma ts_bounded l s M : tree_sum l s -> 0 <= M -> M <= pow2 1000 -> INR (length l) <= pow2 48 -> INR (length l) * M <= pow2 1008 ->
  (forall x, In x l -> is_finite x = true /\ Rabs (B2R x) <= M) -> is_finite s = true /\ Rabs (B2R s) <= 2 * (INR (length l) * M).
Proof.
  intros H HM0 HM. assert (HG : forall l s, tree_sum l s -> INR (length l) <= pow2 48 -> (forall x, In x l -> is_finite x = true /\ Rabs (B2R x) <= M) -> is_finite s = true -> Rabs (B2R s) <= 2 * (INR (length l) * M)).
  { clear. intros l s H Hl Hx F. pose proof (ts_error l s H F) as HE. pose proof (Rasum_le (reals l) M (reals_bound l M (fun x i => proj2 (Hx x i)))) as HA.
    unfold reals in HA at 2. rewrite map_length in HA. pose proof (Rsum_le_Rasum (reals l)) as HS. pose proof (Rasum_pos (reals l)) as HP.
    assert (HW : (1 + u64) ^ (length l - 1) <= 2).
    { apply pow_two. eapply Rle_trans; [|exact Hl]. apply le_INR. lia. }
    replace (B2R s) with ((B2R s - Rsum (reals l)) + Rsum (reals l)) by ring. eapply Rle_trans; [apply Rabs_triang|].
    assert (((1 + u64) ^ (length l - 1) - 1) * Rasum (reals l) <= 1 * Rasum (reals l)) by (apply Rmult_le_compat_r; lra). lra. }
  induction H as [x|x|l1 l2 l s1 s2 H1 I1 H2 I2 P]; intros Hl HlM Hx.
  - assert (F : is_finite x = true) by (apply Hx; left; reflexivity). split; [exact F|]. apply (HG [x] x); [apply ts_one | assumption | assumption | exact F].
  - assert (F : is_finite x = true) by (apply Hx; left; reflexivity). destruct (zero_add x F) as [F' _]. split; [exact F'|]. apply (HG [x] (Bplus mode_NE zero64 x)); [apply ts_zero | assumption | assumption | exact F'].
  - assert (El : INR (length l) = INR (length l1) + INR (length l2)) by (rewrite (Permutation_length P), app_length, plus_INR; reflexivity).
    pose proof (pos_INR (length l1)). pose proof (pos_INR (length l2)).
    destruct I1 as [F1 B1]; [lra | nra | intros y Hy; apply Hx; apply (Permutation_in _ (Permutation_sym P)); apply in_or_app; left; exact Hy |].
    destruct I2 as [F2 B2]; [lra | nra | intros y Hy; apply Hx; apply (Permutation_in _ (Permutation_sym P)); apply in_or_app; right; exact Hy |].
    destruct (add_fl s1 s2 F1 F2) as [F E].
    { apply fin_lt. eapply Rle_trans; [apply Rabs_triang|]. assert (E2 : pow2 1010 = 4 * pow2 1008) by (change 1010%Z with (2 + 1008)%Z; rewrite bpow_plus; reflexivity). pose proof (pow2_pos 1008). nra. }
    split; [exact F|]. apply (HG l (Bplus mode_NE s1 s2)); [apply ts_add with l1 l2; assumption | assumption | assumption | exact F].
Qed.

(** A mean of at most 2^48 bounded samples. *)
Lemma mean_f64 (L : Libm) (l : list f64) M : sums_somehow L -> l <> [] -> INR (length l) <= pow2 48 -> pow2 (-1000) <= M -> M <= pow2 900 ->
  (forall x, In x l -> is_finite x = true /\ Rabs (B2R x) <= M) ->
  is_finite (@np_mean (F64 L) l) = true /\ Rabs (B2R (@np_mean (F64 L) l) - rmean (reals l)) <= INR (length l) * (3 * (u64 * M)).
Proof.
  intros HL Hne Hl Ml Mh Hx. pose proof (pow2_pos (-1000)). pose proof u64_small as Hu.
  assert (H1 : 1 <= INR (length l)) by (change 1 with (INR 1); apply le_INR; destruct l; [congruence | cbn; lia]).
  assert (HZ : (1 <= zlen l <= 2 ^ 53)%Z).
  { rewrite INR_IZR_INZ in Hl, H1. change (pow2 48) with (IZR (2 ^ 48)) in Hl. apply le_IZR in Hl. apply le_IZR in H1. unfold zlen. lia. }
  assert (H900 : pow2 900 <= pow2 1000) by (apply bpow_le; lia).
  assert (HlM : INR (length l) * M <= pow2 1008).
  { apply Rle_trans with (pow2 48 * pow2 900); [apply Rmult_le_compat; lra|]. rewrite <- bpow_plus. apply bpow_le. lia. }
  destruct (ts_bounded l (l_sum L l) M (HL l Hne) ltac:(lra) ltac:(lra) Hl HlM Hx) as [Fs _].
  destruct (mean_error L l HL HZ Fs) as [Fm Em]. split; [exact Fm|]. eapply Rle_trans; [exact Em|].
  assert (Hul : INR (length l) * u64 <= / 2).
  { apply Rle_trans with (pow2 48 * u64); [apply Rmult_le_compat_r; lra|]. rewrite <- bpow_plus. cbn. lra. }
  pose proof (pow_small (length l) Hul) as HP.
  assert (HA : Rsum (map Rabs (reals l)) / INR (length l) <= M).
  { pose proof (Rasum_le (reals l) M (reals_bound l M (fun x i => proj2 (Hx x i)))) as HA. unfold reals in HA at 2. rewrite map_length in HA. unfold Rasum in HA.
    apply Rmult_le_reg_r with (INR (length l)); [lra|]. unfold Rdiv. rewrite Rmult_assoc, Rinv_l by lra. lra. }
  assert (HA0 : 0 <= Rsum (map Rabs (reals l)) / INR (length l)) by (apply Rmult_le_pos; [apply (Rasum_pos (reals l)) | apply Rlt_le, Rinv_0_lt_compat; lra]).
  pose proof (tiny M Ml) as Ht. assert (H0 : 0 <= u64 * M) by (apply Rmult_le_pos; lra).
  assert (((1 + u64) ^ length l - 1) * (Rsum (map Rabs (reals l)) / INR (length l)) <= 2 * INR (length l) * u64 * M).
  { apply Rmult_le_compat; try assumption. pose proof (pow_R1_Rle (1 + u64) (length l) ltac:(lra)). lra. }
  assert (u64 * M <= INR (length l) * (u64 * M)) by nra. lra.
Qed.

Lemma ma_tail_f64 (p a b : f64) w M : (1 <= w <= 2 ^ 53)%Z -> is_finite p = true -> is_finite a = true -> is_finite b = true ->
  pow2 (-1000) <= M -> M <= pow2 900 -> Rabs (B2R a) <= M -> Rabs (B2R b) <= M -> Rabs (B2R p) <= 2 * M ->
  let y := Bplus mode_NE p (Bdiv mode_NE (Bminus mode_NE a b) (f64_ofZ w)) in
  is_finite y = true /\ Rabs (B2R y - (B2R p + (B2R a - B2R b) / IZR w)) <= pow2 (-49) * M.
Proof.
  intros Hw Fp Fa Fb Ml Mh Ha Hb Hp y. pose proof u64_small as Hu. pose proof (tiny M Ml) as Ht.
  assert (Mh' : M <= pow2 1000) by (eapply Rle_trans; [exact Mh | apply bpow_le; lia]). pose proof (M_max M Mh') as HMx. pose proof (pow2_pos (-1000)).
  assert (HuM : 0 <= u64 * M <= / 1000000 * M) by (split; [apply Rmult_le_pos; lra | apply Rmult_le_compat_r; lra]).
  assert (Hab : Rabs (B2R a - B2R b) <= 2 * M) by (eapply Rle_trans; [apply Rabs_triang|]; rewrite Rabs_Ropp; lra).
  destruct (sub_fl a b Fa Fb) as [F1 E1]; [apply fin_lt; lra|].
  pose proof (rnd_sum (B2R a) (- B2R b) (B2R_gen a) (generic_format_opp _ _ _ (B2R_gen b))) as R1. fold (B2R a - B2R b) in R1. rewrite <- E1 in R1.
  set (d := Bminus mode_NE a b) in *.
  assert (HD : Rabs (B2R d - (B2R a - B2R b)) <= 2 * (u64 * M)) by (pose proof (Rmult_le_compat_l u64 _ _ (Rlt_le _ _ (proj1 Hu)) Hab); lra).
  assert (HDa : Rabs (B2R d) <= 2.01 * M) by (replace (B2R d) with ((B2R d - (B2R a - B2R b)) + (B2R a - B2R b)) by ring; eapply Rle_trans; [apply Rabs_triang|]; lra).
  destruct (div_len d w Hw F1) as [F2 E2]. set (q := Bdiv mode_NE d (f64_ofZ w)) in *.
  assert (HW : 1 <= IZR w) by (apply IZR_le; lia). assert (Hiw : 0 < / IZR w <= 1) by (split; [apply Rinv_0_lt_compat; lra | rewrite <- Rinv_1; apply Rinv_le_contravar; lra]).
  assert (Hdw : Rabs (B2R d / IZR w) <= 2.01 * M).
  { unfold Rdiv. rewrite Rabs_mult, (Rabs_pos_eq (/ IZR w)) by lra. pose proof (Rabs_pos (B2R d)). nra. }
  pose proof (rnd_err (B2R d / IZR w)) as R2. rewrite <- E2 in R2.
  assert (HQ : Rabs (B2R q - B2R d / IZR w) <= 2.02 * (u64 * M)) by (pose proof (Rmult_le_compat_l u64 _ _ (Rlt_le _ _ (proj1 Hu)) Hdw); lra).
  assert (HQ2 : Rabs (B2R d / IZR w - (B2R a - B2R b) / IZR w) <= 2 * (u64 * M)).
  { replace (B2R d / IZR w - (B2R a - B2R b) / IZR w) with ((B2R d - (B2R a - B2R b)) * / IZR w) by (field; lra).
    rewrite Rabs_mult, (Rabs_pos_eq (/ IZR w)) by lra. pose proof (Rabs_pos (B2R d - (B2R a - B2R b))). nra. }
  assert (HQa : Rabs (B2R q) <= 2.02 * M) by (replace (B2R q) with ((B2R q - B2R d / IZR w) + B2R d / IZR w) by ring; eapply Rle_trans; [apply Rabs_triang|]; lra).
  assert (HPQ : Rabs (B2R p + B2R q) <= 4.02 * M) by (eapply Rle_trans; [apply Rabs_triang|]; lra).
  destruct (add_fl p q Fp F2) as [F3 E3]; [apply fin_lt; lra|]. split; [exact F3|]. unfold y. rewrite E3.
  pose proof (rnd_sum (B2R p) (B2R q) (B2R_gen _) (B2R_gen _)) as R3. pose proof (Rmult_le_compat_l u64 _ _ (Rlt_le _ _ (proj1 Hu)) HPQ).
  replace (rnd (B2R p + B2R q) - (B2R p + (B2R a - B2R b) / IZR w)) with
    ((rnd (B2R p + B2R q) - (B2R p + B2R q)) + ((B2R q - B2R d / IZR w) + (B2R d / IZR w - (B2R a - B2R b) / IZR w))) by ring.
  eapply Rle_trans; [apply Rabs_triang|]. eapply Rle_trans; [apply Rplus_le_compat_l, Rabs_triang|].
  replace (pow2 (-49)) with (16 * u64) by (change (-49)%Z with (4 + -53)%Z; rewrite bpow_plus; cbn; lra). lra.
Qed.

(** The two loops as a recurrence, for every number structure. *)
Lemma ma_recurrence (N : Num) (data : list N) (w : Z) : (0 < w <= zlen data)%Z ->
  exists r, moving_average 1 data w = Ok r /\ length r = length data /\
    (forall i, (i < Z.to_nat w)%nat -> nth i r nnan = np_mean (firstn (S i) data)) /\
    (forall i, (Z.to_nat w <= i < length data)%nat ->
       nth i r nnan = nadd (nth (i - 1) r nnan) (ndiv (nsub (nth i data nnan) (nth (i - Z.to_nat w) data nnan)) (nofZ w))).
Proof.
  intros Hw. unfold moving_average. rewrite (proj2 (Z.leb_gt w 0)) by lia.
  rewrite (proj2 (Z.eqb_neq (zlen data) 0)) by (unfold zlen in *; lia). cbn [negb Z.eqb Pos.eqb].
  rewrite (proj2 (Z.ltb_ge (zlen data) w)) by lia.
  set (s0 := repeat (@nofZ N 0) (length data)).
  assert (HL0 : length s0 = length data) by apply repeat_length.
  destruct (foldM_fill (ma_head data) (fun i : Z => np_mean (firstn (S (Z.to_nat i)) data)) 0 w s0 nnan) as (s1 & E1 & HL1 & Hs1 & _).
  - lia.
  - unfold zlen in *. lia.
  - intros i s' Hi HL' _ _. unfold ma_head.
    replace (i + 1)%Z with (Z.of_nat (S (Z.to_nat i))) by lia.
    rewrite pyslice_to by (unfold zlen in *; lia). rewrite mean_num_ne.
    + reflexivity.
    + intros E. apply (f_equal (@length N)) in E. rewrite firstn_length in E. cbn [length] in E. unfold zlen in *. lia.
  - rewrite E1. cbn [bind].
    destruct (foldM_range_inv (ma_tail data w) (fun i s => length s = length data /\
       (forall k, (k < Z.to_nat w)%nat -> nth k s nnan = nth k s1 nnan) /\
       forall k, (Z.to_nat w <= k < Z.to_nat i)%nat -> nth k s nnan = nadd (nth (k - 1) s nnan) (ndiv (nsub (nth k data nnan) (nth (k - Z.to_nat w) data nnan)) (nofZ w))) w (zlen data) s1) as (s2 & E3 & HL2 & H2 & H3).
    + lia.
    + split; [lia|]. split; [reflexivity | lia].
    + intros i s Hi (HL & Ha & Hb). unfold ma_tail.
      rewrite (getz_ok s (i - 1) nnan) by (unfold zlen in *; lia). cbn [bind].
      rewrite (getz_ok data i nnan) by lia. cbn [bind].
      rewrite (getz_ok data (i - w) nnan) by lia. cbn [bind].
      rewrite setz_ok by (unfold zlen in *; lia). eexists. split; [reflexivity|].
      split; [rewrite upd_length; exact HL|]. split.
      * intros k Hk. rewrite nth_upd_other by lia. apply Ha. exact Hk.
      * intros k Hk. rewrite (nth_upd_other _ _ (k - 1)) by lia. destruct (Nat.eq_dec k (Z.to_nat i)) as [->|Hne].
        -- rewrite nth_upd_same by (unfold zlen in *; lia). replace (Z.to_nat (i - 1)) with (Z.to_nat i - 1)%nat by lia.
           replace (Z.to_nat (i - w)) with (Z.to_nat i - Z.to_nat w)%nat by lia. reflexivity.
        -- rewrite nth_upd_other by lia. apply Hb. lia.
    + exists s2. split; [exact E3|]. split; [exact HL2|]. split.
      * intros i Hi. rewrite H2 by exact Hi. rewrite <- (Nat2Z.id i) at 1. rewrite Hs1 by lia. rewrite Nat2Z.id. reflexivity.
      * intros i Hi. apply H3. unfold zlen. lia.
Qed.

Lemma reals_firstn k (l : list f64) : reals (firstn k l) = firstn k (reals l).
Proof. unfold reals. symmetry. apply firstn_map. Qed.
Lemma firstn_bound (l : list f64) k (P : f64 -> Prop) : (forall x, In x l -> P x) -> forall x, In x (firstn k l) -> P x.
Proof. intros H x Hx. apply H. rewrite <- (firstn_skipn k l). apply in_or_app. left. exact Hx. Qed.

Lemma moving_average_f64 (L : Libm) (data : list f64) (w : Z) M : sums_somehow L -> (0 < w <= zlen data)%Z -> (zlen data <= 2 ^ 46)%Z ->
  pow2 (-1000) <= M <= pow2 900 -> (forall x, In x data -> is_finite x = true /\ Rabs (B2R x) <= M) ->
  exists r : list f64, @moving_average (F64 L) 1 data w = Ok r /\ length r = length data /\
    forall i, (i < length data)%nat -> is_finite (nth i r B754_nan) = true /\
      Rabs (B2R (nth i r B754_nan) - rmean (rwindow (reals data) (Z.to_nat w) i)) <= INR (S i) * (pow2 (-49) * M).
Proof.
  intros HL Hw Hlen [Ml Mh] Hd. destruct (ma_recurrence (F64 L) data w Hw) as (r & E & Hl & H1 & H2). exists r. split; [exact E|]. split; [exact Hl|].
  change (car (F64 L)) with f64 in *. change (@nnan (F64 L)) with (B754_nan : f64) in *. pose proof (pow2_pos (-1000)). pose proof u64_small as Hu.
  set (W := Z.to_nat w) in *. assert (HW : (0 < W <= length data)%nat) by (unfold W, zlen in *; lia).
  assert (E49 : pow2 (-49) = 16 * u64) by (change (-49)%Z with (4 + -53)%Z; rewrite bpow_plus; cbn; lra).
  assert (HdN : forall i, (i < length data)%nat -> is_finite (nth i data B754_nan) = true /\ Rabs (B2R (nth i data B754_nan)) <= M) by (intros i Hi; apply Hd, nth_In; exact Hi).
  assert (HI46 : forall k, (k <= length data)%nat -> INR k <= pow2 46).
  { intros k Hk. rewrite INR_IZR_INZ. change (pow2 46) with (IZR (2 ^ 46)). apply IZR_le. unfold zlen in Hlen. lia. }
  assert (E46 : pow2 46 * (16 * (u64 * M)) = / 8 * M).
  { replace (pow2 46 * (16 * (u64 * M))) with (pow2 46 * u64 * 16 * M) by ring. rewrite <- bpow_plus. change (pow2 (46 + -53)) with (/ 128). lra. }
  assert (HuM : 0 <= u64 * M) by (apply Rmult_le_pos; lra).
  assert (HR : forall i, (i < length data)%nat -> Rabs (rmean (rwindow (reals data) W i)) <= M).
  { intros i Hi. assert (Hlr : length (reals data) = length data) by (unfold reals; apply map_length).
    assert (HN : 1 <= INR (length (rwindow (reals data) W i))) by (rewrite rwindow_length by lia; change 1 with (INR 1); apply le_INR; lia).
    unfold rmean, Rdiv. rewrite Rabs_mult, (Rabs_pos_eq (/ _)) by (apply Rlt_le, Rinv_0_lt_compat; lra).
    apply Rmult_le_reg_r with (INR (length (rwindow (reals data) W i))); [lra|]. rewrite Rmult_assoc, Rinv_l, Rmult_1_r by lra.
    eapply Rle_trans; [apply Rsum_le_Rasum|]. rewrite Rmult_comm. apply Rasum_le. intros y Hy. apply (reals_bound data M (fun x h => proj2 (Hd x h))).
    unfold rwindow in Hy. rewrite <- (firstn_skipn (S i - W) (reals data)). apply in_or_app. right. rewrite <- (firstn_skipn (Nat.min (S i) W) (skipn (S i - W) (reals data))). apply in_or_app. left. exact Hy. }
  intros i. induction i as [i IH] using lt_wf_ind. intros Hi. destruct (Nat.lt_ge_cases i W) as [Hlt|Hge].
  - rewrite H1 by exact Hlt.
    assert (Hlf : length (firstn (S i) data) = S i) by (rewrite firstn_length; lia).
    destruct (mean_f64 L (firstn (S i) data) M HL) as [Fm Em]; [intros E0; rewrite E0 in Hlf; discriminate | | exact Ml | exact Mh | apply firstn_bound; exact Hd |].
    { rewrite Hlf. apply Rle_trans with (pow2 46); [apply HI46; lia | apply bpow_le; lia]. }
    split; [exact Fm|]. rewrite rwindow_head by (try exact Hlt; unfold reals; rewrite map_length; exact Hi). rewrite <- reals_firstn. rewrite Hlf in Em.
    eapply Rle_trans; [exact Em|]. apply Rmult_le_compat_l; [apply pos_INR|]. rewrite E49. lra.
  - destruct (IH (i - 1)%nat ltac:(lia) ltac:(lia)) as [Fp Ep]. rewrite H2 by (split; assumption).
    destruct (HdN i Hi) as [Fa Ba]. destruct (HdN (i - W)%nat ltac:(lia)) as [Fb Bb]. set (p := nth (i - 1) r B754_nan) in *.
    pose proof (HR (i - 1)%nat ltac:(lia)) as Hx. set (x := rmean (rwindow (reals data) W (i - 1))) in *. replace (S (i - 1)) with i in Ep by lia.
    assert (HpM : Rabs (B2R p) <= 2 * M).
    { replace (B2R p) with ((B2R p - x) + x) by ring. eapply Rle_trans; [apply Rabs_triang|].
      assert (INR i * (pow2 (-49) * M) <= pow2 46 * (16 * (u64 * M))) by (rewrite E49; replace (16 * u64 * M) with (16 * (u64 * M)) by ring; apply Rmult_le_compat_r; [lra | apply HI46; lia]). lra. }
    destruct (ma_tail_f64 p (nth i data B754_nan) (nth (i - W) data B754_nan) w M) as [Fy Ey]; try assumption; [unfold zlen in *; lia|].
    split; [exact Fy|]. change (@nadd (F64 L) p (@ndiv (F64 L) (@nsub (F64 L) (nth i data B754_nan) (nth (i - W) data B754_nan)) (nofZ w))) with
      (Bplus mode_NE p (Bdiv mode_NE (Bminus mode_NE (nth i data B754_nan) (nth (i - W) data B754_nan)) (f64_ofZ w))).
    set (y := Bplus mode_NE _ _) in *. rewrite S_INR.
    assert (Hx2 : rmean (rwindow (reals data) W i) = x + (B2R (nth i data B754_nan) - B2R (nth (i - W) data B754_nan)) / IZR w).
    { assert (Hlr : length (reals data) = length data) by (unfold reals; apply map_length).
      unfold x, rmean. rewrite (rwindow_slide (reals data) W i) by lia. rewrite !rwindow_length by lia.
      replace (Nat.min (S (i - 1)) W) with W by lia. replace (Nat.min (S i) W) with W by lia.
      rewrite !(nth_reals' _ _ B754_nan) by lia. replace (IZR w) with (INR W) by (unfold W; rewrite INR_IZR_INZ; f_equal; lia).
      assert (INR W <> 0) by (apply not_0_INR; lia). field. assumption. }
    rewrite Hx2. set (q := (B2R (nth i data B754_nan) - B2R (nth (i - W) data B754_nan)) / IZR w) in *.
    replace (B2R y - (x + q)) with ((B2R y - (B2R p + q)) + (B2R p - x)) by ring. eapply Rle_trans; [apply Rabs_triang|]. lra.
Qed.
