(** Rounding error of the weighted moving average in binary64. *)
From Coq Require Import Reals Lra Lia Permutation.
From Flocq Require Import Core Relative Plus_error IEEE754.BinarySingleNaN.
From Verif Require Import Num Lib NpBase F64 Spec Spec6 LibR M_descriptive M_series P_series P_float P_float2 P_fsum P_fkalman P_fseries.
Import ListNotations.
Local Open Scope R_scope.

Local Existing Instance F64.prec_gt_0_53.
Local Existing Instance F64.prec_lt_emax_53.

Lemma Rsum_map_diff {A} (f g h : A -> R) l : (forall x, In x l -> Rabs (f x - g x) <= h x) ->
  Rabs (Rsum (map f l) - Rsum (map g l)) <= Rsum (map h l).
Proof.
  induction l as [|x l IH]; intros H; [cbn; rewrite Rminus_diag_eq, Rabs_R0 by reflexivity; lra|].
  change (Rabs (f x + Rsum (map f l) - (g x + Rsum (map g l))) <= h x + Rsum (map h l)).
  replace (f x + Rsum (map f l) - (g x + Rsum (map g l))) with ((f x - g x) + (Rsum (map f l) - Rsum (map g l))) by ring.
  eapply Rle_trans; [apply Rabs_triang|]. apply Rplus_le_compat; [apply H; left; reflexivity | apply IH; intros y Hy; apply H; right; exact Hy].
Qed.

(** Integers that add up to at most 2^53 are summed exactly, in any order. *)
Lemma ts_exact l s : tree_sum l s -> forall k : f64 -> Z, (forall x, In x l -> is_finite x = true /\ B2R x = IZR (k x) /\ (0 <= k x)%Z) ->
  Rsum (reals l) <= IZR (2 ^ 53) -> is_finite s = true /\ B2R s = Rsum (reals l) /\ exists z, (0 <= z <= 2 ^ 53)%Z /\ B2R s = IZR z.
Proof.
  intros H k. induction H as [x|x|l1 l2 l s1 s2 H1 I1 H2 I2 P]; intros Hk Hs.
  - destruct (Hk x (or_introl eq_refl)) as (F & E & K). cbn in Hs. rewrite Rplus_0_r in Hs. split; [exact F|]. split; [cbn; ring|]. exists (k x). rewrite E in Hs. apply le_IZR in Hs. auto.
  - destruct (Hk x (or_introl eq_refl)) as (F & E & K). cbn in Hs. rewrite Rplus_0_r in Hs. destruct (zero_add x F) as [F' E']. split; [exact F'|]. split; [rewrite E'; cbn; ring|].
    exists (k x). rewrite E in Hs. apply le_IZR in Hs. rewrite E'. auto.
  - assert (PR : Permutation (reals l) (reals l1 ++ reals l2)) by (unfold reals; rewrite <- map_app; apply Permutation_map; exact P).
    rewrite (Rsum_perm' _ _ PR), P_fsum.Rsum_app in *.
    assert (Hpos : forall m, (forall x, In x m -> In x l) -> 0 <= Rsum (reals m)).
    { intros m Hm. unfold reals. apply Rsum_map_nonneg. intros x Hx. destruct (Hk x (Hm x Hx)) as (_ & -> & K). apply IZR_le. exact K. }
    assert (J1 : forall x, In x l1 -> In x l) by (intros x Hx; apply (Permutation_in _ (Permutation_sym P)), in_or_app; left; exact Hx).
    assert (J2 : forall x, In x l2 -> In x l) by (intros x Hx; apply (Permutation_in _ (Permutation_sym P)), in_or_app; right; exact Hx).
    pose proof (Hpos l1 J1). pose proof (Hpos l2 J2).
    destruct I1 as (F1 & E1 & z1 & Hz1 & Ez1); [intros x Hx; apply Hk, J1, Hx | lra |].
    destruct I2 as (F2 & E2 & z2 & Hz2 & Ez2); [intros x Hx; apply Hk, J2, Hx | lra |].
    assert (Hz : (0 <= z1 + z2 <= 2 ^ 53)%Z) by (split; [lia|]; apply le_IZR; rewrite plus_IZR; lra).
    assert (ER : rnd (B2R s1 + B2R s2) = IZR (z1 + z2)) by (rewrite Ez1, Ez2, <- plus_IZR; apply rnd_gen, gen_IZR; lia).
    destruct (add_fl s1 s2 F1 F2) as [F E].
    { rewrite ER. apply Rle_lt_trans with (pow2 53); [|apply bpow_lt; lia]. rewrite <- abs_IZR. change (pow2 53) with (IZR (2 ^ 53)). apply IZR_le. lia. }
    split; [exact F|]. rewrite E, ER, plus_IZR, <- Ez1, <- Ez2. split; [lra|]. exists (z1 + z2)%Z. split; [exact Hz|]. rewrite plus_IZR, <- Ez1, <- Ez2. reflexivity.
Qed.

Lemma Rsum_S p : Rsum (map (fun j => INR (S j)) (seq 0 p)) = INR p * (INR p + 1) / 2.
Proof.
  induction p as [|p IH]; [cbn; lra|]. rewrite seq_S, map_app, P_fsum.Rsum_app, IH. cbn [map Nat.add].
  change (Rsum [INR (S p)]) with (INR (S p) + 0). rewrite S_INR. field.
Qed.

Lemma reals_nth (l : list f64) : reals l = map (fun j => B2R (nth j l B754_nan)) (seq 0 (length l)).
Proof.
  apply (nth_ext_len _ _ 0); [unfold reals; rewrite !map_length, seq_length; reflexivity|].
  intros k Hk. unfold reals in Hk. rewrite map_length in Hk. rewrite (nth_reals' _ _ B754_nan) by exact Hk.
  rewrite (nth_map_in (fun j => B2R (nth j l B754_nan)) (seq 0 (length l)) k O) by (rewrite seq_length; exact Hk). rewrite seq_nth by exact Hk. reflexivity.
Qed.

Lemma wmean_f64 (L : Libm) (seg : list f64) (p : Z) M : sums_somehow L -> (0 < p <= 2 ^ 26)%Z -> length seg = Z.to_nat p ->
  pow2 (-1000) <= M -> M <= pow2 900 -> (forall x, In x seg -> is_finite x = true /\ Rabs (B2R x) <= M) ->
  let ws := map (fun k => @nofZ (F64 L) k) (zrange 1 (p + 1)) in
  let y : f64 := @ndiv (F64 L) (nsum (zipwith nmul ws seg)) (nsum ws) in
  is_finite y = true /\ Rabs (B2R y - rwmean (reals seg)) <= IZR p * (pow2 (-50) * M).
Proof.
  intros HL Hp Hlen Ml Mh Hx ws y. pose proof u64_small as Hu. pose proof (tiny M Ml) as Ht. pose proof (pow2_pos (-1000)) as H1000.
  assert (HuM : 0 <= u64 * M <= / 1000000 * M) by (split; [apply Rmult_le_pos; lra | apply Rmult_le_compat_r; lra]).
  set (n := Z.to_nat p) in *. assert (Hn : IZR p = INR n) by (unfold n; rewrite INR_IZR_INZ; f_equal; lia).
  assert (Hn1 : 1 <= INR n) by (rewrite <- Hn; apply IZR_le; lia).
  assert (Hn26 : INR n <= pow2 26) by (rewrite <- Hn; change (pow2 26) with (IZR (2 ^ 26)); apply IZR_le; lia).
  change (car (F64 L)) with f64 in *. 
  assert (Hwl : length ws = n) by (unfold ws; rewrite map_length, zrange_length; unfold n; lia).
  assert (Hwn : forall j, (j < n)%nat -> is_finite (nth j ws B754_nan) = true /\ B2R (nth j ws B754_nan) = INR (S j)).
  { intros j Hj. rewrite (nth_indep ws B754_nan (f64_ofZ 0)) by lia. unfold ws. change (f64_ofZ 0) with (@nofZ (F64 L) 0) at 1 2.
    rewrite (map_nth (fun k => @nofZ (F64 L) k)). rewrite nth_zrange by (unfold n in Hj; lia).
    replace (INR (S j)) with (IZR (1 + Z.of_nat j)) by (rewrite INR_IZR_INZ; f_equal; lia). apply (ofZ_fl (1 + Z.of_nat j)). unfold n in Hj. lia. }
  assert (Hwin : forall x, In x ws -> exists j, (j < n)%nat /\ x = nth j ws B754_nan).
  { intros x Hin. apply (In_nth _ _ (B754_nan : f64)) in Hin. destruct Hin as (j & Hj & <-). exists j. split; [lia | reflexivity]. }
  assert (Hwr : reals ws = map (fun j => INR (S j)) (seq 0 n)).
  { rewrite reals_nth, Hwl. apply map_ext_in. intros j Hj. apply in_seq in Hj. apply Hwn. lia. }
  set (W := Rsum (map (fun j => INR (S j)) (seq 0 n))) in *.
  assert (HW : INR n <= W <= IZR (2 ^ 53)).
  { unfold W. rewrite Rsum_S. split; [nra|]. assert (Hpp : pow2 26 * pow2 26 <= IZR (2 ^ 53)) by (rewrite <- bpow_plus; change (IZR (2 ^ 53)) with (pow2 53); apply bpow_le; lia).
    assert (H26 : 1 <= pow2 26) by (cbn; lra). nra. }
  assert (Hws : ws <> []) by (intros E; rewrite E in Hwl; cbn in Hwl; unfold n in Hwl; lia).
  destruct (ts_exact ws (l_sum L ws) (HL ws Hws) (fun x => f64_ceilZ x)) as (FT & ET & _).
  { intros x Hin. destruct (Hwin x Hin) as (j & Hj & ->). destruct (Hwn j Hj) as [F E]. split; [exact F|]. rewrite (ceil_fl _ F), E.
    assert (E' : INR (S j) = IZR (Z.of_nat (S j))) by apply INR_IZR_INZ. rewrite E', Zceil_IZR. split; [reflexivity | lia]. }
  { rewrite Hwr. apply HW. }
  rewrite Hwr in ET. fold W in ET.
  (* products *)
  set (prods := @zipwith f64 f64 f64 (Bmult mode_NE) ws seg).
  assert (Hpl : length prods = n) by (unfold prods; rewrite zipwith_length; lia).
  assert (Hpn : forall j, (j < n)%nat -> is_finite (nth j prods B754_nan) = true /\
    Rabs (B2R (nth j prods B754_nan) - INR (S j) * nth j (reals seg) 0) <= 1.001 * (u64 * M) * INR (S j) /\
    Rabs (B2R (nth j prods B754_nan)) <= 1.01 * M * INR (S j)).
  { intros j Hj. assert (Ep : nth j prods B754_nan = Bmult mode_NE (nth j ws B754_nan) (nth j seg B754_nan)) by (apply (nth_zipwith (Bmult mode_NE) ws seg j B754_nan B754_nan B754_nan); lia). rewrite Ep. clear Ep.
    destruct (Hwn j Hj) as [Fw Ew]. assert (Hin : In (nth j seg B754_nan) seg) by (apply nth_In; lia). destruct (Hx _ Hin) as [Fd Bd].
    rewrite (nth_reals' _ _ B754_nan) by lia. set (d := nth j seg B754_nan) in *. set (wj := nth j ws B754_nan) in *.
    assert (HS1 : 1 <= INR (S j)) by (change 1 with (INR 1); apply le_INR; lia).
    assert (HSn : INR (S j) <= pow2 26) by (eapply Rle_trans; [apply le_INR; exact Hj | exact Hn26]).
    assert (HB : Rabs (B2R wj * B2R d) <= INR (S j) * M) by (rewrite Ew, Rabs_mult, (Rabs_pos_eq (INR (S j))) by lra; apply Rmult_le_compat_l; lra).
    destruct (mul_fl wj d Fw Fd) as [F E].
    { apply fin_lt. eapply Rle_trans; [exact HB|]. apply Rle_trans with (pow2 26 * pow2 900); [apply Rmult_le_compat; lra|]. rewrite <- bpow_plus. apply bpow_le. lia. }
    split; [exact F|]. rewrite E. pose proof (rnd_err (B2R wj * B2R d)) as HR.
    pose proof (Rmult_le_compat_l u64 _ _ (Rlt_le _ _ (proj1 Hu)) HB) as HuB. rewrite Ew in *.
    assert (HuS : u64 * M <= u64 * M * INR (S j)) by (rewrite <- (Rmult_1_r (u64 * M)) at 1; apply Rmult_le_compat_l; lra).
    assert (HB1 : Rabs (rnd (INR (S j) * B2R d) - INR (S j) * B2R d) <= 1.001 * (u64 * M) * INR (S j)) by lra.
    split; [exact HB1|]. replace (rnd (INR (S j) * B2R d)) with ((rnd (INR (S j) * B2R d) - INR (S j) * B2R d) + INR (S j) * B2R d) by ring.
    eapply Rle_trans; [apply Rabs_triang|]. assert (u64 * M * INR (S j) <= / 1000000 * M * INR (S j)) by (apply Rmult_le_compat_r; lra). lra. }
  assert (Hps : forall x, In x prods -> is_finite x = true /\ Rabs (B2R x) <= 1.01 * M * INR n).
  { intros x Hin. apply (In_nth _ _ (B754_nan : f64)) in Hin. destruct Hin as (j & Hj & <-). assert (Hj2 : (j < n)%nat) by (rewrite <- Hpl; exact Hj). clear Hj. rename Hj2 into Hj. destruct (Hpn j Hj) as (F & _ & B). split; [exact F|].
    eapply Rle_trans; [exact B|]. apply Rmult_le_compat_l; [lra | apply le_INR; exact Hj]. }
  assert (Hprods : prods <> []) by (intros E; rewrite E in Hpl; cbn in Hpl; unfold n in Hpl; lia).
  assert (HMn : M * INR n <= pow2 926) by (apply Rle_trans with (pow2 900 * pow2 26); [apply Rmult_le_compat; lra | rewrite <- bpow_plus; apply bpow_le; lia]).
  assert (E927 : pow2 927 = 2 * pow2 926) by (change 927%Z with (1 + 926)%Z; rewrite bpow_plus; reflexivity).
  assert (HM0 : 0 <= M * INR n) by (apply Rmult_le_pos; lra).
  destruct (ts_bounded prods (l_sum L prods) (1.01 * M * INR n) (HL prods Hprods)) as [FS _].
  { lra. }
  { apply Rle_trans with (pow2 927); [lra | apply bpow_le; lia]. }
  { rewrite Hpl. eapply Rle_trans; [exact Hn26 | apply bpow_le; lia]. }
  { rewrite Hpl. apply Rle_trans with (pow2 26 * pow2 927); [apply Rmult_le_compat; lra | rewrite <- bpow_plus; apply bpow_le; lia]. }
  { exact Hps. }
  pose proof (ts_error prods (l_sum L prods) (HL prods Hprods) FS) as HE. rewrite Hpl in HE.
  set (S := l_sum L prods) in *. set (T := l_sum L ws) in *.
  set (G := Rsum (map (fun j => INR (Datatypes.S j) * nth j (reals seg) 0) (seq 0 n))).
  assert (HD : Rabs (Rsum (reals prods) - G) <= 1.001 * (u64 * M) * W).
  { rewrite reals_nth, Hpl. unfold G, W. rewrite <- Rsum_map_scal. apply (Rsum_map_diff (fun j => B2R (nth j prods B754_nan))). intros j Hj. apply in_seq in Hj. apply Hpn. lia. }
  assert (HA : Rasum (reals prods) <= 1.01 * M * W).
  { unfold Rasum. rewrite reals_nth, Hpl, map_map. unfold W. rewrite <- Rsum_map_scal. apply Rsum_map_le. intros j Hj. apply in_seq in Hj. apply Hpn. lia. }
  pose proof (Rasum_pos (reals prods)) as HA0.
  assert (Hnu : INR n * u64 <= / 2) by (apply Rle_trans with (pow2 26 * u64); [apply Rmult_le_compat_r; lra | rewrite <- bpow_plus; cbn; lra]).
  assert (HP : (1 + u64) ^ (n - 1) - 1 <= 2 * INR n * u64).
  { apply Rle_trans with ((1 + u64) ^ n - 1); [|apply pow_small; exact Hnu]. apply Rplus_le_compat_r. apply Rle_pow; [lra | lia]. }
  assert (HW0 : 0 < W) by lra.
  assert (HE2 : Rabs (B2R S - Rsum (reals prods)) <= 2.02 * INR n * (u64 * M) * W).
  { eapply Rle_trans; [exact HE|]. apply Rle_trans with (2 * INR n * u64 * (1.01 * M * W)).
    - apply Rmult_le_compat; try assumption. pose proof (pow_R1_Rle (1 + u64) (n - 1) ltac:(lra)). lra.
    - lra. }
  assert (HSG : Rabs (B2R S - G) <= (2.02 * INR n + 1.001) * (u64 * M) * W).
  { replace (B2R S - G) with ((B2R S - Rsum (reals prods)) + (Rsum (reals prods) - G)) by ring. eapply Rle_trans; [apply Rabs_triang|]. lra. }
  assert (HGM : Rabs (G / W) <= M).
  { apply Rabs_le. replace (G / W) with (rwmean (reals seg)) by (unfold rwmean, G, W; replace (length (reals seg)) with n by (unfold reals; rewrite map_length; lia); reflexivity).
    apply rwmean_between; [intros E; apply (f_equal (@length R)) in E; unfold reals in E; rewrite map_length in E; cbn in E; unfold n in Hlen; lia|].
    intros x Hin. apply Rabs_le_inv. apply (reals_bound seg M); [|exact Hin]. intros z Hz. apply Hx, Hz. }
  set (c := (2.02 * INR n + 1.001) * (u64 * M)).
  assert (Hq : Rabs (B2R S / W - G / W) <= c).
  { replace (B2R S / W - G / W) with ((B2R S - G) / W) by (field; lra). unfold Rdiv. rewrite Rabs_mult, (Rabs_pos_eq (/ W)) by (apply Rlt_le, Rinv_0_lt_compat; lra).
    apply Rmult_le_reg_r with W; [exact HW0|]. rewrite Rmult_assoc, Rinv_l, Rmult_1_r by lra. exact HSG. }
  assert (Hc : 0 <= c <= / 10 * M).
  { unfold c. split; [apply Rmult_le_pos; lra|]. assert (INR n * (u64 * M) <= pow2 26 * (u64 * M)) by (apply Rmult_le_compat_r; lra).
    assert (E : pow2 26 * (u64 * M) = pow2 (-27) * M) by (rewrite <- Rmult_assoc, <- bpow_plus; reflexivity).
    assert (pow2 (-27) * M <= / 1000 * M) by (apply Rmult_le_compat_r; [lra | cbn; lra]). lra. }
  assert (HSW : Rabs (B2R S / W) <= 1.1 * M) by (replace (B2R S / W) with ((B2R S / W - G / W) + G / W) by ring; eapply Rle_trans; [apply Rabs_triang|]; lra).
  assert (Mh' : M <= pow2 1000) by (eapply Rle_trans; [exact Mh | apply bpow_le; lia]). pose proof (M_max M Mh') as HMx.
  destruct (div_fl S T FS) as [Fy Ey]; [rewrite ET; lra | rewrite ET; apply fin_lt; lra |]. rewrite ET in Ey.
  split; [exact Fy|]. change (B2R y) with (B2R (Bdiv mode_NE S T)). rewrite Ey.
  replace (rwmean (reals seg)) with (G / W) by (unfold rwmean, G, W; replace (length (reals seg)) with n by (unfold reals; rewrite map_length; lia); reflexivity).
  pose proof (rnd_err (B2R S / W)) as HR. pose proof (Rmult_le_compat_l u64 _ _ (Rlt_le _ _ (proj1 Hu)) HSW) as HR2.
  replace (rnd (B2R S / W) - G / W) with ((rnd (B2R S / W) - B2R S / W) + (B2R S / W - G / W)) by ring. eapply Rle_trans; [apply Rabs_triang|].
  rewrite Hn, E50. assert (HnM : u64 * M <= INR n * (u64 * M)) by (rewrite <- (Rmult_1_l (u64 * M)) at 1; apply Rmult_le_compat_r; lra). unfold c in *. lra.
Qed.

Lemma reals_skipn k (l : list f64) : reals (skipn k l) = skipn k (reals l).
Proof. unfold reals. symmetry. apply skipn_map. Qed.
Lemma skipn_bound (l : list f64) k (P : f64 -> Prop) : (forall x, In x l -> P x) -> forall x, In x (skipn k l) -> P x.
Proof. intros H x Hx. apply H. rewrite <- (firstn_skipn k l). apply in_or_app. right. exact Hx. Qed.

Lemma weighted_average_f64 (L : Libm) (data : list f64) (p : Z) M : sums_somehow L -> (0 < p <= 2 ^ 26)%Z -> (p <= zlen data)%Z ->
  pow2 (-1000) <= M <= pow2 900 -> (forall x, In x data -> is_finite x = true /\ Rabs (B2R x) <= M) ->
  exists r : list f64, @weighted_moving_average (F64 L) data p = Ok ((p <? zlen data)%Z, r) /\ length r = (length data - Z.to_nat p)%nat /\
    forall k, (k < length data - Z.to_nat p)%nat -> is_finite (nth k r B754_nan) = true /\
      Rabs (B2R (nth k r B754_nan) - rwmean (firstn (Z.to_nat p) (skipn k (reals data)))) <= IZR p * (pow2 (-50) * M).
Proof.
  intros HL Hp Hlen [Ml Mh] Hd. eexists. split; [apply (wma_loop (F64 L)); [lia | exact Hlen]|]. rewrite map_length, seq_length. split; [reflexivity|].
  intros k Hk. change (car (F64 L)) with f64 in *.
  rewrite (nth_map_in _ (seq 0 (length data - Z.to_nat p)) k O) by (rewrite seq_length; exact Hk).
  rewrite seq_nth by exact Hk. cbn [Nat.add]. rewrite <- reals_skipn, <- reals_firstn.
  apply wmean_f64; try assumption.
  - rewrite firstn_length, skipn_length. lia.
  - apply firstn_bound, skipn_bound. exact Hd.
Qed.
