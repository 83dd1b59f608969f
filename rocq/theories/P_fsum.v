(** Sums, means, medians and variances in binary64, whatever the summation order. *)
From Coq Require Import Reals Lra Lia Sorted Permutation.
From Flocq Require Import Core Relative Plus_error IEEE754.BinarySingleNaN.
From Verif Require Import Num Lib F64 Spec Spec6 LibR M_descriptive P_order P_float P_float2.
Import ListNotations.
Local Open Scope R_scope.

Local Existing Instance F64.prec_gt_0_53.
Local Existing Instance F64.prec_lt_emax_53.
Notation u64 := (pow2 (-53)).
Notation zero64 := (f64_ofZ 0).

Lemma libm_basic_sums : sums_somehow libm_basic.
Proof.
  intros [|x l] H; [congruence|]. clear H. cbn [l_sum libm_basic fold_left].
  assert (HG : forall l pre a, tree_sum pre a -> tree_sum (pre ++ l) (fold_left (Bplus mode_NE) l a)).
  { clear. induction l as [|y l IH]; intros pre a H; cbn [fold_left]; [rewrite app_nil_r; exact H|].
    replace (pre ++ y :: l) with ((pre ++ [y]) ++ l) by (rewrite <- app_assoc; reflexivity). apply IH.
    apply ts_add with pre [y]; [exact H | apply ts_one | apply Permutation_refl]. }
  apply (HG l [x]). apply ts_zero.
Qed.

(** ** Addition *)
Lemma zero64_fin : is_finite zero64 = true /\ B2R zero64 = 0. Proof. apply (ofZ_fl 0). vm_compute. discriminate. Qed.
Lemma add_finite (x y : f64) : is_finite (Bplus mode_NE x y) = true -> is_finite x = true /\ is_finite y = true.
Proof.
  destruct x as [sx|sx| |sx mx ex Hx], y as [sy|sy| |sy my ey Hy]; cbn [is_finite]; auto; intros H; try discriminate H.
  cbn in H. destruct (Bool.eqb sx sy); discriminate H.
Qed.
Lemma add_val (x y : f64) : is_finite (Bplus mode_NE x y) = true -> B2R (Bplus mode_NE x y) = rnd (B2R x + B2R y).
Proof.
  intros H. destruct (add_finite x y H) as [Fx Fy]. pose proof (Bplus_correct 53 1024 _ _ mode_NE x y Fx Fy) as C. cbn [round_mode] in C.
  change (SpecFloat.fexp 53 1024) with fexp64 in C. destruct (Rlt_bool _ _) in C; [apply C|].
  destruct C as [C _]. destruct (Bplus mode_NE x y); cbn in *; congruence.
Qed.
Lemma rnd_sum x y : generic_format radix2 fexp64 x -> generic_format radix2 fexp64 y -> Rabs (rnd (x + y) - (x + y)) <= u64 * Rabs (x + y).
Proof.
  intros Hx Hy. destruct (FLT_plus_error_N_ex radix2 (-1074) 53 (fun z => negb (Z.even z)) x y Hx Hy) as (e & He & E).
  rewrite E. replace ((x + y) * (1 + e) - (x + y)) with (e * (x + y)) by ring. rewrite Rabs_mult. apply Rmult_le_compat_r; [apply Rabs_pos|].
  eapply Rle_trans; [exact He|]. replace (u_ro radix2 53) with u64 by (unfold u_ro; cbn; lra).
  pose proof (bpow_gt_0 radix2 (-53)). apply Rmult_le_reg_r with (1 + u64); [lra|]. unfold Rdiv. rewrite Rmult_assoc, Rinv_l by lra. nra.
Qed.
Lemma zero_add (x : f64) : is_finite x = true -> is_finite (Bplus mode_NE zero64 x) = true /\ B2R (Bplus mode_NE zero64 x) = B2R x.
Proof.
  intros Fx. destruct zero64_fin as [F0 E0]. assert (H : rnd (B2R zero64 + B2R x) = B2R x) by (rewrite E0, Rplus_0_l; apply rnd_gen, B2R_gen).
  destruct (add_fl zero64 x F0 Fx) as [A B]; [rewrite H; apply (abs_B2R_lt_emax 53 1024)|]. rewrite H in B. auto.
Qed.

(** ** Error of a sum *)
Definition Rasum (l : list R) : R := Rsum (map Rabs l).
Lemma Rsum_app l m : Rsum (l ++ m) = Rsum l + Rsum m.
Proof. induction l as [|x l IH]; cbn; [lra|]. fold (Rsum (l ++ m)). fold (Rsum l). rewrite IH. lra. Qed.
Lemma Rasum_pos l : 0 <= Rasum l.
Proof. unfold Rasum. induction l as [|x l IH]; cbn; [lra|]. fold (Rsum (map Rabs l)). pose proof (Rabs_pos x). lra. Qed.
Lemma Rsum_perm' l m : Permutation l m -> Rsum l = Rsum m.
Proof. intros H. induction H; cbn in *; try reflexivity; unfold Rsum in *; lra. Qed.
Lemma ts_ne l s : tree_sum l s -> (1 <= length l)%nat.
Proof. intros H. induction H as [x|x|l1 l2 l s1 s2 H1 I1 H2 I2 P]; cbn; try lia. rewrite (Permutation_length P), app_length. lia. Qed.
Lemma ts_finite l s : tree_sum l s -> is_finite s = true -> all_finite l.
Proof.
  intros H. induction H as [x|x|l1 l2 l s1 s2 H1 I1 H2 I2 P]; intros F y Hy.
  - destruct Hy as [<-|[]]. exact F.
  - destruct Hy as [<-|[]]. apply add_finite in F. apply F.
  - apply add_finite in F. destruct F as [F1 F2]. apply (Permutation_in _ P) in Hy. apply in_app_or in Hy. destruct Hy; [apply I1 | apply I2]; assumption.
Qed.
Lemma ts_error l s : tree_sum l s -> is_finite s = true ->
  Rabs (B2R s - Rsum (reals l)) <= ((1 + u64) ^ (length l - 1) - 1) * Rasum (reals l).
Proof.
  pose proof (bpow_gt_0 radix2 (-53)) as Hu.
  intros H. induction H as [x|x|l1 l2 l s1 s2 H1 I1 H2 I2 P]; intros F.
  - cbn. rewrite Rplus_0_r. unfold Rminus. rewrite Rplus_opp_r, Rabs_R0. lra.
  - apply add_finite in F. destruct F as [_ F]. destruct (zero_add x F) as [_ ->]. cbn. rewrite Rplus_0_r. unfold Rminus. rewrite Rplus_opp_r, Rabs_R0. lra.
  - destruct (add_finite _ _ F) as [F1 F2]. specialize (I1 F1). specialize (I2 F2). rewrite (add_val _ _ F).
    pose proof (rnd_sum (B2R s1) (B2R s2) (B2R_gen s1) (B2R_gen s2)) as HE.
    pose proof (ts_ne _ _ H1) as N1. pose proof (ts_ne _ _ H2) as N2.
    assert (PR : Permutation (reals l) (reals l1 ++ reals l2)) by (unfold reals; rewrite <- map_app; apply Permutation_map; exact P).
    rewrite (Rsum_perm' _ _ PR), Rsum_app. unfold Rasum. rewrite (Rsum_perm' _ _ (Permutation_map Rabs PR)), map_app, Rsum_app.
    fold (Rasum (reals l1)) (Rasum (reals l2)). rewrite (Permutation_length P), app_length.
    set (A1 := Rasum (reals l1)) in *. set (A2 := Rasum (reals l2)) in *. assert (P1 : 0 <= A1) by apply Rasum_pos. assert (P2 : 0 <= A2) by apply Rasum_pos.
    set (G := (1 + u64) ^ (length l1 + length l2 - 2)).
    assert (G1 : (1 + u64) ^ (length l1 - 1) <= G) by (apply Rle_pow; [lra | lia]).
    assert (G2 : (1 + u64) ^ (length l2 - 1) <= G) by (apply Rle_pow; [lra | lia]).
    replace (length l1 + length l2 - 1)%nat with (S (length l1 + length l2 - 2)) by lia. cbn [pow]. fold G.
    assert (E1 : Rabs (B2R s1 - Rsum (reals l1)) <= (G - 1) * A1) by (eapply Rle_trans; [exact I1|]; apply Rmult_le_compat_r; lra).
    assert (E2 : Rabs (B2R s2 - Rsum (reals l2)) <= (G - 1) * A2) by (eapply Rle_trans; [exact I2|]; apply Rmult_le_compat_r; lra).
    assert (B1 : Rabs (Rsum (reals l1)) <= A1) by (unfold A1, Rasum; clear; induction (reals l1) as [|x l IH]; cbn; [rewrite Rabs_R0; lra | eapply Rle_trans; [apply Rabs_triang|]; unfold Rsum in *; lra]).
    assert (B2 : Rabs (Rsum (reals l2)) <= A2) by (unfold A2, Rasum; clear; induction (reals l2) as [|x l IH]; cbn; [rewrite Rabs_R0; lra | eapply Rle_trans; [apply Rabs_triang|]; unfold Rsum in *; lra]).
    assert (BS : Rabs (B2R s1 + B2R s2) <= G * (A1 + A2)).
    { replace (B2R s1 + B2R s2) with ((B2R s1 - Rsum (reals l1)) + (B2R s2 - Rsum (reals l2)) + (Rsum (reals l1) + Rsum (reals l2))) by ring.
      eapply Rle_trans; [apply Rabs_triang|]. eapply Rle_trans; [apply Rplus_le_compat; apply Rabs_triang|]. lra. }
    replace (rnd (B2R s1 + B2R s2) - (Rsum (reals l1) + Rsum (reals l2))) with
      ((rnd (B2R s1 + B2R s2) - (B2R s1 + B2R s2)) + ((B2R s1 - Rsum (reals l1)) + (B2R s2 - Rsum (reals l2)))) by ring.
    eapply Rle_trans; [apply Rabs_triang|]. eapply Rle_trans; [apply Rplus_le_compat_l, Rabs_triang|].
    assert (u64 * Rabs (B2R s1 + B2R s2) <= u64 * (G * (A1 + A2))) by (apply Rmult_le_compat_l; lra). nra.
Qed.
(** Dividing by the number of samples. *)
Lemma len_fl {A} (l : list A) : (1 <= zlen l <= 2 ^ 53)%Z -> is_finite (f64_ofZ (zlen l)) = true /\ B2R (f64_ofZ (zlen l)) = IZR (zlen l).
Proof. intros H. apply ofZ_fl. lia. Qed.
Lemma div_len (s : f64) n : (1 <= n <= 2 ^ 53)%Z -> is_finite s = true ->
  is_finite (Bdiv mode_NE s (f64_ofZ n)) = true /\ B2R (Bdiv mode_NE s (f64_ofZ n)) = rnd (B2R s / IZR n).
Proof.
  intros Hn Fs. destruct (ofZ_fl n ltac:(lia)) as [Fn En].
  assert (H1 : 1 <= IZR n) by (apply IZR_le; lia).
  destruct (div_fl s (f64_ofZ n)) as [F E]; [exact Fs | rewrite En; lra | | rewrite En in E; auto].
  rewrite En. apply Rle_lt_trans with (Rabs (B2R s)); [|apply (abs_B2R_lt_emax 53 1024)].
  assert (H2 : Rabs (B2R s / IZR n) <= Rabs (B2R s)).
  { unfold Rdiv. rewrite Rabs_mult, (Rabs_pos_eq (/ IZR n)) by (left; apply Rinv_0_lt_compat; lra).
    rewrite <- (Rmult_1_r (Rabs (B2R s))) at 2. apply Rmult_le_compat_l; [apply Rabs_pos|]. rewrite <- Rinv_1. apply Rinv_le_contravar; lra. }
  rewrite <- round_NE_abs by typeclasses eauto. rewrite <- (rnd_gen (Rabs (B2R s))); [apply rnd_mono; exact H2 | apply generic_format_abs, B2R_gen].
Qed.
Lemma mean_error (L : Libm) (l : list f64) : sums_somehow L -> (1 <= zlen l <= 2 ^ 53)%Z -> is_finite (l_sum L l) = true ->
  let m := @np_mean (F64 L) l in
  is_finite m = true /\
  Rabs (B2R m - rmean (reals l)) <= ((1 + pow2 (-53)) ^ length l - 1) * (Rsum (map Rabs (reals l)) / INR (length l)) + pow2 (-1075).
Proof.
  intros HL Hn Fs m. assert (Hne : l <> []) by (intros ->; cbn in Hn; lia).
  destruct (div_len (l_sum L l) (zlen l) Hn Fs) as [Fm Em]. split; [exact Fm|].
  change (B2R m) with (B2R (Bdiv mode_NE (l_sum L l) (f64_ofZ (zlen l)))). rewrite Em.
  pose proof (ts_error l _ (HL l Hne) Fs) as HE. fold (Rasum (reals l)).
  assert (Hz : IZR (zlen l) = INR (length l)) by (unfold zlen; rewrite <- INR_IZR_INZ; reflexivity). rewrite Hz.
  assert (HN : 1 <= INR (length l)) by (rewrite <- Hz; apply IZR_le; lia).
  unfold rmean. replace (INR (length (reals l))) with (INR (length l)) by (unfold reals; rewrite map_length; reflexivity).
  set (n := INR (length l)) in *. set (S := B2R (l_sum L l)) in *. set (T := Rsum (reals l)) in *. set (A := Rasum (reals l)) in *.
  assert (HA : 0 <= A) by apply Rasum_pos. pose proof (rnd_err (S / n)) as HR. pose proof (bpow_gt_0 radix2 (-53)) as Hu.
  assert (HT : Rabs T <= A) by (unfold T, A, Rasum; clear; induction (reals l) as [|x l' IH]; cbn; [rewrite Rabs_R0; lra | eapply Rle_trans; [apply Rabs_triang|]; unfold Rsum in *; lra]).
  destruct (length l) as [|k] eqn:Hk; [destruct l; [congruence|discriminate]|]. replace (Datatypes.S k - 1)%nat with k in HE by lia. cbn [pow].
  set (G := (1 + u64) ^ k) in *.
  assert (HS : Rabs S <= G * A). { replace S with ((S - T) + T) by ring. eapply Rle_trans; [apply Rabs_triang|]. nra. }
  replace (rnd (S / n) - T / n) with ((rnd (S / n) - S / n) + (S - T) / n) by (field; lra).
  eapply Rle_trans; [apply Rabs_triang|].
  assert (Hin : 0 < / n) by (apply Rinv_0_lt_compat; lra).
  assert (E1 : Rabs ((S - T) / n) <= (G - 1) * A * / n) by (unfold Rdiv; rewrite Rabs_mult, (Rabs_pos_eq (/ n)) by lra; apply Rmult_le_compat_r; lra).
  assert (E2 : Rabs (S / n) <= G * A * / n) by (unfold Rdiv; rewrite Rabs_mult, (Rabs_pos_eq (/ n)) by lra; apply Rmult_le_compat_r; lra).
  assert (u64 * Rabs (S / n) <= u64 * (G * A * / n)) by (apply Rmult_le_compat_l; lra).
  unfold Rdiv. nra.
Qed.

(** ** Sums of one and two samples *)
Lemma B2SF_eq (x y : f64) : B2SF x = B2SF y -> x = y. Proof. apply B2SF_inj. Qed.
Lemma ts_single x s : tree_sum [x] s -> is_finite x = true -> is_finite s = true /\ B2R s = B2R x.
Proof.
  intros H Fx. inversion H as [y E1 E2|y E1 E2|l1 l2 l s1 s2 H1 H2 P E1 E2]; subst.
  - auto.
  - apply zero_add. exact Fx.
  - apply ts_ne in H1. apply ts_ne in H2. apply Permutation_length in P. rewrite app_length in P. cbn in P. lia.
Qed.
Lemma len1 {A} (l : list A) : length l = 1%nat -> exists x, l = [x].
Proof. destruct l as [|x [|y l]]; try discriminate. eauto. Qed.
(** A sum of two: the rounded sum if that is finite, otherwise infinite. *)
Lemma add_cases (x y : f64) : is_finite x = true -> is_finite y = true ->
  (Rabs (rnd (B2R x + B2R y)) < pow2 1024 -> is_finite (Bplus mode_NE x y) = true /\ B2R (Bplus mode_NE x y) = rnd (B2R x + B2R y)) /\
  (pow2 1024 <= Rabs (rnd (B2R x + B2R y)) -> exists b, Bplus mode_NE x y = B754_infinity b).
Proof.
  intros Fx Fy. split; [apply add_fl; assumption|]. intros H.
  pose proof (Bplus_correct 53 1024 _ _ mode_NE x y Fx Fy) as C. cbn [round_mode] in C. change (SpecFloat.fexp 53 1024) with fexp64 in C.
  rewrite Rlt_bool_false in C by exact H. destruct C as [C _]. cbn in C. destruct (Bplus mode_NE x y) as [b|b| |b m e Hb]; cbn in C; try discriminate C. eauto.
Qed.
Lemma ts_pair x y s : tree_sum [x; y] s -> is_finite x = true -> is_finite y = true ->
  (Rabs (rnd (B2R x + B2R y)) < pow2 1024 -> is_finite s = true /\ B2R s = rnd (B2R x + B2R y)) /\
  (pow2 1024 <= Rabs (rnd (B2R x + B2R y)) -> exists b, s = B754_infinity b).
Proof.
  intros H Fx Fy. inversion H as [z E1 E2|z E1 E2|l1 l2 l s1 s2 H1 H2 P E1 E2]; subst.
  pose proof (ts_ne _ _ H1) as N1. pose proof (ts_ne _ _ H2) as N2. pose proof (Permutation_length P) as PL. rewrite app_length in PL. cbn in PL.
  destruct (len1 l1) as (a & ->); [lia|]. destruct (len1 l2) as (b & ->); [lia|]. cbn [app] in P.
  apply Permutation_length_2_inv in P.
  assert (HP : is_finite a = true /\ is_finite b = true /\ B2R a + B2R b = B2R x + B2R y).
  { destruct P as [E|E]; injection E as -> ->; repeat split; try assumption; ring. }
  destruct HP as (Fa & Fb & EQ). destruct (ts_single a s1 H1 Fa) as [F1 E1]. destruct (ts_single b s2 H2 Fb) as [F2 E2].
  rewrite <- EQ, <- E1, <- E2. apply add_cases; assumption.
Qed.

(** ** Median *)
Lemma leb_B2R (x y : f64) : is_finite x = true -> is_finite y = true -> Bleb x y = true -> B2R x <= B2R y.
Proof. intros Fx Fy H. rewrite (Bleb_correct 53 1024 x y Fx Fy) in H. destruct (Rle_bool_spec (B2R x) (B2R y)); [assumption | discriminate]. Qed.
Lemma sort_reals (L : Libm) (l : list f64) : all_finite l ->
  Permutation l (@np_sort (F64 L) l) /\ StronglySorted Rle (reals (@np_sort (F64 L) l)).
Proof.
  intros HF. assert (HN : forall y, In y l -> is_nan y = false) by (intros y Hy; specialize (HF y Hy); destruct y; try discriminate; reflexivity).
  split; [apply (np_sort_perm (N := F64 L))|]. rewrite (np_sort_nonan (N := F64 L)) by exact HN.
  pose proof (isort_sorted (F64_ord L) l HN) as HS. pose proof (isort_perm (N := F64 L) l) as HP.
  assert (HF' : all_finite (@isort (F64 L) l)) by (intros y Hy; apply HF; apply (Permutation_in _ (Permutation_sym HP)); exact Hy).
  revert HS HF'. generalize (@isort (F64 L) l). intros m HS HF'. induction HS as [|x m HS IH F]; [constructor|].
  cbn [reals map]. constructor; [apply IH; intros y Hy; apply HF'; right; exact Hy|].
  apply Forall_forall. intros r Hr. apply in_map_iff in Hr. destruct Hr as (y & <- & Hy). rewrite Forall_forall in F.
  apply leb_B2R; [apply HF'; left; reflexivity | apply HF'; right; exact Hy | exact (F y Hy)].
Qed.
Lemma div_one (s : f64) : is_finite s = true -> is_finite (Bdiv mode_NE s (f64_ofZ 1)) = true /\ B2R (Bdiv mode_NE s (f64_ofZ 1)) = B2R s.
Proof.
  intros F. destruct (div_len s 1) as [F1 E1]; [lia | exact F|]. split; [exact F1|]. rewrite E1. unfold Rdiv. rewrite Rinv_1, Rmult_1_r. apply rnd_gen, B2R_gen.
Qed.
Lemma inf_div b n : (1 <= n <= 2 ^ 53)%Z -> exists b', Bdiv mode_NE (B754_infinity b) (f64_ofZ n) = B754_infinity b'.
Proof.
  intros H. destruct (ofZ_fl n ltac:(lia)) as [F _]. destruct (f64_ofZ n); try discriminate; cbn; eauto.
Qed.
Lemma double_gen x : generic_format radix2 fexp64 x -> generic_format radix2 fexp64 (2 * x).
Proof.
  intros H. apply FLT_format_generic in H; [|exact prec_gt_0_53]. destruct H as [f E1 E2 E3]. apply generic_format_FLT.
  exists (Float radix2 (Fnum f) (Fexp f + 1)); cbn [Fnum Fexp]; [|exact E2 | lia].
  rewrite E1. unfold F2R. cbn [Fnum Fexp]. rewrite bpow_plus. change (pow2 1) with 2. ring.
Qed.
Lemma half_between a b : generic_format radix2 fexp64 a -> generic_format radix2 fexp64 b -> a <= b -> a <= rnd (rnd (a + b) / 2) <= b.
Proof.
  intros Ga Gb H. assert (H1 : 2 * a <= rnd (a + b)) by (rewrite <- (rnd_gen (2 * a)) by (apply double_gen; exact Ga); apply rnd_mono; lra).
  assert (H2 : rnd (a + b) <= 2 * b) by (rewrite <- (rnd_gen (2 * b)) by (apply double_gen; exact Gb); apply rnd_mono; lra).
  split; [rewrite <- (rnd_gen a) at 1 by exact Ga | rewrite <- (rnd_gen b) at 2 by exact Gb]; apply rnd_mono; lra.
Qed.
Lemma nth_reals (l : list f64) k : (k < length l)%nat -> nth k (reals l) 0 = B2R (nth k l zero64).
Proof. intros H. unfold reals. rewrite <- (map_nth B2R). apply nth_indep. rewrite map_length. exact H. Qed.
Lemma median_f64 (L : Libm) (l : list f64) (s : list R) : sums_somehow L -> l <> [] -> all_finite l -> is_sorting s (reals l) ->
  let n := length l in let lo := nth ((n - 1) / 2) s 0 in let hi := nth (n / 2) s 0 in
  exists m, @desc_median (F64 L) (@farr (F64 L) l) = Ok m /\
    (Nat.odd n = true -> is_finite m = true /\ B2R m = hi) /\
    (Nat.even n = true -> Rabs (rnd (lo + hi)) < pow2 1024 -> is_finite m = true /\ lo <= B2R m <= hi /\ B2R m = rnd (rnd (lo + hi) / 2)) /\
    (Nat.even n = true -> pow2 1024 <= Rabs (rnd (lo + hi)) -> exists b, m = B754_infinity b).
Proof.
  intros HL Hne HF [Hp Hs] n lo hi. exists (@np_median (F64 L) l). split; [apply (desc_median_farr (N := F64 L)); exact Hne|].
  assert (HN : existsb (@nisnan (F64 L)) l = false).
  { apply Bool.not_true_is_false. intros E. apply existsb_exists in E. destruct E as (x & Hx & E). specialize (HF x Hx). destruct x; discriminate. }
  unfold np_median. rewrite HN. destruct (sort_reals L l HF) as [P S]. set (t := @np_sort (F64 L) l) in *. change (car (F64 L)) with f64 in *.
  assert (Et : s = reals t).
  { apply sorted_unique; [exact Hs | exact S|]. apply perm_trans with (reals l); [apply Permutation_sym; exact Hp | apply Permutation_map; exact P]. }
  assert (Lt : length t = length l) by (symmetry; apply Permutation_length; exact P).
  assert (Hpos : (0 < length l)%nat) by (destruct l; [congruence | cbn; lia]).
  pose proof (Nat.div_lt (length l) 2 Hpos ltac:(lia)) as Hdiv. fold n in Hpos, Hdiv, Lt |- *.
  assert (Ft : forall k, (k < n)%nat -> is_finite (nth k t zero64) = true).
  { intros k Hk. apply HF. apply (Permutation_in _ (Permutation_sym P)). apply nth_In. lia. }
  assert (Ev : forall k, (k < n)%nat -> nth k s 0 = B2R (nth k t zero64)) by (intros k Hk; rewrite Et; apply nth_reals; lia).
  destruct (Nat.odd n) eqn:Ho.
  - assert (He : Nat.even n = false) by (rewrite <- Nat.negb_odd, Ho; reflexivity). rewrite He. split; [|split; discriminate]. intros _.
    rewrite (skipn_nth_cons t (n / 2) zero64) by lia. cbn [firstn].
    set (x := nth (n / 2) t zero64). destruct (ts_single x (l_sum L [x])) as [F1 E1]; [apply HL; discriminate | apply Ft; lia|].
    destruct (div_one _ F1) as [F2 E2]. split; [exact F2|]. unfold hi. rewrite Ev by lia. fold x. rewrite <- E1. exact E2.
  - assert (He : Nat.even n = true) by (rewrite <- Nat.negb_odd, Ho; reflexivity). rewrite He. split; [discriminate|].
    apply Nat.even_spec in He. destruct He as (h & Eh).
    assert (E2 : (n / 2 = h)%nat) by (rewrite Eh, Nat.mul_comm, Nat.div_mul; lia).
    assert (E3 : ((n - 1) / 2 = h - 1)%nat).
    { replace (n - 1)%nat with (1 + (h - 1) * 2)%nat by lia. rewrite Nat.div_add by lia. reflexivity. }
    unfold lo, hi. rewrite E3, E2. rewrite !Ev by lia.
    rewrite (skipn_nth_cons t (h - 1) zero64) by lia. rewrite (skipn_nth_cons t (Datatypes.S (h - 1)) zero64) by lia. cbn [firstn].
    replace (Datatypes.S (h - 1)) with h by lia. set (x := nth (h - 1) t zero64). set (y := nth h t zero64).
    assert (Hxy : B2R x <= B2R y) by (unfold x, y; rewrite <- !Ev by lia; apply sorted_nth_le; [exact Hs | lia | rewrite Et; unfold reals; rewrite map_length; lia]).
    destruct (ts_pair x y (l_sum L [x; y])) as [C1 C2]; [apply HL; discriminate | apply Ft; lia | apply Ft; lia|].
    split; intros _ HB.
    + destruct (C1 HB) as [F1 E1]. destruct (div_len (l_sum L [x; y]) 2) as [F4 E4]; [lia | exact F1|]. split; [exact F4|].
      assert (EV : B2R (@np_mean (F64 L) [x; y]) = rnd (rnd (B2R x + B2R y) / 2)) by (rewrite <- E1; exact E4).
      split; [|exact EV]. rewrite EV. apply half_between; [apply B2R_gen | apply B2R_gen | exact Hxy].
    + destruct (C2 HB) as (b & E1). destruct (inf_div b 2) as (b' & E4); [lia|]. exists b'. rewrite <- E4, <- E1. reflexivity.
Qed.

(** ** The mean of three equal samples *)
Definition tenth : f64 := Bdiv mode_NE (f64_ofZ 1) (f64_ofZ 10).
Lemma ts_three t t2 t3 : Bplus mode_NE zero64 t = t -> Bplus mode_NE t t = t2 -> Bplus mode_NE t2 t = t3 -> Bplus mode_NE t t2 = t3 ->
  forall s, tree_sum [t; t; t] s -> s = t3.
Proof.
  intros E0 E2 E3 E3'.
  assert (HG : forall l s, tree_sum l s -> (forall x, In x l -> x = t) ->
    match length l with 1%nat => s = t | 2%nat => s = t2 | 3%nat => s = t3 | _ => True end).
  { intros l s H. induction H as [x|x|l1 l2 l s1 s2 H1 I1 H2 I2 P]; intros Ht.
    - apply Ht. left. reflexivity.
    - cbn [length]. rewrite (Ht x) by (left; reflexivity). exact E0.
    - assert (T1 : forall x, In x l1 -> x = t) by (intros x Hx; apply Ht; apply (Permutation_in _ (Permutation_sym P)), in_or_app; left; exact Hx).
      assert (T2 : forall x, In x l2 -> x = t) by (intros x Hx; apply Ht; apply (Permutation_in _ (Permutation_sym P)), in_or_app; right; exact Hx).
      specialize (I1 T1). specialize (I2 T2). rewrite (Permutation_length P), app_length.
      pose proof (ts_ne _ _ H1). pose proof (ts_ne _ _ H2).
      destruct (length l1) as [|[|[|[|n1]]]]; try lia; destruct (length l2) as [|[|[|[|n2]]]]; try lia; cbn [Nat.add]; try exact I; subst; auto. }
  intros s H. apply (HG _ _ H). intros x [<-|[<-|[<-|[]]]]; reflexivity.
Qed.
Definition three_tenths : f64 := Bplus mode_NE (Bplus mode_NE tenth tenth) tenth.
Lemma sum_tenths (L : Libm) : sums_somehow L -> l_sum L [tenth; tenth; tenth] = three_tenths.
Proof.
  intros HL. apply (ts_three tenth (Bplus mode_NE tenth tenth) three_tenths).
  - apply B2SF_eq. vm_compute. reflexivity.
  - reflexivity.
  - reflexivity.
  - apply B2SF_eq. vm_compute. reflexivity.
  - apply HL. discriminate.
Qed.
Lemma mean_exceeds (L : Libm) : sums_somehow L ->
  exists x : f64, is_finite x = true /\ @nltb (F64 L) x (@np_mean (F64 L) [x; x; x]) = true.
Proof.
  intros HL. exists tenth. split; [vm_compute; reflexivity|]. unfold np_mean. cbn [nsum ndiv nltb nofZ F64]. rewrite sum_tenths by exact HL. vm_compute. reflexivity.
Qed.
