(** Variance, scaling and averages in binary64. *)
From Coq Require Import Reals Lra Lia Sorted Permutation.
From Flocq Require Import Core Relative Plus_error IEEE754.BinarySingleNaN.
From Verif Require Import Num Lib F64 Spec Spec2 Spec6 LibR M_descriptive M_series M_detection M_kernel P_descriptive P_order P_moment P_series P_float P_float2 P_fsum.
Import ListNotations.
Local Open Scope R_scope.

Local Existing Instance F64.prec_gt_0_53.
Local Existing Instance F64.prec_lt_emax_53.

(** ** Not NaN and not negative *)
Definition nn (x : f64) : Prop :=
  match x with B754_nan => False | B754_infinity b => b = false | _ => 0 <= B2R x end.
Lemma nn_fin x : is_finite x = true -> 0 <= B2R x -> nn x.
Proof. destruct x; try discriminate; auto. Qed.
Lemma nn_leb (L : Libm) x : nn x -> @nleb (F64 L) (nofZ 0) x = true.
Proof.
  intros H. cbn [nleb nofZ F64]. destruct zero64_fin as [F0 E0]. destruct x as [b|b| |b m e Hb].
  - rewrite Bleb_correct by (exact F0 || reflexivity). apply Rle_bool_true. rewrite E0. cbn. lra.
  - cbn in H. subst b. reflexivity.
  - destruct H.
  - rewrite Bleb_correct by (exact F0 || reflexivity). apply Rle_bool_true. rewrite E0. exact H.
Qed.
Lemma sign_B2R (x : f64) : is_finite x = true -> (Bsign x = true -> B2R x <= 0) /\ (Bsign x = false -> 0 <= B2R x).
Proof.
  destruct x as [b|b| |b m e Hb]; try discriminate; intros _; cbn; [split; lra|]. split; intros ->.
  - apply F2R_le_0. cbn. lia.
  - apply F2R_ge_0. cbn. lia.
Qed.
Lemma overflow_inf (x : f64) b : B2SF x = binary_overflow 53 1024 mode_NE b -> x = B754_infinity b.
Proof. intros H. apply B2SF_eq. rewrite H. reflexivity. Qed.
Lemma rnd_pos x : 0 <= x -> 0 <= rnd x.
Proof. intros H. rewrite <- (round_0 radix2 fexp64 ZnearestE). apply rnd_mono. exact H. Qed.
Lemma nn_add x y : nn x -> nn y -> nn (Bplus mode_NE x y).
Proof.
  intros Hx Hy.
  assert (C : is_finite x = true -> is_finite y = true -> nn (Bplus mode_NE x y)).
  { intros Fx Fy. assert (Px : 0 <= B2R x) by (destruct x; try discriminate; exact Hx). assert (Py : 0 <= B2R y) by (destruct y; try discriminate; exact Hy).
    pose proof (Bplus_correct 53 1024 _ _ mode_NE x y Fx Fy) as C. cbn [round_mode] in C. change (SpecFloat.fexp 53 1024) with fexp64 in C.
    destruct (Rlt_bool_spec (Rabs (rnd (B2R x + B2R y))) (pow2 1024)) as [H|H].
    - destruct C as (E & F & _). apply nn_fin; [exact F|]. rewrite E. apply rnd_pos. lra.
    - destruct C as [E Es]. apply overflow_inf in E. rewrite E. cbn. destruct (Bsign x) eqn:Sx; [exfalso|reflexivity].
      pose proof (proj1 (sign_B2R x Fx) Sx). pose proof (proj1 (sign_B2R y Fy) (eq_sym Es)).
      replace (B2R x + B2R y) with 0 in H by lra. rewrite round_0, Rabs_R0 in H by typeclasses eauto. pose proof (bpow_gt_0 radix2 1024). lra. }
  destruct x as [bx|bx| |bx mx ex Bx], y as [by_|by_| |by_ my ey By]; try (destruct Hx; fail); try (destruct Hy; fail); try (apply C; reflexivity).
  - cbn in *. assumption.
  - cbn in *. assumption.
  - cbn in *. subst. reflexivity.
  - cbn in *. assumption.
  - cbn in *. assumption.
Qed.
Lemma ts_nn l s : tree_sum l s -> (forall x, In x l -> nn x) -> nn s.
Proof.
  intros H. induction H as [x|x|l1 l2 l s1 s2 H1 I1 H2 I2 P]; intros Hn.
  - apply Hn. left. reflexivity.
  - apply nn_add; [apply nn_fin; [apply zero64_fin | destruct zero64_fin as [_ ->]; lra] | apply Hn; left; reflexivity].
  - apply nn_add; [apply I1 | apply I2]; intros x Hx; apply Hn; apply (Permutation_in _ (Permutation_sym P)), in_or_app; auto.
Qed.
Lemma nn_square x : is_nan x = false -> nn (Bmult mode_NE x x).
Proof.
  destruct (is_finite x) eqn:Fx; intros Hn.
  - pose proof (Bmult_correct 53 1024 _ _ mode_NE x x) as C. cbn [round_mode] in C. change (SpecFloat.fexp 53 1024) with fexp64 in C.
    destruct (Rlt_bool_spec (Rabs (rnd (B2R x * B2R x))) (pow2 1024)) as [H|H].
    + destruct C as (E & F & _). apply nn_fin; [rewrite F, Fx; reflexivity|]. rewrite E. apply rnd_pos. nra.
    + apply overflow_inf in C. rewrite C. cbn. apply Bool.xorb_nilpotent.
  - destruct x as [b|b| |b m e Hb]; try discriminate. cbn. apply Bool.xorb_nilpotent.
Qed.
Lemma sub_not_nan x y : is_finite x = true -> is_finite y = true -> is_nan (Bminus mode_NE x y) = false.
Proof.
  intros Fx Fy. pose proof (Bminus_correct 53 1024 _ _ mode_NE x y Fx Fy) as C. destruct (Rlt_bool _ _) in C.
  - destruct C as (_ & F & _). destruct (Bminus mode_NE x y); try discriminate; reflexivity.
  - destruct C as [C _]. apply overflow_inf in C. rewrite C. reflexivity.
Qed.
Lemma nn_div_len x n : (1 <= n <= 2 ^ 53)%Z -> nn x -> nn (Bdiv mode_NE x (f64_ofZ n)).
Proof.
  intros Hn Hx. assert (H1 : 1 <= IZR n) by (apply IZR_le; lia). destruct (is_finite x) eqn:Fx.
  - destruct (div_len x n Hn Fx) as [F E]. apply nn_fin; [exact F|]. rewrite E. apply rnd_pos.
    assert (0 <= B2R x) by (destruct x; try discriminate; exact Hx). apply Rle_mult_inv_pos; lra.
  - destruct x as [b|b| |b m e Hb]; try discriminate; [|destruct Hx]. cbn in Hx. subst b.
    destruct (ofZ_fl n ltac:(lia)) as [F E]. destruct (f64_ofZ n) as [b|b| |b m e Hb]; try discriminate; cbn in E |- *.
    + lra.
    + destruct b; [|reflexivity]. exfalso. assert (F2R (Float radix2 (Z.neg m) e) <= 0) by (apply F2R_le_0; cbn; lia). cbn in E. lra.
Qed.
Lemma nn_sqrt x : nn x -> nn (Bsqrt mode_NE x).
Proof.
  intros H. pose proof (Bsqrt_correct 53 1024 _ _ mode_NE x) as (E & F & _). destruct x as [b|b| |b m e Hb].
  - cbn. lra.
  - cbn in H. subst b. reflexivity.
  - destruct H.
  - destruct b.
    + exfalso. assert (F2R (Float radix2 (Z.neg m) e) < 0) by (apply F2R_lt_0; cbn; lia). cbn in H. lra.
    + apply nn_fin; [rewrite F; reflexivity|]. rewrite E. apply rnd_pos, sqrt_pos.
Qed.
Lemma variance_f64 (L : Libm) (l : list f64) : sums_somehow L -> (1 <= zlen l <= 2 ^ 53)%Z -> is_finite (l_sum L l) = true ->
  exists v s, @spread_variance (F64 L) (@farr (F64 L) l) = Ok v /\ @spread_std (F64 L) (@farr (F64 L) l) = Ok s /\
    @nleb (F64 L) (nofZ 0) v = true /\ @nleb (F64 L) (nofZ 0) s = true.
Proof.
  intros HL Hn Fs. assert (Hne : l <> []) by (intros ->; cbn in Hn; lia).
  exists (@np_var (F64 L) l), (@np_std (F64 L) l). split; [apply (spread_variance_farr (N := F64 L)); exact Hne|].
  split; [apply (spread_std_farr (N := F64 L)); exact Hne|].
  assert (HV : nn (@np_var (F64 L) l)).
  { unfold np_var. set (m := @np_mean (F64 L) l). assert (Fm : is_finite m = true) by apply (div_len (l_sum L l) (zlen l) Hn Fs).
    set (q := map (fun x => @sq (F64 L) (@nsub (F64 L) x m)) l). assert (Hq : zlen q = zlen l) by (unfold q, zlen; rewrite map_length; reflexivity).
    unfold np_mean. cbn [ndiv nofZ F64 nsum]. rewrite Hq. apply nn_div_len; [exact Hn|]. apply (ts_nn q).
    - apply HL. unfold q. destruct l; [congruence | discriminate].
    - intros x Hx. apply in_map_iff in Hx. destruct Hx as (y & <- & Hy). apply nn_square. apply sub_not_nan; [|exact Fm].
      apply (ts_finite l (l_sum L l) (HL l Hne) Fs). exact Hy. }
  split; apply nn_leb; [exact HV|]. apply nn_sqrt. exact HV.
Qed.
(** Three equal samples with a positive variance. *)
Lemma variance_constant (L : Libm) : sums_somehow L ->
  exists x v : f64, is_finite x = true /\ @spread_variance (F64 L) (@farr (F64 L) [x; x; x]) = Ok v /\ @nltb (F64 L) (nofZ 0) v = true.
Proof.
  intros HL. exists tenth, (@np_var (F64 L) [tenth; tenth; tenth]). split; [vm_compute; reflexivity|].
  split; [apply (spread_variance_farr (N := F64 L)); discriminate|].
  set (d := Bminus mode_NE tenth (Bdiv mode_NE three_tenths (f64_ofZ 3))). set (q := Bmult mode_NE d d).
  assert (E : @np_var (F64 L) [tenth; tenth; tenth] = Bdiv mode_NE (l_sum L [q; q; q]) (f64_ofZ 3)).
  { unfold q, d. rewrite <- (sum_tenths L HL). reflexivity. }
  rewrite E. rewrite (ts_three q (Bplus mode_NE q q) (Bplus mode_NE (Bplus mode_NE q q) q)) with (s := l_sum L [q; q; q]).
  - vm_compute. reflexivity.
  - apply B2SF_eq. vm_compute. reflexivity.
  - reflexivity.
  - reflexivity.
  - apply B2SF_eq. vm_compute. reflexivity.
  - apply HL. discriminate.
Qed.
(** Two large samples with an infinite mean. *)
Lemma mean_overflows (L : Libm) : sums_somehow L ->
  exists x : f64, is_finite x = true /\ exists b, @np_mean (F64 L) [x; x] = B754_infinity b.
Proof.
  intros HL. pose (x := f64_ofZ (2 ^ 1023)). exists x. assert (Fx : is_finite x = true) by (vm_compute; reflexivity). split; [exact Fx|].
  assert (Ex : B2R x = pow2 1023).
  { rewrite <- SF2R_B2SF. replace (B2SF x) with (SpecFloat.S754_finite false (2 ^ 52) 971) by (vm_compute; reflexivity).
    cbn [SF2R]. unfold F2R. cbn [Fnum Fexp cond_Zopp]. change (IZR (Z.pos (2 ^ 52))) with (pow2 52). rewrite <- bpow_plus. reflexivity. }
  destruct (ts_pair x x (l_sum L [x; x])) as [_ C]; [apply HL; discriminate | exact Fx | exact Fx|].
  destruct C as (b & E).
  { rewrite Ex. replace (pow2 1023 + pow2 1023) with (pow2 1024).
    - rewrite rnd_pow2 by lia. rewrite Rabs_pos_eq by apply bpow_ge_0. lra.
    - change 1024%Z with (1 + 1023)%Z. rewrite bpow_plus. change (pow2 1) with 2. lra. }
  destruct (inf_div b 2) as (b' & E'); [lia|]. exists b'. unfold np_mean. cbn [ndiv nsum nofZ F64]. rewrite E. exact E'.
Qed.

(** ** Scaling to [0, 1] *)
Lemma arr_ext (L : Libm) (l : list f64) : l <> [] -> all_finite l ->
  exists mx mn : f64, @arr_max (F64 L) l = Ok mx /\ @arr_min (F64 L) l = Ok mn /\ In mx l /\ In mn l /\
    forall x, In x l -> B2R mn <= B2R x <= B2R mx.
Proof.
  intros Hne HF. destruct l as [|x l]; [congruence|].
  assert (HN : forall y, In y (x :: l) -> is_nan y = false) by (intros y Hy; specialize (HF y Hy); destruct y; try discriminate; reflexivity).
  assert (HE : existsb (@nisnan (F64 L)) (x :: l) = false).
  { apply Bool.not_true_is_false. intros E. apply existsb_exists in E. destruct E as (y & Hy & E). specialize (HN y Hy). cbn in E. congruence. }
  exists (@np_max (F64 L) x l), (@np_min (F64 L) x l). unfold arr_max, arr_min. rewrite HE. split; [reflexivity|]. split; [reflexivity|].
  destruct (np_max_spec (F64_ord L) x l) as (A & B & _); [apply HN; left; reflexivity | intros y Hy; apply HN; right; exact Hy|].
  destruct (np_min_spec (F64_ord L) x l) as (A' & B' & _); [apply HN; left; reflexivity | intros y Hy; apply HN; right; exact Hy|].
  split; [exact A|]. split; [exact A'|]. intros y Hy. split; apply leb_B2R.
  - exact (HF _ A').
  - apply HF. exact Hy.
  - apply B'. exact Hy.
  - apply HF. exact Hy.
  - exact (HF _ A).
  - apply B. exact Hy.
Qed.
Lemma rnd_sub_pos x y : generic_format radix2 fexp64 x -> generic_format radix2 fexp64 y -> y < x -> 0 < rnd (x - y).
Proof.
  intros Gx Gy H. assert (H0 : 0 <= rnd (x - y)) by (apply rnd_pos; lra).
  assert (rnd (x - y) <> 0); [|lra]. unfold Rminus. apply round_plus_neq_0; try typeclasses eauto; [exact Gx | apply generic_format_opp; exact Gy | lra].
Qed.
Lemma scaling_f64 (L : Libm) (l : list f64) : l <> [] -> all_finite l ->
  exists mx mn sc : f64, @k_scaling (F64 L) l = Ok (mx, mn, sc) /\ In mx l /\ In mn l /\ (forall x, In x l -> B2R mn <= B2R x <= B2R mx) /\
    (B2R mn < B2R mx -> Rabs (rnd (B2R mx - B2R mn)) < pow2 1024 ->
       forall x, In x l -> let y := @ndiv (F64 L) (@nsub (F64 L) x mn) sc in
         In y (@k_transform (F64 L) l mn sc) /\ is_finite y = true /\ 0 <= B2R y <= 1 /\ (B2R x = B2R mn -> B2R y = 0) /\ (B2R x = B2R mx -> B2R y = 1)) /\
    (pow2 1024 <= Rabs (rnd (B2R mx - B2R mn)) -> In B754_nan (@k_transform (F64 L) l mn sc)).
Proof.
  intros Hne HF. destruct (arr_ext L l Hne HF) as (mx & mn & Emx & Emn & Imx & Imn & HB).
  exists mx, mn, (Bminus mode_NE mx mn). pose proof (HF _ Imx) as Fmx. pose proof (HF _ Imn) as Fmn.
  split; [unfold k_scaling; rewrite Emx, Emn; reflexivity|]. split; [exact Imx|]. split; [exact Imn|]. split; [exact HB|]. split.
  - intros Hlt Hov x Hx y. pose proof (HF _ Hx) as Fx. destruct (HB x Hx) as [B1 B2].
    destruct (sub_fl mx mn Fmx Fmn Hov) as [Fs Es]. set (sc := Bminus mode_NE mx mn) in *.
    pose proof (rnd_sub_pos _ _ (B2R_gen mx) (B2R_gen mn) Hlt) as Hpos. rewrite <- Es in Hpos.
    assert (M1 : 0 <= rnd (B2R x - B2R mn) <= B2R sc) by (split; [apply rnd_pos; lra | rewrite Es; apply rnd_mono; lra]).
    destruct (sub_fl x mn Fx Fmn) as [Fd Ed].
    { apply Rle_lt_trans with (2 := Hov). rewrite !Rabs_pos_eq by (apply rnd_pos; lra). apply rnd_mono. lra. }
    assert (Q : 0 <= B2R (Bminus mode_NE x mn) / B2R sc <= 1).
    { rewrite Ed. split; [apply Rle_mult_inv_pos; lra|]. apply Rmult_le_reg_r with (B2R sc); [exact Hpos|]. unfold Rdiv. rewrite Rmult_assoc, Rinv_l by lra. lra. }
    destruct (div_fl (Bminus mode_NE x mn) sc Fd) as [Fy Ey]; [lra | |].
    { apply rnd_lt_max with 0%Z; [lia|]. change (pow2 0) with 1. rewrite Rabs_pos_eq; lra. }
    assert (R1 : rnd 1 = 1) by (apply (rnd_pow2 0); lia).
    change (is_finite y = true) in Fy. change (B2R y = rnd (B2R (Bminus mode_NE x mn) / B2R sc)) in Ey.
    split; [apply in_map_iff; exists x; split; [reflexivity | exact Hx]|]. split; [exact Fy|]. rewrite Ey. split; [|split].
    + split; [apply rnd_pos; lra | rewrite <- R1; apply rnd_mono; lra].
    + intros E. rewrite Ed, E. unfold Rminus. rewrite Rplus_opp_r, round_0 by typeclasses eauto. unfold Rdiv. rewrite Rmult_0_l. apply round_0. typeclasses eauto.
    + intros E. rewrite Ed, E, <- Es. unfold Rdiv. rewrite Rinv_r by lra. exact R1.
  - intros Hov. apply in_map_iff. exists mx. split; [|exact Imx]. cbn [ndiv nsub F64].
    pose proof (Bminus_correct 53 1024 _ _ mode_NE mx mn Fmx Fmn) as C. cbn [round_mode] in C. change (SpecFloat.fexp 53 1024) with fexp64 in C.
    rewrite Rlt_bool_false in C by exact Hov. destruct C as [C _]. apply overflow_inf in C. rewrite C. destruct (Bsign mx); reflexivity.
Qed.
Lemma scaling_overflow (L : Libm) : exists (l : list f64) mx mn sc, all_finite l /\ @k_scaling (F64 L) l = Ok (mx, mn, sc) /\
  In B754_nan (@k_transform (F64 L) l mn sc).
Proof.
  pose (x := f64_ofZ (2 ^ 1023)). pose (y := f64_ofZ (- 2 ^ 1023)). exists [x; y].
  assert (HF : all_finite [x; y]) by (intros z [<-|[<-|[]]]; vm_compute; reflexivity).
  destruct (scaling_f64 L [x; y]) as (mx & mn & sc & E & Imx & Imn & HB & _ & HN); [discriminate | exact HF|].
  exists mx, mn, sc. split; [exact HF|]. split; [exact E|]. apply HN.
  assert (Ex : B2R x = pow2 1023).
  { rewrite <- SF2R_B2SF. replace (B2SF x) with (SpecFloat.S754_finite false (2 ^ 52) 971) by (vm_compute; reflexivity).
    cbn [SF2R]. unfold F2R. cbn [Fnum Fexp cond_Zopp]. change (IZR (Z.pos (2 ^ 52))) with (pow2 52). rewrite <- bpow_plus. reflexivity. }
  assert (Ey : B2R y = - pow2 1023).
  { rewrite <- SF2R_B2SF. replace (B2SF y) with (SpecFloat.S754_finite true (2 ^ 52) 971) by (vm_compute; reflexivity).
    cbn [SF2R]. unfold F2R. cbn [Fnum Fexp cond_Zopp]. change (- Z.pos (2 ^ 52))%Z with (- (2 ^ 52))%Z. rewrite opp_IZR. change (IZR (2 ^ 52)) with (pow2 52).
    rewrite Ropp_mult_distr_l_reverse, <- bpow_plus. reflexivity. }
  pose proof (HB x (or_introl eq_refl)) as [_ H1]. pose proof (HB y (or_intror (or_introl eq_refl))) as [H2 _].
  assert (H3 : pow2 1024 <= B2R mx - B2R mn).
  { assert (E2 : pow2 1024 = 2 * pow2 1023) by exact (bpow_plus radix2 1 1023). lra. }
  rewrite Rabs_pos_eq by (apply rnd_pos; pose proof (bpow_gt_0 radix2 1024); lra). rewrite <- (rnd_pow2 1024) by lia. apply rnd_mono. exact H3.
Qed.

(** ** Exponential average of a constant record *)
Lemma nth_rep {A} (x d : A) n : forall j, (j < n)%nat -> nth j (repeat x n) d = x.
Proof. induction n; intros [|j] Hj; cbn; try lia; auto. apply IHn. lia. Qed.
Definition fifth : f64 := Bdiv mode_NE (f64_ofZ 1) (f64_ofZ 5).
Lemma ema_constant (L : Libm) : exists (x a above : f64), @nltb (F64 L) x above = true /\
  forall n, @exponential_moving_average (F64 L) DFloat (repeat x (S n)) a = Ok (x :: repeat above n).
Proof.
  pose (x := f64_ofZ 3). pose (step := fun e => Bplus mode_NE (Bmult mode_NE fifth x) (Bmult mode_NE (Bminus mode_NE (f64_ofZ 1) fifth) e)).
  pose (y := step x). exists x, fifth, y. split; [vm_compute; reflexivity|]. intros n.
  assert (HA : @nleb (F64 L) fifth (nofZ 0) || @nltb (F64 L) (nofZ 1) fifth = false) by (vm_compute; reflexivity).
  destruct (ema_recurrence (F64 L) DFloat (repeat x (S n)) fifth HA) as (r & E & HLr & H0 & HS); [discriminate|].
  rewrite E. f_equal. rewrite repeat_length in HLr, HS. cbn [store] in H0, HS.
  assert (FIX : step y = y) by (apply B2SF_eq; vm_compute; reflexivity).
  assert (HV : forall i, (i < S n)%nat -> nth i r nnan = match i with O => x | S _ => y end).
  { induction i as [|i IH]; intros Hi; [rewrite H0; reflexivity|].
    rewrite HS by lia. replace (S i - 1)%nat with i by lia. rewrite IH by lia.
    transitivity (step (match i with O => x | S _ => y end)); [|destruct i; [reflexivity | exact FIX]].
    refine (f_equal2 (Bplus mode_NE) (f_equal2 (Bmult mode_NE) eq_refl _) eq_refl). apply nth_rep. exact Hi. }
  apply (nth_ext_len _ _ (@nnan (F64 L))); [cbn [length]; rewrite repeat_length; exact HLr|].
  intros k Hk. rewrite HLr in Hk. rewrite HV by exact Hk. destruct k; [reflexivity|]. cbn [nth]. symmetry. apply nth_rep. lia.
Qed.

(** ** [np.around] does not always give the nearest multiple *)
Lemma around_not_nearest (L : Libm) : exists (x : f64) k, is_finite x = true /\
  let y := @around (F64 L) x 2 in
  Rabs (IZR k / 100 - B2R x) < / 200 < Rabs (B2R y - B2R x).
Proof.
  pose (x := Bdiv mode_NE (f64_ofZ 2675) (f64_ofZ 1000)). exists x, 267%Z. split; [vm_compute; reflexivity|]. intros y.
  assert (Ex : B2R x = IZR 6023564501608038 * / IZR (2 ^ 51)).
  { rewrite <- SF2R_B2SF. replace (B2SF x) with (SpecFloat.S754_finite false 6023564501608038 (-51)) by (vm_compute; reflexivity). reflexivity. }
  assert (Ey : B2R y = IZR 6034823500676465 * / IZR (2 ^ 51)).
  { rewrite <- SF2R_B2SF. replace (B2SF y) with (SpecFloat.S754_finite false 6034823500676465 (-51)) by (vm_compute; reflexivity). reflexivity. }
  rewrite Ex, Ey. change (2 ^ 51)%Z with 2251799813685248%Z. split; unfold Rabs; destruct (Rcase_abs _); lra.
Qed.

(** ** The mean as [descriptive.mean] returns it *)
Lemma desc_mean_error (L : Libm) parse (data : list (pyval (F64 L))) (l : list f64) : Forall2 denotes data l -> sums_somehow L -> (1 <= zlen l <= 2 ^ 53)%Z ->
  exists m : f64, desc_mean parse (ASeq data) = Ok (MVal (N := F64 L) m) /\
    (is_finite (l_sum L l) = true -> is_finite m = true /\
      Rabs (B2R m - rmean (reals l)) <= ((1 + pow2 (-53)) ^ length l - 1) * (Rsum (map Rabs (reals l)) / INR (length l)) + pow2 (-1075)).
Proof.
  intros HD HL Hn. exists (@np_mean (F64 L) l). split; [|intros Fs; apply (mean_error L l HL Hn Fs)].
  apply (mean_numeric (N := F64 L) parse data l HD). intros ->. cbn in Hn. lia.
Qed.
Lemma desc_mean_exceeds (L : Libm) parse : sums_somehow L ->
  exists x m : f64, is_finite x = true /\ desc_mean parse (ASeq [PyFloat (N := F64 L) x; PyFloat (N := F64 L) x; PyFloat (N := F64 L) x]) = Ok (MVal (N := F64 L) m) /\ @nltb (F64 L) x m = true.
Proof.
  intros HL. destruct (mean_exceeds L HL) as (x & F & E). exists x, (@np_mean (F64 L) [x; x; x]). split; [exact F|]. split; [|exact E].
  apply (mean_numeric (N := F64 L) parse _ [x; x; x]); [repeat constructor | discriminate].
Qed.
Lemma desc_mean_overflows (L : Libm) parse : sums_somehow L ->
  exists x : f64, is_finite x = true /\ exists b, desc_mean parse (ASeq [PyFloat (N := F64 L) x; PyFloat (N := F64 L) x]) = Ok (MVal (N := F64 L) (B754_infinity b)).
Proof.
  intros HL. destruct (mean_overflows L HL) as (x & F & b & E). exists x. split; [exact F|]. exists b. rewrite <- E.
  apply (mean_numeric (N := F64 L) parse _ [x; x]); [repeat constructor | discriminate].
Qed.
