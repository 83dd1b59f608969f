(** Rounding facts of the binary64 instance. *)
From Coq Require Import Reals Lra Lia.
From Flocq Require Import Core Relative Calc.Bracket IEEE754.BinarySingleNaN.
From Verif Require Import Num F64.
Local Open Scope R_scope.

Local Existing Instance F64.prec_gt_0_53.
Local Existing Instance F64.prec_lt_emax_53.

Notation fexp64 := (FLT_exp (-1074) 53).
Notation rnd := (round radix2 fexp64 ZnearestE).
Notation pow2 := (bpow radix2).

Lemma rnd_mono x y : x <= y -> rnd x <= rnd y.
Proof. apply round_le; try typeclasses eauto. Qed.
Lemma rnd_gen x : generic_format radix2 fexp64 x -> rnd x = x.
Proof. apply round_generic. typeclasses eauto. Qed.
Lemma gen_pow2 e : (-1074 <= e)%Z -> generic_format radix2 fexp64 (pow2 e).
Proof. intros H. apply generic_format_bpow. unfold FLT_exp. lia. Qed.
Lemma rnd_pow2 e : (-1074 <= e)%Z -> rnd (pow2 e) = pow2 e.
Proof. intros H. apply rnd_gen, gen_pow2, H. Qed.
Lemma rnd_opp x : rnd (- x) = - rnd x.
Proof. apply round_NE_opp. Qed.
Lemma rnd_abs_le x e : (-1074 <= e)%Z -> Rabs x <= pow2 e -> Rabs (rnd x) <= pow2 e.
Proof.
  intros He H. apply Rabs_le_inv in H. apply Rabs_le. rewrite <- (rnd_pow2 e He). rewrite <- rnd_opp. split; apply rnd_mono; tauto.
Qed.
Lemma B2R_gen (x : f64) : generic_format radix2 fexp64 (B2R x).
Proof. apply (generic_format_B2R 53 1024 x). Qed.
Lemma gen_IZR n : (Z.abs n <= 2 ^ 53)%Z -> generic_format radix2 fexp64 (IZR n).
Proof.
  intros H. destruct (Z.eq_dec (Z.abs n) (2 ^ 53)) as [E|E].
  - assert (HE : (n = 2 ^ 53 \/ n = - 2 ^ 53)%Z) by lia. destruct HE as [-> | ->].
    + change (IZR (2 ^ 53)) with (pow2 53). apply gen_pow2. lia.
    + change (- 2 ^ 53)%Z with (- (2 ^ 53))%Z. rewrite opp_IZR. apply generic_format_opp. change (IZR (2 ^ 53)) with (pow2 53). apply gen_pow2. lia.
  - apply generic_format_FLT. exists (Float radix2 n 0); cbn; [unfold F2R; cbn; ring | change (Zpower_pos 2 53) with (2 ^ 53)%Z; lia | lia].
Qed.

(** ** The operations *)
Lemma mul_fl (x y : f64) : is_finite x = true -> is_finite y = true -> Rabs (rnd (B2R x * B2R y)) < pow2 1024 ->
  is_finite (Bmult mode_NE x y) = true /\ B2R (Bmult mode_NE x y) = rnd (B2R x * B2R y).
Proof.
  intros Hx Hy H. pose proof (Bmult_correct 53 1024 _ _ mode_NE x y) as C. cbn [round_mode] in C.
  change (SpecFloat.fexp 53 1024) with fexp64 in C. rewrite Rlt_bool_true in C by exact H. destruct C as (E & F & _). rewrite F, Hx, Hy. auto.
Qed.
Lemma div_fl (x y : f64) : is_finite x = true -> B2R y <> 0 -> Rabs (rnd (B2R x / B2R y)) < pow2 1024 ->
  is_finite (Bdiv mode_NE x y) = true /\ B2R (Bdiv mode_NE x y) = rnd (B2R x / B2R y).
Proof.
  intros Hx Hy H. pose proof (Bdiv_correct 53 1024 _ _ mode_NE x y Hy) as C. cbn [round_mode] in C.
  change (SpecFloat.fexp 53 1024) with fexp64 in C. rewrite Rlt_bool_true in C by exact H. destruct C as (E & F & _). rewrite F, Hx. auto.
Qed.
Lemma add_fl (x y : f64) : is_finite x = true -> is_finite y = true -> Rabs (rnd (B2R x + B2R y)) < pow2 1024 ->
  is_finite (Bplus mode_NE x y) = true /\ B2R (Bplus mode_NE x y) = rnd (B2R x + B2R y).
Proof.
  intros Hx Hy H. pose proof (Bplus_correct 53 1024 _ _ mode_NE x y Hx Hy) as C. cbn [round_mode] in C.
  change (SpecFloat.fexp 53 1024) with fexp64 in C. rewrite Rlt_bool_true in C by exact H. destruct C as (E & F & _). auto.
Qed.
Lemma sub_fl (x y : f64) : is_finite x = true -> is_finite y = true -> Rabs (rnd (B2R x - B2R y)) < pow2 1024 ->
  is_finite (Bminus mode_NE x y) = true /\ B2R (Bminus mode_NE x y) = rnd (B2R x - B2R y).
Proof.
  intros Hx Hy H. pose proof (Bminus_correct 53 1024 _ _ mode_NE x y Hx Hy) as C. cbn [round_mode] in C.
  change (SpecFloat.fexp 53 1024) with fexp64 in C. rewrite Rlt_bool_true in C by exact H. destruct C as (E & F & _). auto.
Qed.
Lemma ofZ_fl n : (Z.abs n <= 2 ^ 53)%Z -> is_finite (f64_ofZ n) = true /\ B2R (f64_ofZ n) = IZR n.
Proof.
  intros H. pose proof (binary_normalize_correct 53 1024 _ _ mode_NE n 0 false) as C. cbn [round_mode] in C.
  change (SpecFloat.fexp 53 1024) with fexp64 in C. assert (E : F2R (Float radix2 n 0) = IZR n) by (unfold F2R; cbn; ring). rewrite E in C.
  rewrite rnd_gen in C by (apply gen_IZR; exact H). rewrite Rlt_bool_true in C.
  - destruct C as (E1 & E2 & _). split; [exact E2 | exact E1].
  - apply Rle_lt_trans with (pow2 53); [|apply bpow_lt; lia]. rewrite <- abs_IZR. change (pow2 53) with (IZR (2 ^ 53)). apply IZR_le. exact H.
Qed.

(** ** Relative error *)
Lemma rnd_rel x : pow2 (-1022) <= Rabs x -> Rabs (rnd x - x) <= pow2 (-53) * Rabs x.
Proof.
  intros H. pose proof (relative_error_N_FLT radix2 (-1074) 53 eq_refl (fun z => negb (Z.even z)) x H) as E.
  change (-53 + 1)%Z with (-52)%Z in E. replace (pow2 (-53)) with (/ 2 * pow2 (-52)); [exact E|]. cbn. lra.
Qed.

(** ** [int(np.ceil(x))] *)
Lemma ceil_fl (x : f64) : is_finite x = true -> f64_ceilZ x = Zceil (B2R x).
Proof.
  destruct x as [s|s| |s m e H]; try discriminate; intros _.
  - cbn. change 0 with (IZR 0). rewrite Zceil_IZR. reflexivity.
  - apply eq_IZR. destruct (Bnearbyint_correct_aux 53 1024 _ mode_UP s m e H) as (_ & R & F & _). cbn [round_mode] in R.
    transitivity (round radix2 (FIX_exp 0) Zceil (B2R (B754_finite s m e H))).
    2:{ unfold round, scaled_mantissa, F2R, cexp, FIX_exp. cbn [Fnum Fexp Z.opp]. change (pow2 0) with 1. rewrite !Rmult_1_r. reflexivity. }
    cbn [B2R]. rewrite <- R. clear R. unfold SFnearbyint_binary in F |- *. cbn [f64_ceilZ].
    set (z := SFnearbyint_binary_aux 53 mode_UP s m e) in F |- *.
    destruct (0 <=? e)%Z eqn:He.
    + unfold z, SFnearbyint_binary_aux. rewrite He. cbn [SF2R]. unfold F2R. cbn [Fnum Fexp]. apply Z.leb_le in He.
      assert (E : IZR (2 ^ e) = pow2 e) by (rewrite <- (IZR_Zpower radix2 e He); reflexivity).
      rewrite !mult_IZR, E. destruct s; cbn [cond_Zopp]; [change (Z.neg m) with (- Z.pos m)%Z; rewrite opp_IZR; ring | ring].
    + destruct z as [|p|p] eqn:Ez.
      * destruct s; cbn; lra.
      * pose proof (shl_align_fexp_correct 53 1024 p 0) as C. destruct (shl_align_fexp 53 1024 p 0) as [mx ex]. destruct C as [C _].
        cbn [SF2R]. unfold F2R in *. cbn [Fnum Fexp] in *. change (pow2 0) with 1 in C. rewrite Rmult_1_r in C. rewrite mult_IZR.
        destruct s; cbn [cond_Zopp]; [change (Z.neg mx) with (- Z.pos mx)%Z; rewrite opp_IZR; lra | lra].
      * discriminate F.
Qed.
Lemma rnd_lt_max x e : (-1074 <= e < 1024)%Z -> Rabs x <= pow2 e -> Rabs (rnd x) < pow2 1024.
Proof. intros He H. apply Rle_lt_trans with (pow2 e); [apply rnd_abs_le; [lia | exact H] | apply bpow_lt; lia]. Qed.
Lemma pow2_53 : 0 < pow2 (-53) < / 9000000000000000.
Proof. split; [apply bpow_gt_0|]. cbn. lra. Qed.
Lemma pow2_small : pow2 (-1022) <= pow2 (-20).
Proof. apply bpow_le. lia. Qed.
Lemma rnd_rel_big x : pow2 (-20) <= Rabs x -> Rabs (rnd x - x) <= pow2 (-53) * Rabs x.
Proof. intros H. apply rnd_rel. pose proof pow2_small. lra. Qed.
