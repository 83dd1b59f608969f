(** The Gaussian integral and the error function. *)
From Coq Require Import Reals Lra Lia.
From Coquelicot Require Import Coquelicot.
From Verif Require Import XR Spec2.
Local Open Scope R_scope.
Ltac asR := match goal with |- @eq _ ?a ?b => change (@eq R a b) end.

Definition ex2 (t : R) : R := exp (- (t * t)).
Definition gI (x : R) : R := RInt ex2 0 x.
Definition kern (x t : R) : R := exp (- (x * x) * (1 + t * t)) / (1 + t * t).
Definition gG (x : R) : R := RInt (kern x) 0 1.

Lemma ex2_cont x : continuous ex2 x.
Proof. apply (ex_derive_continuous (K := R_AbsRing) (V := R_NormedModule)). unfold ex2. auto_derive. exact I. Qed.
Lemma ex2_pos x : 0 < ex2 x. Proof. apply exp_pos. Qed.
Lemma ex2_RInt a b : ex_RInt ex2 a b.
Proof. apply (ex_RInt_continuous (V := R_CompleteNormedModule)). intros z _. apply ex2_cont. Qed.
Lemma gI_derive x : is_derive gI x (ex2 x).
Proof.
  apply (is_derive_RInt (V := R_CompleteNormedModule) ex2 gI 0 x).
  - exists (mkposreal 1 Rlt_0_1). intros y _. apply RInt_correct, ex2_RInt.
  - apply ex2_cont.
Qed.
Lemma one_sq t : 0 < 1 + t * t. Proof. pose proof (Rle_0_sqr t) as H. unfold Rsqr in H. lra. Qed.
Lemma kern_cont x t : continuous (kern x) t.
Proof.
  apply (ex_derive_continuous (K := R_AbsRing) (V := R_NormedModule)). unfold kern. auto_derive.
  pose proof (one_sq t). lra.
Qed.
Lemma kern_RInt x a b : ex_RInt (kern x) a b.
Proof. apply (ex_RInt_continuous (V := R_CompleteNormedModule)). intros z _. apply kern_cont. Qed.
Lemma kern_derive x t : is_derive (fun u => kern u t) x (- 2 * x * exp (- (x * x) * (1 + t * t))).
Proof. unfold kern. auto_derive; [exact I|]. pose proof (one_sq t). field. lra. Qed.
Lemma RInt_scalR (f : R -> R) c a b : ex_RInt f a b -> RInt (fun t => c * f t) a b = c * RInt f a b.
Proof. intros H. exact (RInt_scal (V := R_CompleteNormedModule) f a b c H). Qed.
Lemma RInt_linR (f : R -> R) u v a b : ex_RInt f (u * a + v) (u * b + v) ->
  RInt (fun t => u * f (u * t + v)) a b = RInt f (u * a + v) (u * b + v).
Proof. intros H. exact (RInt_comp_lin (V := R_CompleteNormedModule) f u v a b H). Qed.
Lemma gG_derive x : is_derive gG x (- 2 * ex2 x * gI x).
Proof.
  assert (E : RInt (fun t => Derive (fun u => kern u t) x) 0 1 = - 2 * ex2 x * gI x).
  { rewrite (RInt_ext _ (fun t => (- 2 * ex2 x) * (x * ex2 (x * t + 0)))).
    - rewrite (RInt_scalR (fun t => x * ex2 (x * t + 0))).
      + rewrite RInt_linR by apply ex2_RInt. unfold gI. do 2 f_equal; ring.
      + apply (ex_RInt_continuous (V := R_CompleteNormedModule)). intros z _.
        apply (ex_derive_continuous (K := R_AbsRing) (V := R_NormedModule)). unfold ex2. auto_derive. exact I.
    - intros t _. transitivity (- 2 * x * exp (- (x * x) * (1 + t * t))).
      { apply is_derive_unique, kern_derive. }
      unfold ex2.
      replace (- (x * x) * (1 + t * t)) with (- (x * x) + - ((x * t + 0) * (x * t + 0))) by ring.
      rewrite exp_plus. asR. ring. }
  rewrite <- E.
  apply (is_derive_RInt_param kern 0 1 x).
  - exists (mkposreal 1 Rlt_0_1). intros y _ t _. eexists. apply kern_derive.
  - intros t _.
    apply (continuity_2d_pt_ext (fun u v => - 2 * u * exp (- (u * u) * (1 + v * v)))).
    + intros u v. symmetry. apply is_derive_unique, kern_derive.
    + apply continuity_2d_pt_mult.
      * apply continuity_2d_pt_mult; [apply continuity_2d_pt_const | apply continuity_2d_pt_id1].
      * apply (continuity_1d_2d_pt_comp exp (fun u v => - (u * u) * (1 + v * v))).
        -- apply derivable_continuous_pt, derivable_pt_exp.
        -- apply continuity_2d_pt_mult.
           ++ apply continuity_2d_pt_opp, continuity_2d_pt_mult; apply continuity_2d_pt_id1.
           ++ apply continuity_2d_pt_plus; [apply continuity_2d_pt_const|].
              apply continuity_2d_pt_mult; apply continuity_2d_pt_id2.
  - exists (mkposreal 1 Rlt_0_1). intros y _. apply kern_RInt.
Qed.
Lemma gG_0 : gG 0 = PI / 4.
Proof.
  unfold gG. rewrite <- atan_1.
  rewrite (RInt_ext _ (fun t => / (1 + t ^ 2))).
  2:{ intros t _. unfold kern. replace (- (0 * 0) * (1 + t * t)) with 0 by ring. rewrite exp_0.
      replace (t ^ 2) with (t * t) by ring. pose proof (one_sq t). asR. field. lra. }
  apply is_RInt_unique.
  replace (atan 1) with (minus (atan 1) (atan 0)) by (rewrite atan_0; unfold minus, plus, opp; cbn; asR; ring).
  apply (is_RInt_derive (V := R_CompleteNormedModule) atan (fun t => / (1 + t ^ 2))).
  - intros t _. replace (t ^ 2) with (Rsqr t) by (unfold Rsqr; ring). apply is_derive_atan.
  - intros t _. apply (ex_derive_continuous (K := R_AbsRing) (V := R_NormedModule)). auto_derive.
    pose proof (one_sq t). lra.
Qed.
Lemma gauss_id x : gI x * gI x + gG x = PI / 4.
Proof.
  assert (D : forall y, is_derive (fun u => gI u * gI u + gG u) y 0).
  { intros y.
    replace 0 with (plus (plus (mult (ex2 y) (gI y)) (mult (gI y) (ex2 y))) (- 2 * ex2 y * gI y)).
    2:{ unfold plus, mult. cbn. asR. ring. }
    apply (is_derive_plus (K := R_AbsRing) (V := R_NormedModule)); [|apply gG_derive].
    apply (is_derive_mult gI gI y); [apply gI_derive | apply gI_derive|]. intros; apply Rmult_comm. }
  assert (E : gI x * gI x + gG x = gI 0 * gI 0 + gG 0).
  { destruct (MVT_gen (fun u => gI u * gI u + gG u) 0 x (fun _ => 0)) as [c [_ Hc]].
    - intros y _. apply D.
    - intros y _. apply derivable_continuous_pt. exists 0. apply is_derive_Reals, D.
    - cbv beta in Hc. lra. }
  rewrite E, gG_0. unfold gI. rewrite RInt_point. unfold zero. cbn. lra.
Qed.
Lemma gG_pos x : 0 < gG x.
Proof.
  apply RInt_gt_0; [lra | |].
  - intros t _. unfold kern. apply Rdiv_lt_0_compat; [apply exp_pos | apply one_sq].
  - intros t _. apply kern_cont.
Qed.
Lemma gG_le x : gG x <= ex2 x.
Proof.
  unfold gG. replace (ex2 x) with (RInt (fun _ : R => ex2 x) 0 1).
  2:{ rewrite RInt_const. change scal with Rmult. asR; ring. }
  apply RInt_le; [lra | apply kern_RInt | apply ex_RInt_const|].
  intros t _. unfold kern, ex2.
  apply Rle_trans with (exp (- (x * x) * (1 + t * t))).
  - pose proof (one_sq t). pose proof (exp_pos (- (x * x) * (1 + t * t))) as P.
    assert (1 <= 1 + t * t) by (pose proof (Rle_0_sqr t) as Q; unfold Rsqr in Q; lra).
    apply Rmult_le_reg_r with (1 + t * t); [lra|]. unfold Rdiv.
    rewrite Rmult_assoc, Rinv_l by lra. nra.
  - assert (A : - (x * x) * (1 + t * t) <= - (x * x)).
    { pose proof (Rle_0_sqr t) as Q. pose proof (Rle_0_sqr x) as Q'. unfold Rsqr in *. nra. }
    destruct (Rle_lt_or_eq_dec _ _ A) as [L| ->]; [left; apply exp_increasing, L | lra].
Qed.

(** erf *)
Lemma sqrt_PI_pos : 0 < sqrt PI. Proof. apply sqrt_lt_R0, PI_RGT_0. Qed.
Lemma sqrt_PI_sq : sqrt PI * sqrt PI = PI. Proof. apply sqrt_sqrt. left. apply PI_RGT_0. Qed.
Lemma erf_gI x : erfR x = 2 / sqrt PI * gI x. Proof. reflexivity. Qed.
Lemma gI_bound x : - (sqrt PI / 2) < gI x < sqrt PI / 2.
Proof.
  pose proof (gauss_id x) as E. pose proof (gG_pos x) as P. pose proof sqrt_PI_pos. pose proof sqrt_PI_sq as S.
  assert (gI x * gI x < (sqrt PI / 2) * (sqrt PI / 2)) by lra.
  split; nra.
Qed.
Lemma gI_odd x : gI (- x) = - gI x.
Proof.
  unfold gI.
  pose proof (RInt_linR ex2 (-1) 0 0 x (ex2_RInt _ _)) as H.
  replace (-1 * 0 + 0) with 0 in H by ring. replace (-1 * x + 0) with (- x) in H by ring.
  rewrite <- H, (RInt_ext _ (fun y => -1 * ex2 y)).
  - rewrite RInt_scalR by apply ex2_RInt. ring.
  - intros y _. unfold ex2. do 3 f_equal. asR. ring.
Qed.
Lemma erf_odd x : erfR (- x) = - erfR x.
Proof. rewrite !erf_gI, gI_odd. ring. Qed.
Lemma erf_bound x : -1 < erfR x < 1.
Proof.
  rewrite erf_gI. pose proof (gI_bound x). pose proof sqrt_PI_pos.
  split.
  - apply Rmult_lt_reg_r with (sqrt PI / 2); [lra|].
    replace (2 / sqrt PI * gI x * (sqrt PI / 2)) with (gI x) by (field; lra). lra.
  - apply Rmult_lt_reg_r with (sqrt PI / 2); [lra|].
    replace (2 / sqrt PI * gI x * (sqrt PI / 2)) with (gI x) by (field; lra). lra.
Qed.
Lemma erf_derive x : is_derive erfR x (2 / sqrt PI * ex2 x).
Proof.
  apply (is_derive_ext (fun y => scal (2 / sqrt PI) (gI y))); [reflexivity|].
  apply (is_derive_scal gI x (2 / sqrt PI)). apply gI_derive.
Qed.

(** [erf x] tends to 1. *)
Lemma ex2_lim : is_lim ex2 p_infty 0.
Proof.
  unfold ex2. apply (is_lim_comp exp (fun t => - (t * t)) p_infty 0 m_infty).
  - apply is_lim_exp_m.
  - apply (is_lim_opp (fun t => t * t) p_infty p_infty).
    replace p_infty with (Rbar_mult p_infty p_infty) at 2 by (cbn; reflexivity).
    apply (is_lim_mult (fun t => t) (fun t => t) p_infty p_infty p_infty); [apply is_lim_id | apply is_lim_id | exact I].
  - exists 0. intros y _. discriminate.
Qed.
Lemma gG_lim : is_lim gG p_infty 0.
Proof.
  apply (is_lim_le_le_loc (fun _ => 0) ex2 gG p_infty 0).
  - exists 0. intros y _. split; [left; apply gG_pos | apply gG_le].
  - apply is_lim_const.
  - apply ex2_lim.
Qed.
Lemma gI_nonneg x : 0 <= x -> 0 <= gI x.
Proof.
  intros H. unfold gI. apply RInt_ge_0; [exact H | apply ex2_RInt |]. intros t _. left. apply ex2_pos.
Qed.
Lemma gI_lim : is_lim gI p_infty (sqrt PI / 2).
Proof.
  apply (is_lim_ext_loc (fun x => sqrt (PI / 4 - gG x))).
  - exists 0. intros y Hy. rewrite <- (gauss_id y).
    replace (gI y * gI y + gG y - gG y) with (gI y * gI y) by ring.
    apply sqrt_square, gI_nonneg. lra.
  - replace (sqrt PI / 2) with (sqrt (PI / 4 - 0)).
    2:{ rewrite Rminus_0_r. unfold Rdiv. rewrite sqrt_mult_alt by (left; apply PI_RGT_0). f_equal.
        replace (/ 4) with (/ 2 * / 2) by lra. apply sqrt_square. lra. }
    apply (is_lim_comp_continuous (fun x => PI / 4 - gG x) sqrt p_infty).
    + apply (is_lim_minus (fun _ => PI / 4) gG p_infty (PI / 4) 0); [apply is_lim_const | apply gG_lim | reflexivity].
    + apply continuous_sqrt.
Qed.
Lemma erf_lim : is_lim erfR p_infty 1.
Proof.
  replace 1 with (2 / sqrt PI * (sqrt PI / 2)) by (pose proof sqrt_PI_pos; field; lra).
  apply (is_lim_scal_l gI (2 / sqrt PI) p_infty (sqrt PI / 2)). apply gI_lim.
Qed.
