(** brentq in binary64: every point stays in the bracket, and what convergence guarantees. *)
From Coq Require Import Reals Lra Lia Psatz List Bool ZArith.
From Flocq Require Import Core Mult_error IEEE754.BinarySingleNaN.
From Verif Require Import Num F64 Spec13 M_optimize P_float P_float2.
Import ListNotations.
Local Open Scope R_scope.

Local Existing Instance F64.prec_gt_0_53.
Local Existing Instance F64.prec_lt_emax_53.

(** ** Sign bits *)
Definition sg (s : bool) (x : f64) : Prop := is_nan x = false -> Bsign x = s.

Lemma sg_opp s x : sg s x -> sg (negb s) (Bopp x).
Proof. intros H Hn. rewrite is_nan_Bopp in Hn. rewrite Bsign_Bopp by exact Hn. rewrite (H Hn). reflexivity. Qed.
Lemma sg_mul s t x y : sg s x -> sg t y -> sg (xorb s t) (Bmult mode_NE x y).
Proof.
  intros H1 H2 Hn.
  assert (Nx : is_nan x = false) by (destruct x, y; try reflexivity; exact Hn).
  assert (Ny : is_nan y = false) by (destruct x, y; try reflexivity; exact Hn).
  rewrite <- (H1 Nx), <- (H2 Ny).
  pose proof (Bmult_correct 53 1024 _ _ mode_NE x y) as C. destruct (Rlt_bool _ _) in C.
  - destruct C as (_ & _ & S). apply S. exact Hn.
  - unfold binary_overflow in C. cbn [overflow_to_inf] in C. destruct (Bmult mode_NE x y); cbn in C; try discriminate C. injection C as ->. reflexivity.
Qed.
Lemma sg_div s t x y : sg s x -> sg t y -> sg (xorb s t) (Bdiv mode_NE x y).
Proof.
  intros H1 H2 Hn.
  assert (Nx : is_nan x = false) by (destruct x, y; try reflexivity; exact Hn).
  assert (Ny : is_nan y = false) by (destruct x, y; try reflexivity; exact Hn).
  rewrite <- (H1 Nx), <- (H2 Ny).
  destruct y as [sy|sy| |sy my ey By]; [destruct x; (discriminate Hn || reflexivity) .. | discriminate Ny | ].
  assert (Hy : B2R (B754_finite sy my ey By) <> 0) by (cbn; unfold F2R; cbn; destruct sy; cbn; apply Rmult_integral_contrapositive_currified; try (apply IZR_neq; discriminate); apply Rgt_not_eq, bpow_gt_0).
  pose proof (Bdiv_correct 53 1024 _ _ mode_NE x _ Hy) as C. destruct (Rlt_bool _ _) in C.
  - destruct C as (_ & _ & S). apply S. exact Hn.
  - unfold binary_overflow in C. cbn [overflow_to_inf] in C. destruct (Bdiv mode_NE x _); cbn in C; try discriminate C. injection C as ->. reflexivity.
Qed.
Lemma sign_B2R (x : f64) : is_finite x = true -> if Bsign x then B2R x <= 0 else 0 <= B2R x.
Proof. intros _. destruct x as [[]|[]| |[] m e B]; cbn; try lra; unfold F2R; cbn; pose proof (bpow_gt_0 radix2 e); [assert (IZR (Zneg m) < 0) by (apply IZR_lt; reflexivity) | assert (0 < IZR (Zpos m)) by (apply IZR_lt; reflexivity)]; nra. Qed.
Lemma sub_sign (x y : f64) : is_finite x = true -> is_finite y = true -> is_nan (Bminus mode_NE x y) = false /\
  (0 < B2R x - B2R y -> Bsign (Bminus mode_NE x y) = false) /\ (B2R x - B2R y < 0 -> Bsign (Bminus mode_NE x y) = true) /\
  (Bsign x = negb (Bsign y) -> Bsign (Bminus mode_NE x y) = Bsign x).
Proof.
  intros Fx Fy. pose proof (sign_B2R x Fx) as Sx. pose proof (sign_B2R y Fy) as Sy.
  pose proof (Bminus_correct 53 1024 _ _ mode_NE x y Fx Fy) as C. destruct (Rlt_bool _ _) in C.
  - destruct C as (_ & F & S). split; [destruct (Bminus mode_NE x y); cbn in *; congruence|]. rewrite S.
    destruct (Rcompare_spec (B2R x - B2R y) 0) as [E|E|E]; (split; [intros H|split; intros H]); try lra; try reflexivity;
      rewrite H in *; destruct (Bsign y); cbn in *; try reflexivity; lra.
  - destruct C as [C E]. unfold binary_overflow in C. cbn [overflow_to_inf] in C.
    destruct (Bminus mode_NE x y); cbn in C; try discriminate C. injection C as ->. split; [reflexivity|].
    cbn [Bsign]. rewrite E in *. split; [intros H|split; intros H]; [| |reflexivity]; destruct (Bsign y); cbn in *; try reflexivity; lra.
Qed.
Lemma sg_sub s x y : sg s x -> sg (negb s) y -> sg s (Bminus mode_NE x y).
Proof.
  intros H1 H2 Hn.
  destruct (is_finite x) eqn:Fx, (is_finite y) eqn:Fy.
  - assert (Bsign x = s) by (apply H1; destruct x; try discriminate Fx; reflexivity).
    assert (Bsign y = negb s) by (apply H2; destruct y; try discriminate Fy; reflexivity).
    destruct (sub_sign x y Fx Fy) as (_ & _ & _ & E). rewrite E; [assumption|]. rewrite H0, negb_involutive. assumption.
  - assert (Bsign x = s) by (apply H1; destruct x; try discriminate Fx; reflexivity).
    destruct y as [sy|sy| |sy my ey By]; try discriminate Fy; destruct x; try discriminate; cbn in *; specialize (H2 eq_refl); cbn in H2; rewrite H2; subst; apply negb_involutive.
  - assert (Bsign y = negb s) by (apply H2; destruct y; try discriminate Fy; reflexivity).
    destruct x as [sx|sx| |sx mx ex Bx]; try discriminate Fx; destruct y; try discriminate; cbn in *; exact (H1 eq_refl).
  - destruct x as [sx|sx| |sx mx ex Bx]; try discriminate Fx; destruct y as [sy|sy| |sy my ey By]; try discriminate Fy; try discriminate Hn.
    specialize (H1 eq_refl). specialize (H2 eq_refl). cbn in H1, H2. subst. destruct s; reflexivity.
Qed.
(** [|y| < |x|] with the same sign: the difference has that sign. *)
Lemma sg_sub_abs s x y : sg s x -> sg s y -> Bltb (Babs y) (Babs x) = true -> sg s (Bminus mode_NE x y).
Proof.
  intros H1 H2 L Hn.
  destruct (is_finite x) eqn:Fx, (is_finite y) eqn:Fy.
  - assert (E1 : Bsign x = s) by (apply H1; destruct x; try discriminate Fx; reflexivity).
    assert (E2 : Bsign y = s) by (apply H2; destruct y; try discriminate Fy; reflexivity).
    destruct (sub_sign x y Fx Fy) as (_ & P & Q & _). pose proof (sign_B2R x Fx) as Sx. pose proof (sign_B2R y Fy) as Sy. rewrite E1 in Sx. rewrite E2 in Sy.
    rewrite Bltb_correct, !B2R_Babs in L by (rewrite is_finite_Babs; assumption). apply Rlt_bool_iff in L || (destruct (Rlt_bool_spec (Rabs (B2R y)) (Rabs (B2R x))) as [L'|]; [|discriminate L]).
    destruct s; [apply Q; rewrite !Rabs_left1 in L' by assumption | apply P; rewrite !Rabs_pos_eq in L' by assumption]; lra.
  - destruct y as [sy|sy| |sy my ey By]; try discriminate Fy; destruct x; cbn in L; discriminate L.
  - destruct x as [sx|sx| |sx mx ex Bx]; try discriminate Fx; destruct y; try discriminate; cbn in *; exact (H1 eq_refl).
  - destruct x as [sx|sx| |sx mx ex Bx]; try discriminate Fx; destruct y as [sy|sy| |sy my ey By]; try discriminate Fy; cbn in L; discriminate L.
Qed.

(** ** Values that are not finite *)
Lemma nf_mul_l x y : is_finite x = false -> is_finite (Bmult mode_NE x y) = false.
Proof. destruct x; try discriminate; destruct y; reflexivity. Qed.
Lemma nf_mul_r x y : is_finite y = false -> is_finite (Bmult mode_NE x y) = false.
Proof. destruct y; try discriminate; destruct x; reflexivity. Qed.
Lemma nf_sub_r x y : is_finite y = false -> is_finite (Bminus mode_NE x y) = false.
Proof. destruct y as [| [] | |]; try discriminate; destruct x as [|[]| |]; reflexivity. Qed.
Lemma nf_div0 x y : is_finite y = true -> B2R y = 0 -> is_finite (Bdiv mode_NE x y) = false.
Proof.
  intros F H. destruct y as [sy|sy| |sy my ey By]; try discriminate F; [destruct x; reflexivity|].
  exfalso. revert H. cbn. unfold F2R. cbn. pose proof (bpow_gt_0 radix2 ey). intros H0. apply Rmult_integral in H0. destruct H0 as [H0|H0]; [|lra].
  destruct sy; apply eq_IZR in H0; discriminate H0.
Qed.
Lemma nan_div x y : is_finite x = false -> is_finite y = false -> is_nan (Bdiv mode_NE x y) = true.
Proof. destruct x; try discriminate; destruct y; try discriminate; reflexivity. Qed.

(** ** Signs of the values of the target *)
Definition fs (x : f64) : Z :=
  match x with B754_infinity s | B754_finite s _ _ _ => if s then (-1)%Z else 1%Z | _ => 0%Z end.
Definition sz (s : bool) : Z := if s then (-1)%Z else 1%Z.
Lemma ofZ0 : f64_ofZ 0 = B754_zero false. Proof. reflexivity. Qed.
Lemma nsign_fs (L : Libm) (a : F64 L) : is_nan (a : f64) = false -> nsign a = f64_ofZ (fs a) :> f64.
Proof.
  intros H. unfold nsign. cbn [nisnan nltb nofZ F64]. rewrite H, ofZ0.
  destruct (a : f64) as [sa|sa| |sa ma ea Ba]; try discriminate H; try reflexivity; destruct sa; reflexivity.
Qed.
Lemma sign_eqb (L : Libm) (a b : F64 L) : is_nan (a : f64) = false -> is_nan (b : f64) = false -> neqb (nsign a) (nsign b) = Z.eqb (fs a) (fs b).
Proof.
  intros Ha Hb. rewrite (nsign_fs L a Ha), (nsign_fs L b Hb). cbn [neqb F64].
  destruct (a : f64) as [|[]| |[]]; try discriminate Ha; destruct (b : f64) as [|[]| |[]]; try discriminate Hb; reflexivity.
Qed.
Lemma eqb0 (a : f64) : is_nan a = false -> Beqb a (f64_ofZ 0) = Z.eqb (fs a) 0.
Proof. rewrite ofZ0. destruct a as [|[]| |[]]; intros; try discriminate; reflexivity. Qed.
Lemma fs_sz (a : f64) : fs a <> 0%Z -> exists s, fs a = sz s /\ sg s a.
Proof. destruct a as [|[]| |[]]; cbn; try congruence; intros _; [exists true|exists false|exists true|exists false]; split; try reflexivity; intros _; reflexivity. Qed.
Lemma fs_sg (a : f64) s : fs a = sz s -> sg s a.
Proof. destruct a as [|[]| |[]], s; cbn; try discriminate; intros _ ?; reflexivity || discriminate. Qed.
Lemma fs_opposite (a b : f64) : fs a <> 0%Z -> fs b = (- fs a)%Z -> opposite a b.
Proof. unfold opposite. destruct a as [|[]| |[]]; cbn; try congruence; intros _; destruct b as [|[]| |[]]; try discriminate; intros _; auto. Qed.
Lemma opposite_fs (a b : f64) : opposite a b -> fs a <> 0%Z /\ fs b <> 0%Z /\ fs a <> fs b.
Proof. destruct a as [|[]| |[]], b as [|[]| |[]]; intros [[H1 H2]|[H1 H2]]; try discriminate H1; try discriminate H2; cbn; repeat split; discriminate. Qed.
Lemma abs_lt_ext (a b : f64) : Bltb (Babs a) (Babs b) = true -> fs b <> 0%Z.
Proof. destruct b as [|[]| |[]]; cbn; try discriminate; destruct a as [|[]| |[]]; discriminate. Qed.

(** ** The interpolation step points into the bracket (or is NaN) *)
Section Step.
Variable L : Libm.
Notation NL := (F64 L).
Lemma pydiv_ok npf (a b t : NL) : pydiv npf a b = Ok t -> t = Bdiv mode_NE (a : f64) b.
Proof. unfold pydiv. destruct (negb npf && _); [discriminate|]. intros E. injection E as <-. reflexivity. Qed.
Lemma stry_sg npf (s e : bool) (xp xc xk fp fc fk sp sc t : NL) :
  is_finite (xc : f64) = true -> is_finite (xk : f64) = true -> fs fc = sz s -> fs fk = sz (negb s) ->
  (if (e : bool) then B2R xk - B2R xc < 0 else 0 < B2R xk - B2R xc) ->
  (xp = xk /\ fp = fk \/ fs fp = sz s /\ is_finite (xp : f64) = true /\ if e then 0 <= B2R xp - B2R xc else B2R xp - B2R xc <= 0) ->
  Bltb (Babs fc) (Babs fp) = true ->
  brent_stry npf (MkB xp xc xk fp fc fk sp sc) = Ok t -> sg e t.
Proof.
  intros Fc Fk Sc Sk De Hd Lt E. apply fs_sg in Sc as Gc. apply fs_sg in Sk as Gk.
  assert (Gkc : sg e (Bminus mode_NE xk xc)).
  { destruct (sub_sign xk xc Fk Fc) as (_ & P & Q & _). intros _. destruct e; auto. }
  unfold brent_stry in E. change (@neqb NL xp xk) with (Beqb xp xk) in E. destruct (Beqb xp xk) eqn:Eq.
  - (* secant *)
    apply pydiv_ok in E. subst t. cbn [nmul nopp nsub F64].
    assert (xp = xk /\ fp = fk \/ False) as [[-> ->]|[]].
    { destruct Hd as [Hd|(_ & Fp & Hd)]; [left; exact Hd|]. right.
      rewrite Beqb_correct in Eq by assumption. destruct (Req_bool_spec (B2R xp) (B2R xk)) as [Eq'|]; [|discriminate]. destruct e; lra. }
    assert (Gck : sg (negb e) (Bminus mode_NE xc xk)).
    { destruct (sub_sign xc xk Fc Fk) as (_ & P & Q & _). intros _. destruct e; [apply P | apply Q]; lra. }
    replace e with (xorb (xorb (negb s) (negb e)) s) by (destruct s, e; reflexivity).
    apply sg_div; [apply sg_mul; [apply sg_opp; exact Gc | exact Gck] | apply sg_sub; assumption].
  - destruct Hd as [[-> ->]|(Sp & Fp & Hd)].
    { exfalso. rewrite Beqb_correct, Req_bool_true in Eq by (assumption || reflexivity). discriminate. }
    apply fs_sg in Sp as Gp.
    destruct (pydiv npf (nsub fp fc : NL) (nsub xp xc)) as [dpre|] eqn:E1; [|discriminate E]. apply pydiv_ok in E1. cbn beta iota in E.
    destruct (pydiv npf (nsub fk fc : NL) (nsub xk xc)) as [dblk|] eqn:E2; [|discriminate E]. apply pydiv_ok in E2. cbn beta iota in E.
    apply pydiv_ok in E. subst t dpre dblk. cbn [nmul nopp nsub F64].
    destruct (Req_dec (B2R xp) (B2R xc)) as [Exc|Nxc].
    + (* the previous point is the current one up to the sign of zero *)
      assert (F0 : is_finite (Bdiv mode_NE (Bminus mode_NE fp fc) (Bminus mode_NE xp xc)) = false).
      { destruct (sub_fl xp xc Fp Fc) as [F1 E1]; [rewrite Exc, Rminus_eq_0, round_0, Rabs_R0 by typeclasses eauto; apply bpow_gt_0|].
        apply nf_div0; [exact F1|]. rewrite E1, Exc, Rminus_eq_0. apply round_0. typeclasses eauto. }
      intros Hn. exfalso.
      rewrite nan_div in Hn; [discriminate Hn | apply nf_mul_r, nf_sub_r, nf_mul_r, F0 | apply nf_mul_l, nf_mul_r, F0].
    + assert (Gpc : sg (negb e) (Bminus mode_NE xp xc)).
      { destruct (sub_sign xp xc Fp Fc) as (_ & P & Q & _). intros _. destruct e; [apply P | apply Q]; lra. }
      set (d := xorb s (negb e)).
      assert (Gdp : sg d (Bdiv mode_NE (Bminus mode_NE fp fc) (Bminus mode_NE xp xc))) by (apply sg_div; [apply sg_sub_abs; assumption | exact Gpc]).
      assert (Gdk : sg d (Bdiv mode_NE (Bminus mode_NE fk fc) (Bminus mode_NE xk xc))).
      { replace d with (xorb (negb s) e) by (unfold d; destruct s, e; reflexivity).
        apply sg_div; [apply sg_sub; [exact Gk | rewrite negb_involutive; exact Gc] | exact Gkc]. }
      replace e with (xorb (xorb (negb s) (xorb (negb s) d)) (xorb (xorb d d) (negb s))) by (unfold d; destruct s, e; reflexivity).
      apply sg_div; apply sg_mul; [apply sg_opp; exact Gc | | apply sg_mul; assumption | apply sg_sub; [exact Gk | rewrite negb_involutive; exact Gp]].
      apply sg_sub; [apply sg_mul; assumption|]. replace (negb (xorb (negb s) d)) with (xorb s d) by (destruct s, d; reflexivity).
      apply sg_mul; assumption.
Qed.
End Step.

(** ** Sizes *)
Lemma p2 e1 e2 : (e1 <= e2)%Z -> pow2 e1 <= pow2 e2. Proof. apply bpow_le. Qed.
Lemma p2dbl e : pow2 e + pow2 e = pow2 (e + 1). Proof. rewrite bpow_plus. change (pow2 1) with 2. ring. Qed.
Lemma rnd_lt x y : rnd x < rnd y -> x < y.
Proof. intros H. destruct (Rlt_or_le x y) as [|C]; [assumption|]. apply rnd_mono in C. lra. Qed.
Lemma rnd_nonneg x : 0 <= x -> 0 <= rnd x.
Proof. intros H. apply rnd_mono in H. rewrite round_0 in H by typeclasses eauto. exact H. Qed.
Lemma rnd_abs x : Rabs (rnd x) = rnd (Rabs x).
Proof. symmetry. apply round_NE_abs. typeclasses eauto. Qed.
Lemma rnd_up x : pow2 (-1010) <= x -> rnd x <= x * (1 + pow2 (-20)).
Proof.
  intros H. pose proof (bpow_gt_0 radix2 (-1010)). pose proof (rnd_rel x) as E. rewrite Rabs_pos_eq in E by lra.
  assert (pow2 (-1022) <= x) by (apply Rle_trans with (2 := H); apply p2; lia). specialize (E H1). apply Rabs_le_inv in E.
  assert (pow2 (-53) <= pow2 (-20)) by (apply p2; lia). nra.
Qed.
Lemma pow2_20 : 0 < pow2 (-20) < / 1000000.
Proof. split; [apply bpow_gt_0|]. change (pow2 (-20)) with (/ 1048576). apply Rinv_lt_contravar; lra. Qed.

Lemma brent_loop_dict {N : Num} npf (f : N -> N) xtol rtol k : forall i s tr o tr',
  brent_loop npf f xtol rtol true k i s tr = (Ok o, tr') -> match o with BDict _ _ _ _ => True | _ => False end.
Proof.
  induction k as [|k IH]; intros i s tr o tr' E; cbn [brent_loop] in E; [injection E as <- _; exact I|].
  destruct (_ || _); [injection E as <- _; exact I|]. destruct (brent_choose _ _ _ _) as [[? ?]|]; [|discriminate]. eapply IH, E.
Qed.

Section Run.
Variables (L : Libm) (npf : bool).
Notation NL := (F64 L).
Variables (f : NL -> NL) (xa xb xtol rtol : NL).
Hypothesis Fa : is_finite (xa : f64) = true.
Hypothesis Fb : is_finite (xb : f64) = true.
Hypothesis Ba : Rabs (B2R xa) <= pow2 1020.
Hypothesis Bb : Rabs (B2R xb) <= pow2 1020.
Hypothesis Ft : is_finite (xtol : f64) = true.
Hypothesis Bt : pow2 (-1000) <= B2R xtol <= pow2 1000.
Hypothesis Fr : is_finite (rtol : f64) = true.
Hypothesis Br : 0 <= B2R rtol <= 1.
Hypothesis Hf : forall x : f64, within xa xb x -> is_nan (f x : f64) = false.
Notation W := (within xa xb).

Lemma W_abs x : W x -> Rabs (B2R x) <= pow2 1020.
Proof. intros [_ H]. apply Rabs_le_inv in Ba, Bb. apply Rabs_le. lra. Qed.

(** The tolerance of a point. *)
Definition slack (x : f64) : R := B2R xtol + rnd (B2R rtol * Rabs (B2R x)).
Definition deltaf (x : f64) : f64 := Bdiv mode_NE (Bplus mode_NE xtol (Bmult mode_NE rtol (Babs x))) (f64_ofZ 2).
Definition sbisf (xc xk : f64) : f64 := Bdiv mode_NE (Bminus mode_NE xk xc) (f64_ofZ 2).
Lemma slack_ok x : W x -> let d := deltaf x in
  is_finite (d : f64) = true /\ B2R d = rnd (rnd (slack x) / 2) /\ pow2 (-1001) <= B2R d /\ 0 < slack x /\ B2R d <= pow2 1021.
Proof.
  intros Wx. cbn zeta. unfold deltaf. destruct Wx as [Fx Bx].
  assert (Ax : Rabs (B2R x) <= pow2 1020) by (apply W_abs; split; assumption).
  assert (P : 0 <= B2R rtol * Rabs (B2R x) <= pow2 1020) by (pose proof (Rabs_pos (B2R x)); split; nra).
  assert (A1 : Rabs (B2R rtol * Rabs (B2R x)) <= pow2 1020) by (rewrite Rabs_pos_eq by lra; lra).
  destruct (mul_fl rtol (Babs x) Fr) as [F1 E1]; [rewrite is_finite_Babs; exact Fx | rewrite B2R_Babs; apply (rnd_lt_max _ 1020); [lia | exact A1] |].
  rewrite B2R_Babs in E1.
  pose proof (rnd_nonneg _ (proj1 P)) as P1. pose proof (rnd_abs_le _ 1020 ltac:(lia) A1) as A2. rewrite Rabs_pos_eq in A2 by exact P1.
  assert (pow2 1000 <= pow2 1020) by (apply p2; lia). pose proof (bpow_gt_0 radix2 (-1000)).
  assert (S1 : 0 < slack x <= pow2 1021) by (change 1021%Z with (1020 + 1)%Z; rewrite <- p2dbl; unfold slack; lra).
  destruct (add_fl xtol _ Ft F1) as [F2 E2]; rewrite ?E1 in *; fold (slack x) in *; [apply (rnd_lt_max _ 1021); [lia | rewrite Rabs_pos_eq; lra]|].
  pose proof (rnd_abs_le (slack x) 1021 ltac:(lia) ltac:(rewrite Rabs_pos_eq; lra)) as A3.
  assert (Lo : pow2 (-1000) <= rnd (slack x)) by (rewrite <- rnd_pow2 by lia; apply rnd_mono; unfold slack; lra).
  rewrite Rabs_pos_eq in A3 by lra.
  destruct (ofZ_fl 2 ltac:(lia)) as [F3 E3].
  destruct (div_fl (Bplus mode_NE xtol (Bmult mode_NE rtol (Babs x))) (f64_ofZ 2) F2) as [F4 E4]; rewrite ?E3, ?E2 in *; [lra | apply (rnd_lt_max _ 1021); [lia | rewrite Rabs_pos_eq; lra] |].
  split; [exact F4|]. split; [exact E4|]. rewrite E4.
  assert (H2 : pow2 (-1001) + pow2 (-1001) = pow2 (-1000)) by (apply (p2dbl (-1001))).
  split; [rewrite <- (rnd_pow2 (-1001)) by lia; apply rnd_mono; lra|]. split; [lra|].
  rewrite <- (rnd_pow2 1021) by lia. apply rnd_mono. lra.
Qed.
Lemma sbis_ok xc xk : W xc -> W xk -> let b := sbisf xc xk in
  is_finite (b : f64) = true /\ B2R b = rnd (rnd (B2R xk - B2R xc) / 2) /\ Rabs (B2R b) <= pow2 1021.
Proof.
  intros Wc Wk. cbn zeta. unfold sbisf.
  pose proof (W_abs _ Wc) as Ac. pose proof (W_abs _ Wk) as Ak. destruct Wc as [Fc _], Wk as [Fk _].
  assert (A : Rabs (B2R xk - B2R xc) <= pow2 1021).
  { change 1021%Z with (1020 + 1)%Z. rewrite <- p2dbl. apply Rabs_le_inv in Ac, Ak. apply Rabs_le. lra. }
  destruct (sub_fl xk xc Fk Fc) as [F1 E1]; [apply (rnd_lt_max _ 1021); [lia | exact A]|].
  pose proof (rnd_abs_le _ 1021 ltac:(lia) A) as A1.
  assert (A2 : Rabs (rnd (B2R xk - B2R xc) / 2) <= pow2 1021) by (apply Rabs_le_inv in A1; apply Rabs_le; lra).
  destruct (ofZ_fl 2 ltac:(lia)) as [F3 E3].
  destruct (div_fl (Bminus mode_NE xk xc) (f64_ofZ 2) F1) as [F4 E4]; rewrite ?E3, ?E1 in *; [lra | apply (rnd_lt_max _ 1021); [lia | exact A2] |].
  split; [exact F4|]. split; [exact E4|]. rewrite E4. apply rnd_abs_le; [lia | exact A2].
Qed.
(** Half of the rounded width, when it is not tiny, is at most 1/2 + 2^-19 of the width. *)
Lemma half_le D : pow2 (-1001) <= Rabs (rnd (rnd D / 2)) -> Rabs (rnd (rnd D / 2)) <= Rabs D * (1 + 3 * pow2 (-20)) / 2 /\ pow2 (-1005) <= Rabs D.
Proof.
  intros H. rewrite rnd_abs in *. unfold Rdiv in *. rewrite Rabs_mult, (Rabs_pos_eq (/ 2)), rnd_abs in * by lra.
  set (d := Rabs D) in *. assert (Hd : 0 <= d) by apply Rabs_pos.
  pose proof (bpow_gt_0 radix2 (-1005)) as P5. assert (P10 : 0 < pow2 (-1010)) by apply bpow_gt_0.
  assert (p2dbl2 : forall e, pow2 (e + 1) = 2 * pow2 e) by (intros e; rewrite <- p2dbl; ring).
  assert (E1 : pow2 (-1001) = 16 * pow2 (-1005)) by (pose proof (p2dbl2 (-1002)%Z); pose proof (p2dbl2 (-1003)%Z); pose proof (p2dbl2 (-1004)%Z); pose proof (p2dbl2 (-1005)%Z); cbn [Z.add Z.pos_sub Pos.pred_double] in *; lra).
  assert (E2 : pow2 (-1010) <= pow2 (-1005)) by (apply p2; lia). pose proof pow2_20 as P20.
  assert (D0 : pow2 (-1005) <= d).
  { destruct (Rle_or_lt (pow2 (-1005)) d) as [|C]; [assumption|]. exfalso.
    assert (rnd d <= pow2 (-1005)) by (rewrite <- (rnd_pow2 (-1005)) by lia; apply rnd_mono; lra).
    assert (rnd (rnd d * / 2) <= pow2 (-1005)) by (rewrite <- (rnd_pow2 (-1005)) by lia; apply rnd_mono; lra). lra. }
  split; [|exact D0].
  pose proof (rnd_up d ltac:(lra)) as U1.
  destruct (Rle_or_lt (pow2 (-1010)) (rnd d * / 2)) as [C|C].
  - pose proof (rnd_up _ C) as U2. assert (rnd d * / 2 * (1 + pow2 (-20)) <= d * (1 + pow2 (-20)) * / 2 * (1 + pow2 (-20))) by nra.
    assert (pow2 (-20) * pow2 (-20) <= pow2 (-20)) by nra. nra.
  - exfalso. assert (rnd (rnd d * / 2) <= pow2 (-1010)) by (rewrite <- (rnd_pow2 (-1010)) by lia; apply rnd_mono; lra). lra.
Qed.

(** A move of at most the width, towards the other end, stays between the two ends. *)
Lemma move_ok xc xk (t : f64) : W xc -> W xk -> is_finite t = true -> 0 <= B2R t * (B2R xk - B2R xc) -> Rabs (B2R t) <= Rabs (B2R xk - B2R xc) ->
  W (Bplus mode_NE xc t) /\ 0 <= (B2R (Bplus mode_NE xc t) - B2R xc) * (B2R xk - B2R xc) /\ 0 <= (B2R xk - B2R (Bplus mode_NE xc t)) * (B2R xk - B2R xc).
Proof.
  intros Wc Wk F0 Hs Hb. pose proof (W_abs _ Wc) as Ac. pose proof (W_abs _ Wk) as Ak. destruct Wc as [Fc Ic], Wk as [Fk Ik].
  assert (Gc : rnd (B2R xc) = B2R xc) by (apply rnd_gen, B2R_gen). assert (Gk : rnd (B2R xk) = B2R xk) by (apply rnd_gen, B2R_gen).
  apply Rabs_le_inv in Ac, Ak.
  destruct (Rle_or_lt (B2R xc) (B2R xk)) as [C|C].
  - rewrite (Rabs_pos_eq (B2R xk - B2R xc)) in Hb by lra. apply Rabs_le_inv in Hb.
    assert (R1 : B2R xc <= B2R xc + B2R t <= B2R xk) by (destruct C as [C|C]; [split; [nra | lra] | rewrite C in *; lra]).
    destruct (add_fl xc t Fc F0) as [F1 E1]; [apply (rnd_lt_max _ 1020); [lia | apply Rabs_le; lra]|].
    assert (R2 : B2R xc <= B2R (Bplus mode_NE xc t) <= B2R xk) by (pose proof (rnd_mono _ _ (proj1 R1)); pose proof (rnd_mono _ _ (proj2 R1)); rewrite E1; lra).
    split; [split; [exact F1 | lra]|]. split; nra.
  - rewrite (Rabs_left (B2R xk - B2R xc)) in Hb by lra. apply Rabs_le_inv in Hb.
    assert (R1 : B2R xk <= B2R xc + B2R t <= B2R xc) by (split; [lra | nra]).
    destruct (add_fl xc t Fc F0) as [F1 E1]; [apply (rnd_lt_max _ 1020); [lia | apply Rabs_le; lra]|].
    assert (R2 : B2R xk <= B2R (Bplus mode_NE xc t) <= B2R xc) by (pose proof (rnd_mono _ _ (proj1 R1)); pose proof (rnd_mono _ _ (proj2 R1)); rewrite E1; lra).
    split; [split; [exact F1 | lra]|]. split; nra.
Qed.

Lemma min_lt (u a b : NL) : Bltb u (nmin2 a b) = true -> is_finite (b : f64) = true -> Bltb u b = true.
Proof.
  intros H Fb'. unfold nmin2 in H. change (@nltb NL b a) with (Bltb b a) in H. destruct (Bltb b a) eqn:E; [exact H|].
  rewrite f2x_ltb in *. rewrite (f2x_fin b Fb') in *.
  destruct (f2x u) as [u'|[]|], (f2x a) as [a'|[]|]; cbn [xltb negb] in H, E |- *; try discriminate; try reflexivity.
  destruct (Rlt_bool_spec u' a'); [|discriminate]. destruct (Rlt_bool_spec (B2R b) a'); [discriminate|]. apply Rlt_bool_true. lra.
Qed.
Lemma two_abs (t b : f64) : Bltb (Bmult mode_NE (f64_ofZ 2) (Babs t)) b = true -> is_finite b = true ->
  is_finite t = true /\ rnd (2 * Rabs (B2R t)) < B2R b.
Proof.
  intros H Fb'. destruct (ofZ_fl 2 ltac:(lia)) as [F2 E2].
  destruct (is_finite t) eqn:Ftt.
  - split; [reflexivity|]. pose proof (Bmult_correct 53 1024 _ _ mode_NE (f64_ofZ 2) (Babs t)) as C. rewrite E2, B2R_Babs in C.
    destruct (Rlt_bool _ _) in C.
    + destruct C as (E & F & _). rewrite F2, is_finite_Babs, Ftt in F. rewrite Bltb_correct in H by assumption.
      destruct (Rlt_bool_spec (B2R (Bmult mode_NE (f64_ofZ 2) (Babs t))) (B2R b)) as [H'|]; [|discriminate]. rewrite E in H'. exact H'.
    + exfalso. unfold binary_overflow in C. cbn [overflow_to_inf] in C. rewrite Bsign_Babs in C by (destruct t; try discriminate Ftt; reflexivity).
      replace (Bsign (f64_ofZ 2)) with false in C by reflexivity. cbn [xorb] in C.
      destruct (Bmult mode_NE (f64_ofZ 2) (Babs t)); cbn in C; try discriminate C. injection C as ->.
      destruct b as [|[]| |[]]; try discriminate Fb'; discriminate H.
  - exfalso. destruct t; try discriminate Ftt; destruct b as [|[]| |[]]; try discriminate Fb'; discriminate H.
Qed.
Lemma rnd_half_sign D : 0 <= rnd (rnd D / 2) * D.
Proof.
  destruct (Rle_or_lt 0 D) as [C|C].
  - pose proof (rnd_nonneg _ C). pose proof (rnd_nonneg (rnd D / 2) ltac:(lra)). apply Rmult_le_pos; lra.
  - pose proof (rnd_nonneg (- D) ltac:(lra)) as P. rewrite rnd_opp in P. pose proof (rnd_nonneg (- (rnd D / 2)) ltac:(lra)) as Q. rewrite rnd_opp in Q. nra.
Qed.
Lemma Bltb_fin (x y : f64) : is_finite x = true -> is_finite y = true -> Bltb x y = Rlt_bool (B2R x) (B2R y).
Proof. intros H1 H2. apply Bltb_correct; assumption. Qed.

(** After the swap. *)
Definition fready (s : bstate NL) (tr : list NL) : Prop :=
  let 'MkB xp xc xk fp fc fk sp sc := s in
  W xc /\ W xk /\ In xc tr /\ In xk tr /\ fc = f xc /\ fk = f xk /\ fs fk <> 0%Z /\ fs fk <> fs fc /\
  (xp = xk /\ fp = fk \/ W xp /\ fs fp = fs fc /\ 0 <= (B2R xc - B2R xp) * (B2R xk - B2R xc)).
(** Before it. *)
Definition fentry (s : bstate NL) (tr : list NL) : Prop :=
  let 'MkB xp xc xk fp fc fk sp sc := s in
  W xp /\ W xc /\ In xp tr /\ In xc tr /\ fp = f xp /\ fc = f xc /\ fs fp <> 0%Z /\
  (fs fp <> fs fc \/ fs fp = fs fc /\ W xk /\ In xk tr /\ fk = f xk /\ fs fk <> 0%Z /\ fs fk <> fs fc /\ 0 <= (B2R xc - B2R xp) * (B2R xk - B2R xc)).
Lemma fswap s tr : fentry s tr -> fready (brent_swap s) tr.
Proof.
  destruct s as [xp xc xk fp fc fk sp sc]. intros (Wp & Wc & Ip & Ic & Ep & Ec & Np & Hd). unfold brent_swap.
  rewrite (sign_eqb L fp fc) by (subst; apply Hf; assumption).
  destruct Hd as [Hd|(Hd & Wk & Ik & Ek & Nk & Dk & Hb)].
  - rewrite (proj2 (Z.eqb_neq _ _) Hd). cbn [negb]. change (@nltb NL) with (@Bltb 53 1024). change (@nabs NL) with (@Babs 53 1024).
    destruct (Bltb (Babs fp) (Babs fc)) eqn:El.
    + apply abs_lt_ext in El. repeat (split; [assumption|]). split; [congruence|]. left. split; reflexivity.
    + repeat (split; [assumption|]). left. split; reflexivity.
  - rewrite (proj2 (Z.eqb_eq _ _) Hd). cbn [negb]. change (@nltb NL) with (@Bltb 53 1024). change (@nabs NL) with (@Babs 53 1024).
    destruct (Bltb (Babs fk) (Babs fc)) eqn:El.
    + apply abs_lt_ext in El. repeat (split; [assumption|]). split; [congruence|]. left. split; reflexivity.
    + repeat (split; [assumption|]). right. split; [exact Wp|]. split; assumption.
Qed.
Lemma scur_ok (xp xc xk fp fc fk sp sc : NL) tr spre scur :
  fready (MkB xp xc xk fp fc fk sp sc) tr -> fs fc <> 0%Z -> Bltb (Babs (sbisf xc xk)) (deltaf xc) = false ->
  brent_choose npf (deltaf xc : NL) (sbisf xc xk : NL) (MkB xp xc xk fp fc fk sp sc) = Ok (spre, scur) ->
  is_finite (scur : f64) = true /\ 0 <= B2R scur * (B2R xk - B2R xc) /\ Rabs (B2R scur) <= Rabs (B2R xk - B2R xc).
Proof.
  intros (Wc & Wk & _ & _ & Ec & Ek & Nk & Dk & Hd) Nc Hl Hch. cbn zeta.
  destruct (slack_ok xc Wc) as (Fd & Ed & Ld & Sd & Ud). destruct (sbis_ok xc xk Wc Wk) as (Fs & Es & Us).
  rewrite Bltb_fin, B2R_Babs in Hl by (rewrite ?is_finite_Babs; assumption).
  destruct (Rlt_bool_spec (Rabs (B2R (sbisf xc xk))) (B2R (deltaf xc))) as [|Hl']; [discriminate|]. clear Hl. rename Hl' into Hl.
  set (D := B2R xk - B2R xc) in *.
  assert (Hh : Rabs (B2R (sbisf xc xk)) <= Rabs D * (1 + 3 * pow2 (-20)) / 2 /\ pow2 (-1005) <= Rabs D) by (rewrite Es in *; apply half_le; lra).
  destruct Hh as [Hh H5]. pose proof pow2_20 as P20. pose proof (bpow_gt_0 radix2 (-1005)) as P5. pose proof (bpow_gt_0 radix2 (-1001)) as P1.
  assert (Hs : Rabs (B2R (sbisf xc xk)) <= Rabs D) by nra.
  assert (Sg : 0 <= B2R (sbisf xc xk) * D) by (rewrite Es; apply rnd_half_sign).
  assert (Dnz : D <> 0) by (intros E; rewrite E, Rabs_R0 in H5; lra).
  assert (HB : is_finite (sbisf xc xk) = true /\ 0 <= B2R (sbisf xc xk) * D /\ Rabs (B2R (sbisf xc xk)) <= Rabs D) by (repeat split; assumption).
    unfold brent_choose in Hch.
    destruct (_ && _) eqn:Ec1 in Hch; [|injection Hch as _ <-; exact HB].
    destruct (brent_stry npf _) as [t|] eqn:Et in Hch; [|discriminate Hch]. cbn beta iota in Hch.
    cbn [bind] in Hch. destruct (_ <? _)%num eqn:Em in Hch; [|injection Hch as _ <-; exact HB].
    injection Hch as _ <-. apply andb_prop in Ec1 as [_ Ec1]. cbn [b_fcur b_fpre] in Ec1.
    set (b := Bminus mode_NE (Bmult mode_NE (f64_ofZ 3) (Babs (sbisf xc xk))) (deltaf xc)).
    assert (E3 : 3 * Rabs (B2R (sbisf xc xk)) <= pow2 1023).
    { assert (E4 : pow2 1023 = 4 * pow2 1021) by (change 1023%Z with (2 + 1021)%Z; rewrite bpow_plus; reflexivity). rewrite E4. pose proof (bpow_gt_0 radix2 1021). lra. }
    assert (P0 : 0 <= 3 * Rabs (B2R (sbisf xc xk))) by (pose proof (Rabs_pos (B2R (sbisf xc xk))); lra).
    destruct (ofZ_fl 3 ltac:(lia)) as [G3 G3'].
    destruct (mul_fl (f64_ofZ 3) (Babs (sbisf xc xk)) G3) as [G4 G4']; [rewrite is_finite_Babs; exact Fs | rewrite G3', B2R_Babs; apply (rnd_lt_max _ 1023); [lia | rewrite Rabs_pos_eq; assumption] |].
    rewrite G3', B2R_Babs in G4'.
    pose proof (rnd_nonneg _ P0) as P3. pose proof (rnd_abs_le _ 1023 ltac:(lia) ltac:(rewrite Rabs_pos_eq; eassumption)) as U3. rewrite Rabs_pos_eq in U3 by exact P3.
    assert (pow2 1021 <= pow2 1023) by (apply p2; lia).
    destruct (sub_fl _ _ G4 Fd) as [G5 G5']; [rewrite G4'; apply (rnd_lt_max _ 1023); [lia | apply Rabs_le; lra] |]. rewrite G4' in G5'. fold b in G5, G5'.
    assert (Em' : Bltb (Bmult mode_NE (f64_ofZ 2) (Babs t)) b = true).
    { apply (min_lt (Bmult mode_NE (f64_ofZ 2) (Babs t)) (Babs sp) b); [exact Em | exact G5]. }
    destruct (two_abs t b Em' G5) as [F1 Hlt]. rewrite G5' in Hlt. apply rnd_lt in Hlt.
    split; [exact F1|]. split.
    + destruct (fs_sz fc Nc) as (s & Es1 & _).
      assert (Sk : fs fk = sz (negb s)) by (rewrite Es1 in Dk; destruct (fs_sz fk Nk) as (s' & E' & _); rewrite E' in *; destruct s, s'; cbn [sz negb] in Dk |- *; congruence).
      assert (Gt : forall e : bool, (if e then D < 0 else 0 < D) -> sg e t).
      { intros e He. apply (stry_sg L npf s e xp xc xk fp fc fk sp sc t); try assumption; try apply Wc; try apply Wk; try exact He.
        destruct Hd as [Hd|(Wp & Sp & Hb)]; [left; exact Hd | right]. split; [congruence|]. split; [apply Wp|]. fold D in Hb.
        destruct e; nra. }
      assert (Nt : is_nan t = false) by (destruct t; try discriminate F1; reflexivity). pose proof (sign_B2R t F1) as St.
      destruct (Rlt_or_le 0 D) as [C|C].
      * rewrite (Gt false C Nt) in St. nra.
      * rewrite (Gt true ltac:(lra) Nt) in St. nra.
    + destruct (Rle_or_lt (pow2 (-1010)) (3 * Rabs (B2R (sbisf xc xk)))) as [C|C].
      * pose proof (rnd_up _ C). assert (pow2 (-20) * pow2 (-20) <= pow2 (-20)) by nra.
        assert (3 * Rabs (B2R (sbisf xc xk)) * (1 + pow2 (-20)) <= 3 * (Rabs D * (1 + 3 * pow2 (-20)) / 2) * (1 + pow2 (-20))) by nra.
        nra.
      * exfalso. assert (pow2 (-1010) <= pow2 (-1005)) by (apply p2; lia).
        assert (pow2 (-1010) <= pow2 (-1001)) by (apply p2; lia). lra.
Qed.
Lemma fstep (xp xc xk fp fc fk sp sc : NL) tr spre scur :
  fready (MkB xp xc xk fp fc fk sp sc) tr -> fs fc <> 0%Z -> Bltb (Babs (sbisf xc xk)) (deltaf xc) = false ->
  brent_choose npf (deltaf xc : NL) (sbisf xc xk : NL) (MkB xp xc xk fp fc fk sp sc) = Ok (spre, scur) ->
  let x := brent_move (deltaf xc : NL) (sbisf xc xk : NL) scur xc in
  W x /\ 0 <= (B2R x - B2R xc) * (B2R xk - B2R x).
Proof.
  intros He Nc Hl Hch. cbn zeta. pose proof Hl as Hl0. pose proof He as (Wc & Wk & _ & _ & Ec & Ek & Nk & Dk & Hd).
  destruct (slack_ok xc Wc) as (Fd & Ed & Ld & Sd & Ud). destruct (sbis_ok xc xk Wc Wk) as (Fs & Es & Us).
  rewrite Bltb_fin, B2R_Babs in Hl by (rewrite ?is_finite_Babs; assumption).
  destruct (Rlt_bool_spec (Rabs (B2R (sbisf xc xk))) (B2R (deltaf xc))) as [|Hl']; [discriminate|]. clear Hl. rename Hl' into Hl.
  set (D := B2R xk - B2R xc) in *.
  assert (Hh : Rabs (B2R (sbisf xc xk)) <= Rabs D * (1 + 3 * pow2 (-20)) / 2 /\ pow2 (-1005) <= Rabs D) by (rewrite Es in *; apply half_le; lra).
  destruct Hh as [Hh H5]. pose proof pow2_20 as P20. pose proof (bpow_gt_0 radix2 (-1005)) as P5. pose proof (bpow_gt_0 radix2 (-1001)) as P1.
  assert (Hs : Rabs (B2R (sbisf xc xk)) <= Rabs D) by nra.
  assert (Sg : 0 <= B2R (sbisf xc xk) * D) by (rewrite Es; apply rnd_half_sign).
  assert (Dnz : D <> 0) by (intros E; rewrite E, Rabs_R0 in H5; lra).
  assert (Key : forall t : f64, is_finite t = true -> 0 <= B2R t * D -> Rabs (B2R t) <= Rabs D ->
    W (Bplus mode_NE xc t) /\ 0 <= (B2R (Bplus mode_NE xc t) - B2R xc) * (B2R xk - B2R (Bplus mode_NE xc t))).
  { intros t F1 F2 F3. destruct (move_ok xc xk t Wc Wk F1 F2 F3) as (G1 & G2 & G3). split; [exact G1|].
    fold D in G2, G3. set (y := B2R (Bplus mode_NE xc t)) in *.
    destruct (Rlt_or_le 0 D) as [C|C].
    - apply Rmult_le_pos; nra.
    - assert (D < 0) by lra. replace ((y - B2R xc) * (B2R xk - y)) with ((B2R xc - y) * (y - B2R xk)) by ring. apply Rmult_le_pos; nra. }
  unfold brent_move. change (@nltb NL) with (@Bltb 53 1024). change (@nabs NL) with (@Babs 53 1024). change (@nadd NL) with (@Bplus 53 1024 _ _ mode_NE). change (@nopp NL) with (@Bopp 53 1024).
  change (@nofZ NL 0) with (f64_ofZ 0).
  destruct (Bltb (deltaf xc) (Babs scur)) eqn:El.
  - destruct (scur_ok xp xc xk fp fc fk sp sc tr spre scur He Nc Hl0 Hch) as (F1 & F2 & F3). apply Key; assumption.
  - assert (E0 : Bltb (f64_ofZ 0) (sbisf xc xk) = Rlt_bool 0 (B2R (sbisf xc xk))).
    { destruct (ofZ_fl 0 ltac:(lia)) as [Z1 Z2]. rewrite Bltb_fin, Z2 by assumption. reflexivity. }
    rewrite E0. destruct (Rlt_bool_spec 0 (B2R (sbisf xc xk))) as [C|C].
    + apply Key; [exact Fd | nra |]. rewrite (Rabs_pos_eq (B2R (deltaf xc))) by lra. lra.
    + apply Key; [rewrite is_finite_Bopp; exact Fd | rewrite B2R_Bopp | rewrite B2R_Bopp, Rabs_Ropp, (Rabs_pos_eq (B2R (deltaf xc))) by lra; lra].
      assert (B2R (sbisf xc xk) < 0) by (rewrite Rabs_left1 in Hl by lra; lra). nra.
Qed.

Definition fgood (x : f64) (tr : list NL) : Prop :=
  fs (f x) = 0%Z \/ exists y : f64, In (y : NL) tr /\ opposite (f x) (f y) /\ Rabs (B2R y - B2R x) < slack x.
Lemma fstop xc xk : W xc -> W xk -> Bltb (Babs (sbisf xc xk)) (deltaf xc) = true -> Rabs (B2R xk - B2R xc) < slack xc.
Proof.
  intros Wc Wk H. destruct (slack_ok xc Wc) as (Fd & Ed & _). destruct (sbis_ok xc xk Wc Wk) as (Fs & Es & _).
  rewrite Bltb_fin, B2R_Babs in H by (rewrite ?is_finite_Babs; assumption).
  destruct (Rlt_bool_spec (Rabs (B2R (sbisf xc xk))) (B2R (deltaf xc))) as [H'|]; [|discriminate]. rewrite Es, Ed, rnd_abs in H'.
  apply rnd_lt in H'. unfold Rdiv in H'. rewrite Rabs_mult, (Rabs_pos_eq (/ 2)), rnd_abs in H' by lra. apply rnd_lt. lra.
Qed.
Lemma floop full k : forall i s tr r tr', fentry s tr -> Forall W tr -> brent_loop npf f xtol rtol full k i s tr = (r, tr') ->
  Forall W tr' /\ (forall x c n, r = Ok (BDict x c n true) -> W x /\ fgood x tr').
Proof.
  induction k as [|k IH]; intros i s tr r tr' He HW E; cbn [brent_loop] in E.
  - injection E as <- <-. split; [exact HW|]. intros x c n E. exfalso. destruct full; discriminate E.
  - apply fswap in He. destruct (brent_swap s) as [xp xc xk fp fc fk sp sc]. unfold brent_delta, brent_sbis in E. cbn [b_xcur b_xblk b_fcur b_fblk] in E.
    change (neqb fc (nofZ 0)) with (Beqb fc (f64_ofZ 0)) in E.
    change (ndiv (nadd xtol (nmul rtol (nabs xc))) (nofZ 2)) with (deltaf xc : NL) in E.
    change (ndiv (nsub xk xc) (nofZ 2)) with (sbisf xc xk : NL) in E.
    change (nltb (nabs (sbisf xc xk : NL)) (deltaf xc : NL)) with (Bltb (Babs (sbisf xc xk)) (deltaf xc)) in E.
    pose proof He as (Wc & Wk & Ic & Ik & Ec & Ek & Nk & Dk & Hd).
    rewrite (eqb0 fc) in E by (rewrite Ec; apply Hf; exact Wc).
    destruct (Z.eqb_spec (fs fc) 0) as [E0|E0].
    { cbn [orb] in E. injection E as <- <-. split; [exact HW|]. intros x c n E. destruct full; [|discriminate E]. injection E as <- _ _.
      split; [exact Wc|]. left. rewrite <- Ec. exact E0. }
    cbn [orb] in E. destruct (Bltb (Babs (sbisf xc xk)) (deltaf xc)) eqn:El.
    { injection E as <- <-. split; [exact HW|]. intros x c n E. destruct full; [|discriminate E]. injection E as <- _ _.
      split; [exact Wc|]. right. exists xk. split; [exact Ik|]. split; [|apply fstop; assumption].
      rewrite <- Ec, <- Ek. apply fs_opposite; [exact E0|]. destruct (fs_sz fc E0) as (s1 & E1 & _), (fs_sz fk Nk) as (s2 & E2 & _).
      rewrite E1, E2 in *. destruct s1, s2; cbn [sz] in *; try reflexivity; congruence. }
    destruct (brent_choose npf _ _ _) as [[spre scur]|ex] eqn:Ech in E.
    + destruct (fstep xp xc xk fp fc fk sp sc tr spre scur He E0 El Ech) as [Wx Hb].
      set (x := brent_move (deltaf xc : NL) (sbisf xc xk : NL) scur xc) in *.
      apply IH in E; [exact E | | constructor; assumption].
      split; [exact Wc|]. split; [exact Wx|]. split; [right; exact Ic|]. split; [left; reflexivity|]. split; [exact Ec|]. split; [reflexivity|]. split; [exact E0|].
      destruct (Z.eq_dec (fs fc) (fs (f x))) as [Es|Es]; [right | left; exact Es].
      split; [exact Es|]. split; [exact Wk|]. split; [right; exact Ik|]. split; [exact Ek|]. split; [exact Nk|]. split; [congruence | exact Hb].
    + injection E as <- <-. split; [exact HW|]. intros x c n E. discriminate E.
Qed.
Lemma frun full maxiter r tr : brentq npf f xa xb xtol rtol maxiter full = (r, tr) ->
  Forall W tr /\ (forall o, r = Ok o -> full = true -> match o with BDict _ _ _ c => c = true | _ => True end ->
    let x := match o with BRoot x | BTuple x _ _ _ | BDict x _ _ _ => x end in W x /\ fgood x tr).
Proof.
  unfold brentq. change (nleb xb xa) with (Bleb xb xa). rewrite Bleb_correct by assumption.
  destruct (Rle_bool_spec (B2R xb) (B2R xa)) as [Hab|Hab]; intros E; [injection E as <- <-; split; [constructor | discriminate]|].
  assert (Wa : W xa) by (split; [exact Fa | lra]). assert (Wb : W xb) by (split; [exact Fb | lra]).
  assert (HW : Forall W [xb; xa]) by (repeat constructor; assumption).
  change (neqb (f xa) (nofZ 0)) with (Beqb (f xa) (f64_ofZ 0)) in E. change (neqb (f xb) (nofZ 0)) with (Beqb (f xb) (f64_ofZ 0)) in E.
  rewrite !eqb0, sign_eqb in E by (apply Hf; assumption).
  destruct (Z.eqb_spec (fs (f xa)) 0) as [Ea|Na].
  { injection E as <- <-. split; [repeat constructor; assumption|]. intros o E Efull _. subst full. injection E as <-. split; [exact Wa | left; exact Ea]. }
  destruct (Z.eqb_spec (fs (f xb)) 0) as [Eb|Nb].
  { injection E as <- <-. split; [repeat constructor; assumption|]. intros o E Efull _. subst full. injection E as <-. split; [exact Wb | left; exact Eb]. }
  destruct (Z.eqb_spec (fs (f xa)) (fs (f xb))) as [Eab|Nab]; [injection E as <- <-; split; [repeat constructor; assumption | discriminate]|].
  destruct (brent_loop _ _ _ _ _ _ _ _ _) as [r' tr'] eqn:El in E. injection E as <- <-.
  assert (El' : Forall W tr' /\ (forall x c n, r' = Ok (BDict x c n true) -> W x /\ fgood x tr')).
  { apply floop in El; [exact El | | exact HW].
    split; [exact Wa|]. split; [exact Wb|]. split; [right; left; reflexivity|]. split; [left; reflexivity|]. repeat (split; [reflexivity || assumption|]). left. exact Nab. }
  destruct El' as [H1 H2]. split; [apply Forall_rev, H1|]. intros o Eo Efull Hc. subst full r'.
  assert (exists x c n, o = BDict x c n true) as (x & c & n & ->).
  { apply brent_loop_dict in El. destruct o as [x|x ? ? ?|x c n b]; try contradiction. subst b. eauto. }
  destruct (H2 x c n eq_refl) as [Wx [G|(y & Iy & G)]]; split; try exact Wx; [left; exact G|]. right. exists y. split; [apply -> in_rev; exact Iy | exact G].
Qed.
Lemma min_lt_l (v a b : NL) : Bltb v (nmin2 a b) = true -> is_finite (a : f64) = true -> Bltb v a = true.
Proof.
  intros H Fa'. unfold nmin2 in H. change (@nltb NL b a) with (Bltb b a) in H. destruct (Bltb b a) eqn:E; [|exact H].
  rewrite f2x_ltb in *. rewrite (f2x_fin a Fa') in *.
  destruct (f2x v) as [u'|[]|], (f2x b) as [a'|[]|]; cbn [xltb negb] in H, E |- *; try discriminate; try reflexivity.
  destruct (Rlt_bool_spec u' a'); [|discriminate]. destruct (Rlt_bool_spec a' (B2R a)); [|discriminate]. apply Rlt_bool_true. lra.
Qed.
(** ** The number of iterations, for a relative tolerance of at least four machine epsilons *)
Hypothesis Hr50 : pow2 (-50) <= B2R rtol.
Notation u := (B2R xtol / 2).
Lemma gen_half v e : generic_format radix2 fexp64 v -> pow2 (-1005) <= v -> (-10 <= e)%Z -> generic_format radix2 fexp64 (v * pow2 e).
Proof.
  intros G H He. apply mult_bpow_exact_FLT; [exact G|]. assert (-1005 < mag radix2 v)%Z; [|lia].
  pose proof (bpow_gt_0 radix2 (-1005)). apply mag_gt_bpow. rewrite Rabs_pos_eq; lra.
Qed.
Lemma rnd_dn x : pow2 (-1010) <= x -> x * (1 - pow2 (-20)) <= rnd x.
Proof.
  intros H. pose proof (bpow_gt_0 radix2 (-1010)). pose proof (rnd_rel x) as E. rewrite Rabs_pos_eq in E by lra.
  assert (pow2 (-1022) <= x) by (apply Rle_trans with (2 := H); apply p2; lia). specialize (E H1). apply Rabs_le_inv in E.
  assert (pow2 (-53) <= pow2 (-20)) by (apply p2; lia). nra.
Qed.
Lemma u_pos : pow2 (-1001) <= u.
Proof. pose proof (p2dbl (-1001)) as E. cbn [Z.add Z.pos_sub Pos.pred_double] in E. lra. Qed.
Lemma u_gen : generic_format radix2 fexp64 u /\ generic_format radix2 fexp64 (u / 2).
Proof.
  assert (pow2 (-1005) <= pow2 (-1000)) by (apply p2; lia). pose proof (B2R_gen xtol) as G. split.
  - replace u with (B2R xtol * pow2 (-1)) by reflexivity. apply gen_half; [exact G | lra | lia].
  - replace (u / 2) with (B2R xtol * pow2 (-2)) by (change (pow2 (-2)) with (/ 4); field). apply gen_half; [exact G | lra | lia].
Qed.
Lemma delta_big x : W x -> u <= B2R (deltaf x) /\ pow2 (-53) * Rabs (B2R x) <= B2R (deltaf x) * (251 / 1000).
Proof.
  intros Wx. destruct (slack_ok x Wx) as (_ & Ed & _ & Sp & _). rewrite Ed. unfold slack in *.
  set (A := Rabs (B2R x)) in *. assert (PA : 0 <= A) by apply Rabs_pos. destruct u_gen as [Gu _]. pose proof u_pos as Pu.
  assert (PR : 0 <= B2R rtol * A) by (apply Rmult_le_pos; lra). pose proof (rnd_nonneg _ PR) as PR'.
  assert (GT : rnd (B2R xtol) = B2R xtol) by (apply rnd_gen, B2R_gen).
  assert (L1 : B2R xtol <= rnd (B2R xtol + rnd (B2R rtol * A))) by (rewrite <- GT at 1; apply rnd_mono; lra).
  split.
  - rewrite <- (rnd_gen u Gu). apply rnd_mono. lra.
  - pose proof pow2_20 as P20. pose proof (bpow_gt_0 radix2 (-53)) as P53. assert (P01 : pow2 (-1010) <= pow2 (-1001)) by (apply p2; lia).
    assert (P11 : pow2 (-1001) <= pow2 (-1000)) by (apply p2; lia).
    set (z := rnd (B2R rtol * A)) in *.
    pose proof (rnd_dn (B2R xtol + z) ltac:(lra)) as D1. set (y := rnd (B2R xtol + z)) in *.
    pose proof (rnd_dn (y / 2) ltac:(lra)) as D2.
    assert (Hz : B2R rtol * A * (1 - pow2 (-20)) <= B2R xtol + z).
    { pose proof (rnd_err (B2R rtol * A)) as E. rewrite (Rabs_pos_eq (B2R rtol * A)) in E by exact PR. apply Rabs_le_inv in E. fold z in E.
      assert (pow2 (-1075) <= pow2 (-1000)) by (apply p2; lia). assert (pow2 (-53) <= pow2 (-20)) by (apply p2; lia).
      assert (pow2 (-53) * (B2R rtol * A) <= pow2 (-20) * (B2R rtol * A)) by (apply Rmult_le_compat_r; lra). lra. }
    assert (E50 : pow2 (-50) = 8 * pow2 (-53)) by (change (-50)%Z with (3 + -53)%Z; rewrite bpow_plus; reflexivity).
    assert (HA : 8 * (pow2 (-53) * A) <= B2R rtol * A) by (rewrite <- Rmult_assoc, <- E50; apply Rmult_le_compat_r; lra).
    set (c := pow2 (-53) * A) in *. assert (Pc : 0 <= c) by (apply Rmult_le_pos; lra).
    assert (H1 : 7999 / 1000 * c <= B2R xtol + z) by nra.
    assert (H2 : 7998 / 1000 * c <= y) by nra. assert (H3 : 3998 / 1000 * c <= rnd (y / 2)) by nra. lra.
Qed.
(** Where the move ends. *)
Lemma move_err xc xk (t : f64) : W xc -> W xk -> is_finite t = true -> 0 <= B2R t * (B2R xk - B2R xc) -> Rabs (B2R t) <= Rabs (B2R xk - B2R xc) ->
  Rabs (B2R (Bplus mode_NE xc t) - B2R xc - B2R t) <= 252 / 1000 * B2R (deltaf xc) + Rabs (B2R t) / 1000.
Proof.
  intros Wc Wk F0 Hs Hb. pose proof (W_abs _ Wc) as Ac. pose proof (W_abs _ Wk) as Ak. pose proof Wc as [Fc Ic]. pose proof Wk as [Fk Ik].
  destruct (delta_big xc Wc) as [D1 D2]. pose proof u_pos as Pu.
  assert (A : Rabs (B2R xc + B2R t) <= pow2 1020).
  { apply Rabs_le_inv in Ac, Ak. apply Rabs_le. destruct (Rle_or_lt (B2R xc) (B2R xk)) as [C|C].
    - rewrite (Rabs_pos_eq (B2R xk - B2R xc)) in Hb by lra. apply Rabs_le_inv in Hb. destruct C as [C|C]; [assert (0 <= B2R t) by nra; lra | rewrite C in *; lra].
    - rewrite (Rabs_left (B2R xk - B2R xc)) in Hb by lra. apply Rabs_le_inv in Hb. assert (B2R t <= 0) by nra. lra. }
  destruct (add_fl xc t Fc F0) as [F1 E1]; [apply (rnd_lt_max _ 1020); [lia | exact A]|]. rewrite E1.
  pose proof (rnd_err (B2R xc + B2R t)) as R1. replace (rnd (B2R xc + B2R t) - B2R xc - B2R t) with (rnd (B2R xc + B2R t) - (B2R xc + B2R t)) by ring.
  pose proof (Rabs_triang (B2R xc) (B2R t)) as Tr. pose proof (bpow_gt_0 radix2 (-53)). pose proof pow2_53 as P53. pose proof (Rabs_pos (B2R t)).
  assert (pow2 (-53) * Rabs (B2R xc + B2R t) <= pow2 (-53) * (Rabs (B2R xc) + Rabs (B2R t))) by (apply Rmult_le_compat_l; lra).
  assert (pow2 (-53) * Rabs (B2R t) <= Rabs (B2R t) / 1000) by nra.
  assert (E3 : pow2 (-1075) <= pow2 (-1001) / 1000).
  { assert (E4 : pow2 (-1001) = pow2 74 * pow2 (-1075)) by (rewrite <- bpow_plus; reflexivity). rewrite E4.
    assert (1000 <= pow2 74) by (change (pow2 74) with (IZR (2 ^ 74)); apply IZR_le; vm_compute; discriminate). pose proof (bpow_gt_0 radix2 (-1075)). nra. }
  lra.
Qed.
(** The kinds of step. *)
Lemma fkind (xp xc xk fp fc fk sp sc : NL) tr spre scur :
  fready (MkB xp xc xk fp fc fk sp sc) tr -> fs fc <> 0%Z -> Bltb (Babs (sbisf xc xk)) (deltaf xc) = false ->
  is_finite (sp : f64) = true -> is_finite (sc : f64) = true ->
  brent_choose npf (deltaf xc : NL) (sbisf xc xk : NL) (MkB xp xc xk fp fc fk sp sc) = Ok (spre, scur) ->
  let x := brent_move (deltaf xc : NL) (sbisf xc xk : NL) scur xc in let w := Rabs (B2R xk - B2R xc) in
  is_finite (spre : f64) = true /\ is_finite (scur : f64) = true /\ Rabs (B2R xk - B2R x) <= w /\
  ((Rabs (B2R x - B2R xc) <= 64 / 100 * w /\ Rabs (B2R xk - B2R x) <= 64 / 100 * w /\ Rabs (B2R spre) <= 64 / 100 * w /\ Rabs (B2R scur) <= 64 / 100 * w) \/
   (spre = sc /\ B2R (deltaf xc) < Rabs (B2R sp) /\ 2 * Rabs (B2R scur) <= Rabs (B2R sp) /\ Rabs (B2R x - B2R xc) <= 64 / 100 * Rmax w (Rabs (B2R sp)))).
Proof.
  intros He Nc Hl Fsp Fsc Hch. cbn zeta.
  destruct (fstep xp xc xk fp fc fk sp sc tr spre scur He Nc Hl Hch) as [Wx Hbt]. revert Wx Hbt.
  pose proof He as (Wc & Wk & _ & _ & Ec & Ek & Nk & Dk & Hd).
  destruct (slack_ok xc Wc) as (Fd & Ed & Ld & Sd & Ud). destruct (sbis_ok xc xk Wc Wk) as (Fs & Es & Us). destruct (delta_big xc Wc) as [Du _].
  rewrite Bltb_fin, B2R_Babs in Hl by (rewrite ?is_finite_Babs; assumption).
  destruct (Rlt_bool_spec (Rabs (B2R (sbisf xc xk))) (B2R (deltaf xc))) as [|Hl']; [discriminate|]. clear Hl. rename Hl' into Hl.
  set (D := B2R xk - B2R xc) in *. set (w := Rabs D) in *.
  assert (Hh : Rabs (B2R (sbisf xc xk)) <= w * (1 + 3 * pow2 (-20)) / 2 /\ pow2 (-1005) <= w) by (rewrite Es in *; apply half_le; lra).
  destruct Hh as [Hh H5]. pose proof pow2_20 as P20. pose proof (bpow_gt_0 radix2 (-1005)) as P5.
  assert (Hs : Rabs (B2R (sbisf xc xk)) <= 501 / 1000 * w) by nra.
  assert (Hlow : 499 / 1000 * w <= Rabs (B2R (sbisf xc xk))).
  { rewrite Es, rnd_abs. unfold Rdiv at 2. rewrite Rabs_mult, (Rabs_pos_eq (/ 2)), rnd_abs by lra. fold w.
    assert (E1 : pow2 (-1010) <= pow2 (-1006)) by (apply p2; lia). assert (E2 : pow2 (-1005) = 2 * pow2 (-1006)) by (pose proof (p2dbl (-1006)) as E; cbn [Z.add Z.pos_sub Pos.pred_double] in E; lra).
    assert (E3 : pow2 (-1006) = 16 * pow2 (-1010)) by (change (-1006)%Z with (4 + -1010)%Z; rewrite bpow_plus; reflexivity). pose proof (bpow_gt_0 radix2 (-1010)).
    pose proof (rnd_dn w ltac:(lra)) as D1. assert (w * (999 / 1000) <= rnd w) by nra. pose proof (rnd_dn (rnd w * / 2) ltac:(lra)) as D2. nra. }
  assert (Sg : 0 <= B2R (sbisf xc xk) * D) by (rewrite Es; apply rnd_half_sign).
  assert (Pd : 0 < B2R (deltaf xc)) by (pose proof (bpow_gt_0 radix2 (-1001)); lra).
  assert (Key : forall t : f64, is_finite t = true -> 0 <= B2R t * D -> Rabs (B2R t) <= w -> B2R (deltaf xc) <= Rabs (B2R t) ->
     let x := Bplus mode_NE xc t in 0 <= (B2R x - B2R xc) * (B2R xk - B2R x) ->
     Rabs (B2R xk - B2R x) = w - Rabs (B2R x - B2R xc) /\ 747 / 1000 * Rabs (B2R t) <= Rabs (B2R x - B2R xc) <= 1253 / 1000 * Rabs (B2R t)
     /\ Rabs (B2R x - B2R xc) <= 1001 / 1000 * Rabs (B2R t) + 252 / 1000 * B2R (deltaf xc)).
  { intros t F1 F2 F3 F4 x Hbt. pose proof (move_err xc xk t Wc Wk F1 F2 F3) as Er. fold x in Er.
    set (X := B2R x) in *. unfold w, D in *. set (tt := B2R t) in *. set (d := B2R (deltaf xc)) in *.
    assert (Rabs (X - B2R xc) <= Rabs (X - B2R xc - tt) + Rabs tt) by (replace (X - B2R xc) with ((X - B2R xc - tt) + tt) at 1 by ring; apply Rabs_triang).
    assert (Rabs tt <= Rabs (X - B2R xc - tt) + Rabs (X - B2R xc)) by (replace tt with (- (X - B2R xc - tt) + (X - B2R xc)) at 1 by ring; rewrite <- (Rabs_Ropp (X - B2R xc - tt)); apply Rabs_triang).
    split; [|split; [split|]]; try lra.
    replace (B2R xk - B2R xc) with ((X - B2R xc) + (B2R xk - X)) by ring.
    destruct (Rle_or_lt 0 (X - B2R xc)) as [C|C].
    - destruct C as [C|C].
      + assert (0 <= B2R xk - X) by nra. rewrite !Rabs_pos_eq by lra. ring.
      + rewrite <- C. rewrite Rabs_R0, Rplus_0_l. ring.
    - assert (B2R xk - X <= 0) by nra. rewrite !Rabs_left1 by lra. ring. }
  assert (Mv : exists t : f64, is_finite t = true /\ 0 <= B2R t * D /\ Rabs (B2R t) <= w /\ B2R (deltaf xc) <= Rabs (B2R t) /\
     brent_move (deltaf xc : NL) (sbisf xc xk : NL) scur xc = Bplus mode_NE xc t /\
     (t = scur \/ Rabs (B2R t) = B2R (deltaf xc) /\ (is_finite (scur : f64) = true -> Rabs (B2R scur) <= B2R (deltaf xc)))).
  { unfold brent_move. change (@nltb NL) with (@Bltb 53 1024). change (@nabs NL) with (@Babs 53 1024). change (@nadd NL) with (@Bplus 53 1024 _ _ mode_NE). change (@nopp NL) with (@Bopp 53 1024).
    change (@nofZ NL 0) with (f64_ofZ 0).
    destruct (Bltb (deltaf xc) (Babs scur)) eqn:El.
    - destruct (scur_ok xp xc xk fp fc fk sp sc tr spre scur He Nc ltac:(rewrite Bltb_fin, B2R_Babs by (rewrite ?is_finite_Babs; assumption); apply Rlt_bool_false; exact Hl) Hch) as (F1 & F2 & F3).
      rewrite Bltb_fin, B2R_Babs in El by (rewrite ?is_finite_Babs; assumption).
      destruct (Rlt_bool_spec (B2R (deltaf xc)) (Rabs (B2R scur))) as [El'|]; [|discriminate].
      exists scur. repeat (split; [assumption || lra || reflexivity|]). left. reflexivity.
    - assert (E0 : Bltb (f64_ofZ 0) (sbisf xc xk) = Rlt_bool 0 (B2R (sbisf xc xk))).
      { destruct (ofZ_fl 0 ltac:(lia)) as [Z1 Z2]. rewrite Bltb_fin, Z2 by assumption. reflexivity. }
      assert (Hsc : is_finite (scur : f64) = true -> Rabs (B2R scur) <= B2R (deltaf xc)).
      { intros F1. rewrite Bltb_fin, B2R_Babs in El by (rewrite ?is_finite_Babs; assumption).
        destruct (Rlt_bool_spec (B2R (deltaf xc)) (Rabs (B2R scur))) as [|El']; [discriminate | exact El']. }
      rewrite E0. destruct (Rlt_bool_spec 0 (B2R (sbisf xc xk))) as [C|C].
      + exists (deltaf xc). rewrite (Rabs_pos_eq (B2R (deltaf xc))) by lra. split; [exact Fd|]. split; [nra|]. split; [lra|]. split; [lra|]. split; [reflexivity|]. right. split; [reflexivity | exact Hsc].
      + exists (Bopp (deltaf xc)). rewrite B2R_Bopp, Rabs_Ropp, (Rabs_pos_eq (B2R (deltaf xc))) by lra. split; [rewrite is_finite_Bopp; exact Fd|].
        split; [assert (B2R (sbisf xc xk) < 0) by (rewrite Rabs_left1 in Hl by lra; lra); nra|]. split; [lra|]. split; [lra|]. split; [reflexivity|]. right. split; [reflexivity | exact Hsc]. }
  destruct Mv as (t & F1 & F2 & F3 & F4 & -> & Ht). intros Wx Hbt. destruct (Key t F1 F2 F3 F4 Hbt) as (K1 & (K2 & K3) & K4).
  set (X := B2R (Bplus mode_NE xc t)) in *. pose proof (Rabs_pos (X - B2R xc)).
  assert (Bis : spre = sbisf xc xk -> scur = sbisf xc xk -> is_finite (spre : f64) = true /\ is_finite (scur : f64) = true /\ Rabs (B2R xk - X) <= w /\
     Rabs (X - B2R xc) <= 64 / 100 * w /\ Rabs (B2R xk - X) <= 64 / 100 * w /\ Rabs (B2R spre) <= 64 / 100 * w /\ Rabs (B2R scur) <= 64 / 100 * w).
  { intros -> ->. assert (Rabs (B2R t) = Rabs (B2R (sbisf xc xk))) as Et.
    { destruct Ht as [->|[E1 E2]]; [reflexivity|]. specialize (E2 Fs). lra. }
    rewrite Et in *. repeat (split; [assumption || lra|]). lra. }
  unfold brent_choose in Hch.
  destruct (_ && _) eqn:Ec1 in Hch; [|injection Hch as E1 E2; destruct (Bis (eq_sym E1) (eq_sym E2)) as (B1 & B2 & B3 & B4); split; [exact B1|]; split; [exact B2|]; split; [exact B3|]; left; exact B4].
  destruct (brent_stry npf _) as [t'|] eqn:Et in Hch; [|discriminate Hch]. cbn [bind] in Hch.
  destruct (_ <? _)%num eqn:Em in Hch; [|injection Hch as E1 E2; destruct (Bis (eq_sym E1) (eq_sym E2)) as (B1 & B2 & B3 & B4); split; [exact B1|]; split; [exact B2|]; split; [exact B3|]; left; exact B4].
  cbn [b_scur] in Hch. injection Hch as <- <-. apply andb_prop in Ec1 as [Ec1 _]. cbn [b_spre] in Ec1.
  change (Bltb (deltaf xc) (Babs sp) = true) in Ec1. rewrite Bltb_fin, B2R_Babs in Ec1 by (rewrite ?is_finite_Babs; assumption).
  destruct (Rlt_bool_spec (B2R (deltaf xc)) (Rabs (B2R sp))) as [Ec2|]; [|discriminate].
  assert (Em' : Bltb (Bmult mode_NE (f64_ofZ 2) (Babs t')) (Babs sp) = true).
  { apply (min_lt_l (Bmult mode_NE (f64_ofZ 2) (Babs t')) (Babs sp) (Bminus mode_NE (Bmult mode_NE (f64_ofZ 3) (Babs (sbisf xc xk))) (deltaf xc))); [exact Em | rewrite is_finite_Babs; exact Fsp]. }
  destruct (two_abs t' (Babs sp) Em' ltac:(rewrite is_finite_Babs; exact Fsp)) as [Ft' Hlt]. rewrite B2R_Babs in Hlt.
  assert (H2 : 2 * Rabs (B2R t') <= Rabs (B2R sp)).
  { destruct (Rle_or_lt (2 * Rabs (B2R t')) (Rabs (B2R sp))) as [|C]; [assumption|]. exfalso. apply Rlt_le, rnd_mono in C.
    assert (Gs : rnd (Rabs (B2R sp)) = Rabs (B2R sp)) by (apply rnd_gen, generic_format_abs, B2R_gen). lra. }
  split; [exact Fsc|]. split; [exact Ft'|]. split; [lra|]. right. split; [reflexivity|]. split; [exact Ec2|]. split; [exact H2|].
  pose proof (Rmax_l w (Rabs (B2R sp))). pose proof (Rmax_r w (Rabs (B2R sp))).
  destruct Ht as [->|[E1 _]]; [|rewrite E1 in *]; lra.
Qed.
Lemma fswap_shape xp xc xk fp fc fk sp sc tr : fentry (MkB xp xc xk fp fc fk sp sc) tr -> let s := brent_swap (MkB xp xc xk fp fc fk sp sc) in
  (fs fp <> fs fc -> Rabs (B2R (b_xblk s) - B2R (b_xcur s)) = Rabs (B2R xc - B2R xp) /\ b_spre s = Bminus mode_NE xc xp /\ b_scur s = Bminus mode_NE xc xp) /\
  (fs fp = fs fc -> Rabs (B2R (b_xblk s) - B2R (b_xcur s)) = Rabs (B2R xk - B2R xc) /\ b_spre s = sp /\ b_scur s = sc).
Proof.
  intros (Wp & Wc & _ & _ & Ep & Ec & _). cbn zeta. unfold brent_swap. rewrite (sign_eqb L fp fc) by (subst; apply Hf; assumption).
  split; intros Hd.
  - rewrite (proj2 (Z.eqb_neq _ _) Hd). cbn [negb]. destruct (nltb _ _); cbn [b_xblk b_xcur b_spre b_scur]; (split; [|split; reflexivity]); [reflexivity | apply Rabs_minus_sym].
  - rewrite (proj2 (Z.eqb_eq _ _) Hd). cbn [negb]. destruct (nltb _ _); cbn [b_xblk b_xcur b_spre b_scur]; (split; [|split; reflexivity]); [apply Rabs_minus_sym | reflexivity].
Qed.
Lemma sub_small (x y : f64) : W x -> W y -> is_finite (Bminus mode_NE x y) = true /\ Rabs (B2R (Bminus mode_NE x y)) <= 1001 / 1000 * Rabs (B2R x - B2R y) + u / 1000.
Proof.
  intros Wx Wy. pose proof (W_abs _ Wx) as Ax. pose proof (W_abs _ Wy) as Ay. destruct Wx as [Fx _], Wy as [Fy _].
  assert (A : Rabs (B2R x - B2R y) <= pow2 1021).
  { pose proof (p2dbl 1020) as E. cbn [Z.add Pos.add Pos.succ Z.pos_sub Pos.add_carry] in E. apply Rabs_le_inv in Ax, Ay. apply Rabs_le. lra. }
  destruct (sub_fl x y Fx Fy) as [F1 E1]; [apply (rnd_lt_max _ 1021); [lia | exact A]|]. split; [exact F1|]. rewrite E1.
  pose proof (rnd_err (B2R x - B2R y)) as R1. set (d := B2R x - B2R y) in *.
  assert (Rabs (rnd d) <= Rabs (rnd d - d) + Rabs d) by (replace (rnd d) with ((rnd d - d) + d) at 1 by ring; apply Rabs_triang).
  pose proof pow2_53 as P53. pose proof (Rabs_pos d). pose proof u_pos as Pu. assert (pow2 (-53) * Rabs d <= Rabs d / 1000) by nra.
  assert (E3 : pow2 (-1075) <= pow2 (-1001) / 1000).
  { assert (E4 : pow2 (-1001) = pow2 74 * pow2 (-1075)) by (rewrite <- bpow_plus; reflexivity). rewrite E4.
    assert (1000 <= pow2 74) by (change (pow2 74) with (IZR (2 ^ 74)); apply IZR_le; vm_compute; discriminate). pose proof (bpow_gt_0 radix2 (-1075)). nra. }
  lra.
Qed.
Definition fok (o : res (brent_out NL)) (i n : Z) : Prop :=
  match o with
  | Ok (BDict _ c j b) => b = true /\ c = (j + 1)%Z /\ (i < j <= i + n)%Z
  | Raise e => npf = false /\ e = ZeroDivisionError
  | _ => False
  end.
Notation q := (3 / 2).
Lemma q_mono a b : (a <= b)%nat -> q ^ a <= q ^ b.
Proof. intros H. apply Rle_pow; [lra | exact H]. Qed.
Lemma q_one a : 1 <= q ^ a.
Proof. apply pow_R1_Rle. lra. Qed.
Lemma flog k : forall E m i s tr, fentry s tr ->
  let s' := brent_swap s in
  Rabs (B2R (b_xblk s') - B2R (b_xcur s')) <= q ^ E * u -> is_finite (b_spre s' : f64) = true -> is_finite (b_scur s' : f64) = true ->
  Rabs (B2R (b_spre s')) <= q ^ ((m + 1) / 2) * u -> Rabs (B2R (b_scur s')) <= q ^ (m / 2) * u -> (m <= 2 * E)%nat -> (m + 1 + E * E <= k)%nat ->
  fok (fst (brent_loop npf f xtol rtol true k i s tr)) i (Z.of_nat (m + 1 + E * E)).
Proof.
  pose proof u_pos as Pu. pose proof (bpow_gt_0 radix2 (-1001)) as P01.
  assert (D2 : forall n, (2 * n / 2)%nat = n) by (intros n; rewrite Nat.mul_comm; apply Nat.div_mul; lia).
  assert (D3 : forall n, ((2 * n + 1) / 2)%nat = n) by (intros n; pose proof (Nat.div_mod (2 * n + 1) 2 ltac:(lia)); pose proof (Nat.mod_upper_bound (2*n+1) 2 ltac:(lia)); lia).
  induction k as [|k IH]; intros E m i s tr He s' Hw Fsp Fsc Bp Bc Hm Hk; [lia|]. cbn [brent_loop]. fold s'.
  pose proof (fswap s tr He) as Hr. fold s' in Hr. clear He. destruct s' as [xp xc xk fp fc fk sp sc]. clear s.
  cbn [b_xblk b_xcur b_spre b_scur] in Hw, Fsp, Fsc, Bp, Bc. unfold brent_delta, brent_sbis. cbn [b_xcur b_xblk b_fcur b_fblk].
  change (neqb fc (nofZ 0)) with (Beqb fc (f64_ofZ 0)).
  change (ndiv (nadd xtol (nmul rtol (nabs xc))) (nofZ 2)) with (deltaf xc : NL).
  change (ndiv (nsub xk xc) (nofZ 2)) with (sbisf xc xk : NL).
  change (nltb (nabs (sbisf xc xk : NL)) (deltaf xc : NL)) with (Bltb (Babs (sbisf xc xk)) (deltaf xc)).
  pose proof Hr as (Wc & Wk & Ic & Ik & Ec & Ek & Nk & Dk & Hd).
  rewrite (eqb0 fc) by (rewrite Ec; apply Hf; exact Wc).
  destruct (Z.eqb_spec (fs fc) 0) as [E0|E0]; cbn [orb].
  { cbn [fst fok]. split; [reflexivity|]. lia. }
  destruct (Bltb (Babs (sbisf xc xk)) (deltaf xc)) eqn:El.
  { cbn [fst fok]. split; [reflexivity|]. lia. }
  destruct (delta_big xc Wc) as [Du _].
  destruct E as [|E].
  { exfalso. destruct (slack_ok xc Wc) as (Fd & _). destruct (sbis_ok xc xk Wc Wk) as (Fs & Es & _). destruct u_gen as [Gu Gu2].
    rewrite Bltb_fin, B2R_Babs in El by (rewrite ?is_finite_Babs; assumption).
    destruct (Rlt_bool_spec (Rabs (B2R (sbisf xc xk))) (B2R (deltaf xc))) as [|El']; [discriminate|].
    rewrite Es, rnd_abs in El'. unfold Rdiv at 1 in El'. rewrite Rabs_mult, (Rabs_pos_eq (/ 2)), rnd_abs in El' by lra. cbn [pow] in Hw. rewrite Rmult_1_l in Hw.
    apply rnd_mono in Hw. rewrite (rnd_gen u Gu) in Hw.
    assert (H2 : rnd (Rabs (B2R xk - B2R xc)) * / 2 <= u / 2) by lra. apply rnd_mono in H2. rewrite (rnd_gen _ Gu2) in H2. set (zz := rnd (rnd (Rabs (B2R xk - B2R xc)) * / 2)) in *. lra. }
  assert (PE : q ^ S E = q * q ^ E) by reflexivity. pose proof (q_one E) as QE. set (Q := q ^ E) in *. rewrite PE in Hw.
  assert (QU : u <= Q * u) by (rewrite <- (Rmult_1_l u) at 1; apply Rmult_le_compat_r; lra).
  assert (Hspw : Rabs (B2R sp) <= q * Q * u).
  { assert (Hmm : ((m + 1) / 2 <= S E)%nat) by (rewrite <- (D3 (S E)); apply Nat.div_le_mono; lia).
    apply q_mono in Hmm. rewrite PE in Hmm. assert (q ^ ((m + 1) / 2) * u <= q * Q * u) by (apply Rmult_le_compat_r; lra). lra. }
  destruct (brent_choose npf _ _ _) as [[spre scur]|ex] eqn:Ech.
  2:{ cbn [fst fok]. assert (P : forall (a b : NL) e, pydiv npf a b = Raise e -> npf = false /\ e = ZeroDivisionError).
      { intros a b e. unfold pydiv. destruct npf; cbn [negb andb]; [discriminate|]. destruct (neqb b (nofZ 0)); [|discriminate]. intros E'. injection E' as <-. auto. }
      unfold brent_choose in Ech. destruct (_ && _) in Ech; [|discriminate Ech].
      destruct (brent_stry npf _) as [t|e2] eqn:Es in Ech; cbn [bind] in Ech; [destruct (nltb _ _) in Ech; discriminate Ech|]. injection Ech as <-.
      unfold brent_stry in Es. destruct (neqb _ _) in Es; [eapply P, Es|].
      destruct (pydiv npf _ _) as [d1|e1] eqn:E1 in Es; cbn [bind] in Es; [|injection Es as <-; eapply P, E1].
      destruct (pydiv npf _ _) as [d2|e1'] eqn:E2 in Es; cbn [bind] in Es; [|injection Es as <-; eapply P, E2].
      eapply P, Es. }
  destruct (fstep xp xc xk fp fc fk sp sc tr spre scur Hr E0 El Ech) as [Wx Hb].
  destruct (fkind xp xc xk fp fc fk sp sc tr spre scur Hr E0 El Fsp Fsc Ech) as (G1 & G2 & G3 & G4).
  set (x := brent_move (deltaf xc : NL) (sbisf xc xk : NL) scur xc) in *.
  assert (He : fentry (MkB (xc : NL) x xk fc (f x) fk spre scur) (x :: tr)).
  { split; [exact Wc|]. split; [exact Wx|]. split; [right; exact Ic|]. split; [left; reflexivity|]. split; [exact Ec|]. split; [reflexivity|]. split; [exact E0|].
    destruct (Z.eq_dec (fs fc) (fs (f x))) as [Es|Es]; [right | left; exact Es].
    split; [exact Es|]. split; [exact Wk|]. split; [right; exact Ik|]. split; [exact Ek|]. split; [exact Nk|]. split; [congruence | exact Hb]. }
  destruct (fswap_shape _ _ _ _ _ _ _ _ _ He) as [S1 S2].
  assert (Weak : forall n o, (n <= m + S E * S E)%nat -> fok o (i + 1) (Z.of_nat n) -> fok o i (Z.of_nat (m + 1 + S E * S E))).
  { intros n o Hn. assert (Hn' : (S n <= m + 1 + S E * S E)%nat) by lia. revert Hn'. generalize (m + 1 + S E * S E)%nat. intros M HM.
    destruct o as [[| |? ? ? ?]|]; cbn [fok]; intros HH; try exact HH. destruct HH as (E1 & E2 & E3). split; [exact E1|]. split; [exact E2|]. lia. }
  destruct (Z.eq_dec (fs fc) (fs (f x))) as [Es|Es].
  - specialize (S2 Es). destruct S2 as (T1 & T2 & T3). destruct G4 as [(J1 & J2 & J3 & J4)|(J1 & J2 & J3 & J4)].
    + apply (Weak (2 * E + 1 + E * E)%nat); [lia|]. apply (IH E (2 * E)%nat); try (rewrite ?T1, ?T2, ?T3, ?D2, ?D3; fold Q; assumption || lra || lia).
    + destruct m as [|m]; [exfalso; change (q ^ ((0 + 1) / 2)) with 1 in Bp; lra|].
      apply (Weak (m + 1 + S E * S E)%nat); [lia|]. apply (IH (S E) m); try (rewrite ?T1, ?T2, ?T3, ?PE; assumption || lra || lia).
      * rewrite T2, J1. replace (m + 1)%nat with (S m) by lia. exact Bc.
      * rewrite T3. assert (EM : ((S m + 1) / 2 = S (m / 2))%nat) by (replace (S m + 1)%nat with (m + 1 * 2)%nat by lia; rewrite Nat.div_add by lia; lia).
        rewrite EM in Bp. change (q ^ S (m / 2)) with (q * q ^ (m / 2)) in Bp. pose proof (q_one (m / 2)).
        assert (0 <= q ^ (m / 2) * u) by (apply Rmult_le_pos; lra). lra.
  - specialize (S1 Es). destruct S1 as (T1 & T2 & T3). destruct (sub_small x xc Wx Wc) as [F1 B1].
    assert (Hx : Rabs (B2R x - B2R xc) <= 64 / 100 * (q * Q * u)).
    { destruct G4 as [(J1 & _)|(_ & _ & _ & J4)]; [lra|]. eapply Rle_trans; [exact J4|]. apply Rmult_le_compat_l; [lra|]. apply Rmax_lub; lra. }
    assert (QP : 0 <= Q * u) by lra.
    apply (Weak (2 * E + 1 + E * E)%nat); [lia|]. apply (IH E (2 * E)%nat); try (rewrite ?T1, ?T2, ?T3, ?D2, ?D3; fold Q; assumption || lra || lia).
Qed.
Lemma frun_log n maxiter : B2R xa < B2R xb -> opposite (f xa) (f xb) -> 101 / 100 * (B2R xb - B2R xa) <= q ^ n * u -> (Z.of_nat ((n + 1) * (n + 1)) <= maxiter)%Z ->
  fok (fst (brentq npf f xa xb xtol rtol maxiter true)) 0 (Z.of_nat ((n + 1) * (n + 1))).
Proof.
  intros Hab Ho Hw Hm. unfold brentq. change (nleb xb xa) with (Bleb xb xa). rewrite Bleb_correct by assumption. rewrite Rle_bool_false by exact Hab.
  assert (Wa : W xa) by (split; [exact Fa | lra]). assert (Wb : W xb) by (split; [exact Fb | lra]).
  change (neqb (f xa) (nofZ 0)) with (Beqb (f xa) (f64_ofZ 0)). change (neqb (f xb) (nofZ 0)) with (Beqb (f xb) (f64_ofZ 0)).
  rewrite !eqb0, sign_eqb by (apply Hf; assumption).
  assert (Hs : fs (f xa) <> 0%Z /\ fs (f xb) <> 0%Z /\ fs (f xa) <> fs (f xb)) by (apply opposite_fs, Ho). destruct Hs as (Na & Nb & Nab).
  rewrite !(proj2 (Z.eqb_neq _ _)) by assumption.
  destruct (brent_loop _ _ _ _ _ _ _ _ _) as [r tr] eqn:E. cbn [fst].
  assert (He : fentry (MkB xa xb (nofZ 0) (f xa) (f xb) (nofZ 0) (nofZ 0) (nofZ 0)) [xb; xa]).
  { split; [exact Wa|]. split; [exact Wb|]. split; [right; left; reflexivity|]. split; [left; reflexivity|]. repeat (split; [reflexivity || assumption|]). left. exact Nab. }
  destruct (fswap_shape _ _ _ _ _ _ _ _ _ He) as [S1 _]. destruct (S1 Nab) as (T1 & T2 & T3). destruct (sub_small xb xa Wb Wa) as [F1 B1].
  rewrite (Rabs_pos_eq (B2R xb - B2R xa)) in B1, T1 by lra.
  assert (D2 : (2 * n / 2)%nat = n) by (rewrite Nat.mul_comm; apply Nat.div_mul; lia).
  assert (D3 : ((2 * n + 1) / 2)%nat = n) by (pose proof (Nat.div_mod (2 * n + 1) 2 ltac:(lia)); pose proof (Nat.mod_upper_bound (2*n+1) 2 ltac:(lia)); lia).
  pose proof u_pos as Pu. pose proof (bpow_gt_0 radix2 (-1001)) as P01. pose proof (q_one n) as Qn.
  assert (QU : u <= q ^ n * u) by (rewrite <- (Rmult_1_l u) at 1; apply Rmult_le_compat_r; lra).
  replace r with (fst (brent_loop npf f xtol rtol true (Z.to_nat maxiter) 0 (MkB xa xb (nofZ 0) (f xa) (f xb) (nofZ 0) (nofZ 0) (nofZ 0)) [xb; xa])) by (rewrite E; reflexivity).
  replace ((n + 1) * (n + 1))%nat with (2 * n + 1 + n * n)%nat by lia.
  apply (flog _ n (2 * n)%nat); try (rewrite ?T1, ?T2, ?T3, ?D2, ?D3; assumption || lra || lia).
Qed.
End Run.

(** ** The statements *)
Lemma fbrent_inside : forall (L : Libm) npf (f : F64 L -> F64 L) (xa xb xtol rtol : f64) maxiter full,
  is_finite xa = true -> is_finite xb = true -> Rabs (B2R xa) <= pow2 1020 -> Rabs (B2R xb) <= pow2 1020 ->
  is_finite xtol = true -> pow2 (-1000) <= B2R xtol <= pow2 1000 -> is_finite rtol = true -> 0 <= B2R rtol <= 1 ->
  (forall x : f64, within xa xb x -> is_nan (f x : f64) = false) ->
  Forall (within xa xb) (snd (brentq npf f xa xb xtol rtol maxiter full)).
Proof.
  intros L npf f xa xb xtol rtol maxiter full H1 H2 H3 H4 H5 H6 H7 H8 Hf.
  destruct (brentq npf f xa xb xtol rtol maxiter full) as [r tr] eqn:E.
  exact (proj1 (frun L npf f xa xb xtol rtol H1 H2 H3 H4 H5 H6 H7 H8 Hf full maxiter r tr E)).
Qed.
Lemma slack_le T R' x : pow2 (-1000) <= T -> 0 <= R' -> T + rnd (R' * Rabs x) <= (T + R' * Rabs x) * (1 + pow2 (-52)).
Proof.
  intros H1 H2. pose proof (Rabs_pos x). assert (P : 0 <= R' * Rabs x) by (apply Rmult_le_pos; assumption).
  pose proof (rnd_err (R' * Rabs x)) as E. rewrite (Rabs_pos_eq (R' * Rabs x)) in E by exact P. apply Rabs_le_inv in E.
  assert (pow2 (-53) <= pow2 (-52)) by (apply p2; lia). pose proof (bpow_gt_0 radix2 (-53)). pose proof (bpow_gt_0 radix2 (-52)).
  assert (E2 : pow2 (-1075) <= pow2 (-1000) * pow2 (-52)) by (rewrite <- bpow_plus; apply p2; lia).
  assert (pow2 (-1000) * pow2 (-52) <= T * pow2 (-52)) by (apply Rmult_le_compat_r; lra).
  assert (pow2 (-53) * (R' * Rabs x) <= pow2 (-52) * (R' * Rabs x)) by (apply Rmult_le_compat_r; lra). lra.
Qed.
Lemma fbrent_root : forall (L : Libm) npf (f : F64 L -> F64 L) (xa xb xtol rtol : f64) maxiter o tr,
  is_finite xa = true -> is_finite xb = true -> Rabs (B2R xa) <= pow2 1020 -> Rabs (B2R xb) <= pow2 1020 ->
  is_finite xtol = true -> pow2 (-1000) <= B2R xtol <= pow2 1000 -> is_finite rtol = true -> 0 <= B2R rtol <= 1 ->
  (forall x : f64, within xa xb x -> is_nan (f x : f64) = false) ->
  brentq npf f xa xb xtol rtol maxiter true = (Ok o, tr) -> match o with BDict _ _ _ c => c = true | _ => True end ->
  let x := match o with BRoot x | BTuple x _ _ _ | BDict x _ _ _ => x end in
  within xa xb x /\
  (Beqb (f x) (B754_zero false) = true \/
   exists y : f64, In (y : F64 L) tr /\ within xa xb y /\ opposite (f x) (f y) /\
     Rabs (B2R y - B2R x) < (B2R xtol + B2R rtol * Rabs (B2R x)) * (1 + pow2 (-52))).
Proof.
  intros L npf f xa xb xtol rtol maxiter o tr H1 H2 H3 H4 H5 H6 H7 H8 Hf E Hc x.
  destruct (frun L npf f xa xb xtol rtol H1 H2 H3 H4 H5 H6 H7 H8 Hf true maxiter _ tr E) as [HW HG].
  specialize (HG o eq_refl eq_refl Hc). fold x in HG. destruct HG as [Wx [G|(y & Iy & Go & Gs)]]; (split; [exact Wx|]).
  - left. rewrite <- ofZ0, eqb0 by (apply Hf; exact Wx). apply Z.eqb_eq. exact G.
  - right. exists y. split; [exact Iy|]. split; [rewrite Forall_forall in HW; apply (HW _ Iy)|]. split; [exact Go|].
    eapply Rlt_le_trans; [exact Gs|]. apply slack_le; lra.
Qed.
Lemma fbrent_zero : forall (L : Libm) npf (f : F64 L -> F64 L) (g : R -> R) eps (xa xb xtol rtol : f64) maxiter o tr,
  is_finite xa = true -> is_finite xb = true -> Rabs (B2R xa) <= pow2 1020 -> Rabs (B2R xb) <= pow2 1020 ->
  is_finite xtol = true -> pow2 (-1000) <= B2R xtol <= pow2 1000 -> is_finite rtol = true -> 0 <= B2R rtol <= 1 ->
  (forall t, B2R xa <= t <= B2R xb -> continuity_pt g t) ->
  (forall x : f64, within xa xb x -> is_finite (f x : f64) = true /\ Rabs (B2R (f x) - g (B2R x)) <= eps) ->
  brentq npf f xa xb xtol rtol maxiter true = (Ok o, tr) -> match o with BDict _ _ _ c => c = true | _ => True end ->
  let x := match o with BRoot x | BTuple x _ _ _ | BDict x _ _ _ => x end in
  exists z, B2R xa <= z <= B2R xb /\ Rabs (g z) <= eps /\
    Rabs (z - B2R x) <= (B2R xtol + B2R rtol * Rabs (B2R x)) * (1 + pow2 (-52)).
Proof.
  intros L npf f g eps xa xb xtol rtol maxiter o tr H1 H2 H3 H4 H5 H6 H7 H8 Hg Hf E Hc x.
  assert (Hn : forall x : f64, within xa xb x -> is_nan (f x : f64) = false).
  { intros t Wt. destruct (Hf t Wt) as [F _]. destruct (f t : f64); try discriminate F; reflexivity. }
  destruct (fbrent_root L npf f xa xb xtol rtol maxiter o tr H1 H2 H3 H4 H5 H6 H7 H8 Hn E Hc) as [Wx HG]. fold x in Wx, HG.
  destruct (Hf _ Wx) as [Fx Ex]. apply Rabs_le_inv in Ex. set (tol := (B2R xtol + B2R rtol * Rabs (B2R x)) * (1 + pow2 (-52))) in *.
  assert (Pt : 0 <= tol).
  { unfold tol. pose proof (bpow_gt_0 radix2 (-52)). pose proof (bpow_gt_0 radix2 (-1000)). pose proof (Rabs_pos (B2R x)). apply Rmult_le_pos; [|lra].
    assert (0 <= B2R rtol * Rabs (B2R x)) by (apply Rmult_le_pos; lra). lra. }
  destruct HG as [G|(y & Iy & Wy & Go & Gs)].
  - rewrite Beqb_correct in G by (exact Fx || reflexivity). destruct (Req_bool_spec (B2R (f x)) (B2R (B754_zero false : f64))) as [G'|]; [|discriminate]. cbn [B2R] in G'.
    exists (B2R x). split; [apply Wx|]. split; [apply Rabs_le; lra|]. rewrite Rminus_eq_0, Rabs_R0. exact Pt.
  - destruct (Hf _ Wy) as [Fy Ey]. apply Rabs_le_inv in Ey.
    assert (Hs : B2R (f x) < 0 < B2R (f y) \/ B2R (f y) < 0 < B2R (f x)).
    { unfold opposite in Go. rewrite !Bltb_correct in Go by (assumption || reflexivity). cbn [B2R] in Go.
      destruct Go as [[G1 G2]|[G1 G2]]; [left|right].
      - destruct (Rlt_bool_spec (B2R (f x)) 0), (Rlt_bool_spec 0 (B2R (f y))); try discriminate; lra.
      - destruct (Rlt_bool_spec (B2R (f y)) 0), (Rlt_bool_spec 0 (B2R (f x))); try discriminate; lra. }
    destruct (Rle_or_lt (Rabs (g (B2R x))) eps) as [C1|C1]; [exists (B2R x); split; [apply Wx|]; split; [exact C1 | rewrite Rminus_eq_0, Rabs_R0; exact Pt]|].
    destruct (Rle_or_lt (Rabs (g (B2R y))) eps) as [C2|C2]; [exists (B2R y); split; [apply Wy|]; split; [exact C2 | lra]|].
    assert (Heps : 0 <= eps) by lra.
    assert (Hs' : g (B2R x) < 0 < g (B2R y) \/ g (B2R y) < 0 < g (B2R x)).
    { unfold Rabs in C1, C2. destruct (Rcase_abs (g (B2R x))), (Rcase_abs (g (B2R y))); destruct Hs; lra. }
    assert (HZ : forall u v h, u < v -> (forall t, u <= t <= v -> continuity_pt h t) -> h u < 0 -> 0 < h v -> exists z, u <= z <= v /\ h z = 0).
    { intros u v h Huv Hh Hu Hv. destruct (Ranalysis5.IVT_interv h u v Hh Huv Hu Hv) as (z & Hz & E0). exists z. auto. }
    assert (HZ2 : forall u v, u < v -> B2R xa <= u -> v <= B2R xb -> g u < 0 < g v \/ g v < 0 < g u -> exists z, u <= z <= v /\ g z = 0).
    { intros u v Huv Hu Hv [S|S].
      - apply HZ; try tauto. intros t Ht. apply Hg. lra.
      - destruct (HZ u v (fun t => - g t) Huv) as (z & Hz & E0); try lra.
        + intros t Ht. apply (continuity_pt_opp g). apply Hg. lra.
        + exists z. split; [exact Hz | lra]. }
    destruct Wx as [_ Wx], Wy as [_ Wy]. apply Rabs_lt_inv in Gs.
    destruct (Rtotal_order (B2R x) (B2R y)) as [O|[O|O]].
    + destruct (HZ2 _ _ O) as (z & Hz & E0); [lra | lra | tauto |]. exists z. split; [lra|]. split; [rewrite E0, Rabs_R0; exact Heps | apply Rabs_le; lra].
    + rewrite O in Hs'. lra.
    + destruct (HZ2 _ _ O) as (z & Hz & E0); [lra | lra | tauto |]. exists z. split; [lra|]. split; [rewrite E0, Rabs_R0; exact Heps | apply Rabs_le; lra].
Qed.

(** ** The number of iterations *)
Lemma fbrent_log : forall (L : Libm) npf (f : F64 L -> F64 L) (xa xb xtol rtol : f64) n maxiter,
  is_finite xa = true -> is_finite xb = true -> Rabs (B2R xa) <= pow2 1020 -> Rabs (B2R xb) <= pow2 1020 ->
  is_finite xtol = true -> pow2 (-1000) <= B2R xtol <= pow2 1000 -> is_finite rtol = true -> pow2 (-50) <= B2R rtol <= 1 ->
  (forall x : f64, within xa xb x -> is_nan (f x : f64) = false) ->
  B2R xa < B2R xb -> opposite (f xa) (f xb) -> 101 / 100 * (B2R xb - B2R xa) <= (3 / 2) ^ n * (B2R xtol / 2) ->
  (Z.of_nat ((n + 1) * (n + 1)) <= maxiter)%Z ->
  match fst (brentq npf f xa xb xtol rtol maxiter true) with
  | Ok (BDict _ calls iters conv) => conv = true /\ calls = (iters + 1)%Z /\ (1 <= iters <= Z.of_nat ((n + 1) * (n + 1)))%Z
  | Ok _ => False
  | Raise e => npf = false /\ e = ZeroDivisionError
  end.
Proof.
  intros L npf f xa xb xtol rtol n maxiter H1 H2 H3 H4 H5 H6 H7 H8 Hf Hab Ho Hw Hm.
  pose proof (bpow_gt_0 radix2 (-50)) as P50. assert (H9 : 0 <= B2R rtol <= 1) by lra.
  pose proof (frun_log L npf f xa xb xtol rtol H1 H2 H3 H4 H5 H6 H7 H9 Hf (proj1 H8) n maxiter Hab Ho Hw Hm) as H.
  destruct (fst _) as [[| |x c j b]|e]; cbn [fok] in H; try exact H. destruct H as (E1 & E2 & E3). split; [exact E1|]. split; [exact E2 | lia].
Qed.

(** ** Tolerances below the spacing of the doubles: the loop stands still *)
Section Still.
Context {N : Num}.
Variables (npf : bool) (f : N -> N) (xtol rtol : N).
Definition bstep (s : bstate N) : option (bstate N) :=
  let s := brent_swap s in
  let delta := brent_delta xtol rtol s in let sbis := brent_sbis s in
  if neqb (b_fcur s) (nofZ 0) || nltb (nabs sbis) delta then None
  else match brent_choose npf delta sbis s with
       | Raise _ => None
       | Ok (spre, scur) => let x := brent_move delta sbis scur (b_xcur s) in
           Some (MkB (b_xcur s) x (b_xblk s) (b_fcur s) (f x) (b_fblk s) spre scur)
       end.
Fixpoint bsteps (n : nat) (s : bstate N) : option (bstate N) :=
  match n with O => Some s | S n => match bstep s with Some s' => bsteps n s' | None => None end end.
Lemma bstep_loop k i s s' tr : bstep s = Some s' -> exists tr', brent_loop npf f xtol rtol true (S k) i s tr = brent_loop npf f xtol rtol true k (i + 1) s' tr'.
Proof.
  unfold bstep. cbn [brent_loop]. cbn zeta. destruct (_ || _); [discriminate|]. destruct (brent_choose _ _ _ _) as [[a b]|]; [|discriminate].
  intros E. injection E as <-. eexists. reflexivity.
Qed.
(** As many iterations as asked for, none of which converges. *)
Lemma still n s0 s1 : bsteps n s0 = Some s1 -> bstep s1 = Some s1 -> forall k i tr,
  exists x c m tr', brent_loop npf f xtol rtol true k i s0 tr = (Ok (BDict x c m false), tr').
Proof.
  revert s0. induction n as [|n IH]; intros s0 H0 H1 k i tr; cbn [bsteps] in H0.
  - injection H0 as ->. revert i tr. induction k as [|k IHk]; intros i tr; [cbn; do 4 eexists; reflexivity|].
    destruct (bstep_loop k i s1 s1 tr H1) as [tr' ->]. apply IHk.
  - destruct k as [|k]; [cbn; do 4 eexists; reflexivity|]. destruct (bstep s0) as [s'|] eqn:E; [|discriminate].
    destruct (bstep_loop k i s0 s' tr E) as [tr' ->]. apply IH; assumption.
Qed.
End Still.
Definition sf_eqb (a b : SpecFloat.spec_float) : bool :=
  match a, b with
  | SpecFloat.S754_zero s, SpecFloat.S754_zero t | SpecFloat.S754_infinity s, SpecFloat.S754_infinity t => Bool.eqb s t
  | SpecFloat.S754_nan, SpecFloat.S754_nan => true
  | SpecFloat.S754_finite s m e, SpecFloat.S754_finite t n d => Bool.eqb s t && Pos.eqb m n && Z.eqb e d
  | _, _ => false
  end.
Lemma sf_eqb_eq a b : sf_eqb a b = true -> a = b.
Proof.
  destruct a, b; cbn; try discriminate; try reflexivity; intros H; try (apply Bool.eqb_prop in H; congruence).
  apply andb_prop in H as [H H3]. apply andb_prop in H as [H1 H2]. apply Bool.eqb_prop in H1. apply Pos.eqb_eq in H2. apply Z.eqb_eq in H3. congruence.
Qed.
Definition f_eqb (a b : f64) : bool := sf_eqb (B2SF a) (B2SF b).
Lemma f_eqb_eq a b : f_eqb a b = true -> a = b.
Proof. intros H. apply B2SF_inj, sf_eqb_eq, H. Qed.
Definition st_eqb {L} (s t : bstate (F64 L)) : bool :=
  let 'MkB a b c d e f g h := s in let 'MkB a' b' c' d' e' f' g' h' := t in
  f_eqb a a' && f_eqb b b' && f_eqb c c' && f_eqb d d' && f_eqb e e' && f_eqb f f' && f_eqb g g' && f_eqb h h'.
Lemma st_eqb_eq {L} (s t : bstate (F64 L)) : st_eqb s t = true -> s = t.
Proof.
  destruct s, t. unfold st_eqb. intros H. repeat (apply andb_prop in H as [H ?]).
  repeat match goal with E : f_eqb _ _ = true |- _ => apply f_eqb_eq in E end. congruence.
Qed.
Lemma fbrent_still : forall (L : Libm) npf maxiter, exists x calls iters tr,
  brentq npf square2 (nofZ 1 : F64 L) (nofZ 2) (half_pow 60) (nofZ 0) maxiter true = (Ok (BDict x calls iters false), tr).
Proof.
  intros L npf maxiter. set (f := square2 : F64 L -> F64 L).
  set (s0 := MkB (nofZ 1 : F64 L) (nofZ 2) (nofZ 0) (f (nofZ 1)) (f (nofZ 2)) (nofZ 0) (nofZ 0) (nofZ 0)).
  assert (H : match bsteps npf f (half_pow 60) (nofZ 0) 9 s0 with
              | Some s1 => match bstep npf f (half_pow 60) (nofZ 0) s1 with Some s2 => st_eqb s2 s1 | None => false end
              | None => false end = true) by (destruct npf; vm_compute; reflexivity).
  destruct (bsteps npf f (half_pow 60) (nofZ 0) 9 s0) as [s1|] eqn:E1; [|discriminate H].
  destruct (bstep npf f (half_pow 60) (nofZ 0) s1) as [s2|] eqn:E2; [|discriminate H]. apply st_eqb_eq in H. subst s2.
  unfold brentq. assert (C1 : @nleb (F64 L) (nofZ 2) (nofZ 1) = false) by (vm_compute; reflexivity). rewrite C1.
  assert (C2 : neqb (f (nofZ 1)) (nofZ 0) = false) by (vm_compute; reflexivity).
  assert (C3 : neqb (f (nofZ 2)) (nofZ 0) = false) by (vm_compute; reflexivity).
  assert (C4 : neqb (nsign (f (nofZ 1))) (nsign (f (nofZ 2))) = false) by (vm_compute; reflexivity).
  fold f. cbn zeta. rewrite C2, C3, C4. fold s0.
  destruct (still npf f (half_pow 60) (nofZ 0) 9 s0 s1 E1 E2 (Z.to_nat maxiter) 0 [nofZ 2; nofZ 1]) as (x & c & m & tr' & E).
  exists x, c, m, (rev tr'). rewrite E. reflexivity.
Qed.

(** NumPy scalars never raise inside the loop; Python floats raise ZeroDivisionError only. *)
Lemma brent_loop_raise {N : Num} npf (f : N -> N) xtol rtol full k : forall i s tr e tr',
  brent_loop npf f xtol rtol full k i s tr = (Raise e, tr') -> npf = false /\ e = ZeroDivisionError.
Proof.
  assert (P : forall (a b : N) e, pydiv npf a b = Raise e -> npf = false /\ e = ZeroDivisionError).
  { intros a b e. unfold pydiv. destruct npf; cbn [negb andb]; [discriminate|]. destruct (neqb b (nofZ 0)); [|discriminate]. intros E. injection E as <-. auto. }
  induction k as [|k IH]; intros i s tr e tr' E; cbn [brent_loop] in E; [destruct full; discriminate E|].
  destruct (_ || _); [destruct full; discriminate E|]. destruct (brent_choose _ _ _ _) as [[? ?]|e'] eqn:Ec; [eapply IH, E|].
  injection E as <- _. unfold brent_choose in Ec. destruct (_ && _); [|discriminate Ec].
  destruct (brent_stry npf _) as [t|e2] eqn:Es; cbn [bind] in Ec; [destruct (nltb _ _); discriminate Ec|]. injection Ec as <-.
  unfold brent_stry in Es. destruct (brent_swap s). destruct (neqb _ _); [eapply P, Es|].
  destruct (pydiv npf _ _) as [d1|e1] eqn:E1 in Es; cbn [bind] in Es; [|injection Es as <-; eapply P, E1].
  destruct (pydiv npf _ _) as [d2|e1'] eqn:E2 in Es; cbn [bind] in Es; [|injection Es as <-; eapply P, E2].
  eapply P, Es.
Qed.
Lemma brent_raises : forall (N : Num) npf (f : N -> N) xa xb xtol rtol maxiter full e,
  fst (brentq npf f xa xb xtol rtol maxiter full) = Raise e -> e = ValueError \/ npf = false /\ e = ZeroDivisionError.
Proof.
  intros N npf f xa xb xtol rtol maxiter full e. unfold brentq. destruct (nleb xb xa); [intros E; injection E as <-; auto|].
  destruct (neqb (f xa) _); [destruct full; discriminate|]. destruct (neqb (f xb) _); [destruct full; discriminate|].
  destruct (neqb (nsign _) _); [intros E; injection E as <-; auto|].
  destruct (brent_loop _ _ _ _ _ _ _ _ _) as [r tr] eqn:E. cbn [fst]. intros ->. right. eapply brent_loop_raise, E.
Qed.

(** The rounding error of [x^2 - 2] on [0, 2]. *)
Lemma square2_err (L : Libm) (x : f64) : is_finite x = true -> 0 <= B2R x <= 2 ->
  is_finite (square2 (x : F64 L) : f64) = true /\ Rabs (B2R (square2 (x : F64 L) : f64) - (B2R x * B2R x - 2)) <= pow2 (-50).
Proof.
  intros Fx Hx. unfold square2. cbn [nsub nmul nofZ F64].
  assert (P : 0 <= B2R x * B2R x <= 4) by nra. assert (P4 : pow2 2 = 4) by reflexivity.
  assert (A : Rabs (B2R x * B2R x) <= pow2 2) by (rewrite Rabs_pos_eq; lra).
  destruct (mul_fl x x Fx Fx) as [F1 E1]; [apply (rnd_lt_max _ 2); [lia | exact A]|].
  pose proof (rnd_err (B2R x * B2R x)) as R1. rewrite (Rabs_pos_eq (B2R x * B2R x)) in R1 by lra. pose proof (rnd_abs_le _ 2 ltac:(lia) A) as A1. rewrite P4 in A1.
  destruct (ofZ_fl 2 ltac:(lia)) as [F2 E2].
  pose proof (rnd_nonneg _ (proj1 P)) as P1. rewrite Rabs_pos_eq in A1 by exact P1.
  assert (A2 : Rabs (rnd (B2R x * B2R x) - 2) <= 2) by (apply Rabs_le; lra).
  destruct (sub_fl (Bmult mode_NE x x) (f64_ofZ 2) F1 F2) as [F3 E3]; rewrite ?E1, ?E2 in *.
  { apply (rnd_lt_max _ 1); [lia | exact A2]. }
  split; [exact F3|]. rewrite E3. pose proof (rnd_err (rnd (B2R x * B2R x) - 2)) as R2.
  assert (E53 : pow2 (-50) = 8 * pow2 (-53)) by (change (-50)%Z with (3 + -53)%Z; rewrite bpow_plus; reflexivity).
  assert (S : pow2 (-1075) <= pow2 (-53)) by (apply p2; lia). pose proof (bpow_gt_0 radix2 (-53)).
  assert (pow2 (-53) * (B2R x * B2R x) <= pow2 (-53) * 4) by (apply Rmult_le_compat_l; lra).
  assert (pow2 (-53) * Rabs (rnd (B2R x * B2R x) - 2) <= pow2 (-53) * 2) by (apply Rmult_le_compat_l; lra).
  assert (S3 : 2 * pow2 (-1075) <= pow2 (-53)) by (change 2 with (pow2 1); rewrite <- bpow_plus; apply p2; lia).
  apply Rabs_le_inv in R1, R2. apply Rabs_le. lra.
Qed.
