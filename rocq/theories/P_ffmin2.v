(** fminbound in binary64: the whole search. *)
From Coq Require Import Reals Lra Lia Psatz List Bool ZArith.
From Flocq Require Import Core Plus_error IEEE754.BinarySingleNaN.
From Verif Require Import Num F64 Spec2 Spec13 M_optimize P_float P_float2 P_fbrent P_fmin P_ffmin.
Import ListNotations.
Local Open Scope R_scope.

Local Existing Instance F64.prec_gt_0_53.
Local Existing Instance F64.prec_lt_emax_53.

Section Run.
Variable L : Libm.
Notation NL := (F64 L).
Variables (f : NL -> NL) (lo hi tol : NL).
Hypothesis Flo : is_finite (lo : f64) = true.
Hypothesis Fhi : is_finite (hi : f64) = true.
Hypothesis Blo : Rabs (B2R (lo : f64)) <= pow2 1020.
Hypothesis Bhi : Rabs (B2R (hi : f64)) <= pow2 1020.
Hypothesis Hlh : B2R (lo : f64) <= B2R (hi : f64).
Hypothesis Ft : is_finite (tol : f64) = true.
Hypothesis Bt : pow2 (-1000) <= B2R (tol : f64) <= pow2 1000.
Notation tau := (B2R (tol : f64)).
Notation W := (within lo hi).
Notation t1 x := (B2R (T1 L tol x : f64)).

Lemma W_abs x : W x -> Rabs (B2R x) <= pow2 1020.
Proof. intros [_ H]. apply Rabs_le_inv in Blo, Bhi. apply Rabs_le. lra. Qed.

(** ** One step *)
Lemma choose_f (s : fstate NL) e st : W (f_left s) -> W (f_right s) -> W (f_xopt s) ->
  B2R (f_left s : f64) <= B2R (f_xopt s : f64) <= B2R (f_right s : f64) ->
  fmin_guard tol s = true -> choose_step tol s = (e, st) ->
  lands L tol (f_left s) (f_right s) (f_xopt s) (next_point tol st s).
Proof.
  intros Wa Wb Wx Hab G C. pose proof (W_abs _ Wa) as Aa. pose proof (W_abs _ Wb) as Ab. destruct Wa as [Fa _], Wb as [Fb _], Wx as [Fx _].
  pose proof (guard_ok L tol Ft Bt _ _ _ Fa Fb Fx Aa Ab Hab) as Gd.
  change (guardf L tol (f_left s) (f_right s) (f_xopt s)) with (fmin_guard tol s) in Gd. rewrite G in Gd.
  change (next_point tol st s) with (nextf L tol (f_xopt s) st).
  assert (Hg : golden_step s = (e, st) -> lands L tol (f_left s) (f_right s) (f_xopt s) (nextf L tol (f_xopt s) st)).
  { intros Eg. unfold golden_step in Eg. apply (f_equal snd) in Eg. cbn [snd] in Eg. rewrite <- Eg.
    exact (golden_f L tol Ft Bt _ _ _ Fa Fb Fx Aa Ab Hab Gd). }
  unfold choose_step in C. destruct (nltb _ (nabs (f_e s))); [|exact (Hg C)].
  cbv zeta in C.
  destruct (_ && (_ && _)) eqn:T in C; [|exact (Hg C)].
  apply andb_prop in T as [T1' T]. apply andb_prop in T as [T2' _].
  destruct (_ || _) eqn:D in C.
  - apply (f_equal snd) in C. cbn [snd] in C. rewrite <- C. exact (centre_f L tol Ft Bt _ _ _ Fa Fb Fx Aa Ab Hab Gd).
  - apply (f_equal snd) in C. cbn [snd] in C. rewrite <- C. apply orb_false_elim in D as [D1 D2].
    eapply (parab_f L tol Ft Bt _ _ _ Fa Fb Fx Aa Ab Hab); [exact T1' | exact T2' | exact D1 | exact D2].
Qed.

(** ** The first point *)
Definition x0 : NL := nadd lo (nmul golden_ratio (nsub hi lo)).
Lemma first_ok : W x0 /\ (fmin_guard tol (fmin_init f lo hi) = true ->
  tau / 4 <= B2R (x0 : f64) - B2R (lo : f64) /\ tau / 4 <= B2R (hi : f64) - B2R (x0 : f64)).
Proof.
  set (lr := B2R (lo : f64)) in *. set (hr := B2R (hi : f64)) in *.
  pose proof (bpow_gt_0 radix2 1020) as P0. assert (P1 : pow2 1021 = 2 * pow2 1020) by (change 1021%Z with (1 + 1020)%Z; rewrite bpow_plus; reflexivity).
  pose proof Blo as Blo'. pose proof Bhi as Bhi'. apply Rabs_le_inv in Blo', Bhi'. fold lr in Blo'. fold hr in Bhi'.
  destruct (gold_f L) as [Fg Hg]. set (g := B2R (@golden_ratio NL : f64)) in *.
  destruct (sub_fl hi lo Fhi Flo) as [F1 E1]; [apply (rnd_lt_max _ 1021); [lia|]; apply pabs; fold lr hr; lra|]. fold lr hr in E1.
  pose proof (rnd_nonneg (hr - lr) ltac:(lra)) as D0. 
  pose proof (rnd_abs_le (hr - lr) 1021 ltac:(lia) ltac:(apply pabs; lra)) as D1. apply Rabs_le_inv in D1. rewrite <- E1 in D0, D1.
  set (d := B2R (Bminus mode_NE (hi : f64) lo)) in *.
  assert (HE : 381 / 1000 * d <= g * d <= 382 / 1000 * d) by (split; apply Rmult_le_compat_r; lra).
  destruct (mul_fl (@golden_ratio NL) _ Fg F1) as [F2 E2]; [fold g d; apply (rnd_lt_max _ 1021); [lia|]; apply pabs; lra|]. fold g d in E2.
  set (e := B2R (Bmult mode_NE (@golden_ratio NL : f64) (Bminus mode_NE (hi : f64) lo))) in *.
  assert (He0 : 0 <= e) by (rewrite E2; apply rnd_nonneg; lra).
  assert (He : e <= hr - lr).
  { destruct (Rle_or_lt (hr - lr) (pow2 (-1021))) as [C|C].
    - assert (Ed : d = hr - lr).
      { rewrite E1. apply rnd_gen. apply (FLT_format_plus_small radix2 (-1074) 53 hr (- lr)); [apply B2R_gen | apply generic_format_opp, B2R_gen |].
        change (53 + -1074)%Z with (-1021)%Z. apply pabs. pose proof (bpow_gt_0 radix2 (-1021)). lra. }
      rewrite E2, <- Ed. apply Rle_trans with (rnd d); [apply rnd_mono; lra|]. rewrite rnd_gen; [lra | apply B2R_gen].
    - assert (P2 : pow2 (-1022) <= hr - lr) by (apply Rlt_le, Rle_lt_trans with (2 := C); apply p2; lia).
      pose proof (rnd_b (hr - lr) (hr - lr) (hr - lr) P2 ltac:(apply pabs; lra)) as R1. rewrite <- E1 in R1.
      pose proof (rnd_b (g * d) (hr - lr) (hr - lr) P2 ltac:(apply pabs; lra)) as R2. rewrite <- E2 in R2. lra. }
  destruct (add_fl lo _ Flo F2) as [F3 E3]; [fold lr e; apply (rnd_lt_max _ 1020); [lia|]; apply pabs; lra|]. fold lr e in E3.
  change (Bplus mode_NE (lo : f64) _) with (x0 : f64) in F3, E3.
  assert (I0 : lr <= B2R (x0 : f64) <= hr).
  { rewrite E3. split; [rewrite <- (rnd_gen lr) at 1 by apply B2R_gen | rewrite <- (rnd_gen hr) by apply B2R_gen]; apply rnd_mono; lra. }
  assert (W0 : W x0) by (split; assumption).
  split; [exact W0|]. intros G.
  pose proof (W_abs _ W0) as A0.
  pose proof (guard_ok L tol Ft Bt lo hi x0 Flo Fhi F3 Blo Bhi I0) as Gd.
  change (guardf L tol lo hi x0) with (fmin_guard tol (fmin_init f lo hi)) in Gd. rewrite G in Gd. fold lr hr in Gd.
  destruct (T1_ok L tol Ft Bt x0 F3 A0) as (FT & HX & Ht & Hs & _ & _). apply Rabs_le_inv in HX.
  set (t := t1 x0) in *. set (x := B2R (x0 : f64)) in *.
  assert (Tp : 0 < t) by (pose proof (bpow_gt_0 radix2 (-1022)); lra).
  assert (Tau : 0 < tau) by (pose proof (bpow_gt_0 radix2 (-1000)); lra).
  pose proof (rnd_b (hr - lr) (hr - lr) t Hs ltac:(apply pabs; lra)) as R1. rewrite <- E1 in R1.
  pose proof (rnd_b (g * d) (t + (hr - lr)) t Hs ltac:(apply pabs; lra)) as R2. rewrite <- E2 in R2.
  assert (R3 : - (t / 1000000) <= x - (lr + e) <= t / 1000000).
  { destruct (Rle_or_lt 0 (lr + e)) as [C|C].
    - pose proof (rnd_b (lr + e) (lr + e) t Hs ltac:(apply pabs; lra)) as R3. rewrite <- E3 in R3. lra.
    - pose proof (rnd_b (lr + e) (- (lr + e)) t Hs ltac:(apply pabs; lra)) as R3. rewrite <- E3 in R3. lra. }
  clearbody t x d e g. clear E1 E2 E3.
  split; destruct Gd as [Gd|Gd]; lra.
Qed.

(** ** The invariant *)
Notation v x := (B2R (x : f64)).
Definition quiet : Prop := forall y : f64, W y -> is_nan (f y : f64) = false.
Definition place (s : fstate NL) (tr : list NL) : Prop :=
  W (f_left s) /\ W (f_right s) /\ W (f_xopt s) /\ W (f_xcur s) /\
  v (f_left s) <= v (f_xopt s) <= v (f_right s) /\ v (f_left s) <= v (f_xcur s) <= v (f_right s) /\
  (fmin_guard tol s = true -> tau / 4 <= v (f_xopt s) - v (f_left s) /\ tau / 4 <= v (f_right s) - v (f_xopt s)) /\
  v (f_right s) - v (f_left s) <= (v hi - v lo) - IZR (f_count s - 1) * (tau / 4) /\
  (f_left s = lo \/ v (f_left s) < v (f_xopt s)) /\ (f_right s = hi \/ v (f_xopt s) < v (f_right s)).
Definition seen (s : fstate NL) (tr : list NL) : Prop :=
  (f_left s = lo \/ In (f_left s) tr) /\ (f_right s = hi \/ In (f_right s) tr) /\ In (f_xopt s) tr /\ Forall (fun y => W y) tr /\
  f_fcur s = f (f_xopt s) /\
  (quiet -> is_nan (f_fcur s : f64) = false /\ is_nan (f_ftmp s : f64) = false /\ Forall (fun y => Bleb (f_fcur s : f64) (f y : f64) = true) tr).

Lemma tau_pos : 0 < tau. Proof. pose proof (bpow_gt_0 radix2 (-1000)). lra. Qed.

Lemma update_place (s : fstate NL) tr e st : place s tr -> fmin_guard tol s = true -> choose_step tol s = (e, st) ->
  W (next_point tol st s) /\ place (fmin_update s e st (next_point tol st s) (f (next_point tol st s))) (next_point tol st s :: tr).
Proof.
  intros (Wa & Wb & Wx & Wc & Hx & Hc & Hs & Hw & _) G C. specialize (Hs G). pose proof (choose_f s e st Wa Wb Wx Hx G C) as Hl.
  destruct (T1_ok L tol Ft Bt (f_xopt s) (proj1 Wx) (W_abs _ Wx)) as (_ & _ & Ht & _).
  destruct Hl as (Fy & H1 & H2 & H3). set (y := next_point tol st s) in *. clearbody y. set (t := t1 (f_xopt s)) in *. clearbody t.
  pose proof tau_pos as Tp. clear G C.
  assert (Wy : W y) by (split; [exact Fy|]; destruct Wa as [_ Wa], Wb as [_ Wb]; lra).
  split; [exact Wy|].
  destruct s as [a b xm xo xt st0 e0 xc fc ft fm fxt n]. cbn [f_left f_right f_xopt f_xcur f_count] in *.
  pose proof (leb_r xo y (proj1 Wx) Fy) as Cl. pose proof (ltb_r y xo Fy (proj1 Wx)) as Cr.
  assert (Ez : IZR (n + 1 - 1) = IZR (n - 1) + 1) by (rewrite <- plus_IZR; f_equal; lia).
  unfold fmin_update. change (@nleb NL xo y) with (Bleb (xo : f64) y). change (@nltb NL y xo) with (Bltb (y : f64) xo).
  destruct (@nleb NL (f y) fc).
  - destruct (Bleb (xo : f64) y); unfold place; cbn [f_left f_right f_xopt f_xcur f_count]; rewrite Ez;
      (split; [assumption|]); (split; [assumption|]); (split; [assumption|]); (split; [assumption|]); (split; [lra|]); (split; [lra|]); (split; [intros _; destruct H3; lra|]); (split; [lra|]); (split; right; destruct H3; lra).
  - assert (K : place (MkF a b xm xo xt st0 e0 xc fc ft fm fxt n) tr -> True) by trivial.
    destruct (Bltb (y : f64) xo); (destruct (@nleb NL (f y) fxt || @neqb NL xt xo); [|destruct (@nleb NL (f y) fm || (@neqb NL xm xo || @neqb NL xm xt))]);
      unfold place; cbn [f_left f_right f_xopt f_xcur f_count]; rewrite Ez;
      (split; [assumption|]); (split; [assumption|]); (split; [assumption|]); (split; [assumption|]); (split; [lra|]); (split; [lra|]); (split; [intros _; destruct H3; lra|]); (split; [destruct H3; lra|]); (split; right; destruct H3; lra).
Qed.
Lemma update_seen (s : fstate NL) tr e st (y : NL) : seen s tr -> W y -> seen (fmin_update s e st y (f y)) (y :: tr).
Proof.
  intros (Ha & Hb & Hx & HF & Hv & Hq) Wy. destruct (F64_ord L) as [A1 A2 A3 A4 A5 A6 A7]. cbn [nisnan nltb nleb neqb F64 car] in *.
  assert (Hq' : quiet -> is_nan (f y : f64) = false) by (intros Q; apply Q; exact Wy).
  destruct s as [a b xm xo xt st0 e0 xc fc ft fm fxt n]. unfold seen in *. cbn [f_left f_right f_xopt f_xcur f_count f_fcur f_ftmp] in *.
  unfold fmin_update. destruct (@nleb NL (f y) fc) eqn:El.
  - destruct (@nleb NL xo y); cbn [f_left f_right f_xopt f_xcur f_count f_fcur f_ftmp].
    + split; [right; right; exact Hx|]. split; [destruct Hb; [left|right; right]; assumption|]. split; [left; reflexivity|]. split; [constructor; assumption|]. split; [reflexivity|].
      intros Q. split; [auto|]. split; [auto|]. constructor.
      * destruct (A6 (f y) (f y) (Hq' Q) (Hq' Q)); assumption.
      * destruct (Hq Q) as (_ & _ & Hall). eapply Forall_impl; [|exact Hall]. intros z Hz. apply A7 with (1 := El). exact Hz.
    + split; [destruct Ha; [left|right; right]; assumption|]. split; [right; right; exact Hx|]. split; [left; reflexivity|]. split; [constructor; assumption|]. split; [reflexivity|].
      intros Q. split; [auto|]. split; [auto|]. constructor.
      * destruct (A6 (f y) (f y) (Hq' Q) (Hq' Q)); assumption.
      * destruct (Hq Q) as (_ & _ & Hall). eapply Forall_impl; [|exact Hall]. intros z Hz. apply A7 with (1 := El). exact Hz.
  - assert (Hv' : quiet -> is_nan (fc : f64) = false /\ is_nan (f y : f64) = false /\ Forall (fun z => Bleb (fc : f64) (f z : f64) = true) (y :: tr)).
    { intros Q. destruct (Hq Q) as (N1 & _ & Hall). split; [exact N1|]. split; [auto|]. constructor; [|exact Hall].
      destruct (A6 (f y) fc (Hq' Q) N1) as [H|H]; [|exact H]. change (@nleb NL (f y) fc) with (Bleb (f y : f64) fc) in El. rewrite El in H. discriminate H. }
    destruct (@nltb NL y xo); (destruct (@nleb NL (f y) fxt || @neqb NL xt xo); [|destruct (@nleb NL (f y) fm || (@neqb NL xm xo || @neqb NL xm xt))]);
      cbn [f_left f_right f_xopt f_xcur f_count f_fcur f_ftmp];
      (split; [first [right; left; reflexivity | destruct Ha; [left|right; right]; assumption]|]);
      (split; [first [right; left; reflexivity | destruct Hb; [left|right; right]; assumption]|]);
      (split; [right; exact Hx|]); (split; [constructor; assumption|]); (split; [exact Hv | exact Hv']).
Qed.
Lemma loop_f limit fuel : forall (s : fstate NL) tr s' fl tr', place s tr -> seen s tr -> (1 <= f_count s)%Z ->
  fmin_loop f tol limit fuel s tr = Some (s', fl, tr') -> place s' tr' /\ seen s' tr' /\
  (fl = 0%Z /\ fmin_guard tol s' = false \/ fl = 1%Z /\ (limit <= f_count s')%Z).
Proof.
  induction fuel as [|fuel IH]; intros s tr s' fl tr' Hp Hs H1 E; cbn [fmin_loop] in E.
  - destruct (fmin_guard tol s) eqn:G; [discriminate E|]. injection E as <- <- <-. auto.
  - destruct (fmin_guard tol s) eqn:G; [|injection E as <- <- <-; auto].
    destruct (choose_step tol s) as [e st] eqn:C.
    destruct (update_place s tr e st Hp G C) as [Wy Hp']. pose proof (update_seen s tr e st _ Hs Wy) as Hs'.
    pose proof (update_count s e st (next_point tol st s) (f (next_point tol st s))) as Hn.
    set (s1 := fmin_update s e st (next_point tol st s) (f (next_point tol st s))) in *.
    clearbody s1. set (y := next_point tol st s) in *. clearbody y.
    destruct (Z.leb_spec limit (f_count s1)) as [Hl|Hl].
    + injection E as <- <- <-. auto.
    + apply (IH _ _ _ _ _ Hp' Hs'); [lia | exact E].
Qed.
Lemma init_f : place (fmin_init f lo hi) [x0] /\ seen (fmin_init f lo hi) [x0].
Proof.
  destruct first_ok as [W0 Hs]. unfold place, seen. unfold fmin_init at 1 2 3 4 5 6 7 8. cbn [f_left f_right f_xopt f_xcur f_count].
  change (nadd lo (nmul golden_ratio (nsub hi lo))) with x0.
  assert (Wl : W lo) by (split; [exact Flo | lra]). assert (Wh : W hi) by (split; [exact Fhi | lra]).
  split.
  - split; [exact Wl|]. split; [exact Wh|]. split; [exact W0|]. split; [exact W0|]. split; [exact (proj2 W0)|]. split; [exact (proj2 W0)|].
    split; [exact Hs|]. cbn [fmin_init f_left f_right f_count]. change (1 - 1)%Z with 0%Z. split; [lra|]. split; left; reflexivity.
  - cbn [fmin_init f_left f_right f_xopt f_fcur f_ftmp]. change (nadd lo (nmul golden_ratio (nsub hi lo))) with x0.
    split; [left; reflexivity|]. split; [left; reflexivity|]. split; [left; reflexivity|]. split; [constructor; [exact W0 | constructor]|].
    split; [reflexivity|]. intros Q. split; [apply Q; exact W0|]. split; [reflexivity|]. constructor; [|constructor].
    destruct (ord_total _ (F64_ord L) (f x0) (f x0)); [apply Q; exact W0 | apply Q; exact W0 | assumption | assumption].
Qed.

(** ** The whole call *)
Lemma run_f limit : exists (s : fstate NL) fl tr,
  fminbound f lo hi tol limit true = Some (Ok (FTuple (f_xcur s) (f_fcur s)
    (if nisnan (f_xopt s) || (nisnan (f_fcur s) || nisnan (f_ftmp s)) then 2%Z else fl) (f_count s)), rev tr) /\
  place s tr /\ seen s tr /\ (fl = 0%Z /\ fmin_guard tol s = false \/ fl = 1%Z /\ (limit <= f_count s)%Z) /\ f_count s = zlen tr.
Proof.
  unfold fminbound, optimize_within_bounds.
  assert (E1 : @nisfin NL lo && @nisfin NL hi = true) by (apply andb_true_intro; split; [exact Flo | exact Fhi]).
  rewrite E1. cbn [negb].
  assert (E2 : @nltb NL hi lo = false).
  { change (Bltb (hi : f64) lo = false). destruct (Bltb (hi : f64) lo) eqn:E; [|reflexivity]. pose proof (ltb_r hi lo Fhi Flo) as H. rewrite E in H. lra. }
  rewrite E2.
  destruct (fmin_loop_generic f tol limit (Z.to_nat (Z.max limit 2)) (fmin_init f lo hi) [f_xcur (fmin_init f lo hi)])
    as (s' & flag & tr & E & A1 & _).
  { reflexivity. } { exists []; reflexivity. } { left; reflexivity. } { reflexivity. } { left; reflexivity. }
  { cbn [f_count fmin_init]; lia. } { cbn [f_count fmin_init]. lia. }
  rewrite E. exists s', flag, tr. split; [reflexivity|].
  destruct init_f as [I1 I2].
  destruct (loop_f limit _ (fmin_init f lo hi) [f_xcur (fmin_init f lo hi)] s' flag tr I1 I2 ltac:(cbn [f_count fmin_init]; lia) E) as (H1 & H2 & H3).
  auto.
Qed.
End Run.


Lemma ffmin_inside (L : Libm) (f : F64 L -> F64 L) (lo hi tol : f64) limit :
  is_finite lo = true -> is_finite hi = true -> Rabs (B2R lo) <= pow2 1020 -> Rabs (B2R hi) <= pow2 1020 -> B2R lo <= B2R hi ->
  is_finite tol = true -> pow2 (-1000) <= B2R tol <= pow2 1000 ->
  exists x v fl n tr, fminbound f lo hi tol limit true = Some (Ok (FTuple x v fl n), tr) /\
    within lo hi x /\ Forall (fun y : f64 => within lo hi y) tr.
Proof.
  intros Flo Fhi Blo Bhi Hlh Ft Bt. destruct (run_f L f lo hi tol Flo Fhi Blo Bhi Hlh Ft Bt limit) as (s & fl & tr & E & Hp & Hs & Hf & Hn).
  eexists _, _, _, _, _. split; [exact E|]. split; [apply Hp|]. apply Forall_rev. apply Hs.
Qed.

Lemma ffmin_result (L : Libm) (f : F64 L -> F64 L) (lo hi tol : f64) limit :
  is_finite lo = true -> is_finite hi = true -> Rabs (B2R lo) <= pow2 1020 -> Rabs (B2R hi) <= pow2 1020 -> B2R lo <= B2R hi ->
  is_finite tol = true -> pow2 (-1000) <= B2R tol <= pow2 1000 ->
  (forall y : f64, within lo hi y -> is_nan (f y : f64) = false) ->
  exists x v fl n tr best, fminbound f lo hi tol limit true = Some (Ok (FTuple x v fl n), tr) /\
    In best tr /\ v = f best /\ Forall (fun y : f64 => Bleb (v : f64) (f y) = true) tr /\
    (fl = 0%Z \/ fl = 1%Z /\ (limit <= n)%Z) /\
    (4 * (B2R hi - B2R lo) < B2R tol * IZR (limit - 1) -> fl = 0%Z) /\
    (fl = 0%Z -> exists a b : f64, (a = lo \/ In (a : F64 L) tr /\ B2R a < B2R (best : f64)) /\ (b = hi \/ In (b : F64 L) tr /\ B2R (best : f64) < B2R b) /\
       B2R a <= B2R (best : f64) <= B2R b /\ B2R a <= B2R (x : f64) <= B2R b /\
       B2R (best : f64) - B2R a <= 201 / 100 * fmin_tol (B2R tol) (B2R (best : f64)) /\
       B2R b - B2R (best : f64) <= 201 / 100 * fmin_tol (B2R tol) (B2R (best : f64))).
Proof.
  intros Flo Fhi Blo Bhi Hlh Ft Bt Q. destruct (run_f L f lo hi tol Flo Fhi Blo Bhi Hlh Ft Bt limit) as (s & fl & tr & E & Hp & Hs & Hf & Hn).
  destruct Hs as (Sa & Sb & Sx & SF & Sv & SQ). destruct (SQ Q) as (N1 & N2 & SB).
  destruct Hp as (Wa & Wb & Wx & Wc & Hx & Hc & _ & Hw & La & Lb).
  assert (E0 : nisnan (f_xopt s) || (nisnan (f_fcur s) || nisnan (f_ftmp s)) = false).
  { apply orb_false_intro; [|apply orb_false_intro; [exact N1 | exact N2]].
    destruct Wx as [Fx _]. change (is_nan (f_xopt s : f64) = false). destruct (f_xopt s : f64); try reflexivity; discriminate Fx. }
  rewrite E0 in E. exists (f_xcur s), (f_fcur s), fl, (f_count s), (rev tr), (f_xopt s).
  split; [exact E|]. split; [apply in_rev; rewrite rev_involutive; exact Sx|]. split; [exact Sv|]. split; [apply Forall_rev; exact SB|].
  split; [destruct Hf as [[A _]|A]; [left; exact A | right; exact A]|].
  assert (Tp : 0 < B2R tol) by (pose proof (bpow_gt_0 radix2 (-1000)); lra).
  split.
  - intros Hlim. destruct Hf as [[A _]|[_ A]]; [exact A|exfalso].
    assert (IZR (limit - 1) <= IZR (f_count s - 1)) by (apply IZR_le; lia). nra.
  - intros Hz. destruct Hf as [[_ G]|[A _]]; [|lia].
    pose proof (W_abs L lo hi Blo Bhi _ Wa) as Aa. pose proof (W_abs L lo hi Blo Bhi _ Wb) as Ab. pose proof (W_abs L lo hi Blo Bhi _ Wx) as Ax.
    pose proof (guard_ok L tol Ft Bt _ _ _ (proj1 Wa) (proj1 Wb) (proj1 Wx) Aa Ab Hx) as Gd.
    change (guardf L tol (f_left s) (f_right s) (f_xopt s)) with (fmin_guard (tol : F64 L) s) in Gd. rewrite G in Gd.
    destruct (T1_ok L tol Ft Bt (f_xopt s) (proj1 Wx) Ax) as (_ & _ & H33 & _ & Ht & _).
    exists (f_left s), (f_right s).
    split; [destruct Sa as [Sa|Sa]; [left; exact Sa|]; destruct La as [La|La]; [left; exact La | right; split; [apply in_rev; rewrite rev_involutive; exact Sa | exact La]]|].
    split; [destruct Sb as [Sb|Sb]; [left; exact Sb|]; destruct Lb as [Lb|Lb]; [left; exact Lb | right; split; [apply in_rev; rewrite rev_involutive; exact Sb | exact Lb]]|].
    split; [exact Hx|]. split; [exact Hc|].
    set (ft := fmin_tol (B2R tol) (B2R (f_xopt s : f64))) in *. set (t := B2R (T1 L tol (f_xopt s) : f64)) in *. split; lra.
Qed.

Lemma ffmin_unimodal (L : Libm) (f : F64 L -> F64 L) (lo hi tol : f64) limit (m : R) :
  is_finite lo = true -> is_finite hi = true -> Rabs (B2R lo) <= pow2 1020 -> Rabs (B2R hi) <= pow2 1020 -> B2R lo <= m <= B2R hi ->
  is_finite tol = true -> pow2 (-1000) <= B2R tol <= pow2 1000 ->
  (forall y : f64, within lo hi y -> is_nan (f y : f64) = false) ->
  (forall y z : f64, within lo hi y -> within lo hi z -> B2R y < B2R z -> B2R z <= m -> Bltb (f z : f64) (f y) = true) ->
  (forall y z : f64, within lo hi y -> within lo hi z -> B2R y < B2R z -> m <= B2R y -> Bltb (f y : f64) (f z) = true) ->
  4 * (B2R hi - B2R lo) < B2R tol * IZR (limit - 1) ->
  exists x v n tr best, fminbound f lo hi tol limit true = Some (Ok (FTuple x v 0 n), tr) /\
    In best tr /\ v = f best /\
    Rabs (B2R (best : f64) - m) <= 201 / 100 * fmin_tol (B2R tol) (B2R (best : f64)) /\
    Rabs (B2R (x : f64) - m) <= 402 / 100 * fmin_tol (B2R tol) (B2R (best : f64)).
Proof.
  intros Flo Fhi Blo Bhi Hm Ft Bt Q D U Hl.
  destruct (ffmin_result L f lo hi tol limit Flo Fhi Blo Bhi ltac:(lra) Ft Bt Q) as (x & v & fl & n & tr & best & E & Hb & Hv & HF & _ & Hc & H0).
  specialize (Hc Hl). subst fl. destruct (H0 eq_refl) as (a & b & Ha & Hb' & Hab & Hx & H1 & H2).
  destruct (ffmin_inside L f lo hi tol limit Flo Fhi Blo Bhi ltac:(lra) Ft Bt) as (x' & v' & fl' & n' & tr' & E' & _ & HW).
  rewrite E in E'. assert (Et : tr' = tr) by congruence. rewrite Et in HW. clear E' Et.
  exists x, v, n, tr, best. split; [exact E|]. split; [exact Hb|]. split; [exact Hv|].
  rewrite Forall_forall in HF, HW.
  assert (Contra : forall y z : f64, Bltb y z = true -> Bleb z y = true -> False).
  { intros y z K1 K2. destruct (F64_ord L) as [A1 A2 A3 A4 A5 A6 A7]. cbn [nisnan nltb nleb neqb F64 car] in *.
    assert (Ny : is_nan y = false) by (destruct (is_nan y) eqn:Ey; [|reflexivity]; rewrite (A1 y z (or_introl Ey)) in K1; discriminate K1).
    assert (Nz : is_nan z = false) by (destruct (is_nan z) eqn:Ey; [|reflexivity]; rewrite (A1 y z (or_intror Ey)) in K1; discriminate K1).
    rewrite (A4 y z Ny Nz), K2 in K1. discriminate K1. }
  assert (Ma : B2R a <= m).
  { destruct Ha as [->|[Ia Hlt]]; [lra|]. destruct (Rle_lt_dec (B2R a) m) as [G|G]; [exact G|exfalso].
    apply (Contra (f a) (f best)); [apply (U a best (HW _ Ia) (HW _ Hb) Hlt); lra | rewrite <- Hv; apply HF; exact Ia]. }
  assert (Mb : m <= B2R b).
  { destruct Hb' as [->|[Ib Hlt]]; [lra|]. destruct (Rle_lt_dec m (B2R b)) as [G|G]; [exact G|exfalso].
    apply (Contra (f b) (f best)); [apply (D best b (HW _ Hb) (HW _ Ib) Hlt); lra | rewrite <- Hv; apply HF; exact Ib]. }
  split; apply Rabs_le; lra.
Qed.
