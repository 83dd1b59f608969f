(** Proofs about [brentq] (statements in Props_optimize). *)
From Coq Require Import Reals Lra Psatz.
From Flocq Require Import Core.Raux.
From Verif Require Import XR Lib M_optimize P_detect.
Local Open Scope R_scope.

Lemma zlen_cons {A} (x : A) l : zlen (x :: l) = (zlen l + 1)%Z.
Proof. unfold zlen. cbn [length]. lia. Qed.

(** ** Facts that hold for every number type *)
Section Generic.
Context {N : Num}.

(** Number of calls reported against number of calls made. *)
Definition truthful (out : brent_out N) (calls : Z) : Prop :=
  match out with
  | BRoot _ => True
  | BTuple _ a b c => a = 0%Z /\ b = 0%Z /\ c = 1%Z /\ calls = 2%Z
  | BDict _ n it true => n = calls /\ it = (calls - 1)%Z
  | BDict _ n it false =>
      (calls = 2%Z /\ n = 2%Z /\ it = 1%Z) \/ (n = (calls - 1)%Z /\ it = (calls - 2)%Z /\ (2 < calls)%Z)
  end.

Lemma brent_loop_calls npf (f : N -> N) xtol rtol full k :
  forall i s tr r tr', (0 <= i)%Z -> zlen tr = (i + 2)%Z ->
  brent_loop npf f xtol rtol full k i s tr = (Ok r, tr') -> truthful r (zlen tr').
Proof.
  induction k as [|k IH]; intros i s tr r tr' Hi Htr E; cbn [brent_loop] in E.
  - injection E as <- <-. destruct full; cbn [truthful]; [|exact I].
    rewrite Htr. destruct (Z.eqb_spec i 0); lia.
  - destruct ((b_fcur (brent_swap s) =? #0)%num || _).
    + injection E as <- <-. destruct full; cbn [truthful]; [|exact I]. lia.
    + destruct brent_choose as [[sp sc]|e]; [|discriminate].
      apply IH in E; [exact E | lia | unfold zlen in *; cbn [length]; lia].
Qed.

(** The only exceptions of the loop come from divisions. *)
Lemma pydiv_raise npf (a b : N) e : pydiv npf a b = Raise e -> npf = false /\ e = ZeroDivisionError.
Proof.
  unfold pydiv. destruct npf; cbn [negb andb]; [discriminate|]. destruct (neqb b _); [|discriminate].
  intros E. injection E as <-. auto.
Qed.
Lemma brent_choose_raise npf (d sb : N) s e :
  brent_choose npf d sb s = Raise e -> npf = false /\ e = ZeroDivisionError.
Proof.
  unfold brent_choose. destruct (_ && _); [|discriminate].
  destruct (brent_stry npf s) as [x|e'] eqn:E; cbn [bind].
  - destruct (nltb _ _); discriminate.
  - intros E2. injection E2 as <-. unfold brent_stry in E. destruct s as [a b c d1 e0 f0 g h].
    destruct (neqb a c); [exact (pydiv_raise _ _ _ _ E)|].
    destruct (pydiv npf (nsub d1 e0) _) as [u|eu] eqn:E3; cbn [bind] in E.
    2:{ injection E as ->. exact (pydiv_raise _ _ _ _ E3). }
    destruct (pydiv npf (nsub f0 e0) _) as [v|ev] eqn:E4; cbn [bind] in E.
    2:{ injection E as ->. exact (pydiv_raise _ _ _ _ E4). }
    exact (pydiv_raise _ _ _ _ E).
Qed.
Lemma brent_loop_raise npf (f : N -> N) xtol rtol full k :
  forall i s tr e, fst (brent_loop npf f xtol rtol full k i s tr) = Raise e -> npf = false /\ e = ZeroDivisionError.
Proof.
  induction k as [|k IH]; intros i s tr e E; cbn [brent_loop] in E; [discriminate|].
  destruct (_ || _); [discriminate|].
  destruct (brent_choose npf _ _ _) as [[sp sc]|e'] eqn:Ec.
  - exact (IH _ _ _ _ E).
  - cbn [fst] in E. injection E as <-. exact (brent_choose_raise _ _ _ _ _ Ec).
Qed.

Lemma brentq_valueerror npf (f : N -> N) xa xb xtol rtol m full :
  fst (brentq npf f xa xb xtol rtol m full) = Raise ValueError <->
  nleb xb xa = true \/
  (neqb (f xa) (nofZ 0) = false /\ neqb (f xb) (nofZ 0) = false /\ neqb (nsign (f xa)) (nsign (f xb)) = true).
Proof.
  unfold brentq. destruct (nleb xb xa) eqn:E0; [cbn; tauto|].
  destruct (neqb (f xa) (nofZ 0)) eqn:E1; [cbn; destruct full; split; [discriminate | intuition congruence | discriminate | intuition congruence]|].
  destruct (neqb (f xb) (nofZ 0)) eqn:E2; [cbn; destruct full; split; [discriminate | intuition congruence | discriminate | intuition congruence]|].
  destruct (neqb (nsign (f xa)) (nsign (f xb))) eqn:E3; [cbn; tauto|].
  destruct brent_loop as [r tr] eqn:EL. cbn [fst]. split.
  - intros ->. pose proof (brent_loop_raise npf f xtol rtol full (Z.to_nat m) 0 
      (MkB xa xb (nofZ 0) (f xa) (f xb) (nofZ 0) (nofZ 0) (nofZ 0)) [xb; xa] ValueError) as H.
    rewrite EL in H. destruct (H eq_refl). discriminate.
  - intuition discriminate.
Qed.

Lemma brentq_calls npf (f : N -> N) xa xb xtol rtol m full r tr :
  brentq npf f xa xb xtol rtol m full = (Ok r, tr) -> truthful r (zlen tr).
Proof.
  unfold brentq. destruct (nleb xb xa) eqn:E0; [discriminate|].
  assert (HL : forall l : list N, zlen (rev l) = zlen l) by (intros l; unfold zlen; rewrite rev_length; reflexivity).
  destruct (neqb (f xa) (nofZ 0)) eqn:E1.
  { intros E. injection E as <- <-. destruct full; cbn; auto. }
  destruct (neqb (f xb) (nofZ 0)) eqn:E2.
  { intros E. injection E as <- <-. destruct full; cbn; auto. }
  destruct (neqb (nsign (f xa)) (nsign (f xb))) eqn:E3; [discriminate|].
  destruct brent_loop as [r' tr'] eqn:EL. intros E. injection E as -> <-. rewrite HL.
  apply brent_loop_calls in EL; [exact EL | lia | reflexivity].
Qed.

(** Only the values at the recorded points matter. *)
Lemma brent_loop_dep npf (f g : N -> N) xtol rtol full k :
  forall i s tr, (forall x, In x (snd (brent_loop npf f xtol rtol full k i s tr)) -> f x = g x) ->
  brent_loop npf g xtol rtol full k i s tr = brent_loop npf f xtol rtol full k i s tr.
Proof.
  assert (Hincl : forall k i s tr x, In x tr -> In x (snd (brent_loop npf f xtol rtol full k i s tr))).
  { clear. induction k as [|k IH]; intros i s tr x Hx; cbn [brent_loop]; [exact Hx|].
    destruct (_ || _); [exact Hx|]. destruct brent_choose as [[sp sc]|e]; [|exact Hx].
    apply IH. right. exact Hx. }
  induction k as [|k IH]; intros i s tr H; cbn [brent_loop] in *; [reflexivity|].
  destruct (_ || _); [reflexivity|]. destruct brent_choose as [[sp sc]|e]; [|reflexivity].
  rewrite <- (H _ (Hincl _ _ _ _ _ (in_eq _ _))). apply IH. exact H.
Qed.
Lemma brentq_dep npf (f g : N -> N) xa xb xtol rtol m full :
  (forall x, In x (snd (brentq npf f xa xb xtol rtol m full)) -> f x = g x) ->
  brentq npf g xa xb xtol rtol m full = brentq npf f xa xb xtol rtol m full.
Proof.
  assert (Hincl : forall k i s tr x, In x tr -> In x (snd (brent_loop npf f xtol rtol full k i s tr))).
  { clear. induction k as [|k IH]; intros i s tr x Hx; cbn [brent_loop]; [exact Hx|].
    destruct (_ || _); [exact Hx|]. destruct brent_choose as [[sp sc]|e]; [|exact Hx].
    apply IH. right. exact Hx. }
  unfold brentq. destruct (nleb xb xa); [reflexivity|]. intros H.
  assert (Ha : f xa = g xa /\ f xb = g xb).
  { destruct (neqb (f xa) (nofZ 0)); [split; apply H; cbn; auto|].
    destruct (neqb (f xb) (nofZ 0)); [split; apply H; cbn; auto|].
    destruct (neqb (nsign (f xa)) (nsign (f xb))); [split; apply H; cbn; auto|].
    destruct brent_loop as [r tr] eqn:EL. cbn [snd] in H.
    assert (HI : forall x, In x [xb; xa] -> f x = g x).
    { intros x Hx. apply H. apply -> in_rev. replace tr with (snd (r, tr)) by reflexivity. rewrite <- EL. apply Hincl, Hx. }
    split; apply HI; cbn; auto. }
  destruct Ha as [Ha Hb]. rewrite <- Ha, <- Hb.
  destruct (neqb (f xa) (nofZ 0)); [reflexivity|].
  destruct (neqb (f xb) (nofZ 0)); [reflexivity|].
  destruct (neqb (nsign (f xa)) (nsign (f xb))); [reflexivity|].
  rewrite (brent_loop_dep npf f g); [reflexivity|].
  intros x Hx. apply H. destruct brent_loop as [r tr]. apply -> in_rev. exact Hx.
Qed.
End Generic.

(** ** Exact arithmetic *)
Definition rsgn (x : R) : R := if Rlt_bool 0 x then 1 else if Rlt_bool x 0 then -1 else 0.
Lemma nsign_fin x : @nsign XR (Fin x) = Fin (rsgn x).
Proof.
  unfold nsign, rsgn. cbn [nisnan XR]. rewrite !xofZ_fin, !xltb_fin.
  destruct (Rlt_bool 0 x); [reflexivity|]. destruct (Rlt_bool x 0); reflexivity.
Qed.
Lemma sign_same a b : a <> 0 -> @neqb XR (nsign (Fin a)) (nsign (Fin b)) = Rlt_bool 0 (a * b).
Proof.
  intros Ha. rewrite !nsign_fin, xeqb_fin. unfold rsgn.
  destruct (Rlt_bool_spec 0 a) as [H1|H1].
  - destruct (Rlt_bool_spec 0 b) as [H2|H2].
    + rewrite Req_bool_true by reflexivity. rewrite Rlt_bool_true by nra. reflexivity.
    + rewrite Rlt_bool_false with (x := 0) by nra.
      destruct (Rlt_bool b 0); apply Req_bool_false; lra.
  - rewrite (Rlt_bool_true a 0) by lra.
    destruct (Rlt_bool_spec 0 b) as [H2|H2].
    + rewrite Rlt_bool_false with (x := 0) by nra. apply Req_bool_false; lra.
    + destruct (Rlt_bool_spec b 0) as [H3|H3].
      * rewrite Req_bool_true by reflexivity. rewrite Rlt_bool_true by nra. reflexivity.
      * rewrite Rlt_bool_false with (x := 0) by nra. apply Req_bool_false; lra.
Qed.

Definition finB (xp xc xk fp fc fk sp sc : R) : bstate XR :=
  MkB (Fin xp : XR) (Fin xc : XR) (Fin xk : XR) (Fin fp : XR) (Fin fc : XR) (Fin fk : XR) (Fin sp : XR) (Fin sc : XR).

Section Exact.
Variables (f : XR -> XR) (g : R -> R) (xa xb xtol rtol : R) (npf full : bool).
Hypothesis Hf : forall x, xa <= x <= xb -> f (Fin x) = Fin (g x).
Hypothesis Hxtol : 0 <= xtol.
Hypothesis Hrtol : 0 <= rtol.

Definition inside (x : R) : Prop := xa <= x <= xb.

(** Loop invariant on entry of an iteration, with the width of the bracket. *)
Definition entry (s : bstate XR) (w : R) : Prop :=
  exists xp xc xk fp fc fk sp sc, s = finB xp xc xk fp fc fk sp sc /\
  inside xp /\ inside xc /\ fp = g xp /\ fc = g xc /\ fp <> 0 /\ xp <> xc /\
  ((fp * fc <= 0 /\ w = Rabs (xc - xp)) \/
   (0 < fp * fc /\ inside xk /\ fk = g xk /\ fk * fc < 0 /\ 0 < (xc - xp) * (xk - xc) /\ w = Rabs (xk - xc))).

(** Invariant after the swap. *)
Definition ready (s : bstate XR) (w : R) : Prop :=
  exists xp xc xk fp fc fk sp sc, s = finB xp xc xk fp fc fk sp sc /\
  inside xc /\ inside xk /\ fc = g xc /\ fk = g xk /\ fk * fc <= 0 /\ fk <> 0 /\ xk <> xc /\ w = Rabs (xk - xc) /\
  ((xp = xk /\ fp = fk) \/ (0 < (xc - xp) * (xk - xc) /\ 0 < fp * fc)).

Lemma swap_ready s w : entry s w -> ready (brent_swap s) w.
Proof.
  intros (xp & xc & xk & fp & fc & fk & sp & sc & -> & Ip & Ic & Ep & Ec & Hp & Hpc & H).
  unfold brent_swap, finB. cbv beta iota zeta.
  destruct H as [(Hs & ->) | (Hs & Ik & Ek & Hk & Hbt & ->)].
  - rewrite sign_same by exact Hp. rewrite Rlt_bool_false by exact Hs. cbn [negb].
    rewrite !xabs_fin, xltb_fin, xsub_fin.
    destruct (Rlt_bool_spec (Rabs fp) (Rabs fc)) as [Hlt|Hlt].
    + exists xc, xp, xc, fc, fp, fc, (xc - xp), (xc - xp). split; [reflexivity|].
      assert (fc <> 0). { intros E. rewrite E, Rabs_R0 in Hlt. pose proof (Rabs_pos fp). lra. }
      repeat split; try tauto; try apply Ip; try apply Ic; try lra.
    + exists xp, xc, xp, fp, fc, fp, (xc - xp), (xc - xp). split; [reflexivity|].
      repeat split; try tauto; try apply Ip; try apply Ic; try lra. apply Rabs_minus_sym.
  - rewrite sign_same by exact Hp. rewrite Rlt_bool_true by exact Hs. cbn [negb].
    rewrite !xabs_fin, xltb_fin.
    destruct (Rlt_bool_spec (Rabs fk) (Rabs fc)) as [Hlt|Hlt].
    + exists xc, xk, xc, fc, fk, fc, sp, sc. split; [reflexivity|].
      assert (xk <> xc) by (intros E; rewrite E in Hbt; lra).
      repeat split; try tauto; try apply Ik; try apply Ic; try lra; try nra. apply Rabs_minus_sym.
    + exists xp, xc, xk, fp, fc, fk, sp, sc. split; [reflexivity|].
      assert (xk <> xc) by (intros E; rewrite E in Hbt; lra).
      repeat split; try tauto; try apply Ik; try apply Ic; try lra; try nra.
Qed.

Definition rdelta (x : R) : R := (xtol + rtol * Rabs x) / 2.
Lemma rdelta_nonneg x : 0 <= rdelta x.
Proof. unfold rdelta. pose proof (Rabs_pos x). nra. Qed.
Lemma delta_fin xp xc xk fp fc fk sp sc :
  @brent_delta XR (Fin xtol) (Fin rtol) (finB xp xc xk fp fc fk sp sc) = Fin (rdelta xc).
Proof. unfold brent_delta, finB. cbn [b_xcur]. rewrite xabs_fin, xmul_fin, xadd_fin, xofZ_fin, xdiv_fin by lra. reflexivity. Qed.
Lemma sbis_fin xp xc xk fp fc fk sp sc :
  @brent_sbis XR (finB xp xc xk fp fc fk sp sc) = Fin ((xk - xc) / 2).
Proof. unfold brent_sbis, finB. cbn [b_xcur b_xblk]. rewrite xsub_fin, xofZ_fin, xdiv_fin by lra. reflexivity. Qed.

Lemma pydiv_fin a b : b <> 0 -> @pydiv XR npf (Fin a) (Fin b) = Ok (Fin (a / b) : XR).
Proof.
  intros H. unfold pydiv. rewrite xofZ_fin, xeqb_fin, Req_bool_false by exact H. rewrite andb_false_r.
  rewrite xdiv_fin by exact H. reflexivity.
Qed.

(** The interpolation step is finite and points into the bracket. *)
Lemma stry_ok xp xc xk fp fc fk sp sc :
  fc <> 0 -> fk * fc <= 0 -> fk <> 0 -> xk <> xc -> Rabs fc < Rabs fp ->
  ((xp = xk /\ fp = fk) \/ (0 < (xc - xp) * (xk - xc) /\ 0 < fp * fc)) ->
  exists t, brent_stry npf (finB xp xc xk fp fc fk sp sc) = Ok (Fin t : XR) /\ 0 < t * (xk - xc).
Proof.
  intros Hc Hs Hk Hx Hlt Hd. unfold brent_stry, finB. cbv beta iota zeta. rewrite xeqb_fin.
  assert (Hfk : fk * fc < 0).
  { destruct (Rle_lt_or_eq_dec _ _ Hs) as [?|E]; [assumption|]. apply Rmult_integral in E. tauto. }
  destruct (Req_bool_spec xp xk) as [E|E].
  - assert (fp = fk). { destruct Hd as [[_ ?]|[Hd _]]; [assumption|]. subst. nra. } subst xp fp.
    rewrite xopp_fin, !xsub_fin, xmul_fin.
    assert (fc - fk <> 0) by (intros E2; assert (fc = fk) by lra; subst; nra).
    rewrite pydiv_fin by assumption. eexists. split; [reflexivity|].
    replace (- fc * (xc - xk) / (fc - fk) * (xk - xc)) with
      ((fc * (fc - fk)) * ((xk - xc) * / (fc - fk)) * ((xk - xc) * / (fc - fk))) by (field; lra).
    assert (0 < fc * (fc - fk)) by nra.
    assert ((xk - xc) * / (fc - fk) <> 0).
    { apply Rmult_integral_contrapositive. split; [lra|]. apply Rinv_neq_0_compat. lra. }
    rewrite Rmult_assoc. apply Rmult_lt_0_compat; [assumption|]. apply Rsqr_pos_lt. assumption.
  - destruct Hd as [[? _]|[Hb Hp]]; [contradiction|].
    rewrite !xopp_fin, !xsub_fin.
    assert (N1 : xp - xc <> 0) by (intros E2; assert (xp = xc) by lra; subst; nra).
    assert (N2 : xk - xc <> 0) by lra.
    rewrite pydiv_fin by exact N1. cbn [bind]. rewrite pydiv_fin by exact N2. cbn [bind].
    set (dp := (fp - fc) / (xp - xc)). set (dk := (fk - fc) / (xk - xc)).
    rewrite !xmul_fin, !xsub_fin, !xmul_fin.
    (* signs *)
    assert (S1 : 0 < fc * (fp - fc)).
    { destruct (Rlt_or_le 0 fc) as [H|H].
      - assert (0 < fp) by nra. rewrite !Rabs_pos_eq in Hlt by lra. nra.
      - assert (fp < 0) by nra. rewrite !Rabs_left in Hlt by lra. nra. }
    assert (S2 : fc * (fk - fc) < 0) by nra.
    assert (Dp : dp * (xp - xc) = fp - fc) by (unfold dp; field; exact N1).
    assert (Dk : dk * (xk - xc) = fk - fc) by (unfold dk; field; exact N2).
    assert (Hdd : 0 < dk * dp).
    { assert (E2 : (dk * dp) * ((xc - xp) * (xk - xc)) = - ((fk - fc) * (fp - fc))) by (rewrite <- Dp, <- Dk; ring).
      assert (E3 : (fk - fc) * (fp - fc) < 0).
      { assert (0 < fc * fc) by nra.
        assert ((fc * fc) * ((fk - fc) * (fp - fc)) < 0) by nra. nra. }
      destruct (Rlt_or_le 0 (dk * dp)) as [?|Hn]; [assumption|]. nra. }
    assert (Hden : dk * dp * (fk - fp) <> 0).
    { apply Rmult_integral_contrapositive. split; [lra|]. intros E2. assert (fk = fp) by lra. subst. nra. }
    rewrite pydiv_fin by exact Hden. eexists. split; [reflexivity|].
    (* sign of the step *)
    assert (A1 : dk * (xk - xc) * fc < 0) by (rewrite Dk; nra).
    assert (A2 : dk * dk > 0) by nra.
    set (num := - fc * (fk * dk - fp * dp)). set (den := dk * dp * (fk - fp)).
    assert (B1 : 0 < num / den * (xk - xc)); [|exact B1].
    replace (num / den * (xk - xc)) with ((num * den * (xk - xc)) * (/ den * / den)) by (field; exact Hden).
    apply Rmult_lt_0_compat; [| apply Rsqr_pos_lt, Rinv_neq_0_compat, Hden].
    unfold num, den.
    (* fc^2 * num*den*(xk-xc) = ... *)
    assert (P1 : 0 < - fc * (fk - fp)) by nra.
    assert (P2 : 0 < (fk * dk - fp * dp) * (xk - xc)).
    { assert (Q1 : (fk * dk) * (xk - xc) = fk * (fk - fc)) by (rewrite <- Dk; ring).
      assert (Q2 : 0 < fk * (fk - fc)) by nra.
      assert (Q3 : (fp * dp) * (xk - xc) * ((xc - xp) * (xk - xc)) = - (fp * (fp - fc)) * ((xk - xc) * (xk - xc)))
        by (rewrite <- Dp; ring).
      assert (Q4 : 0 < fp * (fp - fc)) by nra.
      assert (Q5 : (fp * dp) * (xk - xc) < 0).
      { destruct (Rlt_or_le ((fp * dp) * (xk - xc)) 0) as [?|Hn]; [assumption|].
        assert (0 < (xk - xc) * (xk - xc)) by nra. nra. }
      lra. }
    replace (- fc * (fk * dk - fp * dp) * (dk * dp * (fk - fp)) * (xk - xc))
      with ((- fc * (fk - fp)) * (dk * dp) * ((fk * dk - fp * dp) * (xk - xc))) by ring.
    apply Rmult_lt_0_compat; [apply Rmult_lt_0_compat; assumption | exact P2].
Qed.

(** The step actually taken: towards the other end, at least [delta], at most three quarters of the way. *)
Lemma step_ok xp xc xk fp fc fk sp sc :
  fc <> 0 -> fk * fc <= 0 -> fk <> 0 -> xk <> xc -> rdelta xc <= Rabs ((xk - xc) / 2) ->
  ((xp = xk /\ fp = fk) \/ (0 < (xc - xp) * (xk - xc) /\ 0 < fp * fc)) ->
  exists sp' sc' t,
    brent_choose npf (Fin (rdelta xc) : XR) (Fin ((xk - xc) / 2) : XR) (finB xp xc xk fp fc fk sp sc) = Ok (Fin sp' : XR, Fin sc' : XR) /\
    @brent_move XR (Fin (rdelta xc)) (Fin ((xk - xc) / 2)) (Fin sc') (Fin xc) = Fin (xc + t) /\
    0 < t * (xk - xc) /\ rdelta xc <= Rabs t <= 3 / 4 * Rabs (xk - xc).
Proof.
  intros Hc Hs Hk Hx Hw Hd. pose proof (rdelta_nonneg xc) as Hd0. set (d := rdelta xc) in *.
  set (sb := (xk - xc) / 2) in *.
  assert (Hw2 : Rabs (xk - xc) = 2 * Rabs sb).
  { unfold sb, Rdiv. rewrite Rabs_mult, (Rabs_pos_eq (/ 2)) by lra. lra. }
  assert (Hsb : 0 < sb * (xk - xc)) by (unfold sb; nra).
  assert (Hsb0 : 0 < Rabs sb) by (apply Rabs_pos_lt; unfold sb; lra).
  (* it suffices to bound sc' *)
  assert (Hmove : forall sc', 0 < sc' * (xk - xc) -> Rabs sc' <= 3 / 2 * Rabs sb ->
     exists t, @brent_move XR (Fin d) (Fin sb) (Fin sc') (Fin xc) = Fin (xc + t) /\
       0 < t * (xk - xc) /\ d <= Rabs t <= 3 / 4 * Rabs (xk - xc)).
  { intros sc' H1 H2. unfold brent_move. rewrite xabs_fin, xltb_fin.
    destruct (Rlt_bool_spec d (Rabs sc')) as [L|L].
    - exists sc'. rewrite xadd_fin. split; [reflexivity|]. split; [exact H1|]. lra.
    - rewrite xofZ_fin, xltb_fin.
      assert (d <> 0).
      { assert (sc' <> 0) by (intros ->; lra). pose proof (Rabs_pos_lt sc' H). lra. }
      destruct (Rlt_bool_spec 0 sb) as [L2|L2].
      + exists d. rewrite xadd_fin. split; [reflexivity|]. split; [nra|]. rewrite Rabs_pos_eq by lra. lra.
      + exists (- d). rewrite xopp_fin, xadd_fin. split; [reflexivity|]. split; [nra|].
        rewrite Rabs_Ropp, Rabs_pos_eq by lra. lra. }
  assert (Hb : exists sp' sc' t,
    (Ok (Fin sb : XR, Fin sb : XR) : res (XR * XR)) = Ok (Fin sp' : XR, Fin sc' : XR) /\
    @brent_move XR (Fin d) (Fin sb) (Fin sc') (Fin xc) = Fin (xc + t) /\
    0 < t * (xk - xc) /\ d <= Rabs t <= 3 / 4 * Rabs (xk - xc)).
  { destruct (Hmove sb Hsb) as (t & Ht); [lra|]. exists sb, sb, t. split; [reflexivity | exact Ht]. }
  unfold brent_choose. unfold finB at 1 2 3. cbn [b_spre b_fcur b_fpre].
  rewrite !xabs_fin, !xltb_fin.
  destruct (Rlt_bool d (Rabs sp)); [|exact Hb].
  destruct (Rlt_bool_spec (Rabs fc) (Rabs fp)) as [L|L]; [|exact Hb]. cbn [andb].
  destruct (stry_ok xp xc xk fp fc fk sp sc) as (t & Et & Ht); try assumption.
  rewrite Et. cbn [bind]. unfold finB at 1 2. cbn [b_spre b_scur].
  rewrite !xabs_fin, !xofZ_fin, !xmul_fin, xsub_fin.
  destruct (nltb _ _) eqn:Ex; [|exact Hb].
  assert (Hacc : 2 * Rabs t < 3 * Rabs sb - d).
  { unfold nmin2 in Ex. rewrite xltb_fin in Ex.
    destruct (Rlt_bool_spec (3 * Rabs sb - d) (Rabs sp)) as [L2|L2]; rewrite xltb_fin in Ex.
    - apply Rlt_bool_iff in Ex. exact Ex.
    - apply Rlt_bool_iff in Ex. lra. }
  destruct (Hmove t Ht) as (t' & Ht'); [lra|]. exists sc, t, t'. split; [reflexivity | exact Ht'].
Qed.

(** What a finished run says. *)
Definition out_root (o : brent_out XR) : option R :=
  match o with
  | BRoot x | BTuple x _ _ _ | BDict x _ _ _ => match (x : xr) with Fin r => Some r | _ => None end
  end.
Definition out_converged (o : brent_out XR) : bool :=
  match o with BDict _ _ _ b => b | _ => true end.

(** A sign change within the tolerance of [x]. *)
Definition near_root (x : R) : Prop :=
  inside x /\ exists y, inside y /\ (g x = 0 \/ (g x * g y < 0 /\ Rabs (y - x) < xtol + rtol * Rabs x)).

Lemma loop_ok k : forall i s tr w, entry s w -> Forall (fun x => exists r, x = Fin r /\ inside r) tr ->
  exists o tr', brent_loop npf f (Fin xtol : XR) (Fin rtol : XR) full k i s tr = (Ok o, tr') /\
  Forall (fun x => exists r, x = Fin r /\ inside r) tr' /\
  (exists r, out_root o = Some r /\ inside r /\
     ((zlen tr' < zlen tr + Z.of_nat k)%Z -> near_root r)) /\
  (full = true -> out_converged o = true -> exists r, out_root o = Some r /\ near_root r) /\
  ((zlen tr' < zlen tr + Z.of_nat k)%Z -> full = true -> out_converged o = true) /\
  (w <= INR k * (xtol / 4) -> full = true -> out_converged o = true).
Proof.
  induction k as [|k IH]; intros i s tr w He Htr.
  - cbn [brent_loop].
    assert (Hw : 0 < w).
    { destruct He as (xp & xc & xk & fp & fc & fk & sp & sc & -> & Ip & Ic & Ep & Ec & Hp & Hpc & H).
      destruct H as [(_ & ->) | (Hs & Ik & Ek & Hk & Hbt & ->)]; apply Rabs_pos_lt; [lra|].
      intros E. assert (xk = xc) by lra. subst. lra. }
    destruct He as (xp & xc & xk & fp & fc & fk & sp & sc & -> & Ip & Ic & _).
    eexists. eexists. split; [reflexivity|]. split; [exact Htr|].
    split; [exists xc; split; [destruct full; reflexivity | split; [exact Ic | intros HH; exfalso; change (Z.of_nat 0) with 0%Z in HH; rewrite Z.add_0_r in HH; exact (Z.lt_irrefl _ HH)]]|].
    split; [intros ->; cbn; discriminate|].
    split; [intros HH; exfalso; change (Z.of_nat 0) with 0%Z in HH; rewrite Z.add_0_r in HH; exact (Z.lt_irrefl _ HH)|].
    cbn [INR]. lra.
  - cbn [brent_loop]. apply swap_ready in He.
    destruct He as (xp & xc & xk & fp & fc & fk & sp & sc & -> & Ic & Ik & Ec & Ek & Hs & Hk & Hx & Hw & Hd).
    rewrite delta_fin, sbis_fin. unfold finB at 1. cbn [b_fcur]. rewrite xofZ_fin, xeqb_fin, xabs_fin, xltb_fin.
    destruct (Req_bool_spec fc 0) as [E0|E0]; [|destruct (Rlt_bool_spec (Rabs ((xk - xc) / 2)) (rdelta xc)) as [L|L]]; cbn [orb].
    + assert (near_root xc). { split; [exact Ic|]. exists xk. split; [exact Ik|]. left. lra. }
      eexists. eexists. split; [reflexivity|]. split; [exact Htr|].
      split; [exists xc; split; [destruct full; reflexivity | tauto]|].
      split; [intros _ _; exists xc; split; [destruct full; reflexivity | tauto]|].
      split; intros _ ->; reflexivity.
    + assert (near_root xc).
      { split; [exact Ic|]. exists xk. split; [exact Ik|]. right. split.
        - rewrite <- Ec, <- Ek. destruct (Rle_lt_or_eq_dec _ _ Hs) as [?|E]; [lra|]. apply Rmult_integral in E. tauto.
        - unfold rdelta in L. unfold Rdiv at 1 in L. rewrite Rabs_mult, (Rabs_pos_eq (/ 2)) in L by lra. lra. }
      eexists. eexists. split; [reflexivity|]. split; [exact Htr|].
      split; [exists xc; split; [destruct full; reflexivity | tauto]|].
      split; [intros _ _; exists xc; split; [destruct full; reflexivity | tauto]|].
      split; intros _ ->; reflexivity.
    + destruct (step_ok xp xc xk fp fc fk sp sc E0 Hs Hk Hx L Hd) as (sp' & sc' & t & Ech & Emv & Ht & Hb).
      rewrite Ech. unfold finB. cbn [b_xcur b_xblk b_fblk b_fcur].
      rewrite Emv. 
      assert (It : inside (xc + t)).
      { unfold inside in *. destruct (Rlt_or_le 0 (xk - xc)) as [P|P].
        - assert (0 < t) by nra. rewrite !Rabs_pos_eq in Hb by lra. lra.
        - assert (t < 0) by nra. rewrite !Rabs_left in Hb by lra. lra. }
      rewrite (Hf _ It).
      change (MkB (Fin xc) (Fin (xc + t)) (Fin xk) (Fin fc) (Fin (g (xc + t))) (Fin fk) (Fin sp') (Fin sc'))
        with (finB xc (xc + t) xk fc (g (xc + t)) fk sp' sc').
      assert (Ht0 : t <> 0) by (intros ->; lra).
      assert (Hfk : fk * fc < 0).
      { destruct (Rle_lt_or_eq_dec _ _ Hs) as [?|E]; [assumption|]. apply Rmult_integral in E. tauto. }
      pose proof (rdelta_nonneg xc) as Hd0.
      assert (Hdx : xtol / 2 <= rdelta xc). { unfold rdelta. pose proof (Rabs_pos xc). nra. }
      assert (Hwid : rdelta xc <= w / 2).
      { rewrite Hw. unfold Rdiv in L. rewrite Rabs_mult, (Rabs_pos_eq (/ 2)) in L by lra. lra. }
      assert (exists w', entry (finB xc (xc + t) xk fc (g (xc + t)) fk sp' sc') w' /\ w' <= w - xtol / 4) as (w' & He' & Hw').
      { destruct (Rle_or_lt (fc * g (xc + t)) 0) as [P|P].
        - exists (Rabs t). split.
          + exists xc, (xc + t), xk, fc, (g (xc + t)), fk, sp', sc'. split; [reflexivity|].
            repeat split; try apply Ic; try apply It; try assumption; [lra|].
            left. split; [exact P|]. f_equal. ring.
          + rewrite <- Hw in Hb. lra.
        - exists (Rabs (xk - (xc + t))). split.
          + exists xc, (xc + t), xk, fc, (g (xc + t)), fk, sp', sc'. split; [reflexivity|].
            repeat split; try apply Ic; try apply It; try assumption; [lra|].
            right. repeat split; try assumption; try apply Ik.
            * assert (0 < fc * fc) by nra. nra.
            * replace (xc + t - xc) with t by ring.
              destruct (Rlt_or_le 0 (xk - xc)) as [Q|Q].
              -- assert (0 < t) by nra. rewrite !Rabs_pos_eq in Hb by lra. nra.
              -- assert (t < 0) by nra. rewrite !Rabs_left in Hb by lra. nra.
          + rewrite <- Hw in Hb.
            destruct (Rlt_or_le 0 (xk - xc)) as [Q|Q].
            * assert (0 < t) by nra. rewrite (Rabs_pos_eq t) in Hb by lra. rewrite (Rabs_pos_eq (xk - xc)) in Hw by lra.
              rewrite Rabs_pos_eq by lra. lra.
            * assert (t < 0) by nra. rewrite (Rabs_left t) in Hb by lra. rewrite (Rabs_left (xk - xc)) in Hw by lra.
              rewrite Rabs_left by lra. lra. }
      destruct (IH (i + 1)%Z _ (Fin (xc + t) :: tr) w' He') as (o & tr' & E & H1 & H2 & H3 & H4 & H5).
      { constructor; [exists (xc + t); auto | exact Htr]. }
      exists o, tr'. split; [exact E|]. split; [exact H1|].
      rewrite zlen_cons, <- Z.add_assoc, Z.add_1_l, <- Nat2Z.inj_succ in H2, H4.
      split; [exact H2|].
      split; [exact H3|]. split; [exact H4|].
      intros Hn. apply H5. rewrite S_INR in Hn. lra.
Qed.

End Exact.

(** ** Whole runs *)
Section Runs.
Context {N : Num}.
(** The short form of an outcome. *)
Definition brief (o : brent_out N) : brent_out N :=
  match o with BRoot x | BTuple x _ _ _ | BDict x _ _ _ => BRoot x end.
Definition rmap {A B} (h : A -> B) (r : res A) : res B := match r with Ok a => Ok (h a) | Raise e => Raise e end.
Lemma brent_loop_brief npf (f : N -> N) xtol rtol k : forall i s tr,
  brent_loop npf f xtol rtol false k i s tr =
  (rmap brief (fst (brent_loop npf f xtol rtol true k i s tr)), snd (brent_loop npf f xtol rtol true k i s tr)).
Proof.
  induction k as [|k IH]; intros i s tr; cbn [brent_loop]; [reflexivity|].
  destruct (_ || _); [reflexivity|]. destruct brent_choose as [[sp sc]|e]; [|reflexivity]. apply IH.
Qed.
Lemma brentq_brief npf (f : N -> N) xa xb xtol rtol m :
  brentq npf f xa xb xtol rtol m false =
  (rmap brief (fst (brentq npf f xa xb xtol rtol m true)), snd (brentq npf f xa xb xtol rtol m true)).
Proof.
  unfold brentq. destruct (nleb xb xa); [reflexivity|].
  destruct (neqb (f xa) (nofZ 0)); [reflexivity|].
  destruct (neqb (f xb) (nofZ 0)); [reflexivity|].
  destruct (neqb (nsign (f xa)) (nsign (f xb))); [reflexivity|].
  rewrite brent_loop_brief. destruct brent_loop as [r tr]. reflexivity.
Qed.
End Runs.

Lemma root_between g x y : (forall z, Rmin x y <= z <= Rmax x y -> continuity_pt g z) -> g x * g y < 0 ->
  exists z, Rmin x y <= z <= Rmax x y /\ g z = 0.
Proof.
  assert (P : forall g x y, x < y -> (forall z, x <= z <= y -> continuity_pt g z) -> g x * g y < 0 ->
              exists z, x <= z <= y /\ g z = 0).
  { clear. intros g x y Hxy Hc Hs. destruct (Rlt_or_le (g x) 0) as [H|H].
    - destruct (Ranalysis5.IVT_interv g x y) as (z & Hz & E); [exact Hc | exact Hxy | exact H | nra |]. exists z. auto.
    - assert (0 < g x) by (destruct H as [H|H]; [exact H | rewrite <- H in Hs; lra]).
      assert (g y < 0) by nra.
      destruct (Ranalysis5.IVT_interv (fun t => - g t) x y) as (z & Hz & E).
      + intros a Ha. apply continuity_pt_opp. apply Hc, Ha.
      + exact Hxy.
      + cbv beta. lra.
      + cbv beta. lra.
      + exists z. split; [exact Hz | lra]. }
  intros Hc Hs. destruct (Rtotal_order x y) as [H|[H|H]].
  - rewrite Rmin_left, Rmax_right in * by lra. apply P; assumption.
  - subst. nra.
  - rewrite Rmin_right, Rmax_left in * by lra. apply P; try assumption. lra.
Qed.

(** Everything about a run on a bracket with a sign change (or a root at an end). *)
Lemma brentq_run npf (f : XR -> XR) g xa xb xtol rtol m :
  (forall x, xa <= x <= xb -> f (Fin x) = Fin (g x)) -> 0 <= xtol -> 0 <= rtol -> xa < xb -> g xa * g xb <= 0 ->
  exists o tr r,
    brentq npf f (Fin xa : XR) (Fin xb : XR) (Fin xtol : XR) (Fin rtol : XR) m true = (Ok o, tr) /\
    out_root o = Some r /\ xa <= r <= xb /\
    Forall (fun x => exists t, x = Fin t /\ xa <= t <= xb) tr /\
    (out_converged o = true ->
       g r = 0 \/ exists y, xa <= y <= xb /\ g r * g y < 0 /\ Rabs (y - r) < xtol + rtol * Rabs r) /\
    ((0 <= m)%Z -> 4 * (xb - xa) <= IZR m * xtol -> out_converged o = true).
Proof.
  intros Hf Hx Hr Hab Hs.
  assert (Ia : xa <= xa <= xb) by lra. assert (Ib : xa <= xb <= xb) by lra.
  unfold brentq. rewrite xleb_fin, Rle_bool_false by exact Hab. rewrite (Hf _ Ia), (Hf _ Ib), !xofZ_fin, !xeqb_fin.
  assert (HF : Forall (fun x => exists t, x = Fin t /\ xa <= t <= xb) [Fin xb; Fin xa]).
  { repeat constructor; eexists; split; try reflexivity; lra. }
  assert (HF' : Forall (fun x => exists t, x = Fin t /\ xa <= t <= xb) (rev [Fin xb; Fin xa])) by (apply Forall_rev, HF).
  destruct (Req_bool_spec (g xa) 0) as [E1|E1].
  { eexists. eexists. exists xa. split; [reflexivity|]. split; [reflexivity|]. split; [lra|]. split; [exact HF'|]. auto. }
  destruct (Req_bool_spec (g xb) 0) as [E2|E2].
  { eexists. eexists. exists xb. split; [reflexivity|]. split; [reflexivity|]. split; [lra|]. split; [exact HF'|]. auto. }
  rewrite sign_same by exact E1. rewrite Rlt_bool_false by exact Hs.
  destruct (loop_ok f g xa xb xtol rtol npf true Hf Hx Hr (Z.to_nat m) 0
    (finB xa xb 0 (g xa) (g xb) 0 0 0) [Fin xb; Fin xa] (xb - xa)) as (o & tr & E & H1 & H2 & H3 & H4 & H5).
  - exists xa, xb, 0, (g xa), (g xb), 0, 0, 0. split; [reflexivity|].
    repeat split; try lra; try assumption. left. split; [exact Hs|]. rewrite Rabs_pos_eq; lra.
  - exact HF.
  - destruct H2 as (r & R1 & R2 & _). exists o, (rev tr), r.
    match goal with |- context [@brent_loop ?n ?p ?ff ?a ?b ?c ?d ?e ?s ?l] =>
      replace (@brent_loop n p ff a b c d e s l) with (Ok o, tr) by (symmetry; exact E) end.
    split; [reflexivity|]. split; [exact R1|]. split; [exact R2|].
    split; [apply Forall_rev, H1|]. split.
    + intros Hc. destruct (H3 eq_refl Hc) as (r' & R3 & R4 & y & Iy & R5).
      rewrite R1 in R3. injection R3 as <-. destruct R5 as [R5|R5]; [left; exact R5 | right].
      exists y. split; [exact Iy | exact R5].
    + intros Hm Hb. apply H5; [|reflexivity]. rewrite INR_IZR_INZ, Z2Nat.id by exact Hm. lra.
Qed.

Lemma brentq_root npf (f : XR -> XR) g xa xb xtol rtol m o tr :
  (forall x, xa <= x <= xb -> f (Fin x) = Fin (g x)) -> (forall x, xa <= x <= xb -> continuity_pt g x) ->
  0 <= xtol -> 0 <= rtol -> xa < xb -> g xa * g xb <= 0 ->
  brentq npf f (Fin xa : XR) (Fin xb : XR) (Fin xtol : XR) (Fin rtol : XR) m true = (Ok o, tr) ->
  out_converged o = true ->
  exists r z, out_root o = Some r /\ xa <= r <= xb /\ xa <= z <= xb /\ g z = 0 /\ Rabs (z - r) <= xtol + rtol * Rabs r.
Proof.
  intros Hf Hcont Hx Hr Hab Hs E Hc.
  destruct (brentq_run npf f g xa xb xtol rtol m Hf Hx Hr Hab Hs) as (o' & tr' & r & E' & R1 & R2 & R3 & R4 & _).
  rewrite E in E'. injection E' as <- <-. exists r.
  destruct (R4 Hc) as [R5|(y & Iy & R5 & R6)].
  - exists r. repeat split; try assumption; try apply R2. rewrite Rminus_eq_0, Rabs_R0. pose proof (Rabs_pos r). nra.
  - destruct (root_between g r y) as (z & Hz & E0).
    + intros z Hz. apply Hcont. unfold Rmin, Rmax in Hz. destruct (Rle_dec r y); lra.
    + exact R5.
    + exists z. repeat split; try assumption; try apply R2.
      * unfold Rmin, Rmax in Hz. destruct (Rle_dec r y); lra.
      * unfold Rmin, Rmax in Hz. destruct (Rle_dec r y); lra.
      * apply Rlt_le. eapply Rle_lt_trans; [|exact R6].
        unfold Rmin, Rmax in Hz. destruct (Rle_dec r y).
        -- rewrite !Rabs_pos_eq by lra. lra.
        -- rewrite !Rabs_left1 by lra. lra.
Qed.

(** The reported root is one of the points that were evaluated (every number type). *)
Section Member.
Context {N : Num}.
Definition bout_root (o : brent_out N) : N := match o with BRoot x | BTuple x _ _ _ | BDict x _ _ _ => x end.
Lemma swap_member (s : bstate N) tr :
  In (b_xpre s) tr -> In (b_xcur s) tr ->
  (neqb (nsign (b_fpre s)) (nsign (b_fcur s)) = false \/ In (b_xblk s) tr) ->
  In (b_xpre (brent_swap s)) tr /\ In (b_xcur (brent_swap s)) tr /\ In (b_xblk (brent_swap s)) tr.
Proof.
  destruct s as [xp xc xk fp fc fk sp sc]. cbn [b_xpre b_xcur b_xblk b_fpre b_fcur]. intros H1 H2 H3.
  unfold brent_swap. destruct (neqb (nsign fp) (nsign fc)); cbn [negb].
  - destruct H3 as [H3|H3]; [discriminate|]. destruct (nltb _ _); cbn; auto.
  - destruct (nltb _ _); cbn; auto.
Qed.
Lemma brent_loop_member npf (f : N -> N) xtol rtol full k : forall i s tr o tr',
  In (b_xpre s) tr -> In (b_xcur s) tr ->
  (neqb (nsign (b_fpre s)) (nsign (b_fcur s)) = false \/ In (b_xblk s) tr) ->
  brent_loop npf f xtol rtol full k i s tr = (Ok o, tr') -> In (bout_root o) tr'.
Proof.
  induction k as [|k IH]; intros i s tr o tr' H1 H2 H3 E; cbn [brent_loop] in E.
  - injection E as <- <-. destruct full; exact H2.
  - destruct (swap_member s tr H1 H2 H3) as (S1 & S2 & S3).
    destruct (_ || _).
    + injection E as <- <-. destruct full; exact S2.
    + destruct brent_choose as [[sp sc]|e]; [|discriminate].
      apply IH in E; [exact E | right; exact S2 | left; reflexivity | right; right; exact S3].
Qed.
Lemma brentq_member npf (f : N -> N) xa xb xtol rtol m full o tr :
  brentq npf f xa xb xtol rtol m full = (Ok o, tr) -> In (bout_root o) tr.
Proof.
  unfold brentq. destruct (nleb xb xa); [discriminate|].
  destruct (neqb (f xa) (nofZ 0)).
  { intros E. injection E as <- <-. destruct full; cbn; auto. }
  destruct (neqb (f xb) (nofZ 0)).
  { intros E. injection E as <- <-. destruct full; cbn; auto. }
  destruct (neqb (nsign (f xa)) (nsign (f xb))) eqn:E3; [discriminate|].
  destruct brent_loop as [r tr'] eqn:EL. intros E. injection E as -> <-. apply -> in_rev.
  apply brent_loop_member in EL; [exact EL | right; left; reflexivity | left; reflexivity | left; exact E3].
Qed.
End Member.
