(** Proofs about [fminbound] (statements in Props_optimize). *)
From Coq Require Import Reals Lra Psatz.
From Flocq Require Import Core.Raux.
From Verif Require Import XR Lib M_optimize P_detect P_brent.
Local Open Scope R_scope.

(** ** Facts that hold for every number type *)
Section Generic.
Context {N : Num}.

Lemma update_count (s : fstate N) e st x fx : f_count (fmin_update s e st x fx) = (f_count s + 1)%Z.
Proof.
  destruct s as [a b xm xo xt st0 e0 xc fc ft fm fxt n]. unfold fmin_update.
  destruct (nleb fx fc); [destruct (nleb xo x); reflexivity|].
  destruct (nltb x xo); (destruct (_ || _); [reflexivity|]); destruct (_ || _); reflexivity.
Qed.
Lemma update_xcur (s : fstate N) e st x fx : f_xcur (fmin_update s e st x fx) = x.
Proof.
  destruct s as [a b xm xo xt st0 e0 xc fc ft fm fxt n]. unfold fmin_update.
  destruct (nleb fx fc); [destruct (nleb xo x); reflexivity|].
  destruct (nltb x xo); (destruct (_ || _); [reflexivity|]); destruct (_ || _); reflexivity.
Qed.
Lemma update_best (s : fstate N) e st x fx :
  (f_xopt (fmin_update s e st x fx) = x /\ f_fcur (fmin_update s e st x fx) = fx) \/
  (f_xopt (fmin_update s e st x fx) = f_xopt s /\ f_fcur (fmin_update s e st x fx) = f_fcur s).
Proof.
  destruct s as [a b xm xo xt st0 e0 xc fc ft fm fxt n]. unfold fmin_update.
  destruct (nleb fx fc); [left; destruct (nleb xo x); split; reflexivity|right].
  destruct (nltb x xo); (destruct (_ || _); [split; reflexivity|]); destruct (_ || _); split; reflexivity.
Qed.

Lemma fmin_loop_generic (f : N -> N) tol limit fuel : forall s tr,
  f_count s = zlen tr -> (exists tr0, tr = f_xcur s :: tr0) -> In (f_xopt s) tr -> f_fcur s = f (f_xopt s) ->
  (f_count s = 1 \/ f_count s < limit)%Z -> (1 <= f_count s)%Z ->
  (Z.max limit 2 < f_count s + Z.of_nat fuel + 1)%Z ->
  exists s' flag tr', fmin_loop f tol limit fuel s tr = Some (s', flag, tr') /\
    f_count s' = zlen tr' /\ (exists tr0, tr' = f_xcur s' :: tr0) /\ In (f_xopt s') tr' /\ f_fcur s' = f (f_xopt s') /\
    (f_count s' <= Z.max 2 limit)%Z /\
    (flag = 0%Z /\ fmin_guard tol s' = false \/ flag = 1%Z /\ (limit <= f_count s')%Z).
Proof.
  induction fuel as [|fuel IH]; intros s tr Hn Hx Ho Hf Hl H1 Hfu; cbn [fmin_loop].
  - destruct (fmin_guard tol s) eqn:G; [lia|].
    exists s, 0%Z, tr. split; [reflexivity|]. repeat split; try assumption; [lia|]. left. auto.
  - destruct (fmin_guard tol s) eqn:G.
    2:{ exists s, 0%Z, tr. split; [reflexivity|]. repeat split; try assumption; [lia|]. left. auto. }
    destruct (choose_step tol s) as [e st]. set (x := next_point tol st s).
    assert (A1 : f_count (fmin_update s e st x (f x)) = zlen (x :: tr)).
    { rewrite update_count, zlen_cons, Hn. reflexivity. }
    assert (A2 : exists tr0, x :: tr = f_xcur (fmin_update s e st x (f x)) :: tr0).
    { exists tr. rewrite update_xcur. reflexivity. }
    assert (A3 : In (f_xopt (fmin_update s e st x (f x))) (x :: tr) /\
                 f_fcur (fmin_update s e st x (f x)) = f (f_xopt (fmin_update s e st x (f x)))).
    { destruct (update_best s e st x (f x)) as [[-> ->]|[-> ->]]; split; auto; [left; reflexivity | right; exact Ho]. }
    destruct A3 as [A3 A4].
    assert (A5 := update_count s e st x (f x)).
    destruct (Z.leb_spec limit (f_count (fmin_update s e st x (f x)))) as [L|L].
    + eexists. exists 1%Z. eexists. split; [reflexivity|]. repeat split; try assumption; [lia|]. right. auto.
    + apply IH; try assumption; lia.
Qed.

Lemma init_ok (f : N -> N) lo hi :
  let s := fmin_init f lo hi in f_count s = 1%Z /\ f_xcur s = f_xopt s /\ f_fcur s = f (f_xopt s).
Proof. cbn. auto. Qed.

(** A completed call: what is reported, for every number type and every target. *)
Lemma optimize_generic (f : N -> N) lo hi tol limit :
  exists r tr, optimize_within_bounds f lo hi tol limit = Some (r, tr) /\
  (r = Raise ValueError /\ tr = [] /\ (nisfin lo && nisfin hi = false \/ nltb hi lo = true) \/
   nisfin lo && nisfin hi = true /\ nltb hi lo = false /\
   exists x fval flag count best, r = Ok (x, fval, flag, count) /\
     count = zlen tr /\ (count <= Z.max 2 limit)%Z /\ (exists tr0, tr = tr0 ++ [x]) /\
     In best tr /\ fval = f best /\ (flag = 0 \/ flag = 1 \/ flag = 2)%Z /\ (flag = 1%Z -> (limit <= count)%Z)).
Proof.
  unfold optimize_within_bounds.
  destruct (nisfin lo && nisfin hi) eqn:E1; cbn [negb].
  2:{ eexists. eexists. split; [reflexivity|]. left. auto. }
  destruct (nltb hi lo) eqn:E2.
  { eexists. eexists. split; [reflexivity|]. left. auto. }
  destruct (fmin_loop_generic f tol limit (Z.to_nat (Z.max limit 2)) (fmin_init f lo hi) [f_xcur (fmin_init f lo hi)])
    as (s' & flag & tr & E & A1 & (tr0 & A2) & A3 & A4 & A5 & A6).
  - reflexivity.
  - exists []. reflexivity.
  - left. reflexivity.
  - reflexivity.
  - left. reflexivity.
  - cbn. lia.
  - cbn [f_count fmin_init]. lia.
  - rewrite E. eexists. eexists. split; [reflexivity|]. right. split; [reflexivity|]. split; [reflexivity|].
    exists (f_xcur s'), (f_fcur s'), (if nisnan (f_xopt s') || (nisnan (f_fcur s') || nisnan (f_ftmp s')) then 2%Z else flag),
      (f_count s'), (f_xopt s').
    split; [reflexivity|].
    split; [rewrite A1; unfold zlen; rewrite rev_length; reflexivity|].
    split; [exact A5|].
    split; [exists (rev tr0); rewrite A2; reflexivity|].
    split; [apply -> in_rev; exact A3|]. split; [exact A4|].
    split; [destruct (nisnan _ || _); [auto|]; destruct A6 as [[-> _]|[-> _]]; auto|].
    destruct (nisnan _ || _); [discriminate|]. destruct A6 as [[-> _]|[-> A6]]; [discriminate | intros _; exact A6].
Qed.

(** Only the values at the recorded points matter. *)
Lemma fmin_loop_dep (f g : N -> N) tol limit fuel : forall s tr s' fl tr',
  fmin_loop f tol limit fuel s tr = Some (s', fl, tr') -> (forall x, In x tr' -> f x = g x) ->
  (forall x, In x tr -> In x tr') /\ fmin_loop g tol limit fuel s tr = Some (s', fl, tr').
Proof.
  induction fuel as [|fuel IH]; intros s tr s' fl tr' E H; cbn [fmin_loop] in *.
  - destruct (fmin_guard tol s); [discriminate|]. injection E as <- <- <-. auto.
  - destruct (fmin_guard tol s); [|injection E as <- <- <-; auto].
    destruct (choose_step tol s) as [e st].
    destruct (Z.leb limit _) eqn:L.
    + injection E as <- <- <-. split; [intros x Hx; right; exact Hx|].
      rewrite !update_count in *. rewrite L. rewrite <- H by (left; reflexivity). reflexivity.
    + destruct (IH _ _ _ _ _ E H) as (I1 & I2). split; [intros x Hx; apply I1; right; exact Hx|].
      rewrite !update_count in *. rewrite L. rewrite <- H by (apply I1; left; reflexivity). exact I2.
Qed.
Lemma optimize_dep (f g : N -> N) lo hi tol limit r tr :
  optimize_within_bounds f lo hi tol limit = Some (r, tr) -> (forall x, In x tr -> f x = g x) ->
  optimize_within_bounds g lo hi tol limit = Some (r, tr).
Proof.
  unfold optimize_within_bounds. destruct (negb _); [auto|]. destruct (nltb hi lo); [auto|].
  destruct (fmin_loop f _ _ _ _ _) as [[[s' fl] tr']|] eqn:E; [|discriminate].
  intros E2. injection E2 as <- <-. intros H.
  destruct (fmin_loop_dep f g _ _ _ _ _ _ _ _ E) as (I1 & I2).
  { intros x Hx. apply H. apply -> in_rev. exact Hx. }
  replace (fmin_init g lo hi) with (fmin_init f lo hi).
  - rewrite I2. reflexivity.
  - unfold fmin_init. rewrite <- H; [reflexivity|]. apply -> in_rev. apply I1. left. reflexivity.
Qed.
End Generic.

(** ** Exact arithmetic *)
Definition reps : R := sqrt (22 / IZR (10 ^ 17)).
Definition rgold : R := 5 / 10 * (3 - sqrt 5).
Lemma eps_fin : @epsilon_sqrt XR = Fin reps.
Proof.
  unfold epsilon_sqrt. rewrite lit_fin by lia. apply xsqrt_fin.
  apply Rlt_le, Rdiv_lt_0_compat; [lra|]. apply pow10_pos. lia.
Qed.
Lemma reps_nonneg : 0 <= reps. Proof. apply sqrt_pos. Qed.
Lemma half_fin : @lit XR 5 1 = Fin (5 / 10).
Proof. rewrite lit_fin by lia. reflexivity. Qed.
Lemma gold_fin : @golden_ratio XR = Fin rgold.
Proof. unfold golden_ratio. rewrite half_fin, !xofZ_fin, xsqrt_fin, xsub_fin, xmul_fin by lra. reflexivity. Qed.
Lemma rgold_bounds : 35 / 100 < rgold < 4 / 10.
Proof.
  unfold rgold. assert (H0 : 0 <= sqrt 5) by apply sqrt_pos.
  assert (H : sqrt 5 * sqrt 5 = 5) by (apply sqrt_sqrt; lra).
  assert (22 / 10 < sqrt 5) by nra. assert (sqrt 5 < 23 / 10) by nra. lra.
Qed.

Definition finF (a b xm x xt st e xc fc : R) (ft : XR) (fm fxt : R) (n : Z) : fstate XR :=
  MkF (Fin a : XR) (Fin b : XR) (Fin xm : XR) (Fin x : XR) (Fin xt : XR) (Fin st : XR) (Fin e : XR) (Fin xc : XR)
      (Fin fc : XR) ft (Fin fm : XR) (Fin fxt : XR) n.

Section Exact.
Variables (f : XR -> XR) (g : R -> R) (lo hi tol : R).
Hypothesis Hf : forall x, lo <= x <= hi -> f (Fin x) = Fin (g x).
Hypothesis Htol : 0 <= tol.

Definition t1 (x : R) : R := reps * Rabs x + tol / 3.
Lemma t1_ge x : tol / 3 <= t1 x.
Proof. unfold t1. pose proof reps_nonneg. pose proof (Rabs_pos x). nra. Qed.
Lemma t1_nonneg x : 0 <= t1 x. Proof. pose proof (t1_ge x). lra. Qed.

Lemma tol1_fin a b xm x xt st e xc fc ft fm fxt n :
  @tolerance_1 XR (Fin tol) (finF a b xm x xt st e xc fc ft fm fxt n) = Fin (t1 x).
Proof.
  unfold tolerance_1, finF. cbn [f_xopt]. rewrite eps_fin, xabs_fin, xofZ_fin, xdiv_fin, xmul_fin, xadd_fin by lra. reflexivity.
Qed.
Lemma tol2_fin a b xm x xt st e xc fc ft fm fxt n :
  @tolerance_2 XR (Fin tol) (finF a b xm x xt st e xc fc ft fm fxt n) = Fin (2 * t1 x).
Proof. unfold tolerance_2. rewrite tol1_fin. reflexivity. Qed.
Lemma central_fin a b xm x xt st e xc fc ft fm fxt n :
  @x_central XR (finF a b xm x xt st e xc fc ft fm fxt n) = Fin ((a + b) / 2).
Proof. unfold x_central, finF. cbn [f_left f_right]. rewrite half_fin, xadd_fin, xmul_fin. f_equal. field. Qed.
Lemma guard_fin a b xm x xt st e xc fc ft fm fxt n :
  @fmin_guard XR (Fin tol) (finF a b xm x xt st e xc fc ft fm fxt n) =
  Rlt_bool (2 * t1 x - (b - a) / 2) (Rabs (x - (a + b) / 2)).
Proof.
  unfold fmin_guard. rewrite tol2_fin, central_fin. unfold finF. cbn [f_left f_right f_xopt].
  rewrite half_fin, !xsub_fin, xabs_fin, xmul_fin, xsub_fin, xltb_fin. f_equal. field.
Qed.
Lemma sign1_fin st : @sign1 XR (Fin st) = Fin (if Rlt_bool st 0 then -1 else 1).
Proof.
  unfold sign1. rewrite nsign_fin, xofZ_fin, xeqb_fin. unfold rsgn.
  destruct (Rlt_bool_spec 0 st) as [H|H].
  - rewrite Req_bool_false, Rlt_bool_false by lra. rewrite ?xofZ_fin, xadd_fin. f_equal. lra.
  - destruct (Rlt_bool_spec st 0) as [H2|H2].
    + rewrite Req_bool_false by lra. rewrite ?xofZ_fin, xadd_fin. f_equal. lra.
    + rewrite Req_bool_true by lra. rewrite ?xofZ_fin, xadd_fin. f_equal. lra.
Qed.
Lemma next_fin st' a b xm x xt st e xc fc ft fm fxt n :
  @next_point XR (Fin tol) (Fin st') (finF a b xm x xt st e xc fc ft fm fxt n) =
  Fin (x + (if Rlt_bool st' 0 then -1 else 1) * Rmax (Rabs st') (t1 x)).
Proof.
  unfold next_point. rewrite tol1_fin, sign1_fin. unfold npmax2, nmax2, finF. cbn [f_xopt].
  rewrite xabs_fin. cbn [nisnan XR]. rewrite xltb_fin.
  destruct (Rlt_bool_spec (Rabs st') (t1 x)) as [H|H].
  - rewrite Rmax_right by lra. rewrite xmul_fin, xadd_fin. reflexivity.
  - rewrite Rmax_left by lra. rewrite xmul_fin, xadd_fin. reflexivity.
Qed.

(** Where a step lands. *)
Definition lands (a b x x' : R) : Prop := a + t1 x <= x' <= b - t1 x /\ t1 x <= Rabs (x' - x).
Definition move (x st : R) : R := x + (if Rlt_bool st 0 then -1 else 1) * Rmax (Rabs st) (t1 x).

Lemma golden_lands a b x st : a <= x <= b ->
  2 * t1 x - (b - a) / 2 < Rabs (x - (a + b) / 2) ->
  st = rgold * (if Rle_bool ((a + b) / 2) x then a - x else b - x) -> lands a b x (move x st).
Proof.
  intros Hx G ->. pose proof rgold_bounds as Hg. pose proof (t1_nonneg x) as Ht. unfold lands, move.
  destruct (Rle_bool_spec ((a + b) / 2) x) as [H|H].
  - rewrite Rabs_pos_eq in G by lra.
    assert (L : 2 * t1 x < x - a) by lra.
    rewrite Rlt_bool_true by nra.
    replace (Rabs (rgold * (a - x))) with (rgold * (x - a)) by (rewrite Rabs_left; nra).
    assert (M : Rmax (rgold * (x - a)) (t1 x) <= (x - a) / 2) by (apply Rmax_lub; nra).
    pose proof (Rmax_r (rgold * (x - a)) (t1 x)).
    set (mm := Rmax (rgold * (x - a)) (t1 x)) in *. clearbody mm.
    replace (x + -1 * mm - x) with (- mm) by ring. rewrite Rabs_Ropp, Rabs_pos_eq by lra. lra.
  - rewrite Rabs_left in G by lra.
    assert (L : 2 * t1 x < b - x) by lra.
    rewrite Rlt_bool_false by nra.
    replace (Rabs (rgold * (b - x))) with (rgold * (b - x)) by (rewrite Rabs_pos_eq; nra).
    assert (M : Rmax (rgold * (b - x)) (t1 x) <= (b - x) / 2) by (apply Rmax_lub; nra).
    pose proof (Rmax_r (rgold * (b - x)) (t1 x)).
    set (mm := Rmax (rgold * (b - x)) (t1 x)) in *. clearbody mm.
    replace (x + 1 * mm - x) with mm by ring. rewrite Rabs_pos_eq by lra. lra.
Qed.

Lemma centre_lands a b x : a <= x <= b -> 2 * t1 x - (b - a) / 2 < Rabs (x - (a + b) / 2) ->
  lands a b x (move x (t1 x * (if Rlt_bool ((a + b) / 2 - x) 0 then -1 else 1))).
Proof.
  intros Hx G. pose proof (t1_nonneg x) as Ht. unfold lands, move.
  destruct (Rlt_bool_spec ((a + b) / 2 - x) 0) as [H|H].
  - rewrite Rabs_pos_eq in G by lra.
    replace (Rabs (t1 x * -1)) with (t1 x) by (rewrite Rabs_left1; lra).
    rewrite Rmax_left by lra.
    destruct (Rlt_bool_spec (t1 x * -1) 0) as [P|P].
    + replace (x + -1 * t1 x - x) with (- t1 x) by ring. rewrite Rabs_Ropp, Rabs_pos_eq by lra. lra.
    + assert (t1 x = 0) as -> by lra. replace (x + 1 * 0 - x) with 0 by ring. rewrite Rabs_R0. lra.
  - rewrite Rabs_left1 in G by lra.
    replace (Rabs (t1 x * 1)) with (t1 x) by (rewrite Rabs_pos_eq; lra).
    rewrite Rmax_left by lra. rewrite Rlt_bool_false by lra.
    replace (x + 1 * t1 x - x) with (t1 x) by ring. rewrite Rabs_pos_eq by lra. lra.
Qed.

Lemma parabola_lands a b x st : 2 * t1 x <= x + st - a -> 2 * t1 x <= b - (x + st) -> lands a b x (move x st).
Proof.
  intros H1 H2. pose proof (t1_nonneg x) as Ht. unfold lands, move.
  destruct (Rlt_bool_spec st 0) as [P|P].
  - rewrite Rabs_left by lra. pose proof (Rmax_r (- st) (t1 x)). pose proof (Rmax_l (- st) (t1 x)).
    assert (E : Rmax (- st) (t1 x) = - st \/ Rmax (- st) (t1 x) = t1 x) by (unfold Rmax; destruct Rle_dec; auto).
    set (mm := Rmax (- st) (t1 x)) in *. clearbody mm.
    replace (x + -1 * mm - x) with (- mm) by ring. rewrite Rabs_Ropp, Rabs_pos_eq by lra. destruct E; lra.
  - rewrite (Rabs_pos_eq st) by lra. pose proof (Rmax_r st (t1 x)). pose proof (Rmax_l st (t1 x)).
    assert (E : Rmax st (t1 x) = st \/ Rmax st (t1 x) = t1 x) by (unfold Rmax; destruct Rle_dec; auto).
    set (mm := Rmax st (t1 x)) in *. clearbody mm.
    replace (x + 1 * mm - x) with mm by ring. rewrite Rabs_pos_eq by lra. destruct E; lra.
Qed.

Lemma sign_centre c x :
  @nadd XR (nsign (Fin (c - x))) (if @neqb XR (Fin c) (Fin x) then Fin 1 else Fin 0) =
  Fin (if Rlt_bool (c - x) 0 then -1 else 1).
Proof.
  rewrite nsign_fin, xeqb_fin. unfold rsgn.
  destruct (Rlt_bool_spec 0 (c - x)) as [H|H].
  - rewrite Req_bool_false, Rlt_bool_false by lra. rewrite xadd_fin. f_equal. lra.
  - destruct (Rlt_bool_spec (c - x) 0) as [H2|H2].
    + rewrite Req_bool_false by lra. rewrite xadd_fin. f_equal. lra.
    + rewrite Req_bool_true by lra. rewrite xadd_fin. f_equal. lra.
Qed.
Lemma choose_ok a b xm x xt st e xc fc ft fm fxt n : a <= x <= b ->
  2 * t1 x - (b - a) / 2 < Rabs (x - (a + b) / 2) ->
  exists e' st', @choose_step XR (Fin tol) (finF a b xm x xt st e xc fc ft fm fxt n) = (Fin e', Fin st') /\
    lands a b x (move x st').
Proof.
  intros Hx G. set (s := finF a b xm x xt st e xc fc ft fm fxt n).
  assert (HG : exists e' st', @golden_step XR s = (Fin e', Fin st') /\ lands a b x (move x st')).
  { unfold golden_step, s. rewrite central_fin. unfold finF. cbn [f_xopt f_left f_right].
    rewrite !xsub_fin, xleb_fin, gold_fin.
    set (ee := if Rle_bool ((a + b) / 2) x then a - x else b - x).
    exists ee, (rgold * ee). split.
    - unfold ee. destruct (Rle_bool _ _); reflexivity.
    - apply golden_lands; [exact Hx | exact G | reflexivity]. }
  pose proof (tol1_fin a b xm x xt st e xc fc ft fm fxt n) as E1.
  pose proof (tol2_fin a b xm x xt st e xc fc ft fm fxt n) as E2.
  pose proof (central_fin a b xm x xt st e xc fc ft fm fxt n) as E3.
  fold s in E1, E2, E3.
  assert (P1 : f_left s = Fin a) by reflexivity. assert (P2 : f_right s = Fin b) by reflexivity.
  assert (P3 : f_xmid s = Fin xm) by reflexivity. assert (P4 : f_xopt s = Fin x) by reflexivity.
  assert (P5 : f_xtmp s = Fin xt) by reflexivity. assert (P6 : f_step s = Fin st) by reflexivity.
  assert (P7 : f_e s = Fin e) by reflexivity. assert (P8 : f_fcur s = Fin fc) by reflexivity.
  assert (P9 : f_fmid s = Fin fm) by reflexivity. assert (P10 : f_fxtmp s = Fin fxt) by reflexivity.
  unfold choose_step. rewrite E1, E2, E3, P1, P2, P3, P4, P5, P6, P7, P8, P9, P10. clearbody s.
  rewrite xabs_fin, xltb_fin.
  destruct (Rlt_bool _ _); [|exact HG].
  rewrite !xsub_fin, !xmul_fin, !xsub_fin, !xofZ_fin, !xmul_fin, !xltb_fin.
  set (q0 := 2 * ((x - xm) * (fc - fxt) - (x - xt) * (fc - fm))).
  set (p0 := (x - xm) * ((x - xm) * (fc - fxt)) - (x - xt) * ((x - xt) * (fc - fm))).
  rewrite xopp_fin.
  match goal with |- context [nltb (nabs ?T) _] =>
    replace T with (Fin (if Rlt_bool 0 q0 then - p0 else p0) : XR) by (destruct (Rlt_bool 0 q0); reflexivity) end.
  set (p := if Rlt_bool 0 q0 then - p0 else p0). clearbody p.
  rewrite (xabs_fin q0). set (q := Rabs q0). assert (Hq : 0 <= q) by apply Rabs_pos. clearbody q. clear p0 q0.
  rewrite !xmul_fin, !xltb_fin.
  destruct (nltb (nabs _) (nabs _)); [cbn [andb] | exact HG].
  destruct (Rlt_bool_spec (q * (a - x)) p) as [L1|L1]; [cbn [andb] | exact HG].
  destruct (Rlt_bool_spec p (q * (b - x))) as [L2|L2]; [cbn [andb] | exact HG].
  assert (Hq0 : q <> 0) by (intros ->; lra).
  rewrite xdiv_fin by exact Hq0. rewrite !xadd_fin, !xsub_fin, !xltb_fin.
  destruct (Rlt_bool_spec (x + p / q - a) (2 * t1 x)) as [M1|M1];
    [|destruct (Rlt_bool_spec (b - (x + p / q)) (2 * t1 x)) as [M2|M2]]; cbn [orb].
  - exists st. eexists. split; [|apply centre_lands; [exact Hx | exact G]].
    f_equal. rewrite sign_centre. rewrite xmul_fin. reflexivity.
  - exists st. eexists. split; [|apply centre_lands; [exact Hx | exact G]].
    f_equal. rewrite sign_centre. rewrite xmul_fin. reflexivity.
  - exists st, (p / q). split; [reflexivity|]. apply parabola_lands; lra.
Qed.

Lemma update_ok a b xm x xt st e xc ft fm fxt n e' st' x' :
  exists a' b' xm' x1 xt' fm' fxt',
    @fmin_update XR (finF a b xm x xt st e xc (g x) ft fm fxt n) (Fin e') (Fin st') (Fin x') (Fin (g x')) =
      finF a' b' xm' x1 xt' st' e' x' (g x1) (Fin (g x')) fm' fxt' (n + 1) /\
    ((g x' <= g x /\ x1 = x' /\ ((x <= x' /\ a' = x /\ b' = b) \/ (x' < x /\ a' = a /\ b' = x))) \/
     (g x < g x' /\ x1 = x /\ ((x' < x /\ a' = x' /\ b' = b) \/ (x <= x' /\ a' = a /\ b' = x')))).
Proof.
  unfold fmin_update, finF. cbv beta iota zeta. rewrite !xleb_fin, !xltb_fin, !xeqb_fin.
  destruct (Rle_bool_spec (g x') (g x)) as [H|H].
  - destruct (Rle_bool_spec x x') as [H2|H2]; do 7 eexists; (split; [reflexivity|]); left; auto 10.
  - destruct (Rlt_bool_spec x' x) as [H2|H2];
      (destruct (Rle_bool (g x') fxt || Req_bool xt x);
        [|destruct (Rle_bool (g x') fm || (Req_bool xm x || Req_bool xm xt))]);
      do 7 eexists; (split; [reflexivity|]); right; auto 10.
Qed.

(** What is known of a run after each evaluation: [w] is the width of the bracket. *)
Definition unimodal (m : R) : Prop :=
  lo <= m <= hi /\ (forall x y, lo <= x -> x < y -> y <= m -> g y < g x) /\
  (forall x y, m <= x -> x < y -> y <= hi -> g x < g y).

Definition inv (s : fstate XR) (tr : list XR) (w : R) : Prop :=
  exists a b xm x xt st e xc ft fm fxt n,
    s = finF a b xm x xt st e xc (g x) ft fm fxt n /\ nisnan ft = false /\
    lo <= a /\ a <= x <= b /\ b <= hi /\ a <= xc <= b /\ w = b - a /\
    Forall (fun p => exists t, p = Fin t /\ lo <= t <= hi /\ g x <= g t) tr /\
    (fmin_guard (Fin tol) s = true -> tol / 3 <= x - a /\ tol / 3 <= b - x) /\
    (0 < tol -> forall m, unimodal m -> a <= m <= b).

Lemma loop_inv limit fuel : forall s tr w s' flag tr', inv s tr w ->
  fmin_loop f (Fin tol) limit fuel s tr = Some (s', flag, tr') ->
  exists w', inv s' tr' w' /\ w' <= w - tol / 3 * IZR (f_count s' - f_count s).
Proof.
  induction fuel as [|fuel IH]; intros s tr w s' flag tr' Hi E; cbn [fmin_loop] in E.
  - destruct (fmin_guard (Fin tol) s); [discriminate|]. injection E as <- <- <-. exists w.
    split; [exact Hi|]. rewrite Z.sub_diag. lra.
  - destruct (fmin_guard (Fin tol) s) eqn:G.
    2:{ injection E as <- <- <-. exists w. split; [exact Hi|]. rewrite Z.sub_diag. lra. }
    destruct Hi as (a & b & xm & x & xt & st & e & xc & ft & fm & fxt & n & -> & Hnn & Ha & Hx & Hb & Hxc & Hw & Htr & Hsep & Huni).
    destruct (Hsep G) as [S1 S2]. rewrite guard_fin in G. apply Rlt_bool_iff in G.
    destruct (choose_ok a b xm x xt st e xc (g x) ft fm fxt n Hx G) as (e' & st' & Ec & L).
    rewrite Ec in E. rewrite next_fin in E. fold (move x st') in E. set (x' := move x st') in *.
    pose proof (t1_ge x) as Ht1. pose proof (t1_nonneg x) as Ht0. destruct L as [L1 L2].
    assert (Ix : lo <= x' <= hi) by lra.
    rewrite (Hf x' Ix) in E.
    destruct (update_ok a b xm x xt st e xc ft fm fxt n e' st' x') as (a' & b' & xm' & x1 & xt' & fm' & fxt' & Eu & D).
    rewrite Eu in E.
    assert (Hdist : x <= x' -> t1 x <= x' - x). { intros H. rewrite Rabs_pos_eq in L2 by lra. exact L2. }
    assert (Hdist2 : x' < x -> t1 x <= x - x'). { intros H. rewrite Rabs_left in L2 by lra. lra. }
    assert (HI : inv (finF a' b' xm' x1 xt' st' e' x' (g x1) (Fin (g x')) fm' fxt' (n + 1)) (Fin x' :: tr) (b' - a') /\ b' - a' <= b - a - tol / 3).
    { split.
      - exists a', b', xm', x1, xt', st', e', x', (Fin (g x') : XR), fm', fxt', (n + 1)%Z.
        split; [reflexivity|]. split; [reflexivity|].
        assert (Hcase : lo <= a' /\ a' <= x1 <= b' /\ b' <= hi /\ a' <= x' <= b' /\ g x1 <= g x /\ g x1 <= g x' /\
                  tol / 3 <= x1 - a' /\ tol / 3 <= b' - x1).
        { destruct D as [(D1 & -> & [(D2 & -> & ->)|(D2 & -> & ->)]) | (D1 & -> & [(D2 & -> & ->)|(D2 & -> & ->)])].
          - specialize (Hdist D2). repeat split; lra.
          - specialize (Hdist2 D2). repeat split; lra.
          - specialize (Hdist2 D2). repeat split; lra.
          - specialize (Hdist D2). repeat split; lra. }
        destruct Hcase as (C1 & C2 & C3 & C4 & C5 & C6 & C7 & C8).
        split; [exact C1|]. split; [exact C2|]. split; [exact C3|]. split; [exact C4|]. split; [reflexivity|].
        split.
        { constructor; [exists x'; auto|]. eapply Forall_impl; [|exact Htr]. intros p (u & -> & Hu & Hgu). exists u.
          split; [reflexivity|]. split; [exact Hu|]. lra. }
        split; [intros _; split; assumption|].
        intros Hpos m Hm. specialize (Huni Hpos m Hm). destruct Hm as (M1 & M2 & M3).
        destruct D as [(D1 & -> & [(D2 & -> & ->)|(D2 & -> & ->)]) | (D1 & -> & [(D2 & -> & ->)|(D2 & -> & ->)])].
        + specialize (Hdist D2). split; [|lra]. destruct (Rle_or_lt x m) as [?|H]; [assumption|].
          assert (g x < g x') by (apply M3; lra). lra.
        + specialize (Hdist2 D2). split; [lra|]. destruct (Rle_or_lt m x) as [?|H]; [assumption|].
          assert (g x < g x') by (apply M2; lra). lra.
        + specialize (Hdist2 D2). split; [|lra]. destruct (Rle_or_lt x' m) as [?|H]; [assumption|].
          assert (g x' < g x) by (apply M3; lra). lra.
        + specialize (Hdist D2). split; [lra|]. destruct (Rle_or_lt m x') as [?|H]; [assumption|].
          assert (g x' < g x) by (apply M2; lra). lra.
      - destruct D as [(D1 & -> & [(D2 & -> & ->)|(D2 & -> & ->)]) | (D1 & -> & [(D2 & -> & ->)|(D2 & -> & ->)])]; lra. }
    destruct HI as [HI HW].
    destruct (limit <=? _)%Z.
    + injection E as <- <- <-. exists (b' - a'). split; [exact HI|]. unfold finF. cbn [f_count].
      replace (n + 1 - n)%Z with 1%Z by lia. lra.
    + destruct (IH _ _ _ _ _ _ HI E) as (w' & I1 & I2). exists w'. split; [exact I1|].
      unfold finF in *. cbn [f_count] in *. 
      replace (f_count s' - n)%Z with ((f_count s' - (n + 1)) + 1)%Z by lia. rewrite plus_IZR. lra.
Qed.

Lemma init_inv : lo <= hi -> exists w, w = hi - lo /\
  inv (fmin_init f (Fin lo) (Fin hi)) [f_xcur (fmin_init f (Fin lo) (Fin hi))] w.
Proof.
  intros H. exists (hi - lo). split; [reflexivity|]. pose proof rgold_bounds as Hg.
  set (x := lo + rgold * (hi - lo)). assert (Hx : lo <= x <= hi) by (unfold x; nra).
  assert (E : @fmin_init XR f (Fin lo) (Fin hi) = finF lo hi x x x 0 0 x (g x) (Inf false) (g x) (g x) 1).
  { unfold fmin_init. rewrite gold_fin, xsub_fin, xmul_fin, xadd_fin, xofZ_fin. fold x. rewrite (Hf x Hx). reflexivity. }
  rewrite E. exists lo, hi, x, x, x, 0, 0, x, (Inf false : XR), (g x), (g x), 1%Z.
  split; [reflexivity|]. split; [reflexivity|].
  repeat (split; [first [lra | reflexivity]|]).
  split; [unfold finF; cbn [f_xcur]; constructor; [exists x; split; [reflexivity|]; lra | constructor]|].
  split.
  - intros G. rewrite guard_fin in G. apply Rlt_bool_iff in G. pose proof (t1_ge x) as Ht.
    assert (x - (lo + hi) / 2 <= 0) by (unfold x; nra). rewrite Rabs_left1 in G by lra.
    assert (hi - x > 2 * t1 x) by lra. unfold x in *. nra.
  - intros _ m (M & _). exact M.
Qed.

(** A whole run. *)
Lemma optimize_run limit : lo <= hi ->
  exists x v flag n tr,
    optimize_within_bounds f (Fin lo) (Fin hi) (Fin tol) limit = Some (Ok (Fin x, Fin v, flag, n), tr) /\
    lo <= x <= hi /\ Forall (fun p => exists t, p = Fin t /\ lo <= t <= hi /\ v <= g t) tr /\
    (exists best, In (Fin best) tr /\ v = g best /\
       (flag = 0%Z -> 0 < tol -> forall m, unimodal m -> Rabs (best - m) <= 2 * t1 best /\ Rabs (x - m) <= 4 * t1 best)) /\
    (flag = 0 \/ flag = 1)%Z /\
    (3 * (hi - lo) < tol * IZR (limit - 1) -> flag = 0%Z).
Proof.
  intros H. unfold optimize_within_bounds. cbn [nisfin XR andb negb]. rewrite xltb_fin, Rlt_bool_false by exact H.
  destruct (fmin_loop_generic f (Fin tol) limit (Z.to_nat (Z.max limit 2)) (fmin_init f (Fin lo) (Fin hi)) [f_xcur (fmin_init f (Fin lo) (Fin hi))])
    as (s' & flag & tr & E & A1 & (tr0 & A2) & A3 & A4 & A5 & A6).
  { reflexivity. } { exists []; reflexivity. } { left; reflexivity. } { reflexivity. } { left; reflexivity. }
  { cbn; lia. } { cbn [f_count fmin_init]. lia. }
  rewrite E.
  destruct (init_inv H) as (w0 & Ew & I0).
  destruct (loop_inv _ _ _ _ _ _ _ _ I0 E) as (w & I1 & Hw).
  destruct I1 as (a & b & xm & x & xt & st & e & xc & ft & fm & fxt & n & -> & Hnn & Ha & Hx & Hb & Hxc & Hw1 & Htr & Hsep & Huni).
  unfold finF at 1 2 3 4 5 6. cbn [f_xopt f_fcur f_ftmp f_xcur f_count]. cbn [nisnan XR orb].
  change (match ft with NaN => true | _ => false end) with (@nisnan XR ft). rewrite Hnn. cbn [orb].
  exists xc, (g x), flag, n, (rev tr). split; [reflexivity|]. split; [lra|].
  split; [apply Forall_rev; exact Htr|].
  split.
  { exists x. unfold finF in A3. cbn [f_xopt] in A3. split; [apply -> in_rev; exact A3|]. split; [reflexivity|].
    intros Hfl Hpos m Hm. destruct A6 as [[_ G]|[-> _]]; [|discriminate].
    rewrite guard_fin in G. specialize (Huni Hpos m Hm).
    assert (G' : Rabs (x - (a + b) / 2) <= 2 * t1 x - (b - a) / 2).
    { apply Rnot_lt_le. intros C. rewrite Rlt_bool_true in G by exact C. discriminate. }
    assert (Hxa : x - a <= 2 * t1 x /\ b - x <= 2 * t1 x).
    { revert G'. unfold Rabs. destruct Rcase_abs; lra. }
    split; apply Rabs_le; lra. }
  split; [destruct A6 as [[-> _]|[-> _]]; auto|].
  intros Hlim. destruct A6 as [[-> _]|[-> A6]]; [reflexivity|]. exfalso.
  unfold finF in A6, Hw. cbn [f_count fmin_init] in A6, Hw.
  assert (IZR (limit - 1) <= IZR (n - 1)) by (apply IZR_le; lia).
  assert (Hn : tol * IZR (limit - 1) <= tol * IZR (n - 1)) by (apply Rmult_le_compat_l; assumption).
  lra.
Qed.
End Exact.

(** ** The public function *)
Section Public.
Context {N : Num}.
Lemma fminbound_brief (f : N -> N) lo hi tol limit :
  fminbound f lo hi tol limit false =
  match fminbound f lo hi tol limit true with
  | Some (Ok (FTuple x _ _ _), tr) => Some (Ok (FPoint x), tr)
  | o => o
  end.
Proof.
  unfold fminbound. destruct optimize_within_bounds as [[[[[[x v] fl] n]|e] tr]|]; reflexivity.
Qed.
Lemma fminbound_generic (f : N -> N) lo hi tol limit :
  exists r tr, fminbound f lo hi tol limit true = Some (r, tr) /\
  (r = Raise ValueError /\ tr = [] /\ (nisfin lo && nisfin hi = false \/ nltb hi lo = true) \/
   nisfin lo && nisfin hi = true /\ nltb hi lo = false /\
   exists x fval flag count best, r = Ok (FTuple x fval flag count) /\
     count = Z.of_nat (length tr) /\ (count <= Z.max 2 limit)%Z /\ (exists tr0, tr = tr0 ++ [x]) /\
     In best tr /\ fval = f best /\ (flag = 0 \/ flag = 1 \/ flag = 2)%Z /\ (flag = 1%Z -> (limit <= count)%Z)).
Proof.
  destruct (optimize_generic f lo hi tol limit) as (r & tr & E & H). unfold fminbound. rewrite E.
  destruct H as [(-> & -> & H) | (H1 & H2 & x & v & fl & n & best & -> & H3)].
  - eexists. eexists. split; [reflexivity|]. left. auto.
  - eexists. eexists. split; [reflexivity|]. right. split; [exact H1|]. split; [exact H2|].
    exists x, v, fl, n, best. split; [reflexivity|]. exact H3.
Qed.
Lemma fminbound_dep (f g : N -> N) lo hi tol limit det r tr :
  fminbound f lo hi tol limit det = Some (r, tr) -> (forall x, In x tr -> f x = g x) ->
  fminbound g lo hi tol limit det = Some (r, tr).
Proof.
  unfold fminbound. destruct (optimize_within_bounds f lo hi tol limit) as [[r' tr']|] eqn:E; [|discriminate].
  intros E2 H. assert (Et : tr' = tr). { destruct r' as [[[[x v] fl] n]|e]; injection E2 as _ E3; exact E3. } subst tr'.
  rewrite (optimize_dep f g lo hi tol limit r' tr E H). exact E2.
Qed.
End Public.

Lemma fminbound_run f g lo hi tol limit :
  (forall x, lo <= x <= hi -> f (Fin x) = Fin (g x)) -> 0 <= tol -> lo <= hi ->
  exists x v flag n tr,
    fminbound f (Fin lo : XR) (Fin hi : XR) (Fin tol : XR) limit true = Some (Ok (FTuple (Fin x : XR) (Fin v : XR) flag n), tr) /\
    lo <= x <= hi /\ Forall (fun p => exists t, p = Fin t /\ lo <= t <= hi /\ v <= g t) tr /\
    (exists best, In (Fin best) tr /\ v = g best /\
       (flag = 0%Z -> 0 < tol -> forall m, unimodal g lo hi m ->
          Rabs (best - m) <= 2 * t1 tol best /\ Rabs (x - m) <= 4 * t1 tol best)) /\
    (flag = 0 \/ flag = 1)%Z /\
    (3 * (hi - lo) < tol * IZR (limit - 1) -> flag = 0%Z).
Proof.
  intros Hf Ht Hl. destruct (optimize_run f g lo hi tol Hf Ht limit Hl) as (x & v & fl & n & tr & E & H).
  exists x, v, fl, n, tr. split; [|exact H]. unfold fminbound. rewrite E. reflexivity.
Qed.

(** One iteration from the start, when the interval is much wider than the tolerance. *)
Lemma reps_small : reps <= / 1000000.
Proof.
  unfold reps. apply Rle_trans with (sqrt (/ 1000000 * / 1000000)).
  - apply sqrt_le_1_alt. change (10 ^ 17)%Z with 100000000000000000%Z. lra.
  - rewrite sqrt_square by lra. lra.
Qed.
Lemma first_step f g hi tol limit :
  (forall x, 0 <= x <= hi -> f (Fin x) = Fin (g x)) -> 0 < hi -> 0 <= tol <= hi / 2 -> (limit <= 2)%Z ->
  exists x0 x1 tr, 0 < x0 /\ x0 < x1 /\ x1 < hi /\ tr = [Fin x0; Fin x1] /\
    fminbound f (Fin 0 : XR) (Fin hi : XR) (Fin tol : XR) limit true =
    Some (Ok (FTuple (Fin x1 : XR) (Fin (if Rle_bool (g x1) (g x0) then g x1 else g x0) : XR) 1 2), tr).
Proof.
  intros Hf Hh Ht Hlim. pose proof rgold_bounds as Hg. pose proof reps_small as Hr. pose proof reps_nonneg as Hr0.
  set (x0 := 0 + rgold * (hi - 0)). assert (Hx0 : 0 < x0 < 4 / 10 * hi) by (unfold x0; nra).
  assert (Ht1 : t1 tol x0 <= hi / 5). { unfold t1. rewrite Rabs_pos_eq by lra. nra. }
  pose proof (t1_nonneg tol ltac:(lra) x0) as Ht0.
  set (x1 := x0 + rgold * (hi - x0)).
  assert (Hx1 : x0 < x1 < hi) by (unfold x1; nra).
  assert (E0 : @fmin_init XR f (Fin 0) (Fin hi) = finF 0 hi x0 x0 x0 0 0 x0 (g x0) (Inf false) (g x0) (g x0) 1).
  { unfold fmin_init. rewrite gold_fin, xsub_fin, xmul_fin, xadd_fin, xofZ_fin. fold x0. rewrite (Hf x0) by lra. reflexivity. }
  exists x0, x1. eexists. split; [lra|]. split; [lra|]. split; [lra|]. split; [reflexivity|].
  unfold fminbound, optimize_within_bounds. cbn [nisfin XR andb negb]. rewrite xltb_fin, Rlt_bool_false by lra.
  rewrite E0. replace (Z.max limit 2) with 2%Z by lia. change (Z.to_nat 2) with 2%nat.
  cbn [fmin_loop]. rewrite guard_fin. rewrite Rlt_bool_true.
  2:{ rewrite Rabs_left1 by lra. lra. }
  assert (Ec : @choose_step XR (Fin tol) (finF 0 hi x0 x0 x0 0 0 x0 (g x0) (Inf false) (g x0) (g x0) 1) = (Fin (hi - x0), Fin (rgold * (hi - x0)))).
  { unfold choose_step. rewrite tol1_fin. unfold finF at 1. cbn [f_e]. rewrite xabs_fin, xltb_fin, Rabs_R0, Rlt_bool_false by exact Ht0.
    unfold golden_step. rewrite central_fin. unfold finF. cbn [f_xopt f_left f_right].
    rewrite xleb_fin, Rle_bool_false by lra. rewrite xsub_fin, gold_fin, xmul_fin. reflexivity. }
  rewrite Ec. rewrite next_fin. rewrite Rlt_bool_false by nra. 
  rewrite (Rabs_pos_eq (rgold * (hi - x0))) by nra. rewrite Rmax_left by nra. rewrite Rmult_1_l. fold x1.
  rewrite (Hf x1) by lra.
  destruct (update_ok g 0 hi x0 x0 x0 0 0 x0 (Inf false) (g x0) (g x0) 1 (hi - x0) (rgold * (hi - x0)) x1)
    as (a' & b' & xm' & y & xt' & fm' & fxt' & Eu & D).
  rewrite Eu. unfold finF. cbn [f_count]. replace (limit <=? 1 + 1)%Z with true by lia.
  cbn [f_xopt f_fcur f_ftmp f_xcur f_count]. cbn [nisnan XR orb rev app].
  destruct D as [(D & -> & _)|(D & -> & _)].
  - rewrite Rle_bool_true by exact D. reflexivity.
  - rewrite Rle_bool_false by exact D. reflexivity.
Qed.
