(** brentq: the number of iterations, exact arithmetic. *)
From Coq Require Import Reals Lra Lia Psatz.
From Flocq Require Import Core.Raux.
From Verif Require Import XR Lib M_optimize P_detect P_brent.
Local Open Scope R_scope.

Lemma pow2_pos n : 0 < 2 ^ n. Proof. apply pow_lt. lra. Qed.
Lemma pow2_mono m n : (m <= n)%nat -> 2 ^ m <= 2 ^ n. Proof. intros H. apply Rle_pow; [lra | exact H]. Qed.

Section Log.
Variables (f : XR -> XR) (g : R -> R) (xa xb xtol rtol : R) (npf : bool).
Hypothesis Hf : forall x, xa <= x <= xb -> f (Fin x) = Fin (g x).
Hypothesis Hxtol : 0 < xtol.
Hypothesis Hrtol : 0 <= rtol.
Notation u := (xtol / 2).
Notation rdelta := (rdelta xtol rtol).

(** What the step is: half of the bracket, or an interpolation step of less than half of the one before last. *)
Lemma step_kind xp xc xk fp fc fk sp sc :
  fc <> 0 -> fk * fc <= 0 -> fk <> 0 -> xk <> xc -> rdelta xc <= Rabs ((xk - xc) / 2) ->
  ((xp = xk /\ fp = fk) \/ (0 < (xc - xp) * (xk - xc) /\ 0 < fp * fc)) ->
  exists sp' sc' t,
    brent_choose npf (Fin (rdelta xc) : XR) (Fin ((xk - xc) / 2) : XR) (finB xp xc xk fp fc fk sp sc) = Ok (Fin sp' : XR, Fin sc' : XR) /\
    @brent_move XR (Fin (rdelta xc)) (Fin ((xk - xc) / 2)) (Fin sc') (Fin xc) = Fin (xc + t) /\
    0 < t * (xk - xc) /\ rdelta xc <= Rabs t <= 3 / 4 * Rabs (xk - xc) /\
    ((sp' = (xk - xc) / 2 /\ sc' = (xk - xc) / 2 /\ t = (xk - xc) / 2) \/
     (sp' = sc /\ rdelta xc < Rabs sp /\ 2 * Rabs sc' < Rabs sp /\ (t = sc' \/ Rabs t = rdelta xc))).
Proof.
  intros Hc Hs Hk Hx Hw Hd.
  destruct (step_ok xtol rtol npf ltac:(lra) Hrtol xp xc xk fp fc fk sp sc Hc Hs Hk Hx Hw Hd) as (sp' & sc' & t & E1 & E2 & E3 & E4).
  exists sp', sc', t. repeat (split; [assumption|]).
  assert (Hdp : 0 < rdelta xc) by (unfold P_brent.rdelta; pose proof (Rabs_pos xc); nra).
  set (sb := (xk - xc) / 2) in *.
  assert (Hmv : t = sc' \/ Rabs t = rdelta xc /\ 0 < t * sb /\ Rabs sc' <= rdelta xc).
  { unfold brent_move in E2. rewrite xabs_fin, xltb_fin in E2. destruct (Rlt_bool_spec (rdelta xc) (Rabs sc')) as [L|L].
    - left. rewrite xadd_fin in E2. assert (E5 : xc + sc' = xc + t) by (injection E2; auto). lra.
    - right. rewrite xofZ_fin, xltb_fin in E2. destruct (Rlt_bool_spec 0 sb) as [L2|L2]; rewrite ?xopp_fin, xadd_fin in E2.
      + assert (E5 : xc + rdelta xc = xc + t) by (injection E2; auto). assert (t = rdelta xc) as -> by lra. rewrite Rabs_pos_eq by lra. nra.
      + assert (E5 : xc + - rdelta xc = xc + t) by (injection E2; auto). assert (t = - rdelta xc) as -> by lra. rewrite Rabs_Ropp, Rabs_pos_eq by lra. unfold sb in *. nra. }
  assert (Hbis : (Ok (Fin sb : XR, Fin sb : XR) : res (XR * XR)) = Ok (Fin sp' : XR, Fin sc' : XR) -> sp' = sb /\ sc' = sb /\ t = sb).
  { intros E. injection E as -> ->. split; [reflexivity|]. split; [reflexivity|].
    destruct Hmv as [?|(A & B & C)]; [assumption|].
    assert (Rabs t = Rabs sc') by lra.
    destruct (Rlt_or_le 0 sc') as [P|P].
    - assert (0 < t) by nra. rewrite !Rabs_pos_eq in H by lra. exact H.
    - assert (t < 0) by nra. rewrite (Rabs_left t), (Rabs_left1 sc') in H by lra. lra. }
  unfold brent_choose in E1. unfold finB at 1 2 3 in E1. cbn [b_spre b_fcur b_fpre] in E1. rewrite !xabs_fin, !xltb_fin in E1.
  destruct (Rlt_bool_spec (rdelta xc) (Rabs sp)) as [L0|L0]; [|left; exact (Hbis E1)].
  destruct (Rlt_bool_spec (Rabs fc) (Rabs fp)) as [L|L]; [|left; exact (Hbis E1)]. cbn [andb] in E1.
  destruct (stry_ok npf xp xc xk fp fc fk sp sc) as (v & Ev & Hv); try assumption.
  rewrite Ev in E1. cbn [bind] in E1. unfold finB at 1 2 in E1. cbn [b_spre b_scur] in E1.
  rewrite !xabs_fin, !xofZ_fin, !xmul_fin, xsub_fin in E1.
  destruct (nltb _ _) eqn:Ex in E1; [|left; exact (Hbis E1)]. right.
  assert (E5 : sc = sp' /\ v = sc') by (injection E1; auto). destruct E5 as [-> ->].
  split; [reflexivity|]. split; [exact L0|]. split.
  - unfold nmin2 in Ex. rewrite xltb_fin in Ex.
    destruct (Rlt_bool_spec (3 * Rabs sb - rdelta xc) (Rabs sp)) as [L2|L2]; rewrite xltb_fin in Ex; apply Rlt_bool_iff in Ex; lra.
  - destruct Hmv as [?|(? & _)]; auto.
Qed.

(** The two remembered steps after the swap. *)
Lemma swap_steps xp xc xk fp fc fk sp sc : fp <> 0 ->
  b_spre (brent_swap (finB xp xc xk fp fc fk sp sc)) = (Fin (if Rlt_bool 0 (fp * fc) then sp else xc - xp) : XR) /\
  b_scur (brent_swap (finB xp xc xk fp fc fk sp sc)) = (Fin (if Rlt_bool 0 (fp * fc) then sc else xc - xp) : XR).
Proof.
  intros H. unfold brent_swap, finB. cbv beta iota zeta. rewrite sign_same by exact H.
  destruct (Rlt_bool 0 (fp * fc)); cbn [negb]; rewrite ?xsub_fin; destruct (nltb _ _); split; reflexivity.
Qed.

Lemma log_loop k : forall E m i s tr w sp sc, entry g xa xb s w -> w <= 2 ^ E * u ->
  b_spre (brent_swap s) = (Fin sp : XR) -> b_scur (brent_swap s) = (Fin sc : XR) ->
  Rabs sp <= 2 ^ ((m + 1) / 2) * u -> Rabs sc <= 2 ^ (m / 2) * u -> (m <= 2 * E)%nat -> (m + 1 + E * E <= k)%nat ->
  exists x j tr', brent_loop npf f (Fin xtol : XR) (Fin rtol : XR) true k i s tr = (Ok (BDict x (j + 2) (j + 1) true), tr') /\
    (i <= j < i + Z.of_nat (m + 1 + E * E))%Z.
Proof.
  induction k as [|k IH]; intros E m i s tr w sp0 sc0 He Hw Esp Esc Bp Bc Hm Hk; [lia|]. cbn [brent_loop].
  apply swap_ready in He; [|lra..].
  destruct He as (xp & xc & xk & fp & fc & fk & sp & sc & Es & Ic & Ik & Ec & Ek & Hs & Hk0 & Hx & Ew & Hd). rewrite Es in *.
  assert (E5 : sp0 = sp /\ sc0 = sc). { unfold finB in Esp, Esc. cbn [b_spre b_scur] in Esp, Esc. split; [injection Esp; auto | injection Esc; auto]. } destruct E5 as [-> ->].
  rewrite (delta_fin xtol rtol), sbis_fin. unfold finB at 1. cbn [b_fcur]. rewrite xofZ_fin, xeqb_fin, xabs_fin, xltb_fin.
  destruct (Req_bool_spec fc 0) as [E0|E0]; cbn [orb].
  { do 3 eexists. split; [reflexivity | lia]. }
  assert (Hud : u <= rdelta xc) by (unfold P_brent.rdelta; pose proof (Rabs_pos xc); nra).
  assert (Hw2 : Rabs ((xk - xc) / 2) = w / 2) by (rewrite Ew; unfold Rdiv; rewrite Rabs_mult, (Rabs_pos_eq (/ 2)) by lra; reflexivity).
  destruct (Rlt_bool_spec (Rabs ((xk - xc) / 2)) (rdelta xc)) as [L|L].
  { do 3 eexists. split; [reflexivity | lia]. }
  destruct E as [|E].
  { exfalso. cbn [pow] in Hw. lra. }
  assert (PE : 2 ^ S E = 2 * 2 ^ E) by reflexivity. rewrite PE in Hw.
  destruct (step_kind xp xc xk fp fc fk sp sc E0 Hs Hk0 Hx L Hd) as (sp' & sc' & t & Ech & Emv & Ht & Hb & Hkind).
  rewrite Ech. unfold finB. cbn [b_xcur b_xblk b_fblk b_fcur]. rewrite Emv.
  assert (It : xa <= xc + t <= xb).
  { unfold inside in *. destruct (Rlt_or_le 0 (xk - xc)) as [P|P].
    - assert (0 < t) by nra. rewrite !Rabs_pos_eq in Hb by lra. lra.
    - assert (t < 0) by nra. rewrite !Rabs_left in Hb by lra. lra. }
  rewrite (Hf _ It).
  change (MkB (Fin xc) (Fin (xc + t)) (Fin xk) (Fin fc) (Fin (g (xc + t))) (Fin fk) (Fin sp') (Fin sc'))
    with (finB xc (xc + t) xk fc (g (xc + t)) fk sp' sc').
  assert (Ht0 : t <> 0) by (intros ->; lra).
  assert (Hfk : fk * fc < 0).
  { destruct (Rle_lt_or_eq_dec _ _ Hs) as [?|E5]; [assumption|]. apply Rmult_integral in E5. tauto. }
  assert (Hrest : Rabs (xk - (xc + t)) = w - Rabs t).
  { rewrite Ew. destruct (Rlt_or_le 0 (xk - xc)) as [Q|Q].
    - assert (0 < t) by nra. rewrite (Rabs_pos_eq t), (Rabs_pos_eq (xk - xc)) in * by lra. rewrite Rabs_pos_eq by lra. lra.
    - assert (t < 0) by nra. rewrite (Rabs_left t), (Rabs_left (xk - xc)) in * by lra. rewrite Rabs_left by lra. lra. }
  destruct (swap_steps xc (xc + t) xk fc (g (xc + t)) fk sp' sc' E0) as [Q1 Q2].
  assert (A1 : forall n, ((S n) / 2 <= S (n / 2))%nat) by (intros n; replace (S n) with (n + 1)%nat by lia; pose proof (Nat.div_mod n 2 ltac:(lia)); pose proof (Nat.div_mod (n + 1) 2 ltac:(lia)); pose proof (Nat.mod_upper_bound n 2 ltac:(lia)); pose proof (Nat.mod_upper_bound (n+1) 2 ltac:(lia)); lia).
  assert (D2 : forall n, (2 * n / 2)%nat = n) by (intros n; rewrite Nat.mul_comm; apply Nat.div_mul; lia).
  assert (D3 : forall n, ((2 * n + 1) / 2)%nat = n) by (intros n; pose proof (Nat.div_mod (2 * n + 1) 2 ltac:(lia)); pose proof (Nat.mod_upper_bound (2*n+1) 2 ltac:(lia)); lia).
  destruct (Rle_or_lt (fc * g (xc + t)) 0) as [P|P].
  - (* the sign changes: the bracket is the step *)
    rewrite Rlt_bool_false in Q1, Q2 by exact P. replace (xc + t - xc) with t in Q1, Q2 by ring.
    assert (Bt : Rabs t <= 2 ^ E * u).
    { destruct Hkind as [(_ & _ & ->)|(_ & _ & H2 & H3)].
      - rewrite Hw2. lra.
      - assert (Hmm : ((m + 1) / 2 <= S E)%nat) by (rewrite <- (D3 (S E)); apply Nat.div_le_mono; lia).
        pose proof (pow2_mono _ _ Hmm) as PM. destruct H3 as [->| ->]; [|lra].
        assert (2 ^ ((m + 1) / 2) * u <= 2 ^ S E * u) by (apply Rmult_le_compat_r; lra). rewrite PE in H. lra. }
    destruct (IH E (2 * E)%nat (i + 1)%Z (finB xc (xc + t) xk fc (g (xc + t)) fk sp' sc') (Fin (xc + t) :: tr) (Rabs t) t t) as (x & j & tr' & Ej & Hj);
      [| exact Bt | exact Q1 | exact Q2 | rewrite D3; exact Bt | rewrite D2; exact Bt | lia | lia |].
    + exists xc, (xc + t), xk, fc, (g (xc + t)), fk, sp', sc'. split; [reflexivity|].
      repeat split; try apply Ic; try apply It; try assumption; [lra|]. left. split; [exact P|]. f_equal. ring.
    + exists x, j, tr'. split; [exact Ej | lia].
  - rewrite Rlt_bool_true in Q1, Q2 by exact P.
    assert (He' : entry g xa xb (finB xc (xc + t) xk fc (g (xc + t)) fk sp' sc') (Rabs (xk - (xc + t)))).
    { exists xc, (xc + t), xk, fc, (g (xc + t)), fk, sp', sc'. split; [reflexivity|].
      repeat split; try apply Ic; try apply It; try assumption; [lra|]. right. repeat split; try assumption; try apply Ik.
      - assert (0 < fc * fc) by nra. nra.
      - replace (xc + t - xc) with t by ring. destruct (Rlt_or_le 0 (xk - xc)) as [Q|Q].
        + assert (0 < t) by nra. rewrite !Rabs_pos_eq in Hb by lra. nra.
        + assert (t < 0) by nra. rewrite !Rabs_left in Hb by lra. nra. }
    destruct Hkind as [(-> & -> & ->)|(-> & H1 & H2 & H3)].
    + (* bisection *)
      destruct (IH E (2 * E)%nat (i + 1)%Z _ (Fin (xc + (xk - xc) / 2) :: tr) _ ((xk - xc) / 2) ((xk - xc) / 2) He') as (x & j & tr' & Ej & Hj);
        [rewrite Hrest, Hw2; lra | exact Q1 | exact Q2 | rewrite D3, Hw2; lra | rewrite D2, Hw2; lra | lia | lia |].
      exists x, j, tr'. split; [exact Ej | lia].
    + (* interpolation *)
      destruct m as [|m]; [exfalso; change (2 ^ ((0 + 1) / 2)) with 1 in Bp; lra|].
      pose proof (Rabs_pos t).
      destruct (IH (S E) m (i + 1)%Z _ (Fin (xc + t) :: tr) _ sc sc' He') as (x & j & tr' & Ej & Hj);
        [rewrite Hrest, PE; lra | exact Q1 | exact Q2 | replace (m + 1)%nat with (S m) by lia; exact Bc | | lia | lia |].
      * assert (EM : ((S m + 1) / 2 = S (m / 2))%nat) by (replace (S m + 1)%nat with (m + 1 * 2)%nat by lia; rewrite Nat.div_add by lia; lia).
        rewrite EM in Bp. change (2 ^ S (m / 2)) with (2 * 2 ^ (m / 2)) in Bp. lra.
      * exists x, j, tr'. split; [exact Ej | lia].
Qed.
End Log.

Lemma brent_log : forall npf (f : XR -> XR) g xa xb xtol rtol n maxiter,
  (forall x, xa <= x <= xb -> f (Fin x) = Fin (g x)) ->
  0 < xtol -> 0 <= rtol -> xa < xb -> g xa * g xb < 0 -> xb - xa <= 2 ^ n * (xtol / 2) -> (Z.of_nat ((n + 1) * (n + 1)) <= maxiter)%Z ->
  exists x calls iters tr,
    brentq npf f (Fin xa : XR) (Fin xb : XR) (Fin xtol : XR) (Fin rtol : XR) maxiter true = (Ok (BDict x calls iters true), tr) /\
    (1 <= iters <= Z.of_nat ((n + 1) * (n + 1)))%Z.
Proof.
  intros npf f g xa xb xtol rtol n maxiter Hf Hx Hr Hab Hs Hw Hm. unfold brentq. rewrite xleb_fin, Rle_bool_false by exact Hab.
  assert (Ia : xa <= xa <= xb) by lra. assert (Ib : xa <= xb <= xb) by lra.
  assert (E1 : g xa <> 0) by (intros E; rewrite E in Hs; lra). assert (E2 : g xb <> 0) by (intros E; rewrite E in Hs; lra).
  rewrite (Hf _ Ia), (Hf _ Ib), !xofZ_fin, !xeqb_fin, !Req_bool_false by assumption.
  rewrite sign_same by exact E1. rewrite Rlt_bool_false by lra.
  change (MkB (Fin xa) (Fin xb) (Fin 0) (Fin (g xa)) (Fin (g xb)) (Fin 0) (Fin 0) (Fin 0)) with (finB xa xb 0 (g xa) (g xb) 0 0 0).
  destruct (swap_steps xa xb 0 (g xa) (g xb) 0 0 0 E1) as [Q1 Q2]. rewrite Rlt_bool_false in Q1, Q2 by lra.
  assert (D2 : (2 * n / 2)%nat = n) by (rewrite Nat.mul_comm; apply Nat.div_mul; lia).
  assert (D3 : ((2 * n + 1) / 2)%nat = n) by (pose proof (Nat.div_mod (2 * n + 1) 2 ltac:(lia)); pose proof (Nat.mod_upper_bound (2*n+1) 2 ltac:(lia)); lia).
  assert (Hab' : Rabs (xb - xa) <= 2 ^ n * (xtol / 2)) by (rewrite Rabs_pos_eq; lra).
  destruct (log_loop f g xa xb xtol rtol npf Hf Hx Hr (Z.to_nat maxiter) n (2 * n)%nat 0 (finB xa xb 0 (g xa) (g xb) 0 0 0) [Fin xb; Fin xa] (xb - xa) (xb - xa) (xb - xa)) as (x & j & tr & E & Hj);
    [| lra | exact Q1 | exact Q2 | rewrite D3; exact Hab' | rewrite D2; exact Hab' | lia | lia |].
  - exists xa, xb, 0, (g xa), (g xb), 0, 0, 0. split; [reflexivity|]. repeat split; try lra; try assumption. left. split; [lra|]. rewrite Rabs_pos_eq; lra.
  - exists x, (j + 2)%Z, (j + 1)%Z, (rev tr). split; [|lia].
    exact (f_equal (fun p => let '(r, t) := p in (r, rev t)) E).
Qed.
