(** brentq: scaling the target; binary64. *)
From Coq Require Import Reals Lra Psatz.
From Flocq Require Import Core.Raux.
From Verif Require Import XR Lib F64 Spec13 M_optimize P_detect P_brent.
Local Open Scope R_scope.

(** ** Scaling, exact arithmetic *)
Lemma rsgn_scale c a : c <> 0 -> rsgn (c * a) = rsgn c * rsgn a.
Proof.
  intros Hc. unfold rsgn. destruct (Rlt_bool_spec 0 c), (Rlt_bool_spec 0 a), (Rlt_bool_spec c 0), (Rlt_bool_spec a 0); try lra;
    (destruct (Rlt_bool_spec 0 (c * a)), (Rlt_bool_spec (c * a) 0)); try lra; nra.
Qed.
Lemma rsgn_nz c : c <> 0 -> rsgn c <> 0.
Proof. intros Hc. unfold rsgn. destruct (Rlt_bool_spec 0 c), (Rlt_bool_spec c 0); lra. Qed.
Lemma Req_bool_iff a b : Req_bool a b = true <-> a = b.
Proof. destruct (Req_bool_spec a b); split; congruence. Qed.
Lemma bool_iff (a b : bool) : (a = true <-> b = true) -> a = b.
Proof. destruct a, b; intros [H1 H2]; try reflexivity; [symmetry; apply H1; reflexivity | apply H2; reflexivity]. Qed.
Lemma same_sign_scale c a b : c <> 0 -> @neqb XR (nsign (Fin (c * a))) (nsign (Fin (c * b))) = @neqb XR (nsign (Fin a)) (nsign (Fin b)).
Proof.
  intros Hc. rewrite !nsign_fin, !xeqb_fin, !rsgn_scale by exact Hc. pose proof (rsgn_nz c Hc). apply bool_iff. rewrite !Req_bool_iff.
  split; [intros E; apply Rmult_eq_reg_l in E; assumption | congruence].
Qed.
Lemma abs_scale c a b : c <> 0 -> Rlt_bool (Rabs (c * a)) (Rabs (c * b)) = Rlt_bool (Rabs a) (Rabs b).
Proof.
  intros Hc. pose proof (Rabs_pos_lt c Hc). rewrite !Rabs_mult. apply bool_iff. rewrite !Rlt_bool_iff.
  split; intros E; [apply Rmult_lt_reg_l in E; assumption | apply Rmult_lt_compat_l; assumption].
Qed.
Lemma zero_scale c a : c <> 0 -> Req_bool (c * a) 0 = Req_bool a 0.
Proof.
  intros Hc. apply bool_iff. rewrite !Req_bool_iff. split; [intros H; apply Rmult_integral in H; tauto | intros ->; ring].
Qed.

Lemma pydiv_is npf a b t : @pydiv XR npf (Fin a) (Fin b) = Ok (Fin t : XR) -> b <> 0 /\ t = a / b.
Proof.
  intros H. destruct (Req_dec b 0) as [->|Hb].
  - exfalso. unfold pydiv in H. rewrite xofZ_fin, xeqb_fin, Req_bool_true in H by reflexivity. destruct npf; cbn [negb andb] in H; [|discriminate].
    injection H as H. assert (HX : xdiv (Fin a) (Fin 0) = Fin t) by exact H. unfold xdiv in HX. rewrite (Req_bool_true 0 0) in HX by reflexivity.
    destruct (Req_bool a 0); discriminate HX.
  - split; [exact Hb|]. rewrite pydiv_fin in H by exact Hb. injection H as <-. reflexivity.
Qed.
Lemma stry_scale npf c xp xc xk fp fc fk sp sc t : c <> 0 -> xp <> xc -> xk <> xc ->
  brent_stry npf (finB xp xc xk fp fc fk sp sc) = Ok (Fin t : XR) ->
  brent_stry npf (finB xp xc xk (c * fp) (c * fc) (c * fk) sp sc) = Ok (Fin t : XR).
Proof.
  intros Hc N1 N2. unfold brent_stry, finB. cbv beta iota zeta. rewrite xeqb_fin. destruct (Req_bool xp xk).
  - rewrite !xopp_fin, !xsub_fin, !xmul_fin. intros H. apply pydiv_is in H as [Hb ->].
    assert (c * fc - c * fp <> 0) by (intros E; apply Hb; apply (Rmult_eq_reg_l c); [lra | exact Hc]).
    rewrite pydiv_fin by assumption. do 2 f_equal. field. split; assumption.
  - rewrite !xopp_fin, !xsub_fin. assert (xp - xc <> 0) by lra. assert (xk - xc <> 0) by lra.
    rewrite !pydiv_fin by assumption. cbn [bind]. rewrite !xmul_fin, !xsub_fin, !xmul_fin. intros HD. apply pydiv_is in HD as [Hb ->].
    set (dp := (fp - fc) / (xp - xc)) in *. set (dk := (fk - fc) / (xk - xc)) in *.
    replace ((c * fp - c * fc) / (xp - xc)) with (c * dp) by (unfold dp; field; assumption).
    replace ((c * fk - c * fc) / (xk - xc)) with (c * dk) by (unfold dk; field; assumption).
    replace (c * dk * (c * dp) * (c * fk - c * fp)) with (c * c * c * (dk * dp * (fk - fp))) by ring.
    assert (c * c * c <> 0) by (repeat apply Rmult_integral_contrapositive_currified; assumption).
    rewrite pydiv_fin by (apply Rmult_integral_contrapositive_currified; assumption). do 2 f_equal.
    set (D := dk * dp * (fk - fp)) in *. field. split; assumption.
Qed.
Section Scale.
Variables (f h : XR -> XR) (g : R -> R) (c xa xb xtol rtol : R) (npf full : bool).
Hypothesis Hc : c <> 0.
Hypothesis Hf : forall x, xa <= x <= xb -> f (Fin x) = Fin (g x).
Hypothesis Hh : forall x, xa <= x <= xb -> h (Fin x) = Fin (c * g x).
Hypothesis Hxtol : 0 <= xtol.
Hypothesis Hrtol : 0 <= rtol.

Lemma swap_scale xp xc xk fp fc fk sp sc : exists xp' xc' xk' fp' fc' fk' sp' sc',
  brent_swap (finB xp xc xk fp fc fk sp sc) = finB xp' xc' xk' fp' fc' fk' sp' sc' /\
  brent_swap (finB xp xc xk (c * fp) (c * fc) (c * fk) sp sc) = finB xp' xc' xk' (c * fp') (c * fc') (c * fk') sp' sc'.
Proof.
  unfold brent_swap, finB. cbv beta iota zeta. rewrite same_sign_scale by exact Hc.
  destruct (neqb _ _); cbn [negb]; rewrite !xabs_fin, !xltb_fin, abs_scale by exact Hc; destruct (Rlt_bool _ _);
    rewrite ?xsub_fin; do 8 eexists; split; reflexivity.
Qed.
Lemma loop_scale k : forall i xp xc xk fp fc fk sp sc tr w, entry g xa xb (finB xp xc xk fp fc fk sp sc) w ->
  brent_loop npf h (Fin xtol : XR) (Fin rtol : XR) full k i (finB xp xc xk (c * fp) (c * fc) (c * fk) sp sc) tr =
  brent_loop npf f (Fin xtol : XR) (Fin rtol : XR) full k i (finB xp xc xk fp fc fk sp sc) tr.
Proof.
  induction k as [|k IH]; intros i xp0 xc0 xk0 fp0 fc0 fk0 sp0 sc0 tr w He; [reflexivity|]. cbn [brent_loop].
  apply swap_ready in He; [|assumption..].
  destruct (swap_scale xp0 xc0 xk0 fp0 fc0 fk0 sp0 sc0) as (xp & xc & xk & fp & fc & fk & sp & sc & E1 & E2).
  rewrite E1 in *. rewrite E2. clear E1 E2.
  destruct He as (xp1 & xc1 & xk1 & fp1 & fc1 & fk1 & sp1 & sc1 & E & Ic & Ik & Ec & Ek & Hs & Hk & Hx & Hw & Hd).
  unfold finB in E. injection E as <- <- <- <- <- <- <- <-.
  rewrite !(delta_fin xtol rtol), !sbis_fin. 
  assert (EF : forall p v q, neqb (b_fcur (finB xp xc xk p v q sp sc)) (@nofZ XR 0) = Req_bool v 0) by (intros p v q; cbn [finB b_fcur]; rewrite xofZ_fin, xeqb_fin; reflexivity).
  rewrite !EF. rewrite zero_scale by exact Hc.
  rewrite xabs_fin, xltb_fin. destruct (Req_bool_spec fc 0) as [E0|E0]; [reflexivity|]. cbn [orb].
  destruct (Rlt_bool_spec (Rabs ((xk - xc) / 2)) (rdelta xtol rtol xc)) as [L|L]; [reflexivity|].
  destruct (step_ok xtol rtol npf Hxtol Hrtol xp xc xk fp fc fk sp sc E0 Hs Hk Hx L Hd) as (sp' & sc' & t & Ech & Emv & Ht & Hb).
  assert (Ech' : brent_choose npf (Fin (rdelta xtol rtol xc) : XR) (Fin ((xk - xc) / 2) : XR) (finB xp xc xk (c * fp) (c * fc) (c * fk) sp sc) = Ok (Fin sp' : XR, Fin sc' : XR)).
  { rewrite <- Ech. unfold brent_choose. unfold finB at 1 2 3 5 6 7 8 9. cbn [b_spre b_fcur b_fpre b_scur].
    rewrite !xabs_fin, !xltb_fin, abs_scale by exact Hc.
    destruct (Rlt_bool (rdelta xtol rtol xc) (Rabs sp)); [|reflexivity].
    destruct (Rlt_bool_spec (Rabs fc) (Rabs fp)) as [La|La]; [|reflexivity]. cbn [andb].
    destruct (stry_ok npf xp xc xk fp fc fk sp sc E0 Hs Hk Hx La Hd) as (u & Eu & _).
    rewrite Eu. rewrite (stry_scale npf c xp xc xk fp fc fk sp sc u Hc); [reflexivity | | exact Hx | exact Eu].
    destruct Hd as [[-> _]|[Hd _]]; [exact Hx | intros ->; lra]. }
  rewrite Ech, Ech'. unfold finB. cbn [b_xcur b_xblk b_fblk b_fcur]. rewrite Emv.
  assert (It : xa <= xc + t <= xb).
  { unfold inside in *. destruct (Rlt_or_le 0 (xk - xc)) as [P|P].
    - assert (0 < t) by nra. rewrite !Rabs_pos_eq in Hb by lra. lra.
    - assert (t < 0) by nra. rewrite !Rabs_left in Hb by lra. lra. }
  rewrite (Hf _ It), (Hh _ It).
  assert (Ht0 : t <> 0) by (intros ->; lra).
  assert (Hfk : fk * fc < 0).
  { destruct (Rle_lt_or_eq_dec _ _ Hs) as [?|E]; [assumption|]. apply Rmult_integral in E. tauto. }
  destruct (Rle_or_lt (fc * g (xc + t)) 0) as [P|P].
  - apply (IH (i + 1)%Z xc (xc + t) xk fc (g (xc + t)) fk sp' sc' (Fin (xc + t) :: tr) (Rabs t)).
    exists xc, (xc + t), xk, fc, (g (xc + t)), fk, sp', sc'. split; [reflexivity|].
    repeat split; try apply Ic; try apply It; try assumption; [lra|]. left. split; [exact P|]. f_equal. ring.
  - apply (IH (i + 1)%Z xc (xc + t) xk fc (g (xc + t)) fk sp' sc' (Fin (xc + t) :: tr) (Rabs (xk - (xc + t)))).
    exists xc, (xc + t), xk, fc, (g (xc + t)), fk, sp', sc'. split; [reflexivity|].
    repeat split; try apply Ic; try apply It; try assumption; [lra|].
    right. repeat split; try assumption; try apply Ik.
    + assert (0 < fc * fc) by nra. nra.
    + replace (xc + t - xc) with t by ring. destruct (Rlt_or_le 0 (xk - xc)) as [Q|Q].
      * assert (0 < t) by nra. rewrite !Rabs_pos_eq in Hb by lra. nra.
      * assert (t < 0) by nra. rewrite !Rabs_left in Hb by lra. nra.
Qed.
End Scale.
Lemma brent_scale npf (f h : XR -> XR) g c xa xb xtol rtol maxiter full : c <> 0 ->
  (forall x, xa <= x <= xb -> f (Fin x) = Fin (g x)) -> (forall x, xa <= x <= xb -> h (Fin x) = Fin (c * g x)) ->
  0 <= xtol -> 0 <= rtol ->
  brentq npf h (Fin xa : XR) (Fin xb : XR) (Fin xtol : XR) (Fin rtol : XR) maxiter full =
  brentq npf f (Fin xa : XR) (Fin xb : XR) (Fin xtol : XR) (Fin rtol : XR) maxiter full.
Proof.
  intros Hc Hf Hh H1 H2. unfold brentq. rewrite xleb_fin. destruct (Rle_bool_spec xb xa) as [|Hab]; [reflexivity|].
  assert (Ia : xa <= xa <= xb) by lra. assert (Ib : xa <= xb <= xb) by lra.
  rewrite (Hf _ Ia), (Hf _ Ib), (Hh _ Ia), (Hh _ Ib), !xofZ_fin, !xeqb_fin, !zero_scale by exact Hc.
  destruct (Req_bool_spec (g xa) 0) as [E1|E1]; [reflexivity|]. destruct (Req_bool_spec (g xb) 0) as [E2|E2]; [reflexivity|].
  rewrite same_sign_scale by exact Hc. rewrite sign_same by exact E1. destruct (Rlt_bool_spec 0 (g xa * g xb)) as [Hs|Hs]; [reflexivity|].
  pose proof (loop_scale f h g c xa xb xtol rtol npf full Hc Hf Hh H1 H2 (Z.to_nat maxiter) 0 xa xb 0 (g xa) (g xb) 0 0 0 [Fin xb; Fin xa] (xb - xa)) as HL.
  unfold finB in HL. rewrite Rmult_0_r in HL. refine (_ (HL _)); [intros E; exact (f_equal (fun p => let '(r, t) := p in (r, rev t)) E)|].
  exists xa, xb, 0, (g xa), (g xb), 0, 0, 0. split; [reflexivity|].
  repeat split; try lra; try assumption. left. split; [exact Hs|]. rewrite Rabs_pos_eq; lra.
Qed.

(** Binary64: [2^-k (x^3 - 2)]; the same function up to a power of two. *)
Definition raised {A} (r : res A) (e : exn) : bool :=
  match r, e with Raise ZeroDivisionError, ZeroDivisionError => true | _, _ => false end.
Lemma brent_tiny (L : Libm) :
  fst (brentq false (cubic (half_pow 360 : F64 L)) (nofZ 0) (nofZ 2) (lit 148 10) (lit 148 10) 500 true) = Raise ZeroDivisionError /\
  (exists x tr, brentq false (cubic (half_pow 0 : F64 L)) (nofZ 0) (nofZ 2) (lit 148 10) (lit 148 10) 500 true = (Ok (BDict x 9 8 true), tr) /\
     nfloorZ (nmul x (nofZ 1000000000)) = 1259921049%Z).
Proof.
  split.
  - assert (H : raised (fst (brentq false (cubic (half_pow 360 : F64 L)) (nofZ 0) (nofZ 2) (lit 148 10) (lit 148 10) 500 true)) ZeroDivisionError = true) by (vm_compute; reflexivity).
    destruct (fst _) as [o|e]; [discriminate H|]. destruct e; try discriminate H. reflexivity.
  - assert (H : match brentq false (cubic (half_pow 0 : F64 L)) (nofZ 0) (nofZ 2) (lit 148 10) (lit 148 10) 500 true with
               | (Ok (BDict x c i true), tr) => (Z.eqb c 9 && Z.eqb i 8 && Z.eqb (nfloorZ (nmul x (nofZ 1000000000))) 1259921049)%bool | _ => false end = true) by (vm_compute; reflexivity).
    destruct (brentq _ _ _ _ _ _ _ _) as [[o|e] tr]; [|discriminate H]. destruct o as [x|x ? ? ?|x c i []]; try discriminate H.
    apply andb_prop in H as [H H3]. apply andb_prop in H as [H1 H2]. apply Z.eqb_eq in H1, H2, H3. subst. exists x, tr. split; [reflexivity | exact H3].
Qed.
