(** fminbound: changing the unit and the origin of the target. *)
From Coq Require Import Reals Lra Psatz.
From Flocq Require Import Core.Raux.
From Verif Require Export XR Lib F64 Spec24 M_optimize P_detect P_brent P_brent2 P_fmin P_optprops.
Local Open Scope R_scope.

Section Aff.
Variables (f h : XR -> XR) (g : R -> R) (c d lo hi tol : R).
Hypothesis Hc : 0 < c.
Hypothesis Hf : forall x, lo <= x <= hi -> f (Fin x) = Fin (g x).
Hypothesis Hh : forall x, lo <= x <= hi -> h (Fin x) = Fin (c * g x + d).
Hypothesis Htol : 0 <= tol.

Lemma lt_scale a b : Rlt_bool (c * a) (c * b) = Rlt_bool a b.
Proof.
  apply bool_iff. rewrite !Rlt_bool_iff. split; intros E; [apply (Rmult_lt_reg_l c); assumption | apply Rmult_lt_compat_l; assumption].
Qed.
Lemma le_aff a b : Rle_bool (c * a + d) (c * b + d) = Rle_bool a b.
Proof. destruct (Rle_bool_spec a b), (Rle_bool_spec (c * a + d) (c * b + d)); try reflexivity; exfalso; nra. Qed.
Lemma abs_c a : Rabs (c * a) = c * Rabs a.
Proof. rewrite Rabs_mult, (Rabs_pos_eq c) by lra. reflexivity. Qed.

Lemma choose_aff a b xm x xt st e xc xc' fc ft ft' fm fxt n n' :
  @choose_step XR (Fin tol) (finF a b xm x xt st e xc' (c * fc + d) ft' (c * fm + d) (c * fxt + d) n') =
  @choose_step XR (Fin tol) (finF a b xm x xt st e xc fc ft fm fxt n).
Proof.
  unfold choose_step, golden_step. rewrite !tol1_fin, !tol2_fin, !central_fin by exact Htol.
  unfold finF. cbn [f_left f_right f_xmid f_xopt f_xtmp f_step f_e f_fcur f_fmid f_fxtmp].
  destruct (nltb _ (nabs (Fin e))); [|reflexivity].
  rewrite !xsub_fin, !xmul_fin, !xsub_fin, !xofZ_fin, !xmul_fin, !xltb_fin, !xopp_fin.
  replace (c * fc + d - (c * fxt + d)) with (c * (fc - fxt)) by ring.
  replace (c * fc + d - (c * fm + d)) with (c * (fc - fm)) by ring.
  set (u := fc - fxt). set (v := fc - fm).
  replace (2 * ((x - xm) * (c * u) - (x - xt) * (c * v))) with (c * (2 * ((x - xm) * u - (x - xt) * v))) by ring.
  replace ((x - xm) * ((x - xm) * (c * u)) - (x - xt) * ((x - xt) * (c * v)))
    with (c * ((x - xm) * ((x - xm) * u) - (x - xt) * ((x - xt) * v))) by ring.
  set (q0 := 2 * ((x - xm) * u - (x - xt) * v)). set (p0 := (x - xm) * ((x - xm) * u) - (x - xt) * ((x - xt) * v)).
  replace (Rlt_bool 0 (c * q0)) with (Rlt_bool 0 q0) by (rewrite <- (lt_scale 0 q0), Rmult_0_r; reflexivity).
  match goal with |- (if nltb (nabs ?T) _ && _ then _ else _) = (if nltb (nabs ?U) _ && _ then _ else _) =>
    replace T with (Fin (c * (if Rlt_bool 0 q0 then - p0 else p0)) : XR)
      by (destruct (Rlt_bool 0 q0); [replace (c * - p0) with (- (c * p0)) by ring; reflexivity | reflexivity]);
    replace U with (Fin (if Rlt_bool 0 q0 then - p0 else p0) : XR) by (destruct (Rlt_bool 0 q0); reflexivity) end.
  set (p := if Rlt_bool 0 q0 then - p0 else p0). clearbody p.
  rewrite !xabs_fin, half_fin, !xmul_fin, !xabs_fin. rewrite !xltb_fin, !abs_c.
  set (q := Rabs q0).
  replace (5 / 10 * (c * q) * e) with (c * (5 / 10 * q * e)) by ring. rewrite abs_c, lt_scale.
  replace (c * q * (a - x)) with (c * (q * (a - x))) by ring.
  replace (c * q * (b - x)) with (c * (q * (b - x))) by ring. rewrite !lt_scale.
  destruct (Rlt_bool (Rabs p) _); [cbn [andb]|reflexivity].
  destruct (Rlt_bool_spec (q * (a - x)) p) as [L1|L1]; [cbn [andb]|reflexivity].
  destruct (Rlt_bool_spec p (q * (b - x))) as [L2|L2]; [cbn [andb]|reflexivity].
  assert (Hq0 : q <> 0) by (intros E; rewrite E in *; lra).
  assert (c * q <> 0) by (apply Rmult_integral_contrapositive_currified; lra).
  rewrite !xdiv_fin by assumption.
  replace (c * p / (c * q)) with (p / q) by (field; split; lra). reflexivity.
Qed.

Definition affX (v : XR) : XR := match (v : xr) with Fin r => Fin (c * r + d) : XR | o => o end.
Lemma update_aff a b xm x xt st e xc fc ft ft' fm fxt n e' st' x' fx :
  exists a' b' xm' x1 xt' fc' fm' fxt',
  @fmin_update XR (finF a b xm x xt st e xc fc ft fm fxt n) (Fin e') (Fin st') (Fin x') (Fin fx) =
    finF a' b' xm' x1 xt' st' e' x' fc' (Fin fx) fm' fxt' (n + 1) /\
  @fmin_update XR (finF a b xm x xt st e xc (c * fc + d) ft' (c * fm + d) (c * fxt + d) n) (Fin e') (Fin st') (Fin x') (Fin (c * fx + d)) =
    finF a' b' xm' x1 xt' st' e' x' (c * fc' + d) (Fin (c * fx + d)) (c * fm' + d) (c * fxt' + d) (n + 1).
Proof.
  unfold fmin_update, finF. cbv beta iota zeta. rewrite !xleb_fin, !xltb_fin, !xeqb_fin, !le_aff.
  destruct (Rle_bool fx fc).
  - destruct (Rle_bool x x'); do 8 eexists; split; reflexivity.
  - destruct (Rlt_bool x' x); (destruct (Rle_bool fx fxt || Req_bool xt x);
        [|destruct (Rle_bool fx fm || (Req_bool xm x || Req_bool xm xt))]);
      do 8 eexists; split; reflexivity.
Qed.

Lemma count_fin a b xm x xt st e xc fc ft fm fxt n : f_count (finF a b xm x xt st e xc fc ft fm fxt n) = n.
Proof. reflexivity. Qed.
(** The state of the run on [h] that corresponds to a state of the run on [f]. *)
Definition rel (s s' : fstate XR) : Prop :=
  exists a b xm x xt st e xc fc ft fm fxt n,
    s = finF a b xm x xt st e xc fc ft fm fxt n /\
    s' = finF a b xm x xt st e xc (c * fc + d) (affX ft) (c * fm + d) (c * fxt + d) n.

Lemma loop_aff limit fuel : forall s s' tr w, rel s s' -> inv g lo hi tol s tr w ->
  match fmin_loop f (Fin tol) limit fuel s tr with
  | None => fmin_loop h (Fin tol) limit fuel s' tr = None
  | Some (r, fl, tr') => exists r', rel r r' /\ fmin_loop h (Fin tol) limit fuel s' tr = Some (r', fl, tr')
  end.
Proof.
  induction fuel as [|fuel IH]; intros s s' tr w HR Hi.
  - destruct HR as (a & b & xm & x & xt & st & e & xc & fc & ft & fm & fxt & n & -> & ->).
    cbn [fmin_loop]. rewrite !guard_fin by exact Htol. destruct (Rlt_bool _ _); [reflexivity|].
    eexists. split; [|reflexivity]. do 13 eexists. split; reflexivity.
  - pose proof (loop_inv f g lo hi tol Hf Htol (f_count s + 1) 1 s tr w) as ST.
    destruct HR as (a & b & xm & x & xt & st & e & xc & fc & ft & fm & fxt & n & -> & ->).
    cbn [fmin_loop] in *. rewrite !guard_fin in * by exact Htol. destruct (Rlt_bool _ _) eqn:G.
    2:{ eexists. split; [|reflexivity]. do 13 eexists. split; reflexivity. }
    rewrite (choose_aff a b xm x xt st e xc xc fc ft (affX ft) fm fxt n n).
    assert (Hx : a <= x <= b /\ lo <= a /\ b <= hi).
    { destruct Hi as (a' & b' & xm' & x' & xt' & st' & e' & xc' & ft' & fm' & fxt' & n' & E & _ & H1 & H2 & H3 & _).
      unfold finF in E. injection E as -> -> _ -> _ _ _ _ _ _ _ _ _. auto. }
    apply Rlt_bool_iff in G as G'.
    destruct (choose_ok tol Htol a b xm x xt st e xc fc ft fm fxt n (proj1 Hx) G') as (e' & st' & Ec & L).
    rewrite Ec in *. rewrite !next_fin in * by exact Htol. fold (move tol x st') in *. set (x' := move tol x st') in *.
    pose proof (t1_nonneg tol Htol x) as Ht0. destruct L as [L1 L2].
    assert (Ix : lo <= x' <= hi) by lra. rewrite (Hf x' Ix) in *. rewrite (Hh x' Ix).
    destruct (update_aff a b xm x xt st e xc fc ft (affX ft) fm fxt n e' st' x' (g x'))
      as (a' & b' & xm' & x1 & xt' & fc' & fm' & fxt' & E1 & E2).
    rewrite E1 in *. rewrite E2.
    assert (NR : rel (finF a' b' xm' x1 xt' st' e' x' fc' (Fin (g x')) fm' fxt' (n + 1))
                     (finF a' b' xm' x1 xt' st' e' x' (c * fc' + d) (Fin (c * g x' + d)) (c * fm' + d) (c * fxt' + d) (n + 1))).
    { exists a', b', xm', x1, xt', st', e', x', fc', (Fin (g x') : XR), fm', fxt', (n + 1)%Z. split; reflexivity. }
    rewrite !count_fin in ST.
    rewrite Z.leb_refl in ST. destruct (ST _ _ _ Hi eq_refl) as (w' & I1 & _).
    rewrite !count_fin.
    destruct (limit <=? n + 1)%Z.
    + eexists. split; [exact NR|reflexivity].
    + exact (IH _ _ _ _ NR I1).
Qed.

Lemma optimize_aff limit : optimize_within_bounds h (Fin lo : XR) (Fin hi : XR) (Fin tol : XR) limit =
  match optimize_within_bounds f (Fin lo : XR) (Fin hi : XR) (Fin tol : XR) limit with
  | Some (Ok (x, v, fl, n), tr) => Some (Ok (x, affX v, fl, n), tr)
  | o => o
  end.
Proof.
  unfold optimize_within_bounds. cbn [nisfin XR andb negb]. rewrite xltb_fin.
  destruct (Rlt_bool_spec hi lo) as [H|H]; [reflexivity|].
  destruct (init_inv f g lo hi tol Hf H) as (w & _ & I0).
  assert (HR : rel (fmin_init f (Fin lo) (Fin hi)) (fmin_init h (Fin lo) (Fin hi))).
  { unfold fmin_init. rewrite gold_fin, xsub_fin, xmul_fin, xadd_fin, xofZ_fin. pose proof rgold_bounds as Hg.
    set (x := lo + rgold * (hi - lo)). assert (Hx : lo <= x <= hi) by (unfold x; nra).
    rewrite (Hf x Hx), (Hh x Hx).
    exists lo, hi, x, x, x, 0, 0, x, (g x), (Inf false : XR), (g x), (g x), 1%Z. split; reflexivity. }
  pose proof (loop_aff limit (Z.to_nat (Z.max limit 2)) _ _ _ _ HR I0) as HL.
  change [f_xcur (fmin_init h (Fin lo) (Fin hi))] with [f_xcur (fmin_init f (Fin lo) (Fin hi))].
  destruct (fmin_loop f _ _ _ _ _) as [[[r fl] tr]|]; [|rewrite HL; reflexivity].
  destruct HL as (r' & (a & b & xm & x & xt & st & e & xc & fc & ft & fm & fxt & n & -> & ->) & ->).
  unfold finF. cbn [f_xopt f_fcur f_ftmp f_xcur f_count]. cbn [nisnan XR orb affX].
  replace (match affX ft with NaN => true | _ => false end) with (match ft with NaN => true | _ => false end)
    by (destruct ft; reflexivity). reflexivity.
Qed.
End Aff.

Lemma fmin_affine (f h : XR -> XR) g c d lo hi tol limit : 0 < c ->
  (forall x, lo <= x <= hi -> f (Fin x) = Fin (g x)) -> (forall x, lo <= x <= hi -> h (Fin x) = Fin (c * g x + d)) ->
  0 <= tol ->
  (forall x v fl n tr, fminbound f (Fin lo : XR) (Fin hi : XR) (Fin tol : XR) limit true = Some (Ok (FTuple x (Fin v : XR) fl n), tr) ->
     fminbound h (Fin lo : XR) (Fin hi : XR) (Fin tol : XR) limit true = Some (Ok (FTuple x (Fin (c * v + d) : XR) fl n), tr)) /\
  fminbound h (Fin lo : XR) (Fin hi : XR) (Fin tol : XR) limit false = fminbound f (Fin lo : XR) (Fin hi : XR) (Fin tol : XR) limit false.
Proof.
  intros Hc Hf Hh Ht. unfold fminbound. rewrite (optimize_aff f h g c d lo hi tol Hc Hf Hh Ht limit).
  destruct optimize_within_bounds as [[[[[[x v] fl] n]|e] tr]|]; (split; [|reflexivity]); try discriminate.
  intros x0 v0 fl0 n0 tr0 E. injection E as -> -> -> -> ->. reflexivity.
Qed.

(** Binary64: the same parabola with a constant added. *)
Definition fmin_is {N : Num} (o : option (res (fmin_out (N:=N)) * list N)) (z n : Z) : bool :=
  match o with
  | Some (Ok (FTuple x _ fl k), _) => (Z.eqb (nfloorZ (nmul x (nofZ 1000000))) z && (Z.eqb fl 0 && Z.eqb k n))%bool
  | _ => false
  end.
Lemma fmin_is_ok {N : Num} (o : option (res (fmin_out (N:=N)) * list N)) z n : fmin_is o z n = true ->
  exists x v tr, o = Some (Ok (FTuple x v 0 n), tr) /\ nfloorZ (nmul x (nofZ 1000000)) = z.
Proof.
  destruct o as [[[[x|x v fl k]|e] tr]|]; try discriminate. cbn [fmin_is]. intros H.
  apply andb_prop in H as [H1 H]. apply andb_prop in H as [H2 H3]. apply Z.eqb_eq in H1, H2, H3. subst.
  exists x, v, tr. split; reflexivity.
Qed.
Lemma fmin_offset (L : Libm) :
  (exists x v tr, fminbound (@par (F64 L) 0) (nofZ (-1)) (nofZ 5) (lit 1 5) 500 true = Some (Ok (FTuple x v 0 6), tr) /\
     nfloorZ (nmul x (nofZ 1000000)) = 1999996%Z) /\
  (exists x v tr, fminbound (@par (F64 L) (2 ^ 60)) (nofZ (-1)) (nofZ 5) (lit 1 5) 500 true = Some (Ok (FTuple x v 0 29), tr) /\
     nfloorZ (nmul x (nofZ 1000000)) = 4999994%Z).
Proof. split; apply fmin_is_ok; vm_compute; reflexivity. Qed.
