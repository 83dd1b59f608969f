(** Final forms of the optimisation lemmas. *)
From Coq Require Import Reals Lra Psatz.
From Flocq Require Import Core.Raux.
From Verif Require Import XR Lib M_optimize P_brent P_fmin.
From Verif Require Export Spec2.
Local Open Scope R_scope.

Lemma loop_shape {N : Num} npf (f : N -> N) xtol rtol k : forall i s tr o tr',
  brent_loop npf f xtol rtol true k i s tr = (Ok o, tr') ->
  exists r n it c, o = BDict r n it c /\ (c = false -> length tr' = (length tr + k)%nat).
Proof.
  induction k as [|k IH]; intros i s tr o tr'; cbn [brent_loop].
  - intros E. injection E as <- <-. do 4 eexists. split; [reflexivity|]. intros _. rewrite Nat.add_0_r. reflexivity.
  - destruct (_ || _); [intros E; injection E as <- <-; do 4 eexists; split; [reflexivity | discriminate]|].
    destruct brent_choose as [[sp sc]|e]; [|discriminate]. intros E. apply IH in E.
    destruct E as (r & n & it & c & -> & H). exists r, n, it, c. split; [reflexivity|]. intros Hc. rewrite (H Hc). cbn. lia.
Qed.

Lemma brent_root npf (f : XR -> XR) g xa xb xtol rtol maxiter r calls iters tr :
  (forall x, xa <= x <= xb -> f (Fin x) = Fin (g x)) -> (forall x, xa <= x <= xb -> continuity_pt g x) ->
  0 <= xtol -> 0 <= rtol -> xa < xb -> g xa * g xb < 0 ->
  brentq npf f (Fin xa : XR) (Fin xb : XR) (Fin xtol : XR) (Fin rtol : XR) maxiter true = (Ok (BDict r calls iters true), tr) ->
  exists x z, r = Fin x /\ xa <= x <= xb /\ xa <= z <= xb /\ g z = 0 /\ Rabs (z - x) <= xtol + rtol * Rabs x.
Proof.
  intros Hf Hc Hx Hr Hab Hs E.
  destruct (brentq_root npf f g xa xb xtol rtol maxiter _ tr Hf Hc Hx Hr Hab ltac:(lra) E eq_refl) as (x & z & R1 & H).
  exists x, z. split; [|exact H]. cbn in R1. destruct r; try discriminate. injection R1 as ->. reflexivity.
Qed.

Lemma brent_total npf (f : XR -> XR) g xa xb xtol rtol maxiter :
  (forall x, xa <= x <= xb -> f (Fin x) = Fin (g x)) ->
  0 <= xtol -> 0 <= rtol -> xa < xb -> g xa * g xb < 0 ->
  exists x calls iters conv tr,
    brentq npf f (Fin xa : XR) (Fin xb : XR) (Fin xtol : XR) (Fin rtol : XR) maxiter true = (Ok (BDict (Fin x : XR) calls iters conv), tr) /\
    xa <= x <= xb /\ Forall (fun p => exists t, p = Fin t /\ xa <= t <= xb) tr /\
    (conv = true -> g x = 0 \/ exists y, xa <= y <= xb /\ g x * g y < 0 /\ Rabs (y - x) < xtol + rtol * Rabs x) /\
    ((0 <= maxiter)%Z -> 4 * (xb - xa) <= IZR maxiter * xtol -> conv = true).
Proof.
  intros Hf Hx Hr Hab Hs.
  destruct (brentq_run npf f g xa xb xtol rtol maxiter Hf Hx Hr Hab ltac:(lra)) as (o & tr & r & E & R1 & R2 & R3 & R4 & R5).
  assert (Ho : exists r' n it c, o = BDict r' n it c).
  { unfold brentq in E. rewrite xleb_fin, Rle_bool_false in E by exact Hab.
    rewrite (Hf xa), (Hf xb), !xofZ_fin, !xeqb_fin in E by lra.
    rewrite !Req_bool_false in E by nra. rewrite sign_same in E by nra. rewrite Rlt_bool_false in E by lra.
    destruct brent_loop as [r' tr'] eqn:EL. injection E as -> _.
    apply loop_shape in EL. destruct EL as (r1 & n & it & c & -> & _). exists r1, n, it, c. reflexivity. }
  destruct Ho as (r' & n & it & c & ->). cbn in R1. destruct r' as [x|?|]; try discriminate. injection R1 as ->.
  exists r, n, it, c, tr. split; [exact E|]. split; [exact R2|]. split; [exact R3|]. split; [exact R4 | exact R5].
Qed.

Lemma brent_endpoints {N : Num} npf (f : N -> N) xa xb xtol rtol maxiter full :
  nleb xb xa = false ->
  (neqb (f xa) (nofZ 0) = true ->
   brentq npf f xa xb xtol rtol maxiter full = (Ok (if full then BTuple xa 0 0 1 else BRoot xa), [xa; xb])) /\
  (neqb (f xa) (nofZ 0) = false -> neqb (f xb) (nofZ 0) = true ->
   brentq npf f xa xb xtol rtol maxiter full = (Ok (if full then BTuple xb 0 0 1 else BRoot xb), [xa; xb])).
Proof. intros H. unfold brentq. rewrite H. split; [intros -> | intros -> ->]; reflexivity. Qed.

Lemma brent_plain {N : Num} npf (f : N -> N) xa xb xtol rtol maxiter :
  snd (brentq npf f xa xb xtol rtol maxiter false) = snd (brentq npf f xa xb xtol rtol maxiter true) /\
  fst (brentq npf f xa xb xtol rtol maxiter false) =
  match fst (brentq npf f xa xb xtol rtol maxiter true) with
  | Ok (BRoot x) | Ok (BTuple x _ _ _) | Ok (BDict x _ _ _) => Ok (BRoot x)
  | Raise e => Raise e
  end.
Proof.
  rewrite brentq_brief. cbn [fst snd]. split; [reflexivity|].
  destruct (fst (brentq npf f xa xb xtol rtol maxiter true)) as [[x|x a b c|x a b c]|e]; reflexivity.
Qed.

Lemma brent_inside npf (f g : XR -> XR) xa xb xtol rtol maxiter full :
  (forall x, xa <= x <= xb -> exists y, f (Fin x) = Fin y) ->
  (forall x, xa <= x <= xb -> g (Fin x) = f (Fin x)) -> 0 <= xtol -> 0 <= rtol ->
  brentq npf g (Fin xa : XR) (Fin xb : XR) (Fin xtol : XR) (Fin rtol : XR) maxiter full =
  brentq npf f (Fin xa : XR) (Fin xb : XR) (Fin xtol : XR) (Fin rtol : XR) maxiter full /\
  Forall (fun p => exists t, p = Fin t /\ xa <= t <= xb)
    (snd (brentq npf f (Fin xa : XR) (Fin xb : XR) (Fin xtol : XR) (Fin rtol : XR) maxiter full)).
Proof.
  intros Hfin Hg Hx Hr.
  set (h := fun x => match (f (Fin x) : xr) with Fin y => y | _ => 0 end).
  assert (Hf : forall x, xa <= x <= xb -> f (Fin x) = Fin (h x)).
  { intros x Hxx. unfold h. destruct (Hfin x Hxx) as (y & E). rewrite E. reflexivity. }
  assert (HF : Forall (fun p => exists t, p = Fin t /\ xa <= t <= xb)
    (snd (brentq npf f (Fin xa : XR) (Fin xb : XR) (Fin xtol : XR) (Fin rtol : XR) maxiter full))).
  { assert (HT : Forall (fun p => exists t, p = Fin t /\ xa <= t <= xb)
      (snd (brentq npf f (Fin xa : XR) (Fin xb : XR) (Fin xtol : XR) (Fin rtol : XR) maxiter true))).
    { destruct (Rle_or_lt xb xa) as [H|H].
      - unfold brentq. rewrite xleb_fin, Rle_bool_true by exact H. constructor.
      - destruct (Rle_or_lt (h xa * h xb) 0) as [H2|H2].
        + destruct (brentq_run npf f h xa xb xtol rtol maxiter Hf Hx Hr H H2) as (o & tr & r & E & _ & _ & R & _).
          rewrite E. exact R.
        + unfold brentq. rewrite xleb_fin, Rle_bool_false by exact H.
          rewrite (Hf xa), (Hf xb), !xofZ_fin, !xeqb_fin by lra.
          rewrite !Req_bool_false by nra. rewrite sign_same by nra. rewrite Rlt_bool_true by exact H2.
          cbn [snd]. apply Forall_rev. repeat constructor; eexists; split; try reflexivity; lra. }
    destruct full; [exact HT|]. rewrite (proj1 (brent_plain npf f _ _ _ _ maxiter)). exact HT. }
  split; [|exact HF]. apply brentq_dep. intros p Hp. rewrite Forall_forall in HF. destruct (HF p Hp) as (t & -> & Ht).
  symmetry. apply Hg, Ht.
Qed.

Lemma brent_calls {N : Num} npf (f : N -> N) xa xb xtol rtol maxiter r calls iters conv tr :
  brentq npf f xa xb xtol rtol maxiter true = (Ok (BDict r calls iters conv), tr) ->
  if conv then calls = Z.of_nat (length tr) /\ iters = (calls - 1)%Z
  else (maxiter <= 0)%Z /\ length tr = 2%nat /\ calls = 2%Z /\ iters = 1%Z \/
       (0 < maxiter)%Z /\ Z.of_nat (length tr) = (maxiter + 2)%Z /\ calls = (Z.of_nat (length tr) - 1)%Z /\ iters = maxiter.
Proof.
  intros E. pose proof (brentq_calls npf f xa xb xtol rtol maxiter true _ _ E) as H. cbn [truthful] in H.
  destruct conv; [destruct H as [-> ->]; split; reflexivity|].
  assert (HL : length tr = (2 + Z.to_nat maxiter)%nat).
  { clear H. revert E. unfold brentq. destruct (nleb xb xa); [discriminate|].
    destruct (neqb (f xa) (nofZ 0)); [discriminate|]. destruct (neqb (f xb) (nofZ 0)); [discriminate|].
    destruct (neqb (nsign (f xa)) (nsign (f xb))); [discriminate|].
    destruct brent_loop as [r' tr'] eqn:EL. intros E. injection E as -> <-.
    apply loop_shape in EL. destruct EL as (r1 & n1 & i1 & c1 & E1 & H1). injection E1 as _ _ _ Ec. subst c1.
    rewrite rev_length, H1 by reflexivity. reflexivity. }
  unfold zlen in H. destruct (Z_le_gt_dec maxiter 0) as [Hm|Hm]; [left|right].
  - replace (Z.to_nat maxiter) with O in HL by lia. destruct H as [H|H]; lia.
  - destruct H as [H|H]; lia.
Qed.

(** Without iterations the right end is handed back, with no exception. *)
Lemma brent_no_iterations {N : Num} npf (f : N -> N) xa xb xtol rtol maxiter :
  (maxiter <= 0)%Z -> nleb xb xa = false -> neqb (f xa) (nofZ 0) = false -> neqb (f xb) (nofZ 0) = false ->
  neqb (nsign (f xa)) (nsign (f xb)) = false ->
  brentq npf f xa xb xtol rtol maxiter true = (Ok (BDict xb 2 1 false), [xa; xb]).
Proof.
  intros Hm H1 H2 H3 H4. unfold brentq. rewrite H1, H2, H3, H4.
  replace (Z.to_nat maxiter) with O by lia. reflexivity.
Qed.

Lemma brent_member {N : Num} npf (f : N -> N) xa xb xtol rtol maxiter full o tr :
  brentq npf f xa xb xtol rtol maxiter full = (Ok o, tr) ->
  In (match o with BRoot x | BTuple x _ _ _ | BDict x _ _ _ => x end) tr.
Proof. exact (brentq_member npf f xa xb xtol rtol maxiter full o tr). Qed.

Lemma fmin_value f g lo hi tol limit :
  (forall x, lo <= x <= hi -> f (Fin x) = Fin (g x)) -> 0 <= tol -> lo <= hi ->
  exists x v flag n tr,
    fminbound f (Fin lo : XR) (Fin hi : XR) (Fin tol : XR) limit true = Some (Ok (FTuple (Fin x : XR) (Fin v : XR) flag n), tr) /\
    lo <= x <= hi /\ Forall (fun p => exists t, p = Fin t /\ lo <= t <= hi /\ v <= g t) tr /\
    (exists best, In (Fin best) tr /\ v = g best) /\ (flag = 0 \/ flag = 1)%Z.
Proof.
  intros Hf Ht Hl. destruct (fminbound_run f g lo hi tol limit Hf Ht Hl) as (x & v & fl & n & tr & E & H1 & H2 & (best & H3 & H4 & _) & H5 & _).
  exists x, v, fl, n, tr. repeat (split; [assumption|]). split; [exists best; auto | exact H5].
Qed.

Lemma fmin_unimodal f g lo hi tol limit m :
  (forall x, lo <= x <= hi -> f (Fin x) = Fin (g x)) -> 0 < tol -> lo <= hi -> strictly_unimodal g lo hi m ->
  exists x v flag n tr best,
    fminbound f (Fin lo : XR) (Fin hi : XR) (Fin tol : XR) limit true = Some (Ok (FTuple (Fin x : XR) (Fin v : XR) flag n), tr) /\
    In (Fin best) tr /\ v = g best /\
    (flag = 0%Z -> Rabs (best - m) <= 2 * fmin_tol tol best /\ Rabs (x - m) <= 4 * fmin_tol tol best) /\
    (3 * (hi - lo) < tol * IZR (limit - 1) -> flag = 0%Z).
Proof.
  intros Hf Ht Hl Hm. destruct (fminbound_run f g lo hi tol limit Hf ltac:(lra) Hl) as (x & v & fl & n & tr & E & H1 & H2 & (best & H3 & H4 & H6) & H5 & H7).
  exists x, v, fl, n, tr, best. split; [exact E|]. split; [exact H3|]. split; [exact H4|]. split; [|exact H7].
  intros Hfl. exact (H6 Hfl Ht m Hm).
Qed.

Lemma fmin_converges f g lo hi tol limit :
  (forall x, lo <= x <= hi -> f (Fin x) = Fin (g x)) -> 0 < tol -> lo <= hi -> 3 * (hi - lo) < tol * IZR (limit - 1) ->
  exists x v n tr,
    fminbound f (Fin lo : XR) (Fin hi : XR) (Fin tol : XR) limit true = Some (Ok (FTuple (Fin x : XR) (Fin v : XR) 0 n), tr).
Proof.
  intros Hf Ht Hl Hlim. destruct (fminbound_run f g lo hi tol limit Hf ltac:(lra) Hl) as (x & v & fl & n & tr & E & _ & _ & _ & _ & H7).
  rewrite (H7 Hlim) in E. exists x, v, n, tr. exact E.
Qed.

(** A budget of one evaluation (or none) is exceeded by every target. *)
Lemma fmin_budget_refuted f g hi tol limit :
  (forall x, 0 <= x <= hi -> f (Fin x) = Fin (g x)) -> 0 < hi -> 0 <= tol <= hi / 2 -> (limit <= 1)%Z ->
  exists x v flag tr,
    fminbound f (Fin 0 : XR) (Fin hi : XR) (Fin tol : XR) limit true = Some (Ok (FTuple (Fin x : XR) (Fin v : XR) flag 2), tr) /\
    (limit < Z.of_nat (length tr))%Z.
Proof.
  intros Hf Hh Ht Hlim. destruct (first_step f g hi tol limit Hf Hh Ht ltac:(lia)) as (x0 & x1 & tr & _ & _ & _ & -> & E).
  eexists. eexists. eexists. eexists. split; [exact E|]. cbn. lia.
Qed.

(** For every strictly increasing target a budget of two evaluations gives back a point with another value. *)
Lemma fmin_pair_refuted f g hi tol :
  (forall x, 0 <= x <= hi -> f (Fin x) = Fin (g x)) -> 0 < hi -> 0 <= tol <= hi / 2 ->
  (forall x y, 0 <= x -> x < y -> y <= hi -> g x < g y) ->
  exists x v flag n tr,
    fminbound f (Fin 0 : XR) (Fin hi : XR) (Fin tol : XR) 2 true = Some (Ok (FTuple (Fin x : XR) (Fin v : XR) flag n), tr) /\
    v < g x.
Proof.
  intros Hf Hh Ht Hm. destruct (first_step f g hi tol 2 Hf Hh Ht ltac:(lia)) as (x0 & x1 & tr & P0 & P1 & P2 & _ & E).
  assert (L : g x0 < g x1) by (apply Hm; lra). rewrite Rle_bool_false in E by exact L.
  exists x1, (g x0), 1%Z, 2%Z, tr. split; [exact E | exact L].
Qed.
