(** Lemmas about np.nanmean and np.nanstd. *)
From Coq Require Import Reals Lra.
From Flocq Require Import Core.Raux.
From Verif Require Export P_sph Spec14.
Local Open Scope Z_scope.

Lemma valid_stored (l : list (option R)) : @valid_only XR (map stored l) = fins (present l).
Proof. induction l as [|[x|] l IH]; [reflexivity | |]; cbn [map stored present flat_map app]; unfold valid_only in *; cbn [filter nisnan XR negb]; [cbn [fins map]; f_equal|]; exact IH. Qed.
Lemma sum_stored (g : XR -> XR) (f : R -> R) (l : list (option R)) : (forall x, g (Fin x) = Fin (f x)) ->
  @nsum XR (map (fun v : XR => if nisnan v then nofZ 0 else g v) (map stored l)) = Fin (Rsum (map f (present l))).
Proof.
  intros Hg. assert (E : map (fun v : XR => if nisnan v then nofZ 0 else g v) (map stored l) = fins (map (fun o => match o with Some x => f x | None => 0%R end) l)).
  { unfold fins. rewrite !map_map. apply map_ext. intros [x|]; cbn [stored nisnan XR]; [apply Hg | reflexivity]. }
  rewrite E, xsum_fins. f_equal. clear E. induction l as [|[x|] l IH]; cbn [map present flat_map app Rsum fold_right]; [reflexivity | |].
  - fold (present l). cbn [map]. rewrite <- IH. reflexivity.
  - fold (present l). rewrite <- IH. cbn [Rsum fold_right]. unfold Rsum. cbn [fold_right]. ring.
Qed.
Lemma nan_moments : forall l : list (option R), present l <> [] ->
  @np_nanmean XR (map stored l) = Fin (rmean (present l)) /\ @np_nanstd XR (map stored l) = Fin (sqrt (rvar (present l))).
Proof.
  intros l H. assert (Hn : INR (length (present l)) <> 0%R) by (apply not_0_INR; destruct (present l); [contradiction | discriminate]).
  assert (Ez : zlen (@valid_only XR (map stored l)) = Z.of_nat (length (present l))) by (rewrite valid_stored; unfold zlen, fins; rewrite map_length; reflexivity).
  assert (Em : @np_nanmean XR (map stored l) = Fin (rmean (present l))).
  { unfold np_nanmean. rewrite (sum_stored (fun v => v) (fun v => v)) by reflexivity. rewrite map_id, Ez, xofZ_fin, <- INR_IZR_INZ, xdiv_fin by exact Hn. reflexivity. }
  split; [exact Em|]. unfold np_nanstd. rewrite Em.
  rewrite (sum_stored (fun v : XR => sq (nsub v (Fin (rmean (present l))))) (fun x => ((x - rmean (present l)) ^ 2)%R)) by (intros x; rewrite xsub_fin, sq_fin; reflexivity).
  rewrite Ez, xofZ_fin, <- INR_IZR_INZ, xdiv_fin by exact Hn.
  assert (ER : rvar (present l) = (Rsum (map (fun x => (x - rmean (present l)) ^ 2) (present l)) / INR (length (present l)))%R).
  { unfold rvar, rmoment. set (m := rmean (present l)). unfold rmean. rewrite map_length. reflexivity. }
  rewrite <- ER. apply xsqrt_fin, rvar_nonneg, H.
Qed.
Lemma nan_moments_none : forall l : list (option R), present l = [] ->
  @np_nanmean XR (map stored l) = NaN /\ @np_nanstd XR (map stored l) = NaN.
Proof.
  intros l H. assert (Ez : zlen (@valid_only XR (map stored l)) = 0) by (rewrite valid_stored, H; reflexivity).
  assert (E0 : forall g : XR -> XR, @nsum XR (map (fun v : XR => if nisnan v then nofZ 0 else g v) (map stored l)) = Fin 0).
  { intros g. assert (E : map (fun v : XR => if nisnan v then nofZ 0 else g v) (map stored l) = fins (repeat 0%R (length l))).
    { induction l as [|[x|] l IH]; cbn [present flat_map app] in H; [reflexivity | discriminate H |]. cbn [map stored nisnan XR length repeat fins]. f_equal. apply IH; [exact H|].
      rewrite valid_stored. unfold present. rewrite H. reflexivity. }
    rewrite E, xsum_fins. f_equal. clear. induction (length l) as [|n IH]; [reflexivity|]. cbn [repeat]. unfold Rsum in *. cbn [fold_right]. rewrite IH. ring. }
  assert (D : @ndiv XR (Fin 0) (nofZ 0) = NaN) by (cbn; rewrite Req_bool_true by reflexivity; reflexivity).
  split; [unfold np_nanmean; rewrite (E0 (fun v => v)), Ez; exact D|]. unfold np_nanstd. rewrite E0, Ez, D. reflexivity.
Qed.
