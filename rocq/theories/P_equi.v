(** The replacement functions under a change of unit and origin. *)
From Coq Require Import Reals Lra Lia.
From Flocq Require Import Core.Raux.
From Verif Require Export Lib XR M_series M_replacement Spec Spec18 LibR P_order P_moment P_series P_interp P_symm P_units.
Local Open Scope Z_scope.

Lemma foldM_nat {A B S} (f : A -> B) (I : list A -> Prop) (h : list A -> S -> res (list A)) (g : list B -> S -> res (list B)) xs :
  (forall s x, In x xs -> I s -> g (map f s) x = each f (h s x) /\ (forall s', h s x = Ok s' -> I s')) ->
  forall s, I s -> foldM g (map f s) xs = each f (foldM h s xs) /\ (forall s', foldM h s xs = Ok s' -> I s').
Proof.
  induction xs as [|x xs IH]; intros H s Hs; [split; [reflexivity|]; cbn; intros s' E; injection E as <-; exact Hs|].
  cbn [foldM]. destruct (H s x (or_introl eq_refl) Hs) as [E P]. rewrite E. destruct (h s x) as [s1|e]; cbn [bind each]; [|split; [reflexivity | discriminate]].
  apply IH; [intros s2 y Hy; apply H; right; exact Hy | apply P; reflexivity].
Qed.
Lemma zlen_map {A B} (f : A -> B) l : zlen (map f l) = zlen l. Proof. unfold zlen. rewrite map_length. reflexivity. Qed.
Lemma getz_nat {A B} (f : A -> B) (l : list A) i : getz (map f l) i = match getz l i with Ok x => Ok (f x) | Raise e => Raise e end.
Proof. unfold getz. rewrite zlen_map. destruct (pyidx (zlen l) i) as [k|]; [|reflexivity]. rewrite nth_error_map. destruct (nth_error l k); reflexivity. Qed.
Lemma upd_nat {A B} (f : A -> B) (l : list A) : forall k v, upd (map f l) k (f v) = map f (upd l k v).
Proof. induction l as [|x l IH]; intros [|k] v; cbn; [reflexivity | reflexivity | reflexivity | rewrite IH; reflexivity]. Qed.
Lemma setz_nat {A B} (f : A -> B) (l : list A) i v : setz (map f l) i (f v) = each f (setz l i v).
Proof. unfold setz. rewrite zlen_map. destruct (pyidx (zlen l) i); cbn; [rewrite upd_nat|]; reflexivity. Qed.
Lemma fancy_set_nat {A B} (f : A -> B) (l : list A) idx v : fancy_set (map f l) idx (f v) = each f (fancy_set l idx v).
Proof. apply (foldM_nat f (fun _ => True)); [|exact I]. intros s x _ _. split; [apply setz_nat | auto]. Qed.
Lemma fancy_get_nat {A B} (f : A -> B) (l : list A) idx : fancy_get (map f l) idx = each f (fancy_get l idx).
Proof.
  unfold fancy_get. induction idx as [|i idx IH]; [reflexivity|]. cbn [mapM]. rewrite getz_nat. destruct (getz l i) as [x|e]; cbn [bind each]; [|reflexivity].
  rewrite IH. destruct (mapM (getz l) idx); reflexivity.
Qed.
Lemma combine_map_r {A B C} (f : B -> C) (l : list A) m : combine l (map f m) = map (fun p => (fst p, f (snd p))) (combine l m).
Proof. revert m. induction l as [|x l IH]; intros [|y m]; cbn; [reflexivity | reflexivity | reflexivity | rewrite IH; reflexivity]. Qed.
Lemma fancy_set_many_nat {A B} (f : A -> B) (l : list A) idx vs : fancy_set_many (map f l) idx (map f vs) = each f (fancy_set_many l idx vs).
Proof.
  unfold fancy_set_many. rewrite combine_map_r. generalize (combine idx vs). intros c. revert l. induction c as [|[i v] c IH]; intros l; [reflexivity|].
  cbn [map foldM fst snd]. rewrite setz_nat. destruct (setz l i v); cbn [bind each]; [apply IH | reflexivity].
Qed.

(** last_valid_data only moves samples: it commutes with every function. *)
Theorem last_valid_natural (N M : Num) (f : N -> M) (v : list N) (idx : list Z) :
  last_valid_data (map f v) idx = each f (last_valid_data v idx).
Proof.
  apply (foldM_nat f (fun _ => True)); [|exact I]. intros s i _ _. split; [|auto]. rewrite getz_nat. destruct (getz s (i - 1)); cbn [bind]; [apply setz_nat | reflexivity].
Qed.

Section Affine.
Variables a b : R.
Local Notation f := (affine a b).
Local Notation h := (fun x : R => (a * x + b)%R).
Lemma affine_fins l : map f (fins l) = fins (map h l).
Proof. unfold fins. rewrite !map_map. reflexivity. Qed.

Lemma mean_value_affine (l : list R) idx : l <> [] ->
  @mean_value XR DFloat (fins (map h l)) idx = each f (@mean_value XR DFloat (fins l) idx).
Proof.
  intros Hl. unfold mean_value. rewrite !mean_of_ne by (apply fins_nil; try apply map_nil_iff; exact Hl). cbn [bind storable].
  rewrite !np_mean_fins by (try apply map_nil_iff; exact Hl). rewrite rmean_map_affine by exact Hl. rewrite <- affine_fins.
  change (Fin (a * rmean l + b)) with (f (Fin (rmean l))). apply (fancy_set_nat f).
Qed.

Lemma rmiddle_map s : s <> [] -> rmiddle (map h s) = h (rmiddle s).
Proof.
  intros Hs. unfold rmiddle. rewrite map_length. assert (L : (0 < length s)%nat) by (destruct s; [congruence | cbn; lia]).
  assert (K : forall k, (k < length s)%nat -> nth k (map h s) 0%R = h (nth k s 0%R)).
  { intros k Hk. apply (nth_map_in h s k 0%R 0%R Hk). }
  pose proof (Nat.div_lt (length s) 2 L ltac:(lia)). destruct (Nat.odd (length s)).
  - apply K. lia.
  - rewrite !K by lia. cbv beta. lra.
Qed.
Lemma rmiddle_rev s : s <> [] -> rmiddle (rev s) = rmiddle s.
Proof.
  intros Hs. unfold rmiddle. rewrite rev_length. assert (L : (0 < length s)%nat) by (destruct s; [congruence | cbn; lia]).
  pose proof (Nat.div_mod (length s) 2 ltac:(lia)) as D. pose proof (Nat.div_lt (length s) 2 L ltac:(lia)).
  destruct (Nat.odd (length s)) eqn:O.
  - apply Nat.odd_spec in O. destruct O as [k Hk]. assert (Q : (length s / 2 = k)%nat) by (rewrite Hk, Nat.add_comm, (Nat.mul_comm 2), Nat.div_add by lia; reflexivity).
    rewrite Q. rewrite rev_nth by lia. f_equal. lia.
  - assert (E : Nat.even (length s) = true) by (rewrite <- Nat.negb_odd, O; reflexivity). apply Nat.even_spec in E. destruct E as [k Hk].
    assert (Q : (length s / 2 = k)%nat) by (rewrite Hk, (Nat.mul_comm 2), Nat.div_mul by lia; reflexivity).
    rewrite Q. rewrite !rev_nth by lia. replace (length s - S (k - 1))%nat with k by lia. replace (length s - S k)%nat with (k - 1)%nat by lia. lra.
Qed.
Lemma sorted_map_inc s : (0 <= a)%R -> StronglySorted Rle s -> StronglySorted Rle (map h s).
Proof.
  intros Ha. induction 1 as [|x s Hs IH Hf]; cbn; constructor; [exact IH|]. rewrite Forall_forall in *. intros y Hy. apply in_map_iff in Hy.
  destruct Hy as (z & <- & Hz). specialize (Hf z Hz). apply Rplus_le_compat_r. apply Rmult_le_compat_l; assumption.
Qed.
Lemma sorted_snoc s x : StronglySorted Rle s -> (forall y, In y s -> (y <= x)%R) -> StronglySorted Rle (s ++ [x]).
Proof.
  intros H. induction H as [|y s Hs IH Hf]; intros Hx; cbn; [apply SSorted_cons; constructor|]. constructor.
  - apply IH. intros z Hz. apply Hx. right. exact Hz.
  - apply Forall_app. split; [exact Hf|]. apply Forall_cons; [apply Hx; left; reflexivity | apply Forall_nil].
Qed.
Lemma sorted_map_dec s : (a <= 0)%R -> StronglySorted Rle s -> StronglySorted Rle (rev (map h s)).
Proof.
  intros Ha. induction 1 as [|x s Hs IH Hf]; cbn; [constructor|]. apply sorted_snoc; [exact IH|]. rewrite Forall_forall in Hf.
  intros y Hy. rewrite <- in_rev in Hy. apply in_map_iff in Hy. destruct Hy as (z & <- & Hz). specialize (Hf z Hz). apply Rplus_le_compat_r. nra.
Qed.
Lemma median_affine (l : list R) m : l <> [] -> @desc_median XR (farr (fins l)) = Ok (Fin m) ->
  @desc_median XR (farr (fins (map h l))) = Ok (Fin (a * m + b)).
Proof.
  intros Hl E. pose proof (rsort_is_sorting l) as Hs. rewrite (median_correct l _ Hl Hs) in E. injection E as <-.
  assert (Ns : rsort l <> []) by (intros E; destruct Hs as [P _]; rewrite E in P; apply Permutation_sym, Permutation_nil in P; congruence).
  destruct Hs as [P S]. destruct (Rle_lt_dec 0 a) as [Ha|Ha].
  - rewrite (median_correct _ (map h (rsort l))); [|apply map_nil_iff; exact Hl | split; [apply Permutation_map; exact P | apply sorted_map_inc; assumption]].
    rewrite rmiddle_map by exact Ns. reflexivity.
  - rewrite (median_correct _ (rev (map h (rsort l)))); [|apply map_nil_iff; exact Hl |].
    + rewrite rmiddle_rev by (apply map_nil_iff; exact Ns). rewrite rmiddle_map by exact Ns. reflexivity.
    + split; [|apply sorted_map_dec; [lra | exact S]]. eapply Permutation_trans; [apply Permutation_map; exact P | apply Permutation_rev].
Qed.
Lemma median_value_affine (l : list R) idx : l <> [] ->
  @median_value XR DFloat (fins (map h l)) idx = each f (@median_value XR DFloat (fins l) idx).
Proof.
  intros Hl. unfold median_value. destruct (median_halves l Hl) as (m & E & _). rewrite E, (median_affine l m Hl E). cbn [bind storable].
  rewrite <- affine_fins. change (Fin (a * m + b)) with (f (Fin m)). apply (fancy_set_nat f).
Qed.

Lemma take_from_affine (l s : list R) idx :
  @take_from XR DFloat (fins (map h l)) (fins (map h s)) idx = each f (@take_from XR DFloat (fins l) (fins s) idx).
Proof.
  unfold take_from. rewrite <- !affine_fins. rewrite (fancy_get_nat f). destruct (fancy_get (fins s) idx) as [vs|e]; cbn [bind each]; [|reflexivity].
  change (map (store DFloat)) with (map (fun x : XR => x)). rewrite !map_id. apply (fancy_set_many_nat f).
Qed.
Lemma firstn_h k l : firstn k (map h l) = map h (firstn k l). Proof. apply firstn_map. Qed.
Lemma rwindow_map w l i : rwindow (map h l) w i = map h (rwindow l w i).
Proof. unfold rwindow. rewrite skipn_map, firstn_map. reflexivity. Qed.
Lemma sma_affine (l : list R) idx w : 0 < w <= zlen l ->
  @repl_sma XR DFloat (fins (map h l)) idx w = each f (@repl_sma XR DFloat (fins l) idx w).
Proof.
  intros Hw. unfold repl_sma. rewrite !moving_average_correct by (rewrite ?zlen_map; exact Hw). cbn [bind]. rewrite map_length.
  rewrite <- take_from_affine. do 2 f_equal. rewrite map_map. apply map_ext_in. intros i Hi. apply in_seq in Hi.
  rewrite rwindow_map. apply rmean_map_affine. apply rwindow_ne; lia.
Qed.
Lemma rema_affine al l i : (i < length l)%nat -> rema al (map h l) i = h (rema al l i).
Proof.
  induction i as [|i IH]; intros Hi; cbn [rema].
  - apply (nth_map_in h l 0 0%R 0%R Hi).
  - rewrite IH by lia. rewrite (nth_map_in h l (S i) 0%R 0%R Hi). cbv beta. ring.
Qed.
Lemma ema_affine (l : list R) idx al : (0 < al <= 1)%R -> l <> [] ->
  @repl_ema XR DFloat (fins (map h l)) idx (Fin al) = each f (@repl_ema XR DFloat (fins l) idx (Fin al)).
Proof.
  intros Ha Hl. unfold repl_ema. rewrite !ema_exact by (try apply map_nil_iff; assumption). cbn [bind]. rewrite map_length.
  rewrite <- take_from_affine. do 2 f_equal. rewrite map_map. apply map_ext_in. intros i Hi. apply in_seq in Hi. apply rema_affine. lia.
Qed.
Lemma rwmean_affine l : l <> [] -> rwmean (map h l) = h (rwmean l).
Proof.
  intros Hl. unfold rwmean. rewrite map_length. assert (HW : (0 < Rsum (map (fun j => INR (S j)) (seq 0 (length l))))%R).
  { apply Rsum_weights_pos. destruct l; [congruence | cbn; lia]. }
  rewrite (Rsum_ext _ (fun j => a * (INR (S j) * nth j l 0) + INR (S j) * b)%R).
  - rewrite Rsum_map_add, Rsum_map_scal, Rsum_map_scal_r. field. lra.
  - intros j Hj. apply in_seq in Hj. rewrite (nth_map_in h l j 0%R 0%R) by lia. cbv beta. ring.
Qed.
Lemma wma_affine (l : list R) idx p : 0 < p <= zlen l ->
  @repl_wma XR DFloat (fins (map h l)) idx p = each f (@repl_wma XR DFloat (fins l) idx p).
Proof.
  intros Hp. unfold repl_wma. rewrite !wma_exact by (rewrite ?zlen_map; lia). cbn [bind]. rewrite zlen_map, map_length.
  destruct (negb (p <? zlen l)); [reflexivity|]. rewrite <- take_from_affine. do 2 f_equal. rewrite map_map. apply map_ext_in. intros k Hk. apply in_seq in Hk.
  rewrite skipn_map, firstn_map. apply rwmean_affine. intros E. apply (f_equal (@length R)) in E. rewrite firstn_length, skipn_length in E. cbn [length] in E. unfold zlen in Hp. lia.
Qed.

(** Linear interpolation: everything but the final rounding. *)
Definition okv (x : XR) : Prop := x = NaN \/ exists r, x = Fin r.
Definition okl (m : list XR) : Prop := forall x, In x m -> okv x.
Lemma okl_getz m i x : okl m -> getz m i = Ok x -> okv x.
Proof.
  intros H. unfold getz. destruct (pyidx (zlen m) i) as [k|]; [|discriminate]. destruct (nth_error m k) eqn:E; [|discriminate]. intros F. injection F as <-.
  apply H. eapply nth_error_In. exact E.
Qed.
Lemma okl_upd m : forall k v, okl m -> okv v -> okl (upd m k v).
Proof.
  induction m as [|x m IH]; intros [|k] v H Hv y; cbn; try tauto.
  - intros [<-|Hy]; [exact Hv | apply H; right; exact Hy].
  - intros [<-|Hy]; [apply H; left; reflexivity | apply (IH k v); [intros z Hz; apply H; right; exact Hz | exact Hv | exact Hy]].
Qed.
Lemma okl_setz m i v m' : okl m -> okv v -> setz m i v = Ok m' -> okl m'.
Proof. intros H Hv. unfold setz. destruct (pyidx (zlen m) i); [|discriminate]. intros E. injection E as <-. apply okl_upd; assumption. Qed.
Lemma okl_fins l : okl (fins l).
Proof. intros x Hx. apply in_map_iff in Hx. destruct Hx as (r & <- & _). right. eexists. reflexivity. Qed.
Lemma slice_set_nat (l : list XR) lo hi v : @slice_set XR (map f l) lo hi (f v) = map f (@slice_set XR l lo hi v).
Proof.
  unfold slice_set. rewrite zlen_map, map_length, map_map. rewrite combine_map_r, map_map. apply map_ext. intros [k x]. cbn [fst snd].
  destruct (_ && _)%bool; reflexivity.
Qed.
Lemma slice_set_ok (l : list XR) lo hi v : okl l -> okv v -> okl (@slice_set XR l lo hi v).
Proof.
  intros H Hv y Hy. unfold slice_set in Hy. apply in_map_iff in Hy. destruct Hy as ([k x] & <- & Hx). cbn [fst snd]. apply in_combine_r in Hx.
  destruct (_ && _)%bool; [exact Hv | apply H; exact Hx].
Qed.
Lemma valid_only_fins l : @valid_only XR (fins l) = fins l.
Proof. induction l as [|x l IH]; [reflexivity|]. change (@valid_only XR (fins (x :: l))) with (Fin x :: @valid_only XR (fins l) : list XR). rewrite IH. reflexivity. Qed.
Lemma nan_f x : @nisnan XR (f x) = @nisnan XR x. Proof. destruct x; reflexivity. Qed.

Lemma li_run_affine (l : list R) (m : list XR) s e : l <> [] -> okl m ->
  @li_run XR (fins (map h l)) (map f m) s e = each f (@li_run XR (fins l) m s e) /\ (forall m', @li_run XR (fins l) m s e = Ok m' -> okl m').
Proof.
  intros Hl Hm. unfold li_run. rewrite !zlen_fins, zlen_map.
  assert (G : forall (c : bool) i, (if c then getz (map f m) i else Ok (nnan : XR)) = match (if c then getz m i else Ok (nnan : XR)) with Ok x => Ok (f x) | Raise ex => Raise ex end).
  { intros [|] i; [apply (getz_nat f) | reflexivity]. }
  rewrite !G.
  assert (K : forall (c : bool) i x, (if c then getz m i else Ok (nnan : XR)) = Ok x -> okv x).
  { intros [|] i x E; [apply (okl_getz _ _ _ Hm E) | injection E as <-; left; reflexivity]. }
  destruct (if s >? 0 then getz m (s - 1) else Ok nnan) as [vs|ex] eqn:Es; cbn [bind each]; [|split; [reflexivity | discriminate]].
  destruct (if e <? zlen l - 1 then getz m (e + 1) else Ok nnan) as [ve|ex] eqn:Ee; cbn [bind each]; [|split; [reflexivity | discriminate]].
  pose proof (K _ _ _ Es) as Os. pose proof (K _ _ _ Ee) as Oe. clear K G Es Ee.
  rewrite !nan_f. change (@nisnan XR) with (fun x : xr => match x with NaN => true | _ => false end).
  assert (NM : @mean_of XR (@valid_only XR (fins l)) = Ok (MVal (Fin (rmean l)))) by (rewrite valid_only_fins, mean_of_ne, np_mean_fins by (try apply fins_nil; exact Hl); reflexivity).
  assert (NM' : @mean_of XR (@valid_only XR (fins (map h l))) = Ok (MVal (f (Fin (rmean l))))).
  { rewrite valid_only_fins, mean_of_ne, np_mean_fins by (try apply fins_nil; apply map_nil_iff; exact Hl). rewrite rmean_map_affine by exact Hl. reflexivity. }
  assert (B2 : (let* mm := @mean_of XR (@valid_only XR (fins (map h l))) in let* v := storable DFloat mm in Ok (slice_set (map f m) s (e + 1) v)) =
    each f (let* mm := @mean_of XR (@valid_only XR (fins l)) in let* v := storable DFloat mm in Ok (slice_set m s (e + 1) v)) /\
    (forall m', (let* mm := @mean_of XR (@valid_only XR (fins l)) in let* v := storable DFloat mm in Ok (slice_set m s (e + 1) v)) = Ok m' -> okl m')).
  { rewrite NM, NM'. cbn [bind storable each]. split; [f_equal; apply slice_set_nat|]. intros m' E. injection E as <-. apply slice_set_ok; [exact Hm | right; eexists; reflexivity]. }
  destruct Oe as [-> | (ye & ->)]; [destruct Os as [-> | (ys & ->)]; exact B2|]. clear B2.
  destruct Os as [-> | (ys & ->)]; cbn [affine negb andb].
  - assert (NN : forall y, @np_nanmean XR [NaN; Fin y] = Fin y).
    { intros y. unfold np_nanmean, valid_only. cbn [map filter nisnan XR negb zlen length]. change [@nofZ XR 0; Fin y] with (fins [0; y]%R).
      rewrite xsum_fins. rewrite xofZ_fin. rewrite xdiv_fin by (cbn; lra). f_equal. cbn. lra. }
    change (@nnan XR) with NaN. rewrite !NN. split; [apply (f_equal (@Ok _)); apply (slice_set_nat m s (e + 1) (Fin ye))|].
    intros m' E. injection E as <-. apply slice_set_ok; [exact Hm | right; eexists; reflexivity].
  - set (st := @ndiv XR (nsub (Fin ye) (Fin ys)) (nofZ (e - s + 2))). set (st' := @ndiv XR (nsub (Fin (a * ye + b)) (Fin (a * ys + b))) (nofZ (e - s + 2))).
    apply (foldM_nat f okl); [|exact Hm]. intros m1 [k i] Hki Hm1. cbn [fst snd].
    assert (R : e - s + 2 <> 0).
    { intros Z0. apply in_combine_l in Hki. apply in_zrange in Hki. lia. }
    assert (E1 : st = Fin ((ye - ys) / IZR (e - s + 2))) by (unfold st; rewrite xofZ_fin, xsub_fin, xdiv_fin by (apply (IZR_neq _ 0); exact R); reflexivity).
    assert (E2 : st' = Fin ((a * ye + b - (a * ys + b)) / IZR (e - s + 2))) by (unfold st'; rewrite xofZ_fin, xsub_fin, xdiv_fin by (apply (IZR_neq _ 0); exact R); reflexivity).
    assert (V : @nadd XR (Fin ys) (nmul st (nofZ (k + 1))) = Fin (ys + (ye - ys) / IZR (e - s + 2) * IZR (k + 1))) by (rewrite E1, xofZ_fin, xmul_fin, xadd_fin; reflexivity).
    assert (V' : @nadd XR (Fin (a * ys + b)) (nmul st' (nofZ (k + 1))) = f (@nadd XR (Fin ys) (nmul st (nofZ (k + 1))))).
    { rewrite V, E2, xofZ_fin, xmul_fin, xadd_fin. cbn [affine]. f_equal. field. apply (IZR_neq _ 0). exact R. }
    rewrite V'. split; [apply setz_nat|]. intros m' E. rewrite V in E. eapply okl_setz; [exact Hm1 | | exact E]. right. eexists. reflexivity.
Qed.

(** Before its final rounding, linear interpolation commutes with the change of unit and origin. *)
Theorem li_affine (l : list R) idx : l <> [] -> exists raw : res (list XR), forall d,
  @linear_interpolation XR DFloat (fins l) idx d = each (fun x => around x d) raw /\
  @linear_interpolation XR DFloat (fins (map h l)) idx d = each (fun x => around (f x) d) raw.
Proof.
  intros Hl.
  set (raw := let* m := fancy_set (fins l) idx (nnan : XR) in
    let gaps := map (fun d => 1 <? d) (zdiff idx) in
    let* ss := mask_get idx (true :: gaps) in let* es := mask_get idx (gaps ++ [true]) in
    foldM (fun m se => @li_run XR (fins l) m (fst se) (snd se)) m (combine ss es)).
  exists raw. intros d. unfold linear_interpolation. rewrite <- affine_fins. change (nnan : XR) with (f (nnan : XR)) at 2. rewrite (fancy_set_nat f). unfold raw. clear raw.
  assert (OK : forall m, fancy_set (fins l) idx (nnan : XR) = Ok m -> okl m).
  { assert (Q : forall ix m0 m, okl m0 -> foldM (fun m1 i => setz m1 i (nnan : XR)) m0 ix = Ok m -> okl m).
    { induction ix as [|i ix IH]; intros m0 m H E; cbn [foldM] in E; [injection E as <-; exact H|].
      destruct (setz m0 i nnan) as [m1|] eqn:E1; cbn [bind] in E; [|discriminate]. apply (IH m1); [|exact E]. eapply okl_setz; [exact H | | exact E1]. left. reflexivity. }
    intros m E. apply (Q idx (fins l)); [apply okl_fins | exact E]. }
  destruct (fancy_set (fins l) idx (nnan : XR)) as [m|ex]; cbn [bind each]; [|split; reflexivity]. specialize (OK m eq_refl).
  destruct (mask_get idx _) as [ss|ex]; cbn [bind each]; [|split; reflexivity].
  destruct (mask_get idx _) as [es|ex]; cbn [bind each]; [|split; reflexivity].
  destruct (foldM_nat f okl (fun m se => @li_run XR (fins l) m (fst se) (snd se)) (fun m se => @li_run XR (map f (fins l)) m (fst se) (snd se)) (combine ss es)) with (s := m) as [E _].
  - intros m1 [s e] _ Hm1. cbn [fst snd]. rewrite affine_fins. apply li_run_affine; assumption.
  - exact OK.
  - rewrite E. destruct (foldM _ m (combine ss es)) as [q|ex]; cbn [bind each]; [|split; reflexivity]. split; [reflexivity|]. rewrite map_map. reflexivity.
Qed.
End Affine.

(** ** The rounding of linear interpolation *)
Lemma li_three x y z d : @linear_interpolation XR DFloat (fins [x; y; z]%R) [1%Z] d = Ok (fins [round_dec d x; round_dec d ((x + z) / 2); round_dec d z]%R).
Proof.
  unfold linear_interpolation. cbn -[around ndiv nmul nsub nadd nofZ Rplus Rmult Rinv Rminus Rdiv IZR]. unfold li_run. change (Pos.to_nat 1) with 1%nat.
  cbn -[around ndiv nmul nsub nadd nofZ Rplus Rmult Rinv Rminus Rdiv IZR]. change (Pos.to_nat 1) with 1%nat.
  cbn -[around ndiv nmul nsub nadd nofZ Rplus Rmult Rinv Rminus Rdiv IZR]. change (Pos.to_nat 2) with 2%nat.
  cbn -[around ndiv nmul nsub nadd nofZ Rplus Rmult Rinv Rminus Rdiv IZR]. 
  change (Pos.to_nat 1) with 1%nat. cbn -[around ndiv nmul nsub nadd nofZ Rplus Rmult Rinv Rminus Rdiv IZR]. 
  rewrite !xofZ_fin, xsub_fin, xdiv_fin, xmul_fin, xadd_fin by lra. rewrite !XR.around_fin. unfold fins. cbn [map]. do 4 f_equal. f_equal. lra.
Qed.
(** The mid point of 0 and 0.0001 is rounded to 0; in a unit ten times smaller the mid point of 0 and 0.001 is kept. *)
Theorem li_unit_refuted : exists (l : list R) (idx : list Z) r r',
  @linear_interpolation XR DFloat (fins l) idx 4 = Ok (fins r) /\
  @linear_interpolation XR DFloat (fins (map (fun x => 10 * x + 0)%R l)) idx 4 = Ok (fins r') /\
  nth 1 r 0%R = 0%R /\ (nth 1 r' 0 > 0)%R.
Proof.
  exists [0; 9; / 10000]%R, [1], [round_dec 4 0; round_dec 4 ((0 + / 10000) / 2); round_dec 4 (/ 10000)]%R,
    [round_dec 4 (10 * 0 + 0); round_dec 4 ((10 * 0 + 0 + (10 * / 10000 + 0)) / 2); round_dec 4 (10 * / 10000 + 0)]%R.
  split; [apply li_three|]. split; [apply li_three|]. cbn [nth]. split.
  - unfold round_dec. cbn [Z.leb Z.compare]. change (10 ^ 4) with 10000. rewrite ZnearestE_small; [unfold Rdiv; ring|]. rewrite Rabs_pos_eq; lra.
  - pose proof (round_dec_error 4 ((10 * 0 + 0 + (10 * / 10000 + 0)) / 2)%R ltac:(lia)) as E. change (10 ^ 4) with 10000 in E. apply Rabs_le_inv in E. lra.
Qed.
Theorem replacements_affine (a b : R) (l : list R) (idx : list Z) : l <> [] ->
  let u := fins l in let v := fins (map (fun x => a * x + b)%R l) in
  @mean_value XR DFloat v idx = each (affine a b) (@mean_value XR DFloat u idx) /\
  @median_value XR DFloat v idx = each (affine a b) (@median_value XR DFloat u idx) /\
  (forall w, 0 < w <= zlen l -> @repl_sma XR DFloat v idx w = each (affine a b) (@repl_sma XR DFloat u idx w)) /\
  (forall p, 0 < p <= zlen l -> @repl_wma XR DFloat v idx p = each (affine a b) (@repl_wma XR DFloat u idx p)) /\
  (forall al, (0 < al <= 1)%R -> @repl_ema XR DFloat v idx (Fin al) = each (affine a b) (@repl_ema XR DFloat u idx (Fin al))).
Proof.
  intros Hl. cbv zeta. split; [apply mean_value_affine, Hl|]. split; [apply median_value_affine, Hl|]. split; [intros w Hw; apply sma_affine, Hw|].
  split; [intros p Hp; apply wma_affine, Hp|]. intros al Ha. apply ema_affine; assumption.
Qed.
Theorem interpolation_affine (a b : R) (l : list R) (idx : list Z) : l <> [] -> exists raw : res (list XR), forall d,
  @linear_interpolation XR DFloat (fins l) idx d = each (fun x => around x d) raw /\
  @linear_interpolation XR DFloat (fins (map (fun x => a * x + b)%R l)) idx d = each (fun x => around (affine a b x) d) raw.
Proof. apply li_affine. Qed.
Lemma mean_value_example : @mean_value XR DFloat (fins [1; 2; 9]%R) [2%Z] = Ok (fins [1; 2; 4]%R).
Proof.
  unfold mean_value. rewrite mean_of_ne by discriminate. cbn [bind storable]. rewrite np_mean_fins by discriminate.
  replace (rmean [1; 2; 9]%R) with 4%R by (unfold rmean; cbn; lra). reflexivity.
Qed.
