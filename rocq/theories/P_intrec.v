(** Replacement in integer records: what is written is truncated towards zero. *)
From Coq Require Import Reals Lra Lia.
From Flocq Require Import Core.Raux.
From Verif Require Import LibR Spec Spec5 P_moment P_series P_order P_replacement.
Import ListNotations.
Local Open Scope Z_scope.

Lemma rtrunc_spec (x : R) : (Rabs (x - rtrunc x) < 1 /\ Rabs (rtrunc x) <= Rabs x /\ (exists z, rtrunc x = IZR z) /\ (forall z, rtrunc (IZR z) = IZR z) /\ 0 <= x * rtrunc x)%R.
Proof.
  unfold rtrunc. split; [|split; [|split; [|split]]].
  - unfold Ztrunc. destruct (Rlt_bool_spec x 0).
    + pose proof (Zceil_ub x). pose proof (Zceil_lb x). apply Rabs_lt. lra.
    + pose proof (Zfloor_lb x). pose proof (Zfloor_ub x). apply Rabs_lt. lra.
  - rewrite <- abs_IZR, <- Ztrunc_abs. apply Ztrunc_abs_le || (rewrite Ztrunc_floor by apply Rabs_pos; apply Zfloor_lb).
  - eauto.
  - intros z. rewrite Ztrunc_IZR. reflexivity.
  - unfold Ztrunc. destruct (Rlt_bool_spec x 0) as [H|H].
    + assert (IZR (Zceil x) <= 0)%R by (apply IZR_le; apply Zceil_glb; lra). nra.
    + assert (0 <= IZR (Zfloor x))%R by (apply IZR_le; apply Zfloor_lub; lra). nra.
Qed.

(** ** Mean and median *)
Lemma mean_value_int (l : list R) idx : l <> [] -> in_bounds (zlen l) idx ->
  exists r, @mean_value XR DInt (fins l) idx = Ok r /\ length r = length l /\
    forall k, (k < length l)%nat -> flagged (zlen l) idx k -> nth_error r k = Some (Fin (rtrunc (rmean l))).
Proof.
  intros Hl Hb. unfold mean_value. rewrite mean_of_ne by (apply fins_nil; exact Hl). cbn [bind storable].
  rewrite np_mean_fins by exact Hl. cbn [nisnan ntrunc XR].
  destruct (fancy_set_ok idx (Fin (rtrunc (rmean l)) : XR) (fins l)) as (r & E & HL & H).
  { rewrite zlen_fins. exact Hb. }
  exists r. rewrite fins_length, zlen_fins in *. split; [exact E|]. split; [exact HL|]. intros k Hk Hf.
  rewrite (nth_error_nth' r nnan) by lia. f_equal. apply H; assumption.
Qed.
Lemma median_value_int (l s : list R) idx : l <> [] -> is_sorting s l -> in_bounds (zlen l) idx ->
  exists r, @median_value XR DInt (fins l) idx = Ok r /\ length r = length l /\
    forall k, (k < length l)%nat -> flagged (zlen l) idx k -> nth_error r k = Some (Fin (rtrunc (rmiddle s))).
Proof.
  intros Hl Hs Hb. unfold median_value. rewrite (median_correct l s) by assumption. cbn [bind storable nisnan ntrunc XR].
  destruct (fancy_set_ok idx (Fin (rtrunc (rmiddle s)) : XR) (fins l)) as (r & E & HL & H).
  { rewrite zlen_fins. exact Hb. }
  exists r. rewrite fins_length, zlen_fins in *. split; [exact E|]. split; [exact HL|]. intros k Hk Hf.
  rewrite (nth_error_nth' r nnan) by lia. f_equal. apply H; assumption.
Qed.

(** ** Moving averages and SSA: the integer record gets the truncated float result *)
Lemma set_many_trunc (N : Num) (n : Z) : forall (xs : list (Z * N)) (seen : list Z) (m mf rf : list N), zlen mf = n ->
  truncated_at n seen m mf ->
  foldM (fun s ix => setz s (fst ix) (snd ix)) mf xs = Ok rf ->
  exists r, foldM (fun s ix => setz s (fst ix) (snd ix)) m (map (fun ix => (fst ix, ntrunc (snd ix))) xs) = Ok r /\
    truncated_at n (seen ++ map fst xs) r rf.
Proof.
  induction xs as [|[i x] xs IH]; intros seen m mf rf Hn [HL HT] E.
  - injection E as <-. exists m. split; [reflexivity|]. rewrite app_nil_r. split; assumption.
  - cbn [foldM map fst snd] in *. apply bind_ok in E. destruct E as (mf' & E1 & E2). apply setz_inv in E1. destruct E1 as (k & Hk & -> & _).
    assert (Hm : zlen m = zlen mf) by (unfold zlen; lia). unfold setz at 1. rewrite Hm, Hk. cbn [bind].
    pose proof (pyidx_addresses _ _ _ (zlen_nonneg mf) Hk) as [Had Hkl]. rewrite Hn in Had.
    destruct (IH (seen ++ [i]) (upd m k (ntrunc x)) (upd mf k x) rf) as (r & Er & Hr).
    + unfold zlen in *. rewrite upd_length. exact Hn.
    + split; [rewrite !upd_length; exact HL|]. rewrite upd_length. intros j d Hj. destruct (Nat.eq_dec j k) as [->|Hjk].
      * rewrite !nth_upd_same by lia. split; [reflexivity|]. intros Hf. exfalso. apply Hf. exists i. split; [apply in_or_app; right; left; reflexivity | exact Had].
      * rewrite !nth_upd_other by congruence. destruct (HT j d Hj) as [H1 H2]. split.
        -- intros (i' & Hi' & Ha'). apply in_app_or in Hi'. destruct Hi' as [Hi'|[<-|[]]]; [apply H1; exists i'; auto|].
           exfalso. apply Hjk. unfold addresses, zlen in *. lia.
        -- intros Hf. apply H2. intros (i' & Hi' & Ha'). apply Hf. exists i'. split; [apply in_or_app; left; exact Hi' | exact Ha'].
    + exact E2.
    + exists r. split; [exact Er|]. rewrite <- app_assoc in Hr. exact Hr.
Qed.
Lemma fancy_get_len {A} (a vs : list A) idx : fancy_get a idx = Ok vs -> length vs = length idx.
Proof.
  unfold fancy_get. revert vs. induction idx as [|i idx IH]; intros vs E; cbn [mapM] in E; [injection E as <-; reflexivity|].
  apply bind_ok in E. destruct E as (x & _ & E). apply bind_ok in E. destruct E as (y & Ey & E). injection E as <-. cbn. f_equal. apply IH. exact Ey.
Qed.
Lemma combine_map_snd {A B C} (f : B -> C) (l : list A) (m : list B) : combine l (map f m) = map (fun p => (fst p, f (snd p))) (combine l m).
Proof. revert m. induction l as [|x l IH]; intros [|y m]; try reflexivity. cbn. f_equal. apply IH. Qed.
Lemma map_fst_combine {A B} (l : list A) (m : list B) : length l = length m -> map fst (combine l m) = l.
Proof. revert m. induction l as [|x l IH]; intros [|y m] H; try discriminate; [reflexivity|]. cbn. f_equal. apply IH. injection H. auto. Qed.
Lemma take_from_int (N : Num) (v a rf : list N) idx : take_from DFloat v a idx = Ok rf ->
  exists r, take_from DInt v a idx = Ok r /\ truncated_at (zlen v) idx r rf.
Proof.
  unfold take_from. intros E. apply bind_ok in E. destruct E as (vs & E0 & E). pose proof (fancy_get_len _ _ _ E0) as Hlen. rewrite E0. cbn [bind]. unfold fancy_set_many in *.
  change (map (store DInt) vs) with (map ntrunc vs). rewrite combine_map_snd.
  assert (E' : map (store DFloat) vs = vs) by (cbn; apply map_id). rewrite E' in E.
  destruct (set_many_trunc N (zlen v) (combine idx vs) [] v v rf eq_refl) as (r & Er & Hr).
  - split; [reflexivity|]. intros k d Hk. split; [intros (j & [] & _) | reflexivity].
  - exact E.
  - exists r. split; [exact Er|]. rewrite map_fst_combine in Hr by congruence. exact Hr.
Qed.
Lemma averages_int (N : Num) (v rf : list N) idx :
  (forall w, repl_sma DFloat v idx w = Ok rf -> exists r, repl_sma DInt v idx w = Ok r /\ truncated_at (zlen v) idx r rf) /\
  (forall p, repl_wma DFloat v idx p = Ok rf -> exists r, repl_wma DInt v idx p = Ok r /\ truncated_at (zlen v) idx r rf) /\
  (forall eigh fs f, repl_ssa eigh DFloat v idx fs f = Ok rf -> exists r, repl_ssa eigh DInt v idx fs f = Ok r /\ truncated_at (zlen v) idx r rf).
Proof.
  split; [|split].
  - intros w. unfold repl_sma. intros E. apply bind_ok in E. destruct E as (a & -> & E). exact (take_from_int N v a rf idx E).
  - intros p. unfold repl_wma. intros E. apply bind_ok in E. destruct E as ([b a] & -> & E). cbn [bind]. destruct b; cbn [negb] in *; [|discriminate]. exact (take_from_int N v a rf idx E).
  - intros eigh fs f. unfold repl_ssa. intros E. apply bind_ok in E. destruct E as (a & -> & E). exact (take_from_int N v a rf idx E).
Qed.

(** ** Exponential average *)
Lemma rtrunc_idem x : rtrunc (rtrunc x) = rtrunc x.
Proof. unfold rtrunc. rewrite Ztrunc_IZR. reflexivity. Qed.
Lemma riema_int a l i : rtrunc (riema a l i) = riema a l i.
Proof. destruct i; apply rtrunc_idem. Qed.
Lemma ema_int (l : list R) (a : R) idx : (0 < a <= 1)%R -> l <> [] -> in_bounds (zlen l) idx ->
  exists r, @repl_ema XR DInt (fins l) idx (Fin a) = Ok r /\ length r = length l /\
    forall k, (k < length l)%nat -> flagged (zlen l) idx k -> nth_error r k = Some (Fin (riema a l k)).
Proof.
  intros Ha Hl Hb. unfold repl_ema.
  destruct (ema_recurrence XR DInt (fins l) (Fin a)) as (e & Ee & HL & H0 & HS).
  { rewrite !xofZ_fin, xleb_fin, xltb_fin. rewrite Rle_bool_false by lra. rewrite Rlt_bool_false by lra. reflexivity. }
  { apply fins_nil. exact Hl. }
  rewrite Ee. cbn [bind]. rewrite fins_length in HL, HS.
  assert (HE : forall k, (k < length l)%nat -> nth k e nnan = Fin (riema a l k)).
  { induction k as [|k IH]; intros Hk.
    - rewrite H0, nth_indep_fins by lia. reflexivity.
    - rewrite HS by lia. rewrite nth_indep_fins by lia. replace (S k - 1)%nat with k by lia. rewrite IH by lia.
      rewrite xofZ_fin, xsub_fin, !xmul_fin, xadd_fin. reflexivity. }
  destruct (take_from_ok XR DInt e idx (fins l)) as (r & E & HL' & H).
  { rewrite fins_length. exact HL. }
  { rewrite zlen_fins. exact Hb. }
  exists r. rewrite fins_length, zlen_fins in *. split; [exact E|]. split; [exact HL'|]. intros k Hk Hf.
  rewrite (nth_error_nth' r nnan) by lia. f_equal. rewrite (H k nnan Hk Hf), HE by exact Hk. cbn [store ntrunc XR]. f_equal. apply riema_int.
Qed.
(** The mean of the integers 1, 2 is not what is written. *)
Lemma mean_int_refuted : exists (zs : list Z) (idx : list Z) r,
  @mean_value XR DInt (fins (map IZR zs)) idx = Ok (fins r) /\ flagged (zlen zs) idx 0 /\ nth 0 r 0%R <> rmean (map IZR zs).
Proof.
  exists [1; 2]%Z, [0]%Z. destruct (mean_value_int (map IZR [1; 2]%Z) [0]) as (r & E & HL & H).
  { discriminate. } { intros i [<-|[]]. cbn. lia. }
  assert (K : keeps_unflagged (fins (map IZR [1; 2]%Z)) [0] r) by (eapply mean_value_keeps; exact E).
  assert (F0 : flagged (zlen [1; 2]%Z) [0] 0) by (exists 0; split; [left; reflexivity | left; reflexivity]).
  exists [rtrunc (rmean [1; 2]%R); 2%R]. split; [|split; [exact F0|]].
  - rewrite E. f_equal. destruct r as [|x [|y [|]]]; try discriminate. specialize (H O). cbn in H. injection (H (Nat.lt_0_2) F0) as ->.
    destruct K as [_ K]. specialize (K 1%nat). cbn in K. assert (Hy : Some y = Some (Fin 2 : XR)).
    { apply K; [lia|]. intros (i & [<-|[]] & [Hi|Hi]); cbn in Hi; lia. }
    injection Hy as ->. reflexivity.
  - cbn [nth map]. unfold rtrunc, rmean. cbn [Rsum fold_right length INR map]. replace (Ztrunc ((1 + (2 + 0)) / (1 + 1))) with 1%Z; [lra|].
    symmetry. rewrite Ztrunc_floor by lra. apply Zfloor_imp. split; cbn; lra.
Qed.
