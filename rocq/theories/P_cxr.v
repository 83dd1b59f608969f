(** Splitting roots into conjugate pairs and reals ([cxr]). *)
From Coq Require Import Reals Lra Psatz Permutation Sorted.
From Coquelicot Require Import Complex.
From Flocq Require Import Core.Raux.
From Verif Require Import Num NpBase Lib XR M_butter Spec3 P_cx P_butter P_poly.
Local Open Scope R_scope.

(** ** Sorting *)
Lemma insert_by_map {A B} (f : A -> B) leb leb' x l : (forall a b, leb (f a) (f b) = leb' a b) ->
  insert_by leb (f x) (map f l) = map f (insert_by leb' x l).
Proof.
  intros H. induction l as [|y l IH]; cbn; [easy|]. rewrite H. destruct (leb' x y); cbn; [easy|].
  now rewrite IH.
Qed.
Lemma sort_by_map {A B} (f : A -> B) leb leb' l : (forall a b, leb (f a) (f b) = leb' a b) ->
  sort_by leb (map f l) = map f (sort_by leb' l).
Proof.
  intros H. unfold sort_by. induction l as [|y l IH]; cbn; [easy|]. rewrite IH. now apply insert_by_map.
Qed.

Lemma insert_by_sorted {A} (leb : A -> A -> bool) x l :
  (forall a b, leb a b = false -> leb b a = true) ->
  (forall a b c, leb a b = true -> leb b c = true -> leb a c = true) ->
  StronglySorted (fun a b => leb a b = true) l -> StronglySorted (fun a b => leb a b = true) (insert_by leb x l).
Proof.
  intros HT HR. induction 1 as [|y l Hl IH Hy]; cbn.
  - repeat constructor.
  - destruct (leb x y) eqn:E.
    + repeat constructor; auto. eapply Forall_impl; [|exact Hy]. cbn. intros a. now apply HR.
    + constructor; [exact IH|]. apply HT in E.
      apply Forall_forall. intros a Ha. apply (Permutation_in _ (insert_by_perm leb x l)) in Ha.
      destruct Ha as [<- |Ha]; [easy|]. rewrite Forall_forall in Hy. now apply Hy.
Qed.
Lemma sort_by_sorted {A} (leb : A -> A -> bool) l :
  (forall a b, leb a b = false -> leb b a = true) ->
  (forall a b c, leb a b = true -> leb b c = true -> leb a c = true) ->
  StronglySorted (fun a b => leb a b = true) (sort_by leb l).
Proof.
  intros HT HR. induction l as [|x l IH]; cbn; [constructor|]. now apply insert_by_sorted.
Qed.
Lemma sorted_filter {A} (R : A -> A -> Prop) p l : StronglySorted R l -> StronglySorted R (filter p l).
Proof.
  induction 1 as [|y l Hl IH Hy]; cbn; [constructor|]. destruct (p y); [|easy].
  constructor; [easy|]. apply Forall_forall. intros a Ha. apply filter_In in Ha as [Ha _].
  rewrite Forall_forall in Hy. now apply Hy.
Qed.
Lemma sorted_map {A B} (R : A -> A -> Prop) (S : B -> B -> Prop) f l :
  (forall a b, R a b -> S (f a) (f b)) -> StronglySorted R l -> StronglySorted S (map f l).
Proof.
  intros H. induction 1 as [|y l Hl IH Hy]; cbn; [constructor|]. constructor; [easy|].
  apply Forall_forall. intros b Hb. apply in_map_iff in Hb as [a [<- Ha]]. apply H.
  rewrite Forall_forall in Hy. now apply Hy.
Qed.
Lemma sorted_perm_eq {A} (R : A -> A -> Prop) l : forall l',
  (forall a b, In a l -> In b l -> R a b -> R b a -> a = b) ->
  StronglySorted R l -> StronglySorted R l' -> Permutation l l' -> l = l'.
Proof.
  induction l as [|x l IH]; intros l' HA S1 S2 HP.
  - now apply Permutation_nil in HP.
  - destruct l' as [|y l']; [now apply Permutation_sym, Permutation_nil in HP|].
    apply StronglySorted_inv in S1 as [S1 F1]. apply StronglySorted_inv in S2 as [S2 F2].
    rewrite Forall_forall in F1, F2.
    assert (E : x = y).
    { assert (Hx : In x (y :: l')) by (apply (Permutation_in _ HP); now left).
      assert (Hy : In y (x :: l)) by (apply (Permutation_in _ (Permutation_sym HP)); now left).
      destruct Hx as [<- |Hx]; [easy|]. destruct Hy as [<- |Hy]; [easy|].
      apply HA; [now left|now right|now apply F1|now apply F2]. }
    subst y. f_equal. apply IH; auto.
    + intros a b Ha Hb. apply HA; now right.
    + now apply Permutation_cons_inv in HP.
Qed.
Lemma filter_length_le' {A} (p : A -> bool) l : (length (filter p l) <= length l)%nat.
Proof. induction l as [|x l IH]; cbn; [easy|]. destruct (p x); cbn; lia. Qed.
Lemma filter_full {A} (p : A -> bool) l : length (filter p l) = length l -> filter p l = l.
Proof.
  induction l as [|x l IH]; cbn; [easy|]. destruct (p x); cbn; intros H.
  - f_equal. apply IH. lia.
  - pose proof (filter_length_le' p l). lia.
Qed.

(** ** The order used by [cxr] *)
Definition lexC (a b : C) : bool :=
  Rlt_bool (fst a) (fst b) || (Req_bool (fst a) (fst b) && Rle_bool (Rabs (snd a)) (Rabs (snd b))).
Lemma lexC_spec a b : lexC a b = true <-> fst a < fst b \/ (fst a = fst b /\ Rabs (snd a) <= Rabs (snd b)).
Proof.
  unfold lexC. destruct (Rlt_bool_spec (fst a) (fst b)), (Req_bool_spec (fst a) (fst b)),
    (Rle_bool_spec (Rabs (snd a)) (Rabs (snd b))); cbn; split; intros H'; try easy; auto; lra.
Qed.
Lemma lexC_total a b : lexC a b = false -> lexC b a = true.
Proof.
  intros H. apply lexC_spec. unfold lexC in H.
  destruct (Rlt_bool_spec (fst a) (fst b)), (Req_bool_spec (fst a) (fst b)),
    (Rle_bool_spec (Rabs (snd a)) (Rabs (snd b))); cbn in H; try easy; lra.
Qed.
Lemma lexC_trans a b c : lexC a b = true -> lexC b c = true -> lexC a c = true.
Proof. rewrite !lexC_spec. lra. Qed.
Lemma lexC_conj a b : lexC (Cconj a) (Cconj b) = lexC a b.
Proof. unfold lexC, Cconj. cbn [fst snd]. now rewrite !Rabs_Ropp. Qed.
Lemma lex_cf a b : @lex_re_absim XR (cf a) (cf b) = lexC a b.
Proof. reflexivity. Qed.

Definition lexI (a b : C) : bool := Rle_bool (Rabs (snd a)) (Rabs (snd b)).
Fixpoint schunks (lens : list nat) (l : list C) : list C :=
  match lens with
  | [] => l
  | k :: lens' => sort_by lexI (firstn k l) ++ schunks lens' (skipn k l)
  end.
Lemma sort_chunks_cf lens l : @sort_chunks XR lens (cfs l) = cfs (schunks lens l).
Proof.
  revert l. induction lens as [|k lens IH]; intros l; [easy|]. cbn [sort_chunks schunks].
  unfold cfs at 2. rewrite skipn_map. fold (cfs (skipn k l)). rewrite IH, cfs_app.
  f_equal. unfold cfs. rewrite firstn_map. now apply sort_by_map.
Qed.
Lemma schunks_perm lens l : Permutation (schunks lens l) l.
Proof.
  revert l. induction lens as [|k lens IH]; intros l; [easy|]. cbn [schunks].
  rewrite IH, sort_by_perm, firstn_skipn. easy.
Qed.
Lemma schunks_conj lens l : schunks lens (map Cconj l) = map Cconj (schunks lens l).
Proof.
  revert l. induction lens as [|k lens IH]; intros l; [easy|]. cbn [schunks].
  rewrite skipn_map, IH, map_app, firstn_map. f_equal. apply sort_by_map.
  intros a b. unfold lexI, Cconj. cbn [snd]. now rewrite !Rabs_Ropp.
Qed.

Lemma cxr_tol_fin : @cxr_tol XR = Fin (100 / 2 ^ 52).
Proof.
  assert (H : IZR 4503599627370496 <> 0) by lra.
  change (@cxr_tol XR) with (@nmul XR (Fin 100) (@ndiv XR (Fin 1) (Fin (IZR 4503599627370496)))).
  rewrite xdiv_ok by exact H. change (Fin (100 * (1 / 4503599627370496)) = Fin (100 / 2 ^ 52)).
  apply f_equal. replace (2 ^ 52) with 4503599627370496 by (cbn; lra). field.
Qed.

Definition realb (v : C) : bool := Req_bool (snd v) 0.
Definition ri (v : C) : bool := Rle_bool (Rabs (snd v)) (100 / 2 ^ 52 * Cmod v).
Definition posb (v : C) : bool := Rlt_bool 0 (snd v).
Definition negb' (v : C) : bool := Rlt_bool (snd v) 0.

Lemma ri_cf v : @nleb XR (@nabs XR (snd (cf v))) (@nmul XR cxr_tol (@cabs XR (cf v))) = ri v.
Proof. rewrite cxr_tol_fin, cabs_cf. reflexivity. Qed.

Lemma tol_pos : 0 < 100 / 2 ^ 52.
Proof. apply Rdiv_lt_0_compat; [lra|]. apply pow_lt. lra. Qed.

Lemma snap_ri v : snap v = if ri v then RtoC (fst v) else v.
Proof.
  unfold snap, ri. destruct (Rle_dec _ _) as [H|H].
  - now rewrite Rle_bool_true.
  - rewrite Rle_bool_false; [easy|lra].
Qed.
Lemma real_ri v : snd v = 0 -> ri v = true.
Proof.
  intros E. unfold ri. rewrite E, Rabs_R0. apply Rle_bool_true.
  apply Rmult_le_pos; [apply Rlt_le, tol_pos|apply Cmod_ge_0].
Qed.
Lemma Cmod_Cconj v : Cmod (Cconj v) = Cmod v.
Proof. unfold Cmod, Cconj. cbn [fst snd]. f_equal. ring. Qed.
Lemma ri_conj v : ri (Cconj v) = ri v.
Proof. unfold ri. rewrite Cmod_Cconj. unfold Cconj. cbn [snd]. now rewrite Rabs_Ropp. Qed.
Lemma snap_apart l : real_or_apart l -> map snap l = l.
Proof.
  intros H. rewrite <- (map_id l) at 2. apply map_ext_in. intros v Hv. unfold snap.
  destruct (Rle_dec _ _) as [H1|H1]; [|easy]. destruct (H v Hv) as [E|E]; [|lra].
  symmetry. now apply real_C.
Qed.

Lemma filter_perm {A} (p : A -> bool) l l' : Permutation l l' -> Permutation (filter p l) (filter p l').
Proof.
  induction 1; cbn; try easy.
  - destruct (p x); [now constructor|easy].
  - destruct (p x), (p y); try easy. constructor.
  - now rewrite IHPermutation1.
Qed.
Lemma filter_map_comm {A B} (f : A -> B) p l : filter p (map f l) = map f (filter (fun x => p (f x)) l).
Proof. induction l as [|x l IH]; cbn; [easy|]. destruct (p (f x)); cbn; now rewrite IH. Qed.

Lemma zipwith_map2 {A B1 B2 D} (f : B1 -> B2 -> D) (a : A -> B1) (b : A -> B2) l :
  zipwith f (map a l) (map b l) = map (fun v => f (a v) (b v)) l.
Proof. unfold zipwith. induction l as [|x l IH]; cbn; [easy|]. now rewrite IH. Qed.
Lemma existsb_none {A} (p : A -> bool) l : (forall x, In x l -> p x = false) -> existsb p l = false.
Proof.
  intros H. induction l as [|x l IH]; cbn; [easy|]. rewrite (H x (or_introl eq_refl)). apply IH.
  intros y Hy. apply H. now right.
Qed.

Lemma filter2_perm {A} (p : A -> bool) l : Permutation l (filter (fun x => negb (p x)) l ++ filter p l).
Proof.
  induction l as [|x l IH]; cbn; [constructor|]. destruct (p x); cbn.
  - rewrite <- Permutation_middle. now constructor.
  - now constructor.
Qed.
Lemma map_snap_ri l : map snap (filter ri l) = map (fun v => RtoC (fst v)) (filter ri l).
Proof. apply map_ext_in. intros v Hv. apply filter_In in Hv as [_ Hv]. now rewrite snap_ri, Hv. Qed.
Lemma map_snap_nri l : map snap (filter (fun v => negb (ri v)) l) = filter (fun v => negb (ri v)) l.
Proof.
  rewrite <- (map_id (filter _ l)) at 2. apply map_ext_in. intros v Hv. apply filter_In in Hv as [_ Hv].
  rewrite snap_ri. now destruct (ri v).
Qed.

Lemma cxr_ok l : conj_closed l ->
  exists xc xr, @cxr XR (cfs l) = Ok (cfs xc, cfs xr) /\
    (forall v, In v xc -> 0 < snd v) /\ (forall v, In v xr -> snd v = 0) /\
    Permutation (map snap l) (xc ++ map Cconj xc ++ xr).
Proof.
  intros HC. destruct l as [|v0 l0]; [exists [], []; cbn; auto using perm_nil; now repeat split|].
  set (l := v0 :: l0) in *. set (m := sort_by lexC l).
  assert (PM : Permutation m l) by apply sort_by_perm.
  assert (SM : sort_by (@lex_re_absim XR) (cfs l) = cfs m) by (apply sort_by_map; apply lex_cf).
  assert (SS : StronglySorted (fun a b => lexC a b = true) m)
    by (apply sort_by_sorted; [apply lexC_total|apply lexC_trans]).
  set (rs := map (fun v : C => RtoC (fst v)) (filter ri m)).
  assert (FR : map (fun v => @cre XR (@re XR v))
      (filter (fun v => @nleb XR (@nabs XR (snd v)) (@nmul XR cxr_tol (@cabs XR v))) (cfs m)) = cfs rs).
  { rewrite (filter_cfs _ ri) by apply ri_cf. unfold rs, cfs. rewrite !map_map. reflexivity. }
  assert (FN : filter (fun v => negb (@nleb XR (@nabs XR (snd v)) (@nmul XR cxr_tol (@cabs XR v)))) (cfs m)
               = cfs (filter (fun v => negb (ri v)) m)).
  { apply (filter_cfs _ (fun v => negb (ri v))). intros. now rewrite ri_cf. }
  assert (Hxr : forall v, In v rs -> snd v = 0).
  { intros v Hv. unfold rs in Hv. apply in_map_iff in Hv as [u [<- _]]. easy. }
  unfold cxr. unfold l at 1. cbn [cfs map]. fold (cfs l0). change (cf v0 :: cfs l0) with (cfs l).
  rewrite SM, FR. rewrite !cfs_length.
  assert (LR : length rs = length (filter ri m)) by apply map_length.
  rewrite LR.
  destruct (Nat.eqb_spec (length (filter ri m)) (length m)) as [E|E].
  { exists [], rs. repeat split; [easy|exact Hxr|]. cbn [map app]. unfold rs.
    rewrite <- map_snap_ri, (filter_full _ _ E). apply Permutation_map. now symmetry. }
  rewrite FN.
  rewrite (filter_cfs (fun v => @nltb XR (@nofZ XR 0) (snd v)) posb) by easy.
  rewrite (filter_cfs (fun v => @nltb XR (snd v) (@nofZ XR 0)) negb') by easy.
  set (c := filter (fun v => negb (ri v)) m).
  assert (Sc : StronglySorted (fun a b => lexC a b = true) c) by now apply sorted_filter.
  assert (Cc : Permutation (map Cconj c) c).
  { unfold c. replace (map Cconj (filter (fun v => negb (ri v)) m))
      with (filter (fun v => negb (ri v)) (map Cconj m)).
    - apply filter_perm. transitivity (map Cconj l); [now apply Permutation_map|].
      transitivity l; [exact HC|now symmetry].
    - rewrite filter_map_comm. f_equal. apply filter_ext. intros v. now rewrite ri_conj. }
  assert (Nc : forall v, In v c -> snd v <> 0).
  { intros v Hv Z. apply filter_In in Hv as [_ Hv]. now rewrite real_ri in Hv. }
  set (xp := filter posb c). set (xn := filter negb' c).
  assert (HPN : xn = map Cconj xp).
  { symmetry. unfold xp, xn. apply (sorted_perm_eq (fun a b => lexC a b = true)).
    - intros a b Ha Hb H1 H2. apply in_map_iff in Ha as [a' [<- Ha]]. apply in_map_iff in Hb as [b' [<- Hb]].
      apply filter_In in Ha as [_ Ha]. apply filter_In in Hb as [_ Hb]. unfold posb in *.
      rewrite lexC_conj in H1, H2. apply lexC_spec in H1. apply lexC_spec in H2.
      destruct (Rlt_bool_spec 0 (snd a')) as [Pa|]; [|easy].
      destruct (Rlt_bool_spec 0 (snd b')) as [Pb|]; [|easy].
      rewrite (Rabs_pos_eq (snd a')), (Rabs_pos_eq (snd b')) in * by lra.
      f_equal. apply C_eq; lra.
    - apply (sorted_map (fun a b => lexC a b = true)).
      + intros a b. now rewrite lexC_conj.
      + now apply sorted_filter.
    - now apply sorted_filter.
    - replace (map Cconj (filter posb c)) with (filter negb' (map Cconj c)).
      + now apply filter_perm.
      + rewrite filter_map_comm. f_equal. apply filter_ext. intros v. unfold negb', posb, Cconj. cbn [snd].
        destruct (Rlt_bool_spec (- snd v) 0), (Rlt_bool_spec 0 (snd v)); try easy; lra. }
  rewrite HPN. rewrite !cfs_length, map_length, Nat.eqb_refl. cbn [negb].
  set (lens := run_lengths cxr_tol (cfs xp)).
  rewrite !sort_chunks_cf, schunks_conj. set (q := schunks lens xp).
  assert (PQ : Permutation q xp) by apply schunks_perm.
  assert (Hq : forall v, In v q -> 0 < snd v).
  { intros v Hv. apply (Permutation_in _ PQ) in Hv. apply filter_In in Hv as [_ Hv].
    unfold posb in Hv. now destruct (Rlt_bool_spec 0 (snd v)). }
  unfold cfs at 1 2. rewrite map_map, zipwith_map2.
  rewrite existsb_none.
  - exists q, rs. repeat split; [|exact Hq|exact Hxr|].
    + do 2 f_equal. unfold cfs. rewrite map_map, zipwith_map2. apply map_ext. intros v.
      rewrite cconj_cf, cadd_cf, Cconj_conj. change (@cre XR (@nofZ XR 2)) with (cf (RtoC 2)).
      rewrite cdiv_cf by apply C2_nz. apply f_equal. apply C_eq; cbn; field.
    + transitivity (map snap m); [apply Permutation_map; now symmetry|].
      rewrite (filter2_perm ri m) at 1. rewrite map_app, map_snap_ri, map_snap_nri. fold c. fold rs.
      rewrite app_assoc. apply Permutation_app_tail.
      rewrite (filter3_perm posb negb' c) at 1.
      * fold xp xn. rewrite HPN.
        replace (filter (fun x => negb (posb x) && negb (negb' x)) c) with (@nil C).
        { rewrite app_nil_r. apply Permutation_app; [now symmetry|now apply Permutation_map; symmetry]. }
        symmetry. clear - Nc. induction c as [|v c IH]; [easy|]. cbn [filter].
        unfold posb at 1, negb' at 1. assert (snd v <> 0) by (apply Nc; now left).
        destruct (Rlt_bool_spec 0 (snd v)), (Rlt_bool_spec (snd v) 0); cbn [negb andb]; try lra;
          apply IH; intros u Hu; apply Nc; now right.
      * intros v. unfold posb, negb'. destruct (Rlt_bool_spec 0 (snd v)); [|easy]. intros _.
        apply Rlt_bool_false. lra.
  - intros b Hb. apply in_map_iff in Hb as [v [<- Hv]].
    rewrite cconj_cf, csub_cf, Cconj_conj, !cabs_cf, cxr_tol_fin.
    replace (v - v)%C with (RtoC 0) by ring. rewrite Cmod_0. cbn -[Cmod pow IZR].
    apply Rlt_bool_false. apply Rmult_le_pos; [apply Rlt_le, tol_pos|apply Cmod_ge_0].
Qed.
