(** Sorting, median and mode. *)
From Coq Require Import Reals Lra.
From Flocq Require Import Core.Raux.
From Verif Require Export P_descriptive.

Lemma filter_split_perm {A} (f : A -> bool) (l : list A) : Permutation l (filter (fun x => negb (f x)) l ++ filter f l).
Proof.
  induction l as [|x l IH]; cbn; [constructor|].
  destruct (f x); cbn; [apply Permutation_cons_app, IH | apply perm_skip, IH].
Qed.

Section Order.
Context {N : Num} (HO : ord_laws N).
Implicit Types l : list N.
Implicit Types x y z v w : N.

(** Total preorder with NaN as greatest element, the order of [np.sort]. *)
Definition lev (x y : N) : bool := nisnan y || nleb x y.

Lemma leb_refl (x : N) : nisnan x = false -> nleb x x = true.
Proof. intros H. destruct (ord_total N HO x x H H); assumption. Qed.
Lemma leb_not_nan (x y : N) : nleb x y = true -> nisnan x = false /\ nisnan y = false.
Proof.
  intros H. destruct (nisnan x) eqn:Ex; [rewrite (ord_nan_leb N HO) in H; [discriminate | auto]|].
  destruct (nisnan y) eqn:Ey; [rewrite (ord_nan_leb N HO) in H; [discriminate | auto]|]. auto.
Qed.
Lemma lev_refl x : lev x x = true.
Proof. unfold lev. destruct (nisnan x) eqn:E; [reflexivity|]. apply leb_refl, E. Qed.
Lemma lev_total x y : lev x y = true \/ lev y x = true.
Proof.
  unfold lev. destruct (nisnan x) eqn:Ex, (nisnan y) eqn:Ey; auto. cbn. apply (ord_total N HO); assumption.
Qed.
Lemma lev_trans x y z : lev x y = true -> lev y z = true -> lev x z = true.
Proof.
  unfold lev. destruct (nisnan z) eqn:Ez; [reflexivity|]. cbn. intros H1 H2.
  destruct (leb_not_nan _ _ H2) as [Ey _]. rewrite Ey in H1. cbn in H1. apply (ord_trans N HO) with y; assumption.
Qed.
Lemma same_val_lev x y : same_val x y = lev x y && lev y x.
Proof.
  unfold same_val, lev. rewrite (ord_eqb N HO).
  destruct (nisnan x) eqn:Ex, (nisnan y) eqn:Ey; cbn; rewrite ?orb_false_r, ?orb_true_r; auto.
  - rewrite (ord_nan_leb N HO x y) by auto. reflexivity.
  - rewrite (ord_nan_leb N HO x y) by auto. rewrite (ord_nan_leb N HO y x) by auto. reflexivity.
Qed.

Lemma insert_le_perm x l : Permutation (x :: l) (insert_le x l).
Proof.
  induction l as [|y l IH]; cbn; [apply Permutation_refl|].
  destruct (nleb x y); [apply Permutation_refl|].
  apply perm_trans with (y :: x :: l); [apply perm_swap | apply perm_skip, IH].
Qed.
Lemma isort_perm l : Permutation l (isort l).
Proof.
  induction l as [|x l IH]; cbn; [apply Permutation_refl|].
  apply perm_trans with (x :: isort l); [apply perm_skip, IH | apply insert_le_perm].
Qed.
Lemma insert_le_sorted x l : nisnan x = false -> (forall y, In y l -> nisnan y = false) ->
  StronglySorted (fun a b => nleb a b = true) l -> StronglySorted (fun a b => nleb a b = true) (insert_le x l).
Proof.
  intros Hx Hl H. induction H as [|y l H IH F]; cbn; [repeat constructor|].
  assert (Hy : nisnan y = false) by (apply Hl; left; reflexivity).
  destruct (nleb x y) eqn:E.
  - constructor; [constructor; assumption|]. constructor; [exact E|].
    eapply Forall_impl; [|exact F]. cbn. intros z Hz. apply (ord_trans N HO) with y; assumption.
  - constructor; [apply IH; intros z Hz; apply Hl; right; exact Hz|].
    apply Forall_forall. intros z Hz. apply (Permutation_in z (Permutation_sym (insert_le_perm x l))) in Hz.
    destruct Hz as [<-|Hz].
    + destruct (ord_total N HO x y Hx Hy) as [H'|H']; [congruence | exact H'].
    + rewrite Forall_forall in F. apply F, Hz.
Qed.
Lemma isort_sorted l : (forall y, In y l -> nisnan y = false) -> StronglySorted (fun a b => nleb a b = true) (isort l).
Proof.
  intros Hl. induction l as [|x l IH]; cbn; [constructor|].
  apply insert_le_sorted.
  - apply Hl. left. reflexivity.
  - intros y Hy. apply Hl. right. apply (Permutation_in y (Permutation_sym (isort_perm l))), Hy.
  - apply IH. intros y Hy. apply Hl. right. exact Hy.
Qed.
Lemma np_sort_perm l : Permutation l (np_sort l).
Proof.
  unfold np_sort. apply perm_trans with (filter (fun x => negb (nisnan x)) l ++ filter nisnan l).
  - apply filter_split_perm.
  - apply Permutation_app_tail, isort_perm.
Qed.
Lemma np_sort_nonan l : (forall y, In y l -> nisnan y = false) -> np_sort l = isort l.
Proof.
  intros H. unfold np_sort.
  assert (E1 : filter (fun x => negb (nisnan x)) l = l).
  { induction l as [|x l IH]; cbn; [reflexivity|]. rewrite (H x (or_introl eq_refl)). cbn. f_equal.
    apply IH. intros y Hy. apply H. right. exact Hy. }
  assert (E2 : filter nisnan l = []).
  { clear E1. induction l as [|x l IH]; cbn; [reflexivity|]. rewrite (H x (or_introl eq_refl)).
    apply IH. intros y Hy. apply H. right. exact Hy. }
  rewrite E1, E2, app_nil_r. reflexivity.
Qed.
Lemma np_sort_lev l : StronglySorted (fun a b => lev a b = true) (np_sort l).
Proof.
  unfold np_sort.
  assert (H1 : StronglySorted (fun a b => lev a b = true) (isort (filter (fun x => negb (nisnan x)) l))).
  { assert (Hn : forall y, In y (filter (fun x => negb (nisnan x)) l) -> nisnan y = false).
    { intros y Hy. apply filter_In in Hy. destruct Hy as [_ E]. apply negb_true_iff in E. exact E. }
    pose proof (isort_sorted _ Hn) as Hs. induction Hs as [|x s Hs IH F]; [constructor|].
    constructor; [exact IH|]. eapply Forall_impl; [|exact F]. cbn. intros z Hz. unfold lev. rewrite Hz. apply orb_true_r. }
  induction H1 as [|x s H1 IH F]; cbn.
  - assert (Hn : forall y, In y (filter nisnan l) -> nisnan y = true) by (intros y Hy; apply filter_In in Hy; tauto).
    induction (filter nisnan l) as [|y m IHm]; [constructor|]. constructor; [apply IHm; intros; apply Hn; right; assumption|].
    apply Forall_forall. intros z Hz. unfold lev. rewrite (Hn z) by (right; exact Hz). reflexivity.
  - constructor; [exact IH|]. apply Forall_app. split; [exact F|].
    apply Forall_forall. intros z Hz. apply filter_In in Hz. destruct Hz as [_ E]. unfold lev. rewrite E. reflexivity.
Qed.

(** ** mode *)

Lemma vcount_same v l : vcount v l = length (filter (same_val v) l).
Proof. reflexivity. Qed.
Lemma same_val_refl x : same_val x x = true.
Proof. rewrite same_val_lev, lev_refl. reflexivity. Qed.
Lemma same_val_sym x y : same_val x y = same_val y x.
Proof. rewrite !same_val_lev. apply andb_comm. Qed.
Lemma same_val_trans x y z : same_val x y = true -> same_val y z = true -> same_val x z = true.
Proof.
  rewrite !same_val_lev, !andb_true_iff. intros [H1 H2] [H3 H4].
  split; [apply lev_trans with y | apply lev_trans with y]; assumption.
Qed.
Lemma same_val_ext x y z : same_val x y = true -> same_val x z = same_val y z.
Proof.
  intros H. destruct (same_val y z) eqn:E.
  - apply same_val_trans with y; assumption.
  - destruct (same_val x z) eqn:E2; [|reflexivity]. rewrite same_val_sym in H.
    rewrite (same_val_trans y x z H E2) in E. discriminate.
Qed.
Lemma vcount_ext x y l : same_val x y = true -> vcount x l = vcount y l.
Proof. intros H. rewrite !vcount_same. f_equal. apply filter_ext. intros z. apply same_val_ext, H. Qed.
Lemma vcount_perm v l m : Permutation l m -> vcount v l = vcount v m.
Proof.
  intros H. rewrite !vcount_same. induction H; cbn; auto.
  - destruct (same_val v x); cbn; congruence.
  - destruct (same_val v x), (same_val v y); reflexivity.
  - congruence.
Qed.

Definition strict (p q : N * nat) : Prop := lev (fst p) (fst q) = true /\ same_val (fst p) (fst q) = false.

Lemma runs_head x l : exists k r, runs (x :: l) = (x, S k) :: r.
Proof.
  cbn. destruct (runs l) as [|[y k] r]; [exists O, []; reflexivity|].
  destruct (same_val x y); eexists; eexists; reflexivity.
Qed.
Lemma runs_spec l : StronglySorted (fun a b => lev a b = true) l ->
  StronglySorted strict (runs l) /\
  (forall v k, In (v, k) (runs l) -> In v l /\ k = vcount v l) /\
  (forall w, In w l -> exists v k, In (v, k) (runs l) /\ same_val v w = true).
Proof.
  intros H. induction H as [|x l H IH F].
  - split; [constructor|]. split; [intros v k []|intros w []].
  - destruct IH as (I1 & I2 & I3). cbn [runs].
    destruct (runs l) as [|[y k] r] eqn:Er.
    + destruct l as [|z l]; [|destruct (runs_head z l) as (k' & r' & E); congruence].
      split; [repeat constructor|]. split.
      * intros v k [E|[]]. injection E as <- <-. split; [left; reflexivity|]. rewrite !vcount_same. cbn.
        rewrite same_val_refl. reflexivity.
      * intros w [<-|[]]. exists x, 1%nat. split; [left; reflexivity | apply same_val_refl].
    + assert (Hy : In y l /\ k = vcount y l) by (apply I2; left; reflexivity). destruct Hy as [Hyl Hk].
      rewrite Forall_forall in F.
      destruct (same_val x y) eqn:E.
      * inversion I1 as [|? ? J1 J2]; subst. split; [|split].
        -- constructor; [exact J1|]. eapply Forall_impl; [|exact J2]. intros [v k'] [S1 S2]. cbn in *. split; cbn.
           ++ apply lev_trans with y; [apply F, Hyl | exact S1].
           ++ rewrite (same_val_ext x y v E). exact S2.
        -- intros v k' [Ev|Hv].
           ++ injection Ev as <- <-. split; [left; reflexivity|]. rewrite !vcount_same. cbn. rewrite same_val_refl. cbn.
              f_equal. symmetry. apply (vcount_ext x y l E).
           ++ destruct (I2 v k' (or_intror Hv)) as [V1 V2]. split; [right; exact V1|].
              rewrite !vcount_same. cbn. rewrite Forall_forall in J2. destruct (J2 _ Hv) as [S1 S2]. cbn in *.
              replace (same_val v x) with false; [exact V2|]. symmetry. rewrite same_val_sym, (same_val_ext x y v E). exact S2.
        -- intros w [<-|Hw]; [exists x, (S (vcount y l)); split; [left; reflexivity | apply same_val_refl]|].
           destruct (I3 w Hw) as (v & k' & [Ev|Hv] & Sv).
           ++ injection Ev as <- <-. exists x, (S (vcount y l)). split; [left; reflexivity|]. rewrite (same_val_ext x y w E). exact Sv.
           ++ exists v, k'. split; [right; exact Hv | exact Sv].
      * assert (Hlt : forall w, In w l -> same_val x w = false).
        { intros w Hw. destruct (same_val x w) eqn:Ew; [exfalso|reflexivity].
          destruct (I3 w Hw) as (v & k' & Hv & Sv).
          assert (Hyv : lev y v = true).
          { destruct Hv as [Ev|Hv]; [injection Ev as <- _; apply lev_refl|].
            inversion I1 as [|? ? J1 J2]; subst. rewrite Forall_forall in J2. destruct (J2 _ Hv) as [S1 _]. exact S1. }
          assert (Hvx : same_val v x = true) by (rewrite (same_val_sym v x); apply same_val_trans with w; [exact Ew | rewrite same_val_sym; exact Sv]).
          rewrite same_val_lev in Hvx. apply andb_true_iff in Hvx. destruct Hvx as [Hvx _].
          rewrite same_val_lev, (F y Hyl), (lev_trans y v x Hyv Hvx) in E. discriminate. }
        split; [|split].
        -- constructor; [exact I1|]. apply Forall_forall. intros [v k'] Hv. destruct (I2 v k' Hv) as [V1 V2].
           split; cbn; [apply F, V1 | apply Hlt, V1].
        -- intros v k' [Ev|Hv].
           ++ injection Ev as <- <-. split; [left; reflexivity|]. rewrite !vcount_same. cbn. rewrite same_val_refl. cbn. f_equal.
              assert (Ef : filter (same_val x) l = []).
              { clear - Hlt. induction l as [|z l IH]; cbn; [reflexivity|]. rewrite (Hlt z (or_introl eq_refl)).
                apply IH. intros w Hw. apply Hlt. right. exact Hw. }
              rewrite Ef. reflexivity.
           ++ destruct (I2 v k' Hv) as [V1 V2]. split; [right; exact V1|]. rewrite !vcount_same. cbn.
              rewrite same_val_sym, (Hlt v V1). exact V2.
        -- intros w [<-|Hw]; [exists x, 1%nat; split; [left; reflexivity | apply same_val_refl]|].
           destruct (I3 w Hw) as (v & k' & Hv & Sv). exists v, k'. split; [right; exact Hv | exact Sv].
Qed.

Lemma first_max_spec (p : N * nat) (l : list (N * nat)) : StronglySorted strict (p :: l) ->
  In (first_max p l) (p :: l) /\
  forall q, In q (p :: l) -> (snd q <= snd (first_max p l))%nat /\
    (snd q = snd (first_max p l) -> q = first_max p l \/ strict (first_max p l) q).
Proof.
  unfold first_max. revert p. induction l as [|q l IH]; intros p H; cbn [fold_left].
  - split; [left; reflexivity|]. intros q [<-|[]]. split; [lia | left; reflexivity].
  - inversion H as [|? ? H1 H2]; subst.
    destruct (Nat.ltb (snd p) (snd q)) eqn:E.
    + apply Nat.ltb_lt in E. destruct (IH q H1) as [J1 J2]. split; [right; exact J1|].
      intros r [<-|Hr]; [|apply J2, Hr].
      destruct (J2 q (or_introl eq_refl)) as [K1 _]. split; [lia|]. intros K. lia.
    + apply Nat.ltb_ge in E.
      assert (Hp : StronglySorted strict (p :: l)).
      { inversion H1; subst. constructor; [assumption|]. inversion H2; assumption. }
      destruct (IH p Hp) as [J1 J2]. split; [destruct J1 as [J1|J1]; [left; exact J1 | right; right; exact J1]|].
      intros r [Hr|[Hr|Hr]].
      * apply J2. left. exact Hr.
      * subst r. destruct (J2 p (or_introl eq_refl)) as [K1 K2]. split; [lia|]. intros K. right.
        destruct K2 as [K2|K2]; [lia| |].
        -- rewrite <- K2. rewrite Forall_forall in H2. apply H2. left. reflexivity.
        -- destruct (J1) as [J1'|J1'].
           ++ rewrite <- J1'. rewrite Forall_forall in H2. apply H2. left. reflexivity.
           ++ exfalso. destruct K2 as [S1 S2]. rewrite Forall_forall in H2. destruct (H2 _ (or_intror J1')) as [T1 T2].
              rewrite same_val_lev, S1, T1 in T2. discriminate.
      * apply J2. right. exact Hr.
Qed.

Lemma mode_correct (data : list N) : data <> [] ->
  exists v k, desc_mode data = Ok (v, k) /\ In v data /\ k = vcount v data /\
    forall w, In w data -> (vcount w data <= k)%nat /\
      (vcount w data = k -> nisnan w = true \/ nleb v w = true).
Proof.
  intros Hne. unfold desc_mode, np_unique_counts.
  destruct (runs_spec (np_sort data) (np_sort_lev data)) as (R1 & R2 & R3).
  pose proof (np_sort_perm data) as Hp.
  destruct (runs (np_sort data)) as [|p l] eqn:Er.
  - exfalso. destruct data as [|x data]; [congruence|].
    destruct (R3 x (Permutation_in x Hp (or_introl eq_refl))) as (v & k & [] & _).
  - destruct (first_max_spec p l R1) as [M1 M2].
    destruct (first_max p l) as [v k] eqn:Ef. exists v, k. split; [reflexivity|].
    destruct (R2 v k M1) as [V1 V2].
    split; [apply (Permutation_in v (Permutation_sym Hp)), V1|].
    split; [rewrite (vcount_perm v _ _ Hp); exact V2|].
    intros w Hw. destruct (R3 w (Permutation_in w Hp Hw)) as (u & j & Hu & Su).
    destruct (R2 u j Hu) as [U1 U2].
    assert (Ew : vcount w data = j).
    { rewrite (vcount_perm w _ _ Hp), U2. symmetry. apply vcount_ext, Su. }
    destruct (M2 _ Hu) as [K1 K2]. cbn in *. split; [lia|].
    intros E. rewrite Ew in E.
    assert (L : lev v w = true).
    { rewrite same_val_lev in Su. apply andb_true_iff in Su. destruct Su as [Su1 Su2].
      destruct (K2 E) as [K3|[K3 _]].
      - injection K3 as <- <-. exact Su1.
      - cbn in K3. apply lev_trans with u; assumption. }
    unfold lev in L. apply orb_true_iff in L. exact L.
Qed.
End Order.

(** ** median, exact reals *)
Local Open Scope R_scope.
Lemma fins_nonan (l : list R) (x : XR) : In x (fins l) -> nisnan x = false.
Proof. unfold fins. rewrite in_map_iff. intros (r & <- & _). reflexivity. Qed.
Lemma fins_length l : length (fins l) = length l.
Proof. apply map_length. Qed.

Lemma sorted_unique s t : StronglySorted Rle s -> StronglySorted Rle t -> Permutation s t -> s = t.
Proof.
  intros Hs. revert t. induction Hs as [|x s Hs IH F]; intros t Ht P.
  - apply Permutation_nil in P. auto.
  - destruct Ht as [|y t Ht G].
    + apply Permutation_sym, Permutation_nil in P. discriminate.
    + rewrite Forall_forall in F, G.
      assert (x = y).
      { apply Rle_antisym.
        - destruct (Permutation_in y (Permutation_sym P) (or_introl eq_refl)) as [->|H]; [lra | apply F, H].
        - destruct (Permutation_in x P (or_introl eq_refl)) as [->|H]; [lra | apply G, H]. }
      subst y. f_equal. apply IH; [exact Ht|]. apply Permutation_cons_inv in P. exact P.
Qed.

(** Sorting on the reals. *)
Fixpoint rinsert (x : R) (l : list R) : list R :=
  match l with [] => [x] | y :: l' => if Rle_bool x y then x :: l else y :: rinsert x l' end.
Definition rsort (l : list R) : list R := fold_right rinsert [] l.
Lemma isort_fins l : @isort XR (fins l) = fins (rsort l).
Proof.
  induction l as [|x l IH]; [reflexivity|].
  change (@isort XR (fins (x :: l))) with (@insert_le XR (Fin x) (@isort XR (fins l))).
  change (rsort (x :: l)) with (rinsert x (rsort l)). rewrite IH.
  generalize (rsort l). intros m. induction m as [|y m IHm]; cbn; [reflexivity|].
  destruct (Rle_bool x y); cbn; [reflexivity|]. f_equal. exact IHm.
Qed.
Lemma map_inj_perm {A B} (f : A -> B) l m : (forall x y, f x = f y -> x = y) -> Permutation (map f l) (map f m) -> Permutation l m.
Proof.
  intros Hf H. apply Permutation_map_inv in H. destruct H as (m' & E & P).
  assert (E' : l = m').
  { clear P. revert m' E. induction l as [|x l IH]; intros [|y m'] E; cbn in E; try discriminate; [reflexivity|].
    injection E as E1 E2. f_equal; auto. }
  rewrite E'. apply Permutation_sym, P.
Qed.
Lemma rsort_is_sorting l : is_sorting (rsort l) l.
Proof.
  assert (Hn : forall y, In y (fins l) -> @nisnan XR y = false) by apply fins_nonan.
  split.
  - apply (map_inj_perm Fin); [intros x y E; injection E; auto|].
    change (Permutation (fins l) (fins (rsort l))). rewrite <- isort_fins. apply isort_perm.
  - pose proof (isort_sorted XR_ord (fins l) Hn) as H. rewrite isort_fins in H.
    induction (rsort l) as [|x s IH]; [constructor|]. cbn in H. inversion H as [|? ? H1 H2]; subst.
    constructor; [apply IH, H1|]. apply Forall_forall. intros y Hy. rewrite Forall_forall in H2.
    specialize (H2 (Fin y) (in_map Fin s y Hy)). cbn in H2. destruct (Rle_bool_spec x y); [assumption | discriminate].
Qed.

Lemma skipn_nth_cons {A} (l : list A) k d : (k < length l)%nat -> skipn k l = nth k l d :: skipn (S k) l.
Proof. revert k. induction l as [|x l IH]; intros [|k] H; cbn in *; try lia; auto. apply IH. lia. Qed.
Lemma np_median_fins l : l <> [] -> @np_median XR (fins l) = Fin (rmiddle (rsort l)).
Proof.
  intros Hne. unfold np_median.
  rewrite (proj2 (existsb_nan_false (fins l))) by (apply fins_nonan).
  rewrite np_sort_nonan by apply fins_nonan. rewrite isort_fins, fins_length.
  assert (Hl : length (rsort l) = length l) by (symmetry; apply Permutation_length, (rsort_is_sorting l)).
  unfold rmiddle. rewrite Hl.
  assert (Hpos : (0 < length l)%nat) by (destruct l; [congruence | cbn; lia]).
  pose proof (Nat.div_lt (length l) 2 Hpos ltac:(lia)) as Hdiv.
  destruct (Nat.odd (length l)) eqn:Ho.
  - unfold fins. rewrite (skipn_nth_cons _ (length l / 2) (Fin 0)) by (rewrite map_length; lia).
    cbn [firstn]. unfold np_mean. change [nth (length l / 2) (map Fin (rsort l)) (Fin 0)] with (fins [0]) || idtac.
    rewrite (map_nth Fin (rsort l) 0). change [Fin (nth (length l / 2) (rsort l) 0)] with (fins [nth (length l / 2) (rsort l) 0]).
    rewrite xsum_fins, xofZ_fin, xdiv_fin; cbn; [f_equal; field|]; lra.
  - assert (He : Nat.even (length l) = true) by (rewrite <- Nat.negb_odd, Ho; reflexivity).
    apply Nat.even_spec in He. destruct He as (h & Eh).
    assert (E2 : (length l / 2 = h)%nat) by (rewrite Eh, Nat.mul_comm, Nat.div_mul; lia).
    rewrite E2. unfold fins. rewrite (skipn_nth_cons _ (h - 1) (Fin 0)) by (rewrite map_length; lia).
    rewrite (skipn_nth_cons _ (S (h - 1)) (Fin 0)) by (rewrite map_length; lia).
    cbn [firstn]. rewrite !(map_nth Fin (rsort l) 0). replace (S (h - 1)) with h by lia.
    unfold np_mean.
    change [Fin (nth (h - 1) (rsort l) 0); Fin (nth h (rsort l) 0)] with (fins [nth (h - 1) (rsort l) 0; nth h (rsort l) 0]).
    rewrite xsum_fins, xofZ_fin, xdiv_fin; cbn; [f_equal; field|]; lra.
Qed.

Lemma mapM_to_num_floats {N : Num} (l : list N) : mapM to_num (map PyFloat l) = Ok l.
Proof. rewrite <- (map_id l) at 2. apply mapM_map_ok. reflexivity. Qed.
Lemma farr_no_str {N : Num} (l : list N) : existsb is_str (nd_items (farr l)) = false.
Proof. cbn. induction l as [|x l IH]; cbn; auto. Qed.
Lemma desc_median_farr {N : Num} (l : list N) : l <> [] -> desc_median (farr l) = Ok (np_median l).
Proof.
  intros H. unfold desc_median. rewrite farr_no_str. destruct l as [|x l]; [congruence|].
  change (nd_items (farr (x :: l))) with (map PyFloat (x :: l)). rewrite mapM_to_num_floats. reflexivity.
Qed.
Lemma spread_variance_farr {N : Num} (l : list N) : l <> [] -> spread_variance (farr l) = Ok (np_var l).
Proof.
  intros H. unfold spread_variance. rewrite farr_no_str. destruct l as [|x l]; [congruence|].
  change (nd_items (farr (x :: l))) with (map PyFloat (x :: l)). rewrite mapM_to_num_floats. reflexivity.
Qed.
Lemma spread_std_farr {N : Num} (l : list N) : l <> [] -> spread_std (farr l) = Ok (np_std l).
Proof.
  intros H. unfold spread_std. rewrite farr_no_str. destruct l as [|x l]; [congruence|].
  change (nd_items (farr (x :: l))) with (map PyFloat (x :: l)). rewrite mapM_to_num_floats. reflexivity.
Qed.
Lemma fins_nil l : l <> [] -> fins l <> [].
Proof. destruct l; [congruence | discriminate]. Qed.
Lemma median_correct (l s : list R) : l <> [] -> is_sorting s l ->
  @desc_median XR (farr (fins l)) = Ok (Fin (rmiddle s)).
Proof.
  intros Hne [Hp Hs]. rewrite desc_median_farr by (apply fins_nil, Hne). rewrite np_median_fins by exact Hne.
  do 3 f_equal. destruct (rsort_is_sorting l) as [P2 S2].
  apply sorted_unique; [exact S2 | exact Hs |]. apply perm_trans with l; [apply Permutation_sym, P2 | exact Hp].
Qed.

(** The middle of a sorted list splits the samples in halves. *)
Lemma rcount_perm P l m : Permutation l m -> rcount P l = rcount P m.
Proof.
  intros H. unfold rcount. induction H; cbn; auto.
  - destruct (P x); cbn; congruence.
  - destruct (P x), (P y); reflexivity.
  - congruence.
Qed.
Lemma sorted_nth_le s i j : StronglySorted Rle s -> (i <= j)%nat -> (j < length s)%nat -> nth i s 0 <= nth j s 0.
Proof.
  intros H. revert i j. induction H as [|x s H IH F]; intros i j Hij Hj; cbn in Hj; [lia|].
  destruct i as [|i], j as [|j]; cbn; try lia; [lra| |].
  - rewrite Forall_forall in F. apply F, nth_In. lia.
  - apply IH; lia.
Qed.
Lemma rcount_firstn P s k : (k <= length s)%nat -> (forall i, (i < k)%nat -> P (nth i s 0) = true) -> (k <= rcount P s)%nat.
Proof.
  revert s. induction k as [|k IH]; intros s Hk H; [lia|]. destruct s as [|x s]; cbn in Hk; [lia|].
  unfold rcount. cbn. assert (E0 : P x = true) by (apply (H 0%nat); lia). rewrite E0. cbn. apply le_n_S, IH; [lia|]. intros i Hi. apply (H (S i)). lia.
Qed.
Lemma rcount_skipn P s k : (k <= length s)%nat -> (forall i, (k <= i < length s)%nat -> P (nth i s 0) = true) ->
  (length s - k <= rcount P s)%nat.
Proof.
  revert k. induction s as [|x s IH]; intros k Hk H; cbn in *; [lia|].
  destruct k as [|k].
  - unfold rcount. cbn. assert (E0 : P x = true) by (apply (H 0%nat); lia). rewrite E0. cbn. apply le_n_S.
    assert (L : (length s - 0 <= rcount P s)%nat) by (apply IH; [lia | intros i Hi; apply (H (S i)); lia]).
    unfold rcount in L. lia.
  - assert (L : (length s - k <= rcount P s)%nat) by (apply IH; [lia | intros i Hi; apply (H (S i)); lia]).
    unfold rcount in *. cbn. destruct (P x); cbn; lia.
Qed.
Lemma rmiddle_halves s : s <> [] -> StronglySorted Rle s ->
  (length s <= 2 * rcount (fun x => Rle_bool x (rmiddle s)) s)%nat /\
  (length s <= 2 * rcount (fun x => Rle_bool (rmiddle s) x) s)%nat /\
  nth 0 s 0 <= rmiddle s <= nth (length s - 1) s 0.
Proof.
  intros Hne Hs.
  assert (Hpos : (0 < length s)%nat) by (destruct s; [congruence | cbn; lia]).
  set (n := length s) in *. set (h := (n / 2)%nat).
  pose proof (Nat.div_mod n 2 ltac:(lia)) as Hdm. fold h in Hdm.
  pose proof (Nat.mod_upper_bound n 2 ltac:(lia)) as Hmod.
  assert (Hodd : Nat.odd n = true -> (n = 2 * h + 1)%nat).
  { intros Ho. apply Nat.odd_spec in Ho. destruct Ho as (q & Eq). lia. }
  assert (Heven : Nat.odd n = false -> (n = 2 * h)%nat).
  { intros Ho. assert (He : Nat.even n = true) by (rewrite <- Nat.negb_odd, Ho; reflexivity).
    apply Nat.even_spec in He. destruct He as (q & Eq). lia. }
  assert (Hlow : forall i, (i < n - h)%nat -> nth i s 0 <= rmiddle s).
  { intros i Hi. unfold rmiddle. fold n. fold h. destruct (Nat.odd n) eqn:Ho.
    - specialize (Hodd eq_refl). apply sorted_nth_le; [exact Hs | lia | fold n; lia].
    - specialize (Heven eq_refl).
      pose proof (sorted_nth_le s i (h - 1) Hs ltac:(lia) ltac:(fold n; lia)).
      pose proof (sorted_nth_le s (h - 1) h Hs ltac:(lia) ltac:(fold n; lia)). lra. }
  assert (Hhigh : forall i, (h <= i < n)%nat -> rmiddle s <= nth i s 0).
  { intros i Hi. unfold rmiddle. fold n. fold h. destruct (Nat.odd n) eqn:Ho.
    - apply sorted_nth_le; [exact Hs | lia | fold n; lia].
    - specialize (Heven eq_refl).
      pose proof (sorted_nth_le s h i Hs ltac:(lia) ltac:(fold n; lia)).
      pose proof (sorted_nth_le s (h - 1) h Hs ltac:(lia) ltac:(fold n; lia)). lra. }
  split; [|split; [|split]].
  - pose proof (rcount_firstn (fun x => Rle_bool x (rmiddle s)) s (n - h) ltac:(fold n; lia)) as L.
    specialize (L ltac:(intros i Hi; apply Rle_bool_true, Hlow, Hi)). lia.
  - pose proof (rcount_skipn (fun x => Rle_bool (rmiddle s) x) s h ltac:(fold n; lia)) as L.
    specialize (L ltac:(intros i Hi; apply Rle_bool_true, Hhigh, Hi)). fold n in L. lia.
  - apply Hlow. lia.
  - apply Hhigh. lia.
Qed.
Lemma median_halves (l : list R) : l <> [] ->
  exists m, @desc_median XR (farr (fins l)) = Ok (Fin m) /\
    (length l <= 2 * rcount (fun x => Rle_bool x m) l)%nat /\
    (length l <= 2 * rcount (fun x => Rle_bool m x) l)%nat /\
    (exists x, In x l /\ x <= m) /\ (exists y, In y l /\ m <= y).
Proof.
  intros Hne. pose proof (rsort_is_sorting l) as Hs. destruct Hs as [P S].
  exists (rmiddle (rsort l)). split; [apply median_correct; [exact Hne | split; assumption]|].
  assert (Hne' : rsort l <> []).
  { intros E. rewrite E in P. apply Permutation_sym, Permutation_nil in P. congruence. }
  destruct (rmiddle_halves (rsort l) Hne' S) as (A & B & C1 & C2).
  rewrite !(rcount_perm _ l (rsort l) P). rewrite (Permutation_length P).
  assert (Hlen : (0 < length (rsort l))%nat) by (destruct (rsort l); [congruence | cbn; lia]).
  split; [exact A|]. split; [exact B|]. split.
  - exists (nth 0 (rsort l) 0). split; [|exact C1].
    apply (Permutation_in _ (Permutation_sym P)), nth_In, Hlen.
  - exists (nth (length (rsort l) - 1) (rsort l) 0). split; [|exact C2].
    apply (Permutation_in _ (Permutation_sym P)), nth_In. lia.
Qed.
Lemma median_errors {N : Num} (d : nda N) :
  (nd_ndim d <> 1%Z -> desc_median d = Raise ValueError) /\
  (nd_ndim d = 1%Z -> (exists s, In (PyStr s) (nd_items d)) -> desc_median d = Raise TypeError) /\
  (nd_ndim d = 1%Z -> nd_items d = [] -> desc_median d = Raise ValueError).
Proof.
  unfold desc_median. split; [|split].
  - intros H. rewrite (proj2 (Z.eqb_neq _ _) H). reflexivity.
  - intros H (s & Hs). rewrite H. cbn [Z.eqb Pos.eqb negb].
    replace (existsb is_str (nd_items d)) with true by (symmetry; apply existsb_exists; eexists; split; [exact Hs | reflexivity]).
    reflexivity.
  - intros H E. rewrite H, E. reflexivity.
Qed.
