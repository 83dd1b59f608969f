(** Proofs about descriptive.py. *)
From Coq Require Import Reals Lra.
From Verif Require Export LibR F64.
Local Open Scope R_scope.

(** ** Numeric values *)
Section Gen.
Context {N : Num}.
Implicit Types data : list (pyval N).

Lemma existsb_is_str_false data : existsb is_str data = false <-> forall v, In v data -> is_str v = false.
Proof.
  split.
  - intros H v Hv. destruct (is_str v) eqn:E; [|reflexivity].
    assert (existsb is_str data = true) by (apply existsb_exists; eauto). congruence.
  - intros H. destruct (existsb is_str data) eqn:E; [|reflexivity].
    apply existsb_exists in E. destruct E as (v & Hv & E). rewrite H in E by exact Hv. discriminate.
Qed.
Lemma denotes_to_num v x : @denotes N v x <-> to_num v = Ok x.
Proof.
  split.
  - intros H. destruct H; reflexivity.
  - destruct v; cbn; intros H; try discriminate; injection H as <-; constructor.
Qed.
Lemma mapM_to_num data xs : mapM to_num data = Ok xs <-> Forall2 denotes data xs.
Proof.
  rewrite mapM_ok. split; intros H; induction H; constructor; auto; apply denotes_to_num; assumption.
Qed.
Lemma denotes_not_str data xs : Forall2 denotes data xs -> existsb is_str data = false.
Proof.
  intros H. apply existsb_is_str_false. induction H as [|v x data xs Hv H IH]; intros w Hw; [destruct Hw|].
  destruct Hw as [<-|Hw]; [destruct Hv; reflexivity | auto].
Qed.
Lemma no_str_denotes data : existsb is_str data = false -> exists xs, Forall2 denotes data xs.
Proof.
  intros H. rewrite existsb_is_str_false in H. induction data as [|v data IH].
  - exists []. constructor.
  - destruct IH as (xs & Hxs); [intros w Hw; apply H; right; exact Hw|].
    specialize (H v (or_introl eq_refl)).
    destruct v; cbn in H; try discriminate; eexists (_ :: xs); constructor; try exact Hxs; constructor.
Qed.

(** ** min and max *)
Lemma np_min_spec (HO : ord_laws N) x (l : list N) :
  nisnan x = false -> (forall y, In y l -> nisnan y = false) ->
  In (np_min x l) (x :: l) /\ (forall y, In y (x :: l) -> nleb (np_min x l) y = true) /\ nisnan (np_min x l) = false.
Proof.
  unfold np_min. revert x. induction l as [|y l IH]; intros x Hx Hl; cbn [fold_left].
  - split; [left; reflexivity|]. split; [|exact Hx]. intros y [<-|[]].
    destruct (ord_total N HO x x Hx Hx); assumption.
  - assert (Hy : nisnan y = false) by (apply Hl; left; reflexivity).
    assert (Hl' : forall z, In z l -> nisnan z = false) by (intros z Hz; apply Hl; right; exact Hz).
    destruct (nltb y x) eqn:E.
    + destruct (IH y Hy Hl') as (I1 & I2 & I3). split; [right; exact I1|]. split; [|exact I3].
      intros z [<-|Hz].
      * apply (ord_trans N HO) with y; [apply I2; left; reflexivity|].
        rewrite (ord_ltb N HO y x Hy Hx) in E. destruct (ord_total N HO x y Hx Hy) as [H|H]; [|exact H].
        rewrite H in E. discriminate.
      * apply I2. exact Hz.
    + destruct (IH x Hx Hl') as (I1 & I2 & I3). split; [destruct I1 as [<-|I1]; [left; reflexivity | right; right; exact I1]|].
      split; [|exact I3]. intros z [<-|[<-|Hz]].
      * apply I2. left. reflexivity.
      * apply (ord_trans N HO) with x; [apply I2; left; reflexivity|].
        rewrite (ord_ltb N HO y x Hy Hx) in E. apply negb_false_iff in E. exact E.
      * apply I2. right. exact Hz.
Qed.
Lemma np_max_spec (HO : ord_laws N) x (l : list N) :
  nisnan x = false -> (forall y, In y l -> nisnan y = false) ->
  In (np_max x l) (x :: l) /\ (forall y, In y (x :: l) -> nleb y (np_max x l) = true) /\ nisnan (np_max x l) = false.
Proof.
  unfold np_max. revert x. induction l as [|y l IH]; intros x Hx Hl; cbn [fold_left].
  - split; [left; reflexivity|]. split; [|exact Hx]. intros y [<-|[]].
    destruct (ord_total N HO x x Hx Hx); assumption.
  - assert (Hy : nisnan y = false) by (apply Hl; left; reflexivity).
    assert (Hl' : forall z, In z l -> nisnan z = false) by (intros z Hz; apply Hl; right; exact Hz).
    destruct (nltb x y) eqn:E.
    + destruct (IH y Hy Hl') as (I1 & I2 & I3). split; [right; exact I1|]. split; [|exact I3].
      intros z [<-|Hz].
      * apply (ord_trans N HO) with y; [|apply I2; left; reflexivity].
        rewrite (ord_ltb N HO x y Hx Hy) in E. destruct (ord_total N HO x y Hx Hy) as [H|H]; [exact H|].
        rewrite H in E. discriminate.
      * apply I2. exact Hz.
    + destruct (IH x Hx Hl') as (I1 & I2 & I3). split; [destruct I1 as [<-|I1]; [left; reflexivity | right; right; exact I1]|].
      split; [|exact I3]. intros z [<-|[<-|Hz]].
      * apply I2. left. reflexivity.
      * apply (ord_trans N HO) with x; [|apply I2; left; reflexivity].
        rewrite (ord_ltb N HO x y Hx Hy) in E. apply negb_false_iff in E. exact E.
      * apply I2. right. exact Hz.
Qed.

Lemma existsb_nan_false (xs : list N) : existsb nisnan xs = false <-> forall x, In x xs -> nisnan x = false.
Proof.
  split.
  - intros H v Hv. destruct (nisnan v) eqn:E; [|reflexivity].
    assert (existsb nisnan xs = true) by (apply existsb_exists; eauto). congruence.
  - intros H. destruct (existsb nisnan xs) eqn:E; [|reflexivity].
    apply existsb_exists in E. destruct E as (v & Hv & E). rewrite H in E by exact Hv. discriminate.
Qed.

Lemma min_correct (HO : ord_laws N) data :
  ((exists s, In (PyStr s) data) -> desc_min data = Raise TypeError) /\
  (forall xs, Forall2 denotes data xs ->
    ((xs = [] \/ exists x, In x xs /\ nisnan x = true) -> desc_min data = Raise ValueError) /\
    (xs <> [] -> (forall x, In x xs -> nisnan x = false) ->
      exists m, desc_min data = Ok m /\ In m xs /\ forall x, In x xs -> nleb m x = true)).
Proof.
  split.
  - intros (s & Hs). unfold desc_min.
    replace (existsb is_str data) with true by (symmetry; apply existsb_exists; eexists; split; [exact Hs | reflexivity]).
    reflexivity.
  - intros xs H. unfold desc_min. rewrite (denotes_not_str _ _ H).
    rewrite (proj2 (mapM_to_num data xs) H). cbn. split.
    + intros [->|(x & Hx & E)]; [reflexivity|].
      replace (existsb nisnan xs) with true by (symmetry; apply existsb_exists; eauto). reflexivity.
    + intros Hne Hn. rewrite (proj2 (existsb_nan_false xs) Hn). destruct xs as [|x xs]; [congruence|].
      destruct (np_min_spec HO x xs) as (I1 & I2 & _).
      * apply Hn. left. reflexivity.
      * intros y Hy. apply Hn. right. exact Hy.
      * exists (np_min x xs). auto.
Qed.
Lemma max_correct (HO : ord_laws N) data :
  ((exists s, In (PyStr s) data) -> desc_max data = Raise TypeError) /\
  (forall xs, Forall2 denotes data xs ->
    ((xs = [] \/ exists x, In x xs /\ nisnan x = true) -> desc_max data = Raise ValueError) /\
    (xs <> [] -> (forall x, In x xs -> nisnan x = false) ->
      exists m, desc_max data = Ok m /\ In m xs /\ forall x, In x xs -> nleb x m = true)).
Proof.
  split.
  - intros (s & Hs). unfold desc_max.
    replace (existsb is_str data) with true by (symmetry; apply existsb_exists; eexists; split; [exact Hs | reflexivity]).
    reflexivity.
  - intros xs H. unfold desc_max. rewrite (denotes_not_str _ _ H).
    rewrite (proj2 (mapM_to_num data xs) H). cbn. split.
    + intros [->|(x & Hx & E)]; [reflexivity|].
      replace (existsb nisnan xs) with true by (symmetry; apply existsb_exists; eauto). reflexivity.
    + intros Hne Hn. rewrite (proj2 (existsb_nan_false xs) Hn). destruct xs as [|x xs]; [congruence|].
      destruct (np_max_spec HO x xs) as (I1 & I2 & _).
      * apply Hn. left. reflexivity.
      * intros y Hy. apply Hn. right. exact Hy.
      * exists (np_max x xs). auto.
Qed.

(** ** mean *)
Lemma Forall2_len {A B} (P : A -> B -> Prop) l m : Forall2 P l m -> length l = length m.
Proof. intros H. induction H; cbn; auto. Qed.
Lemma mean_step_numeric parse (arr : list (pyval N)) items :
  existsb is_str items = false -> fold_left (mean_step parse) items arr = arr.
Proof.
  intros H. rewrite existsb_is_str_false in H. induction items as [|v items IH]; cbn; [reflexivity|].
  assert (E : mean_step parse arr v = arr).
  { specialize (H v (or_introl eq_refl)). destruct v; cbn in *; try discriminate; reflexivity. }
  rewrite E. apply IH. intros w Hw. apply H. right. exact Hw.
Qed.
Lemma mean_numeric parse data xs :
  Forall2 denotes data xs -> xs <> [] ->
  desc_mean parse (ASeq data) = Ok (MVal (ndiv (nsum xs) (nofZ (zlen xs)))).
Proof.
  intros H Hne. pose proof (Forall2_len _ _ _ H) as Hl.
  assert (Hz : zlen data = zlen xs) by (unfold zlen; rewrite Hl; reflexivity).
  assert (Hl0 : Nat.eqb (length data) 0 = false).
  { apply Nat.eqb_neq. rewrite Hl. destruct xs; [congruence | cbn; lia]. }
  unfold desc_mean. rewrite Hl0. cbn.
  assert (E : sum_over_size data = Ok (ndiv (nsum xs) (nofZ (zlen xs)))).
  { unfold sum_over_size. rewrite (proj2 (mapM_to_num data xs) H). cbn. rewrite Hz. reflexivity. }
  rewrite mean_step_numeric by (eapply denotes_not_str; exact H).
  rewrite E. destruct (forallb is_int_or_float data); reflexivity.
Qed.


Lemma replace_first_skip s (x : N) pre post : existsb is_str pre = false ->
  replace_first s x (pre ++ PyStr s :: post) = Some (pre ++ PyFloat x :: post).
Proof.
  intros H. rewrite existsb_is_str_false in H. induction pre as [|v pre IH]; cbn.
  - rewrite String.eqb_refl. reflexivity.
  - pose proof (H v (or_introl eq_refl)) as Hv.
    rewrite IH by (intros w Hw; apply H; right; exact Hw).
    destruct v; cbn in Hv; try discriminate; reflexivity.
Qed.
Lemma replace_first_none s (x : N) l : existsb is_str l = false -> replace_first s x l = None.
Proof.
  intros H. rewrite existsb_is_str_false in H. induction l as [|v l IH]; cbn; [reflexivity|].
  pose proof (H v (or_introl eq_refl)) as Hv.
  rewrite IH by (intros w Hw; apply H; right; exact Hw).
  destruct v; cbn in Hv; try discriminate; reflexivity.
Qed.
(** [strconv parse v w]: [w] is [v] with a parseable string replaced by its float. *)
Inductive strconv (parse : string -> option N) : pyval N -> pyval N -> Prop :=
| sc_num v : is_str v = false -> strconv parse v v
| sc_str s x : parse s = Some x -> strconv parse (PyStr s) (PyFloat x).

Lemma mean_loop_ok parse items done post out :
  existsb is_str done = false -> Forall2 (strconv parse) items out ->
  fold_left (mean_step parse) items (done ++ items ++ post) = done ++ out ++ post.
Proof.
  intros Hd H. revert done Hd. induction H as [|v w items out Hv H IH]; intros done Hd; cbn; [reflexivity|].
  assert (E : mean_step parse (done ++ v :: items ++ post) v = (done ++ [w]) ++ items ++ post).
  { rewrite <- app_assoc. cbn. destruct Hv as [v Hv|s x Hs].
    - destruct v; cbn in Hv; try discriminate; reflexivity.
    - cbn. rewrite Hs. rewrite replace_first_skip by exact Hd. reflexivity. }
  rewrite E. rewrite IH.
  - rewrite <- app_assoc. reflexivity.
  - rewrite existsb_app, Hd. cbn. destruct Hv as [v Hv|s x Hs]; cbn; [rewrite Hv|]; reflexivity.
Qed.
Lemma filter_iof_no_str (l : list (pyval N)) : existsb is_str (filter is_int_or_float l) = false.
Proof.
  apply existsb_is_str_false. intros v Hv. apply filter_In in Hv. destruct Hv as [_ E]. destruct v; cbn in *; congruence.
Qed.
Lemma filter_idem {A} (f : A -> bool) l : filter f (filter f l) = filter f l.
Proof. induction l as [|x l IH]; cbn; [reflexivity|]. destruct (f x) eqn:E; cbn; [rewrite E, IH|]; auto. Qed.
Lemma mean_loop_after_fail parse items (l : list (pyval N)) :
  fold_left (mean_step parse) items (filter is_int_or_float l) = filter is_int_or_float l.
Proof.
  induction items as [|v items IH]; cbn; [reflexivity|].
  assert (E : mean_step parse (filter is_int_or_float l) v = filter is_int_or_float l).
  { destruct v; cbn; try reflexivity. destruct (parse s); [|apply filter_idem].
    rewrite replace_first_none by apply filter_iof_no_str. apply filter_idem. }
  rewrite E. exact IH.
Qed.


Lemma kept_pre_strconv (parse : string -> option N) pre xs : kept_pre parse pre xs ->
  exists out, Forall2 (strconv parse) pre out /\ Forall2 denotes (filter is_int_or_float out) xs.
Proof.
  intros H. induction H as [|z l xs H (o & H1 & H2)|x l xs H (o & H1 & H2)|z l xs H (o & H1 & H2)|s x l xs Hs H (o & H1 & H2)].
  - exists []. split; constructor.
  - exists (PyInt z :: o). split; [constructor; [constructor; reflexivity | exact H1]|]. cbn. constructor; [constructor | exact H2].
  - exists (PyFloat x :: o). split; [constructor; [constructor; reflexivity | exact H1]|]. cbn. constructor; [constructor | exact H2].
  - exists (NpInt z :: o). split; [constructor; [constructor; reflexivity | exact H1]|]. cbn. exact H2.
  - exists (PyFloat x :: o). split; [constructor; [constructor; exact Hs | exact H1]|]. cbn. constructor; [constructor | exact H2].
Qed.
Lemma kept_post_filter (post : list (pyval N)) xs : kept_post post xs -> Forall2 denotes (filter is_int_or_float post) xs.
Proof. intros H. induction H; cbn; repeat constructor; assumption. Qed.
Lemma forallb_iof_false (l : list (pyval N)) s : In (PyStr s) l -> forallb is_int_or_float l = false.
Proof.
  intros H. destruct (forallb is_int_or_float l) eqn:E; [|reflexivity].
  rewrite forallb_forall in E. specialize (E _ H). discriminate.
Qed.
Lemma sum_over_size_den (l : list (pyval N)) xs : Forall2 denotes l xs ->
  sum_over_size l = Ok (ndiv (nsum xs) (nofZ (zlen xs))).
Proof.
  intros H. unfold sum_over_size. rewrite (proj2 (mapM_to_num l xs) H). cbn.
  unfold zlen. rewrite (Forall2_len _ _ _ H). reflexivity.
Qed.

(** The loop when an unparseable string is met. *)
Lemma mean_fail (parse : string -> option N) pre bad post xs ys :
  parse bad = None -> kept_pre parse pre xs -> kept_post post ys ->
  desc_mean parse (ASeq (pre ++ PyStr bad :: post)) = Ok (MVal (ndiv (nsum (xs ++ ys)) (nofZ (zlen (xs ++ ys))))).
Proof.
  intros Hb H1 H2. destruct (kept_pre_strconv _ _ _ H1) as (out & Ho & Hd). unfold desc_mean.
  rewrite (forallb_iof_false _ bad) by (apply in_or_app; right; left; reflexivity).
  rewrite andb_false_r.
  replace (Nat.eqb (length (pre ++ PyStr bad :: post)) 0) with false
    by (symmetry; apply Nat.eqb_neq; rewrite app_length; cbn; lia).
  cbn [negb]. rewrite fold_left_app. cbn [fold_left].
  pose proof (mean_loop_ok parse pre [] (PyStr bad :: post) out eq_refl Ho) as E. cbn [app] in E. rewrite E.
  unfold mean_step at 2. rewrite Hb. rewrite mean_loop_after_fail.
  rewrite (sum_over_size_den _ (xs ++ ys)); [reflexivity|].
  rewrite filter_app. cbn. apply Forall2_app; [exact Hd | apply kept_post_filter, H2].
Qed.
(** The loop when every string parses. *)
Lemma mean_all_parse (parse : string -> option N) data xs :
  Forall2 (converted parse) data xs -> xs <> [] ->
  desc_mean parse (ASeq data) = Ok (MVal (ndiv (nsum xs) (nofZ (zlen xs)))).
Proof.
  intros H Hne.
  assert (Ho : exists out, Forall2 (strconv parse) data out /\ Forall2 denotes out xs).
  { clear Hne. induction H as [|v x data xs Hv H (o & H1 & H2)]; [exists []; split; constructor|].
    destruct Hv as [v x Hv|s x Hs].
    - exists (v :: o). split; [constructor; [constructor; destruct Hv; reflexivity | exact H1]|]. constructor; assumption.
    - exists (PyFloat x :: o). split; [constructor; [constructor; exact Hs | exact H1]|]. constructor; [constructor | assumption]. }
  destruct Ho as (out & H1 & H2).
  unfold desc_mean.
  assert (Hl0 : Nat.eqb (length data) 0 = false).
  { apply Nat.eqb_neq. rewrite (Forall2_len _ _ _ H). destruct xs; [congruence | cbn; lia]. }
  rewrite Hl0. cbn.
  pose proof (mean_loop_ok parse data [] [] out eq_refl H1) as E. cbn [app] in E. rewrite !app_nil_r in E. rewrite E.
  destruct (forallb is_int_or_float data) eqn:Ef.
  - assert (Eo : out = data).
    { clear - H1 Ef. induction H1 as [|v w l o Hv H1 IH]; [reflexivity|]. cbn in Ef. apply andb_true_iff in Ef.
      destruct Ef as [E1 E2]. rewrite IH by exact E2. destruct Hv; [reflexivity | discriminate]. }
    rewrite Eo in H2. rewrite (sum_over_size_den _ xs H2). reflexivity.
  - rewrite (sum_over_size_den _ xs H2). reflexivity.
Qed.

End Gen.
