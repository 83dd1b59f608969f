(** General lemmas about the list/array operations of [NpBase]. No modelling here. *)
From Verif Require Export NpBase.
From Coq Require Export Sorted Permutation.
Local Open Scope Z_scope.

(** ** Exceptions *)
Lemma bind_ok {A B} (m : res A) (k : A -> res B) b :
  bind m k = Ok b <-> exists a, m = Ok a /\ k a = Ok b.
Proof.
  destruct m as [a|e]; cbn; split.
  - intros H. exists a. auto.
  - intros (a' & E & H). injection E as <-. exact H.
  - discriminate.
  - intros (a' & E & _). discriminate.
Qed.
Lemma mapM_ok {A B} (f : A -> res B) l r :
  mapM f l = Ok r <-> Forall2 (fun x y => f x = Ok y) l r.
Proof.
  revert r. induction l as [|x l IH]; intros r; cbn.
  - split; [intros E; injection E as <-; constructor | intros H; inversion H; reflexivity].
  - rewrite bind_ok. split.
    + intros (y & Hy & H). rewrite bind_ok in H. destruct H as (ys & Hys & E). injection E as <-.
      constructor; [exact Hy | apply IH, Hys].
    + intros H. inversion H as [|? y ? ys Hy Hys]; subst. exists y. split; [exact Hy|].
      rewrite bind_ok. exists ys. split; [apply IH, Hys | reflexivity].
Qed.
Lemma mapM_map_ok {A B C} (f : B -> res C) (g : A -> B) (h : A -> C) l :
  (forall x, In x l -> f (g x) = Ok (h x)) -> mapM f (map g l) = Ok (map h l).
Proof.
  intros H. induction l as [|x l IH]; cbn; [reflexivity|].
  rewrite H by (left; reflexivity). cbn. rewrite IH by (intros y Hy; apply H; right; exact Hy). reflexivity.
Qed.
Lemma mapM_all_ok {A C} (f : A -> res C) (h : A -> C) l :
  (forall x, In x l -> f x = Ok (h x)) -> mapM f l = Ok (map h l).
Proof. intros H. rewrite <- (map_id l) at 1. apply mapM_map_ok. exact H. Qed.
Lemma mapM_length {A B} (f : A -> res B) l r : mapM f l = Ok r -> length r = length l.
Proof. intros H. apply mapM_ok in H. induction H; cbn; auto. Qed.

Lemma foldM_app {S A} (f : S -> A -> res S) s l1 l2 :
  foldM f s (l1 ++ l2) = (let* s' := foldM f s l1 in foldM f s' l2).
Proof.
  revert s. induction l1 as [|x l1 IH]; intros s; cbn; [reflexivity|].
  destruct (f s x); cbn; [apply IH | reflexivity].
Qed.

(** ** Ranges *)
Lemma zrange_nil a b : b <= a -> zrange a b = [].
Proof. intros H. unfold zrange. replace (Z.to_nat (b - a)) with O by lia. reflexivity. Qed.
Lemma zrange_cons a b : a < b -> zrange a b = a :: zrange (a + 1) b.
Proof.
  intros H. unfold zrange. replace (Z.to_nat (b - a)) with (S (Z.to_nat (b - (a + 1)))) by lia.
  cbn [seq map]. f_equal; [lia|]. rewrite <- seq_shift, map_map. apply map_ext. intros k. lia.
Qed.
Lemma zrange_snoc a b : a <= b -> zrange a (b + 1) = zrange a b ++ [b].
Proof.
  intros H. unfold zrange. replace (Z.to_nat (b + 1 - a)) with (S (Z.to_nat (b - a))) by lia.
  rewrite seq_S, map_app. cbn. f_equal. f_equal. lia.
Qed.
Lemma zrange_length a b : length (zrange a b) = Z.to_nat (b - a).
Proof. unfold zrange. rewrite map_length, seq_length. reflexivity. Qed.
Lemma in_zrange a b i : In i (zrange a b) <-> a <= i < b.
Proof.
  unfold zrange. rewrite in_map_iff. split.
  - intros (k & <- & Hk). apply in_seq in Hk. lia.
  - intros H. exists (Z.to_nat (i - a)). split; [lia|]. apply in_seq. lia.
Qed.
Lemma zrange_app a b c : a <= b <= c -> zrange a c = zrange a b ++ zrange b c.
Proof.
  intros [H1 H2]. remember (Z.to_nat (b - a)) as n eqn:En. revert a H1 En.
  induction n as [|n IH]; intros a H1 En.
  - replace a with b by lia. rewrite (zrange_nil b b) by lia. reflexivity.
  - rewrite (zrange_cons a c), (zrange_cons a b) by lia. cbn. f_equal. apply IH; lia.
Qed.

(** A [for i in range(a, b)] loop that preserves an indexed invariant succeeds with the invariant at [b]. *)
Lemma foldM_range_inv {S} (f : S -> Z -> res S) (P : Z -> S -> Prop) a b s :
  a <= b -> P a s ->
  (forall i s, a <= i < b -> P i s -> exists s', f s i = Ok s' /\ P (i + 1) s') ->
  exists s', foldM f s (zrange a b) = Ok s' /\ P b s'.
Proof.
  intros Hab H0 Hstep.
  remember (Z.to_nat (b - a)) as n eqn:En. revert a s Hab H0 Hstep En.
  induction n as [|n IH]; intros a s Hab H0 Hstep En.
  - assert (a = b) by lia. subst. rewrite zrange_nil by lia. exists s. split; [reflexivity | exact H0].
  - rewrite zrange_cons by lia. cbn. destruct (Hstep a s ltac:(lia) H0) as (s' & E & H1). rewrite E. cbn.
    apply IH; try lia; [exact H1|]. intros i s0 Hi. apply Hstep. lia.
Qed.
Lemma foldM_inv {S A} (f : S -> A -> res S) (P : S -> Prop) l s s' :
  P s -> (forall s x s', In x l -> P s -> f s x = Ok s' -> P s') -> foldM f s l = Ok s' -> P s'.
Proof.
  revert s. induction l as [|x l IH]; intros s H0 Hs E; cbn in E.
  - injection E as <-. exact H0.
  - apply bind_ok in E. destruct E as (s1 & E1 & E2).
    apply (IH s1); [| |exact E2].
    + apply (Hs s x s1); [left; reflexivity | exact H0 | exact E1].
    + intros t y t' Hy. apply Hs. right. exact Hy.
Qed.

(** ** Indexing *)
Lemma zlen_nonneg {A} (l : list A) : 0 <= zlen l.
Proof. unfold zlen. lia. Qed.
Lemma zlen_map {A B} (f : A -> B) l : zlen (map f l) = zlen l.
Proof. unfold zlen. rewrite map_length. reflexivity. Qed.
Lemma upd_length {A} (l : list A) k v : length (upd l k v) = length l.
Proof. revert k. induction l as [|x l IH]; intros [|k]; cbn; auto. Qed.
Lemma zlen_upd {A} (l : list A) k v : zlen (upd l k v) = zlen l.
Proof. unfold zlen. rewrite upd_length. reflexivity. Qed.
Lemma nth_error_upd_same {A} (l : list A) k v : (k < length l)%nat -> nth_error (upd l k v) k = Some v.
Proof. revert k. induction l as [|x l IH]; intros [|k] H; cbn in *; try lia; auto. apply IH. lia. Qed.
Lemma nth_error_upd_other {A} (l : list A) k j v : k <> j -> nth_error (upd l k v) j = nth_error l j.
Proof.
  revert k j. induction l as [|x l IH]; intros [|k] [|j] H; cbn; auto; try lia.
Qed.
Lemma nth_upd_same {A} (l : list A) k v d : (k < length l)%nat -> nth k (upd l k v) d = v.
Proof. revert k. induction l as [|x l IH]; intros [|k] H; cbn in *; try lia; auto. apply IH. lia. Qed.
Lemma nth_upd_other {A} (l : list A) k j v d : k <> j -> nth j (upd l k v) d = nth j l d.
Proof.
  revert k j. induction l as [|x l IH]; intros [|k] [|j] H; cbn; auto; try lia.
Qed.
Lemma map_upd {A B} (f : A -> B) l k v : map f (upd l k v) = upd (map f l) k (f v).
Proof. revert k. induction l as [|x l IH]; intros [|k]; cbn; auto. rewrite IH. reflexivity. Qed.

Lemma pyidx_nonneg n i : 0 <= i < n -> pyidx n i = Some (Z.to_nat i).
Proof. intros H. unfold pyidx. replace ((0 <=? i) && (i <? n)) with true by lia. reflexivity. Qed.
Lemma pyidx_neg n i : - n <= i < 0 -> pyidx n i = Some (Z.to_nat (i + n)).
Proof.
  intros H. unfold pyidx. replace ((0 <=? i) && (i <? n)) with false by lia.
  replace ((- n <=? i) && (i <? 0)) with true by lia. reflexivity.
Qed.
Lemma pyidx_none n i : i < - n \/ n <= i -> 0 <= n -> pyidx n i = None.
Proof.
  intros H Hn. unfold pyidx. replace ((0 <=? i) && (i <? n)) with false by lia.
  replace ((- n <=? i) && (i <? 0)) with false by lia. reflexivity.
Qed.
Lemma pyidx_some n i k : pyidx n i = Some k -> 0 <= n -> (Z.of_nat k < n) /\ (Z.of_nat k = i \/ Z.of_nat k = i + n).
Proof.
  unfold pyidx. intros H Hn.
  destruct ((0 <=? i) && (i <? n)) eqn:E1.
  - injection H as <-. lia.
  - destruct ((- n <=? i) && (i <? 0)) eqn:E2; [|discriminate]. injection H as <-. lia.
Qed.
Lemma getz_ok {A} (l : list A) i d : 0 <= i < zlen l -> getz l i = Ok (nth (Z.to_nat i) l d).
Proof.
  intros H. unfold getz. rewrite pyidx_nonneg by exact H.
  rewrite (nth_error_nth' l d) by (unfold zlen in H; lia). reflexivity.
Qed.
Lemma getz_neg {A} (l : list A) i d : - zlen l <= i < 0 -> getz l i = Ok (nth (Z.to_nat (i + zlen l)) l d).
Proof.
  intros H. unfold getz. rewrite pyidx_neg by exact H.
  rewrite (nth_error_nth' l d) by (unfold zlen in *; lia). reflexivity.
Qed.
Lemma getz_out {A} (l : list A) i : i < - zlen l \/ zlen l <= i -> getz l i = Raise IndexError.
Proof. intros H. unfold getz. rewrite pyidx_none; [reflexivity | exact H | apply zlen_nonneg]. Qed.
Lemma setz_ok {A} (l : list A) i v : 0 <= i < zlen l -> setz l i v = Ok (upd l (Z.to_nat i) v).
Proof. intros H. unfold setz. rewrite pyidx_nonneg by exact H. reflexivity. Qed.
Lemma setz_out {A} (l : list A) i v : i < - zlen l \/ zlen l <= i -> setz l i v = Raise IndexError.
Proof. intros H. unfold setz. rewrite pyidx_none; [reflexivity | exact H | apply zlen_nonneg]. Qed.
Lemma setz_inv {A} (l l' : list A) i v : setz l i v = Ok l' ->
  exists k, pyidx (zlen l) i = Some k /\ l' = upd l k v /\ (k < length l)%nat.
Proof.
  unfold setz. destruct (pyidx (zlen l) i) as [k|] eqn:E; [|discriminate].
  intros H. injection H as <-. exists k. split; [reflexivity|]. split; [reflexivity|].
  apply pyidx_some in E; [|apply zlen_nonneg]. unfold zlen in E. lia.
Qed.
Lemma setz_length {A} (l l' : list A) i v : setz l i v = Ok l' -> length l' = length l.
Proof. intros H. apply setz_inv in H. destruct H as (k & _ & -> & _). apply upd_length. Qed.

(** ** Sorted integer sets *)
Lemma zmem_spec i l : zmem i l = true <-> In i l.
Proof.
  unfold zmem. rewrite existsb_exists. split.
  - intros (x & H & E). apply Z.eqb_eq in E. subst. exact H.
  - intros H. exists i. split; [exact H | apply Z.eqb_refl].
Qed.
Lemma in_zinsert x y l : In y (zinsert x l) <-> y = x \/ In y l.
Proof.
  induction l as [|z l IH]; cbn.
  - intuition.
  - destruct (x <? z) eqn:E1; cbn; [intuition|].
    destruct (x =? z) eqn:E2; cbn; [apply Z.eqb_eq in E2; subst; intuition|].
    rewrite IH. intuition.
Qed.
Lemma zinsert_sorted x l : StronglySorted Z.lt l -> StronglySorted Z.lt (zinsert x l).
Proof.
  induction l as [|z l IH]; intros H; cbn.
  - repeat constructor.
  - inversion H as [|? ? Hs Hf]; subst.
    destruct (x <? z) eqn:E1.
    + constructor; [exact H|]. constructor; [lia|]. eapply Forall_impl; [|exact Hf]. cbn. intros a Ha. lia.
    + destruct (x =? z) eqn:E2; [exact H|]. constructor; [apply IH, Hs|].
      apply Forall_forall. intros y Hy. apply in_zinsert in Hy. destruct Hy as [->|Hy]; [lia|].
      rewrite Forall_forall in Hf. apply Hf, Hy.
Qed.
Lemma in_zunique y l : In y (zunique l) <-> In y l.
Proof. induction l as [|x l IH]; cbn; [tauto|]. rewrite in_zinsert, IH. intuition. Qed.
Lemma zunique_sorted l : StronglySorted Z.lt (zunique l).
Proof. induction l as [|x l IH]; cbn; [constructor | apply zinsert_sorted, IH]. Qed.
Lemma in_intersect1d y a b : In y (intersect1d a b) <-> In y a /\ In y b.
Proof. unfold intersect1d. rewrite in_zunique, filter_In, zmem_spec. tauto. Qed.
Lemma intersect1d_sorted a b : StronglySorted Z.lt (intersect1d a b).
Proof. apply zunique_sorted. Qed.
(** A strictly increasing list is determined by its members. *)
Lemma sorted_ext l1 l2 : StronglySorted Z.lt l1 -> StronglySorted Z.lt l2 ->
  (forall x, In x l1 <-> In x l2) -> l1 = l2.
Proof.
  intros H1. revert l2. induction H1 as [|x l1 H1 IH F1]; intros l2 H2 E.
  - destruct l2 as [|y l2]; [reflexivity|]. destruct (proj2 (E y)); left; reflexivity.
  - destruct H2 as [|y l2 H2 F2].
    + destruct (proj1 (E x)); left; reflexivity.
    + rewrite Forall_forall in F1, F2.
      assert (x = y).
      { destruct (proj1 (E x) (or_introl eq_refl)) as [Hx|Hx]; [auto|].
        destruct (proj2 (E y) (or_introl eq_refl)) as [Hy|Hy]; [auto|].
        specialize (F1 _ Hy). specialize (F2 _ Hx). lia. }
      subst y. f_equal. apply IH; [exact H2|]. intros z. specialize (E z). cbn in E. split; intros Hz.
      * destruct (proj1 E (or_intror Hz)) as [->|]; [|assumption]. specialize (F1 _ Hz). lia.
      * destruct (proj2 E (or_intror Hz)) as [->|]; [|assumption]. specialize (F2 _ Hz). lia.
Qed.
Lemma zunique_id l : StronglySorted Z.lt l -> zunique l = l.
Proof. intros H. apply sorted_ext; [apply zunique_sorted | exact H | intros x; apply in_zunique]. Qed.

Lemma in_nonzero_from k m i : In i (nonzero_from k m) <-> k <= i < k + zlen m /\ nth (Z.to_nat (i - k)) m false = true.
Proof.
  revert k. induction m as [|b m IH]; intros k.
  - cbn. unfold zlen. cbn. lia.
  - assert (Hl : zlen (b :: m) = zlen m + 1) by (unfold zlen; cbn [length]; lia). rewrite Hl.
    cbn [nonzero_from].
    assert (Hiff : In i (nonzero_from (k + 1) m) <-> k < i < k + (zlen m + 1) /\ nth (Z.to_nat (i - k)) (b :: m) false = true).
    { rewrite IH. split.
      - intros [Hr Hn]. split; [lia|]. replace (Z.to_nat (i - k)) with (S (Z.to_nat (i - (k + 1)))) by lia. exact Hn.
      - intros [Hr Hn]. split; [lia|]. replace (Z.to_nat (i - k)) with (S (Z.to_nat (i - (k + 1)))) in Hn by lia. exact Hn. }
    pose proof (zlen_nonneg m) as Hm.
    destruct b; cbn [In]; rewrite Hiff.
    + split.
      * intros [->|[Hr Hn]]; [|split; [lia|exact Hn]]. split; [lia|]. rewrite Z.sub_diag. reflexivity.
      * intros [Hr Hn]. destruct (Z.eq_dec k i); [left; assumption | right; split; [lia | exact Hn]].
    + split; intros [Hr Hn]; (split; [|exact Hn]); [lia|].
      destruct (Z.eq_dec k i) as [->|]; [|lia]. rewrite Z.sub_diag in Hn. discriminate.
Qed.
Lemma in_nonzero m i : In i (nonzero m) <-> 0 <= i < zlen m /\ nth (Z.to_nat i) m false = true.
Proof. unfold nonzero. rewrite in_nonzero_from. rewrite Z.sub_0_r. cbn. tauto. Qed.
Lemma nonzero_sorted m : StronglySorted Z.lt (nonzero m).
Proof.
  unfold nonzero. generalize 0. induction m as [|b m IH]; intros k; cbn; [constructor|].
  destruct b; [|apply IH]. constructor; [apply IH|]. apply Forall_forall. intros i Hi.
  apply in_nonzero_from in Hi. lia.
Qed.
Lemma nth_map_false {A} (f : A -> bool) l k : nth k (map f l) false = true <-> exists x, nth_error l k = Some x /\ f x = true.
Proof.
  revert k. induction l as [|a l IH]; intros [|k]; cbn.
  - split; [discriminate|]. intros (x & H & _). discriminate.
  - split; [discriminate|]. intros (x & H & _). discriminate.
  - split; [intros H; exists a; auto|]. intros (x & H & E). injection H as <-. exact E.
  - apply IH.
Qed.
(** Positions where a predicate holds, [np.where(f(l))[0]]. *)
Lemma in_nonzero_map {A} (f : A -> bool) l i d :
  In i (nonzero (map f l)) <-> 0 <= i < zlen l /\ f (nth (Z.to_nat i) l d) = true.
Proof.
  rewrite in_nonzero, zlen_map, nth_map_false. split.
  - intros [Hr (x & Hx & E)]. split; [exact Hr|]. apply nth_error_nth with (d := d) in Hx. rewrite Hx. exact E.
  - intros [Hr E]. split; [exact Hr|]. exists (nth (Z.to_nat i) l d). split; [|exact E].
    apply nth_error_nth'. unfold zlen in Hr. lia.
Qed.

(** ** Slices *)
Lemma pyslice_nonneg {A} (l : list A) lo hi : 0 <= lo -> lo <= hi -> hi <= zlen l ->
  pyslice l lo hi = firstn (Z.to_nat (hi - lo)) (skipn (Z.to_nat lo) l).
Proof.
  intros H1 H2 H3. unfold pyslice, slice_bound.
  replace (lo <? 0) with false by lia. replace (hi <? 0) with false by lia.
  rewrite !Z.min_l by lia. reflexivity.
Qed.
Lemma pyslice_length {A} (l : list A) lo hi : 0 <= lo -> lo <= hi -> hi <= zlen l ->
  length (pyslice l lo hi) = Z.to_nat (hi - lo).
Proof.
  intros H1 H2 H3. rewrite pyslice_nonneg by assumption.
  rewrite firstn_length, skipn_length. unfold zlen in H3. lia.
Qed.
Lemma nth_firstn {A} (l : list A) n k d : (k < n)%nat -> nth k (firstn n l) d = nth k l d.
Proof. revert n k. induction l as [|x l IH]; intros [|n] [|k] H; cbn; auto; try lia. apply IH. lia. Qed.
Lemma nth_skipn {A} (l : list A) n k d : nth k (skipn n l) d = nth (n + k) l d.
Proof. revert n. induction l as [|x l IH]; intros [|n]; cbn; auto. destruct k; reflexivity. Qed.
Lemma nth_pyslice {A} (l : list A) lo hi k d : 0 <= lo -> lo <= hi -> hi <= zlen l ->
  Z.of_nat k < hi - lo -> nth k (pyslice l lo hi) d = nth (Z.to_nat lo + k) l d.
Proof.
  intros H1 H2 H3 H4. rewrite pyslice_nonneg by assumption. rewrite nth_firstn by lia. apply nth_skipn.
Qed.

(** Two lists of equal length with equal elements are equal. *)
Lemma nth_ext_len {A} (l l' : list A) d : length l = length l' ->
  (forall k, (k < length l)%nat -> nth k l d = nth k l' d) -> l = l'.
Proof. intros. apply (nth_ext l l' d d); assumption. Qed.
Lemma nth_map_in {A B} (f : A -> B) l k d d' : (k < length l)%nat -> nth k (map f l) d' = f (nth k l d).
Proof. revert k. induction l as [|x l IH]; intros [|k] H; cbn in *; try lia; auto. apply IH. lia. Qed.
Lemma nth_zrange a b k d : (k < Z.to_nat (b - a))%nat -> nth k (zrange a b) d = a + Z.of_nat k.
Proof.
  intros H. unfold zrange. rewrite (nth_map_in _ _ _ O) by (rewrite seq_length; exact H).
  rewrite seq_nth by exact H. reflexivity.
Qed.
Lemma zipwith_length {A B C} (f : A -> B -> C) a b : length (zipwith f a b) = Nat.min (length a) (length b).
Proof. unfold zipwith. rewrite map_length, combine_length. reflexivity. Qed.
Lemma nth_zipwith {A B C} (f : A -> B -> C) a b k da db dc :
  (k < length a)%nat -> (k < length b)%nat -> nth k (zipwith f a b) dc = f (nth k a da) (nth k b db).
Proof.
  unfold zipwith. revert b k. induction a as [|x a IH]; intros [|y b] [|k] H1 H2; cbn in *; try lia; auto.
  apply IH; lia.
Qed.
