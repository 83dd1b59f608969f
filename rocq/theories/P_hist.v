(** Proofs about the histogram and the scaling of the bivariate kernel. *)
From Coq Require Import Reals Lra Lia.
From Flocq Require Import Core.Raux.
From Verif Require Import NpBase Lib XR M_descriptive M_series M_detection M_kernel Spec Spec2 LibR P_order P_detect P_brent.
Local Open Scope Z_scope.

(** ** Every number type *)
Section Generic.
Context {N : Num}.
Lemma search_left_bound (x : N) bins : 0 <= search_left x bins <= zlen bins.
Proof.
  induction bins as [|b bins IH]; cbn [search_left]; [unfold zlen; cbn; lia|].
  rewrite zlen_cons. pose proof (zlen_nonneg bins). destruct (nltb b x); lia.
Qed.
Lemma k_bin_range g (x : N) : 1 <= g -> 0 <= k_bin g x < g.
Proof.
  intros H. unfold k_bin, digitize. pose proof (search_left_bound x (linspace01 g)). pose proof (zlen_nonneg (@linspace01 N g)).
  destruct (nisnan x); lia.
Qed.
Definition square (g : nat) (m : list (list N)) : Prop := length m = g /\ forall r, In r m -> length r = g.
Lemma in_upd {A} (l : list A) k v x : In x (upd l k v) -> x = v \/ In x l.
Proof.
  revert k. induction l as [|y l IH]; intros [|k]; cbn; try tauto.
  - intros [H|H]; auto.
  - intros [H|H]; auto. destruct (IH k H); auto.
Qed.
Lemma accumulate_total g subs : forall m : list (list N), square g m ->
  Forall (fun ij => 0 <= fst ij < Z.of_nat g /\ 0 <= snd ij < Z.of_nat g) subs ->
  exists m', accumulate m subs = Ok m' /\ square g m'.
Proof.
  unfold accumulate. induction subs as [|[i j] subs IH]; intros m HS HF; cbn [foldM]; [eauto|].
  inversion_clear HF as [|? ? [Hi Hj] HF']. cbn [fst snd] in *.
  destruct HS as [HL HR].
  rewrite (getz_ok _ _ []) by (unfold zlen; lia). cbn [bind].
  set (row := nth (Z.to_nat i) m []). assert (Hr : length row = g).
  { apply HR. apply nth_In. lia. }
  rewrite (getz_ok _ _ (nofZ 0)) by (unfold zlen; lia). cbn [bind].
  rewrite setz_ok by (unfold zlen; lia). cbn [bind].
  rewrite setz_ok by (unfold zlen; lia). cbn [bind].
  apply IH; [|exact HF']. split; [rewrite upd_length; exact HL|].
  intros r Hin. apply in_upd in Hin. destruct Hin as [->|Hin]; [rewrite upd_length; exact Hr | apply HR, Hin].
Qed.
End Generic.
Lemma square_zeros {N : Num} g : square g (repeat (repeat (@nofZ N 0) g) g).
Proof.
  split; [apply repeat_length|]. intros r H. apply repeat_spec in H. subst. apply repeat_length.
Qed.
(** The histogram returns a grid x grid array for every number type and every sample, NaN included. *)
Theorem hist_total : forall (N : Num) (trans : list (N * N)) g, 1 <= g ->
  exists m, k_histogram trans g = Ok m /\ length m = Z.to_nat g /\ (forall r, In r m -> length r = Z.to_nat g).
Proof.
  intros N trans g Hg. unfold k_histogram. rewrite (proj2 (Z.ltb_ge _ _)) by lia.
  destruct (accumulate_total (Z.to_nat g) (map (fun p => (k_bin g (fst p), k_bin g (snd p))) trans)
              (repeat (repeat (@nofZ N 0) (Z.to_nat g)) (Z.to_nat g))) as (m & E & HL & HR).
  - apply square_zeros.
  - apply Forall_forall. intros [i j] Hin. apply in_map_iff in Hin. destruct Hin as (p & Hp & _). injection Hp as <- <-.
    cbn [fst snd]. pose proof (k_bin_range g (fst p) Hg). pose proof (k_bin_range g (snd p) Hg). lia.
  - rewrite E. cbn [bind]. eexists. split; [reflexivity|]. split; [rewrite map_length; exact HL|].
    intros r Hr. apply in_map_iff in Hr. destruct Hr as (r' & <- & Hr'). rewrite map_length. apply HR, Hr'.
Qed.

(** ** Exact arithmetic *)
Lemma linspace_fins g : 1 <= g ->
  @linspace01 XR g = map (fun i => Fin (IZR i * (1 / IZR g))%R) (zrange 0 (g + 1)).
Proof.
  intros H. unfold linspace01. rewrite (proj2 (Z.eqb_neq _ _)) by lia.
  assert (P : (0 < IZR g)%R) by (apply (IZR_lt 0); lia).
  rewrite zrange_snoc by lia. rewrite map_app. cbn [map]. f_equal.
  - apply map_ext. intros i. rewrite !xofZ_fin, xdiv_fin by lra. apply xmul_fin.
  - rewrite xofZ_fin. do 2 f_equal. field. lra.
Qed.
Lemma Zceil_gt x a : (IZR a < x)%R -> a + 1 <= Zceil x.
Proof.
  intros H. pose proof (Zceil_ub x) as U. assert (L : (IZR a < IZR (Zceil x))%R) by lra. apply lt_IZR in L. lia.
Qed.
Lemma search_left_fin x u b : (0 < u)%R -> forall n a, n = Z.to_nat (b - a) -> a <= b ->
  @search_left XR (Fin x) (map (fun i => Fin (IZR i * u)%R) (zrange a b)) = Z.max 0 (Z.min (Zceil (x / u) - a) (b - a)).
Proof.
  intros Hu. induction n as [|n IH]; intros a Hn Hab.
  - assert (a = b) by lia. subst. rewrite zrange_nil by lia. cbn. lia.
  - rewrite zrange_cons by lia. cbn [map search_left]. rewrite xltb_fin.
    destruct (Rlt_bool_spec (IZR a * u) x) as [L|L].
    + rewrite IH by lia.
      assert (a + 1 <= Zceil (x / u)).
      { apply Zceil_gt. apply Rmult_lt_reg_r with u; [exact Hu|]. replace (x / u * u)%R with x by (field; lra). exact L. }
      lia.
    + assert (Zceil (x / u) <= a).
      { apply Zceil_glb. apply Rmult_le_reg_r with u; [exact Hu|]. replace (x / u * u)%R with x by (field; lra). exact L. }
      lia.
Qed.
Lemma search_left_inf (l : list R) neg :
  @search_left XR (Inf neg) (map Fin l) = if neg then 0 else zlen l.
Proof.
  induction l as [|x l IH]; [destruct neg; reflexivity|]. cbn [map search_left]. rewrite zlen_cons.
  cbn [nltb XR xltb]. destruct neg; cbn [negb]; [reflexivity|]. rewrite IH. lia.
Qed.
Lemma k_bin_exact g (v : XR) : 1 <= g -> k_bin g v = cell g v.
Proof.
  intros H. assert (P : (0 < IZR g)%R) by (apply (IZR_lt 0); lia).
  unfold k_bin, digitize. rewrite linspace_fins by exact H.
  assert (Q : (0 < 1 / IZR g)%R) by (apply Rdiv_lt_0_compat; lra).
  destruct v as [x|neg|]; cbn [nisnan XR cell].
  - rewrite (search_left_fin x (1 / IZR g) (g + 1) Q (Z.to_nat (g + 1 - 0)) 0) by lia.
    replace (x / (1 / IZR g))%R with (IZR g * x)%R by (field; lra). lia.
  - pose proof (search_left_inf (map (fun i => (IZR i * (1 / IZR g))%R) (zrange 0 (g + 1))) neg) as E. rewrite map_map in E.
    rewrite E. rewrite zlen_map. unfold zlen. rewrite zrange_length. destruct neg; lia.
  - rewrite zlen_map. unfold zlen. rewrite zrange_length. lia.
Qed.

(** Matrices given by a function. *)
Definition mk (g : nat) (f : nat -> nat -> R) : list (list R) := map (fun i => map (f i) (seq 0 g)) (seq 0 g).
Lemma upd_map_seq {A} (h : nat -> A) n k v : forall s, (k < n)%nat ->
  upd (map h (seq s n)) k v = map (fun i => if Nat.eqb i (s + k) then v else h i) (seq s n).
Proof.
  revert k. induction n as [|n IH]; intros k s Hk; [lia|]. destruct k as [|k]; cbn [seq map upd].
  - rewrite Nat.add_0_r, Nat.eqb_refl. f_equal. apply map_ext_in. intros i Hi. apply in_seq in Hi.
    replace (Nat.eqb i s) with false by (symmetry; apply Nat.eqb_neq; lia). reflexivity.
  - replace (Nat.eqb s (s + S k)) with false by (symmetry; apply Nat.eqb_neq; lia). f_equal.
    rewrite IH by lia. apply map_ext. intros i. replace (S s + k)%nat with (s + S k)%nat by lia. reflexivity.
Qed.
Lemma nth_map_seq {A} (h : nat -> A) n k d : (k < n)%nat -> nth k (map h (seq 0 n)) d = h k.
Proof.
  intros H. rewrite (nth_indep _ d (h 0%nat)) by (rewrite map_length, seq_length; exact H).
  rewrite map_nth. rewrite seq_nth by exact H. reflexivity.
Qed.
Definition delta (i j i' j' : nat) : R := if (Nat.eqb i' i && Nat.eqb j' j)%bool then 1%R else 0%R.
Lemma accumulate_step g f i j subs : (i < g)%nat -> (j < g)%nat ->
  @accumulate XR (finm (mk g f)) ((Z.of_nat i, Z.of_nat j) :: subs) =
  @accumulate XR (finm (mk g (fun a b => f a b + delta i j a b)%R)) subs.
Proof.
  intros Hi Hj. unfold accumulate. cbn [foldM fst snd].
  assert (L1 : zlen (finm (mk g f)) = Z.of_nat g) by (unfold finm, mk, zlen; rewrite !map_length, seq_length; reflexivity).
  rewrite (getz_ok _ _ []) by (rewrite L1; lia). cbn [bind]. rewrite !Nat2Z.id.
  assert (R1 : nth i (finm (mk g f)) [] = fins (map (f i) (seq 0 g))).
  { unfold finm, mk. rewrite map_map. apply (nth_map_seq (fun a => fins (map (f a) (seq 0 g)))). exact Hi. }
  rewrite R1.
  assert (L2 : @zlen (car XR) (fins (map (f i) (seq 0 g))) = Z.of_nat g) by (unfold fins, zlen; rewrite !map_length, seq_length; reflexivity).
  assert (B2 : 0 <= Z.of_nat j < @zlen (car XR) (fins (map (f i) (seq 0 g)))) by (rewrite L2; lia).
  rewrite (getz_ok _ _ (Fin 0)) by exact B2. cbn [bind]. rewrite !Nat2Z.id.
  rewrite setz_ok by exact B2. cbn [bind]. rewrite !Nat2Z.id.
  rewrite setz_ok by (rewrite L1; lia). cbn [bind]. rewrite !Nat2Z.id.
  f_equal.
  unfold fins. rewrite map_map. rewrite (nth_map_seq (fun b => Fin (f i b))) by exact Hj.
  rewrite xofZ_fin, xadd_fin. rewrite (upd_map_seq (fun b => Fin (f i b))) by exact Hj.
  unfold finm, mk. rewrite !map_map.
  rewrite (upd_map_seq (fun a => fins (map (f a) (seq 0 g)))) by exact Hi.
  apply map_ext. intros a. cbn [Nat.add]. unfold delta. destruct (Nat.eqb_spec a i) as [->|Ha].
  - unfold fins. rewrite map_map. apply map_ext. intros b. cbn [andb].
    destruct (Nat.eqb_spec b j) as [->|Hb]; f_equal. lra.
  - unfold fins. rewrite !map_map. apply map_ext. intros b. cbn [andb]. f_equal. lra.
Qed.
Definition hits (subs : list (nat * nat)) (i j : nat) : R :=
  INR (length (filter (fun p => Nat.eqb i (fst p) && Nat.eqb j (snd p)) subs)).
Lemma accumulate_mk g subs : forall f, Forall (fun p => (fst p < g)%nat /\ (snd p < g)%nat) subs ->
  @accumulate XR (finm (mk g f)) (map (fun p => (Z.of_nat (fst p), Z.of_nat (snd p))) subs) =
  Ok (finm (mk g (fun i j => f i j + hits subs i j)%R)).
Proof.
  induction subs as [|[a b] subs IH]; intros f HF.
  - unfold accumulate. cbn [map foldM]. do 2 f_equal. unfold mk. apply map_ext. intros i. apply map_ext. intros j. unfold hits. cbn. lra.
  - inversion_clear HF as [|? ? [Ha Hb] HF']. cbn [fst snd] in *. cbn [map fst snd].
    rewrite accumulate_step by assumption. rewrite IH by exact HF'. do 2 f_equal. unfold mk.
    apply map_ext. intros i. apply map_ext. intros j. unfold delta, hits. cbn [filter fst snd].
    destruct (Nat.eqb i a && Nat.eqb j b)%bool; cbn [length]; rewrite ?S_INR; lra.
Qed.
Lemma Rsum_concat (m : list (list R)) : Rsum (concat m) = Rsum (map Rsum m).
Proof. induction m as [|r m IH]; cbn; [reflexivity|]. rewrite Rsum_app, IH. reflexivity. Qed.
Lemma Rsum_delta_seq k n c : forall s, (s <= k < s + n)%nat -> Rsum (map (fun i => if Nat.eqb i k then c else 0%R) (seq s n)) = c.
Proof.
  induction n as [|n IH]; intros s H; [lia|]. cbn [seq map Rsum]. destruct (Nat.eqb_spec s k) as [->|Hk].
  - rewrite (Rsum_ext _ (fun _ => 0%R)), Rsum_map_const; [lra|]. intros i Hi. apply in_seq in Hi.
    destruct (Nat.eqb_spec i k); [lia | reflexivity].
  - rewrite IH by lia. lra.
Qed.
Lemma Rsum_mk_delta g a b : (a < g)%nat -> (b < g)%nat -> Rsum (concat (mk g (fun i j => delta a b i j))) = 1%R.
Proof.
  intros Ha Hb. rewrite Rsum_concat. unfold mk. rewrite map_map.
  rewrite (Rsum_ext _ (fun i => if Nat.eqb i a then 1%R else 0%R)); [apply Rsum_delta_seq; lia|].
  intros i _. unfold delta. destruct (Nat.eqb i a); cbn [andb].
  - apply Rsum_delta_seq. lia.
  - rewrite Rsum_map_const. lra.
Qed.
Lemma Rsum_mk_add g f h : Rsum (concat (mk g (fun i j => f i j + h i j)%R)) = (Rsum (concat (mk g f)) + Rsum (concat (mk g h)))%R.
Proof.
  rewrite !Rsum_concat. unfold mk. rewrite !map_map. rewrite <- Rsum_map_add. apply Rsum_ext. intros i _. apply Rsum_map_add.
Qed.
Lemma Rsum_mk_scal g f c : Rsum (concat (mk g (fun i j => f i j * c)%R)) = (Rsum (concat (mk g f)) * c)%R.
Proof.
  rewrite !Rsum_concat. unfold mk. rewrite !map_map. rewrite <- Rsum_map_scal_r. apply Rsum_ext. intros i _. apply Rsum_map_scal_r.
Qed.
Lemma hits_total g subs : Forall (fun p => (fst p < g)%nat /\ (snd p < g)%nat) subs ->
  Rsum (concat (mk g (hits subs))) = INR (length subs).
Proof.
  induction 1 as [|[a b] subs [Ha Hb] _ IH].
  - unfold hits. cbn [filter length INR]. rewrite Rsum_concat. unfold mk. rewrite map_map.
    rewrite (Rsum_ext _ (fun _ => 0%R)), Rsum_map_const; [lra|]. intros i _. rewrite Rsum_map_const. lra.
  - cbn [fst snd] in *. cbn [length]. rewrite S_INR, <- IH, <- (Rsum_mk_delta g a b) by assumption.
    rewrite <- Rsum_mk_add. f_equal. f_equal. unfold mk. apply map_ext. intros i. apply map_ext. intros j.
    unfold hits, delta. cbn [filter fst snd]. destruct (Nat.eqb i a && Nat.eqb j b)%bool; cbn [length]; rewrite ?S_INR; lra.
Qed.
Lemma cell_range g v : 1 <= g -> 0 <= cell g v < g.
Proof. intros H. rewrite <- k_bin_exact by exact H. apply k_bin_range, H. Qed.
Theorem hist_exact : forall (trans : list (XR * XR)) g, 1 <= g -> trans <> [] ->
  exists B, k_histogram trans g = Ok (finm B) /\ mshape B (Z.to_nat g) (Z.to_nat g) /\
    (forall i j, (i < Z.to_nat g)%nat -> (j < Z.to_nat g)%nat ->
       nth j (nth i B []) 0%R =
       (INR (length (filter (fun p => (cell g (fst p) =? Z.of_nat i) && (cell g (snd p) =? Z.of_nat j)) trans)) / INR (length trans))%R) /\
    Forall (Forall (fun x => (0 <= x)%R)) B /\ Rsum (concat B) = 1%R.
Proof.
  intros trans g Hg Hne. unfold k_histogram. rewrite (proj2 (Z.ltb_ge _ _)) by lia.
  set (G := Z.to_nat g).
  set (subs := map (fun p => (Z.to_nat (cell g (fst p)), Z.to_nat (cell g (snd p)))) trans).
  assert (Es : map (fun p => (k_bin g (fst p), k_bin g (snd p))) trans =
               map (fun p => (Z.of_nat (fst p), Z.of_nat (snd p))) subs).
  { unfold subs. rewrite map_map. apply map_ext. intros p. cbn [fst snd]. rewrite !k_bin_exact by exact Hg.
    pose proof (cell_range g (fst p) Hg). pose proof (cell_range g (snd p) Hg). rewrite !Z2Nat.id by lia. reflexivity. }
  assert (HF : Forall (fun p => (fst p < G)%nat /\ (snd p < G)%nat) subs).
  { apply Forall_forall. intros q Hq. apply in_map_iff in Hq. destruct Hq as (p & <- & _). cbn [fst snd].
    pose proof (cell_range g (fst p) Hg). pose proof (cell_range g (snd p) Hg). unfold G. lia. }
  assert (Ez : repeat (repeat (@nofZ XR 0) G) G = finm (mk G (fun _ _ => 0%R))).
  { unfold finm, mk. rewrite map_map. rewrite <- (seq_length G 0) at 2. generalize (seq 0 G) at 1 3. intros l.
    induction l as [|x l IH]; cbn [length repeat map]; [reflexivity|]. f_equal; [|exact IH].
    unfold fins. rewrite map_map. rewrite <- (seq_length G 0) at 1. generalize (seq 0 G). intros l'.
    induction l' as [|y l' IH']; cbn [length repeat map]; [reflexivity|]. f_equal. exact IH'. }
  rewrite Es, Ez, accumulate_mk by exact HF. cbn [bind].
  assert (Hn : (0 < INR (length trans))%R) by (apply (INR_len_pos trans), Hne).
  set (h := fun i j => (hits subs i j * / INR (length trans))%R).
  exists (mk G h). split; [|split; [|split; [|split]]].
  - f_equal. unfold finm, mk. rewrite !map_map. apply map_ext. intros i. unfold fins. rewrite !map_map. apply map_ext.
    intros j. rewrite xofZ_fin, IZR_zlen, xdiv_fin by lra. f_equal. unfold h. rewrite Rplus_0_l. reflexivity.
  - split; [unfold mk; rewrite map_length, seq_length; reflexivity|]. intros r Hr. apply in_map_iff in Hr.
    destruct Hr as (i & <- & _). rewrite map_length, seq_length. reflexivity.
  - intros i j Hi Hj. unfold mk. rewrite (nth_map_seq (fun i => map (h i) (seq 0 G))) by exact Hi.
    rewrite nth_map_seq by exact Hj. unfold h, hits, Rdiv. f_equal. f_equal. unfold subs.
    clear - Hg. induction trans as [|p trans IH]; [reflexivity|]. cbn [map filter fst snd].
    pose proof (cell_range g (fst p) Hg). pose proof (cell_range g (snd p) Hg).
    replace (Nat.eqb i (Z.to_nat (cell g (fst p)))) with (cell g (fst p) =? Z.of_nat i)
      by (destruct (Z.eqb_spec (cell g (fst p)) (Z.of_nat i)), (Nat.eqb_spec i (Z.to_nat (cell g (fst p)))); lia || reflexivity).
    replace (Nat.eqb j (Z.to_nat (cell g (snd p)))) with (cell g (snd p) =? Z.of_nat j)
      by (destruct (Z.eqb_spec (cell g (snd p)) (Z.of_nat j)), (Nat.eqb_spec j (Z.to_nat (cell g (snd p)))); lia || reflexivity).
    destruct ((cell g (fst p) =? Z.of_nat i) && (cell g (snd p) =? Z.of_nat j))%bool; cbn [length]; rewrite IH; reflexivity.
  - apply Forall_forall. intros r Hr. apply in_map_iff in Hr. destruct Hr as (i & <- & _). apply Forall_forall.
    intros x Hx. apply in_map_iff in Hx. destruct Hx as (j & <- & _). unfold h, hits.
    apply Rmult_le_pos; [apply pos_INR | left; apply Rinv_0_lt_compat, Hn].
  - unfold h. rewrite Rsum_mk_scal, hits_total by exact HF. unfold subs. rewrite map_length. field. lra.
Qed.

(** The cells are not of equal width. *)
Theorem cell_uneven : forall g x, 2 <= g ->
  (cell g (Fin x) = 0 <-> (x <= 0)%R) /\
  (forall k, 1 <= k <= g - 2 -> (cell g (Fin x) = k <-> ((IZR k - 1) / IZR g < x <= IZR k / IZR g)%R)) /\
  (cell g (Fin x) = g - 1 <-> ((IZR g - 2) / IZR g < x)%R).
Proof.
  intros g x Hg. assert (P : (2 <= IZR g)%R) by (apply (IZR_le 2), Hg). cbn [cell].
  assert (A : forall k, Zceil (IZR g * x) <= k <-> (x <= IZR k / IZR g)%R).
  { intros k. split; intros H.
    - apply IZR_le in H. pose proof (Zceil_ub (IZR g * x)). apply Rmult_le_reg_l with (IZR g); [lra|].
      replace (IZR g * (IZR k / IZR g))%R with (IZR k) by (field; lra). lra.
    - apply Zceil_glb. apply Rmult_le_compat_l with (r := IZR g) in H; [|lra].
      replace (IZR g * (IZR k / IZR g))%R with (IZR k) in H by (field; lra). exact H. }
  split; [|split].
  - pose proof (A 0) as A0. replace (0 / IZR g)%R with 0%R in A0 by (field; lra). split; intros H; [apply A0 | apply A0 in H]; lia.
  - intros k Hk. pose proof (A k) as A1. pose proof (A (k - 1)) as A2. rewrite minus_IZR in A2.
    split; intros H.
    + split; [|apply A1; lia]. apply Rnot_le_lt. intros C. apply A2 in C. lia.
    + destruct H as [H1 H2]. apply A1 in H2. assert (~ Zceil (IZR g * x) <= k - 1) by (intros C; apply A2 in C; lra). lia.
  - pose proof (A (g - 2)) as A2. rewrite minus_IZR in A2. split; intros H.
    + apply Rnot_le_lt. intros C. apply A2 in C. lia.
    + assert (~ Zceil (IZR g * x) <= g - 2) by (intros C; apply A2 in C; lra). lia.
Qed.
