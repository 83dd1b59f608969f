(** Broadcasting, and the density with array-valued parameters. *)
From Coq Require Import List Arith Lia PeanoNat.
From Verif Require Import Num Lib M_pdf Spec15.
Import ListNotations.

Definition M (s o : list nat) : Prop := Forall2 (fun m n => m = n \/ m = 1) s o.
Fixpoint sel (s o : list nat) (j : nat) : nat :=
  match s, o with
  | m :: s', n :: o' => (if m =? n then j / size o' * size s' else 0) + sel s' o' (j mod size o')
  | _, _ => 0
  end.
Lemma size_cons m s : size (m :: s) = m * size s. Proof. reflexivity. Qed.
Lemma chunks_length {A} k n (d : list A) : length (chunks k n d) = n.
Proof. revert d. induction n; intros d; cbn; [reflexivity | rewrite IHn; reflexivity]. Qed.
Lemma skipn_add {A} a b (l : list A) : skipn a (skipn b l) = skipn (b + a) l.
Proof. revert l. induction b; intros l; [reflexivity|]. destruct l; [rewrite !skipn_nil; reflexivity|]. apply IHb. Qed.
Lemma chunks_nth {A} k n (d : list A) i : i < n -> nth i (chunks k n d) [] = firstn k (skipn (i * k) d).
Proof.
  revert d i. induction n; intros d i Hi; [lia|]. destruct i; cbn [chunks nth]; [reflexivity|]. rewrite IHn by lia. rewrite skipn_add. do 2 f_equal.
Qed.
Lemma concat_len {A} L (ls : list (list A)) : (forall l, In l ls -> length l = L) -> length (concat ls) = length ls * L.
Proof. induction ls as [|l ls IH]; intros H; [reflexivity|]. cbn [concat length]. rewrite app_length, IH, (H l) by (intros; apply H; cbn; auto) || (cbn; auto). lia. Qed.
Lemma concat_nth {A} L (ls : list (list A)) j def : (forall l, In l ls -> length l = L) -> j < length ls * L ->
  nth j (concat ls) def = nth (j mod L) (nth (j / L) ls []) def.
Proof.
  revert j. induction ls as [|l ls IH]; intros j H Hj; [cbn in Hj; lia|]. cbn [concat length] in *. assert (HL : length l = L) by (apply H; left; reflexivity).
  assert (L <> 0) by (intros ->; lia). destruct (Nat.lt_ge_cases j L) as [C|C].
  - rewrite app_nth1 by lia. rewrite Nat.div_small, Nat.mod_small by lia. reflexivity.
  - rewrite app_nth2 by lia. rewrite HL, IH by (intros; try apply H; cbn; auto; lia).
    replace j with ((j - L) + 1 * L) at 3 4 by lia. rewrite Nat.mod_add, Nat.div_add, Nat.add_1_r by assumption. reflexivity.
Qed.
Lemma expand_len {A} s o (d : list A) : M s o -> length d = size s -> length (expand s o d) = size o.
Proof.
  intros H. revert d. induction H as [|m n s o Hm H IH]; intros d Hd; [exact Hd|]. cbn [expand]. rewrite !size_cons in *.
  destruct (Nat.eqb_spec m n) as [->|C].
  - rewrite (concat_len (size o)), map_length, chunks_length; [reflexivity|]. intros l Hl. apply in_map_iff in Hl as (c & <- & Hc). apply IH.
    apply In_nth with (d := []) in Hc as (i & Hi & <-). rewrite chunks_length in Hi. rewrite chunks_nth by exact Hi. rewrite firstn_length, skipn_length, Hd. nia.
  - destruct Hm as [Hm|Hm]; [contradiction|]. subst m. rewrite (concat_len (size o)), repeat_length; [reflexivity|]. intros l Hl. apply repeat_spec in Hl. subst l. apply IH. lia.
Qed.
Lemma sel_lt s o j : M s o -> j < size o -> sel s o j < size s.
Proof.
  intros H. revert j. induction H as [|m n s o Hm H IH]; intros j Hj; [cbn in *; lia|]. cbn [sel]. rewrite size_cons in *.
  assert (size o <> 0) by (intros E; rewrite E in Hj; lia). pose proof (Nat.mod_upper_bound j (size o) ltac:(assumption)) as Hmod. specialize (IH _ Hmod).
  destruct (Nat.eqb_spec m n) as [->|C].
  - assert (j / size o < n) by (apply Nat.div_lt_upper_bound; lia). nia.
  - destruct Hm as [Hm|Hm]; [contradiction|]. subst m. lia.
Qed.
Lemma nth_firstn_lt {A} i k (l : list A) def : i < k -> nth i (firstn k l) def = nth i l def.
Proof. revert i l. induction k; intros i l H; [lia|]. destruct l; [destruct i; reflexivity|]. destruct i; cbn; [reflexivity|]. apply IHk. lia. Qed.
Lemma nth_skipn_add {A} i k (l : list A) def : nth i (skipn k l) def = nth (k + i) l def.
Proof. revert l. induction k; intros l; [reflexivity|]. destruct l; [destruct i; reflexivity|]. apply IHk. Qed.
Lemma nth_repeat_lt {A} (x : A) n i def : i < n -> nth i (repeat x n) def = x.
Proof. revert i. induction n; intros i H; [lia|]. destruct i; [reflexivity|]. apply IHn. lia. Qed.
Lemma expand_nth {A} s o (d : list A) j def : M s o -> length d = size s -> j < size o -> nth j (expand s o d) def = nth (sel s o j) d def.
Proof.
  intros H. revert d j. induction H as [|m n s o Hm H IH]; intros d j Hd Hj; [cbn in *; replace j with 0 by lia; reflexivity|].
  cbn [expand sel]. rewrite !size_cons in *.
  assert (Ho : size o <> 0) by (intros E; rewrite E in Hj; lia). pose proof (Nat.mod_upper_bound j (size o) Ho) as Hmod.
  destruct (Nat.eqb_spec m n) as [->|C].
  - assert (Hq : j / size o < n) by (apply Nat.div_lt_upper_bound; lia).
    assert (Hc : forall i, i < n -> length (firstn (size s) (skipn (i * size s) d)) = size s) by (intros i Hi; rewrite firstn_length, skipn_length, Hd; nia).
    rewrite (concat_nth (size o)).
    + rewrite (nth_indep _ [] (expand s o [])) by (rewrite map_length, chunks_length; exact Hq). rewrite map_nth, chunks_nth by exact Hq.
      rewrite IH by (apply Hc || exact Hmod; exact Hq). rewrite nth_firstn_lt by (apply sel_lt; assumption). apply nth_skipn_add.
    + intros l Hl. apply in_map_iff in Hl as (c & <- & Hin). apply In_nth with (d := []) in Hin as (i & Hi & <-). rewrite chunks_length in Hi.
      rewrite chunks_nth by exact Hi. apply expand_len; [exact H | apply Hc, Hi].
    + rewrite map_length, chunks_length. lia.
  - destruct Hm as [Hm|Hm]; [contradiction|]. subst m. rewrite Nat.mul_1_l in Hd.
    assert (Hq : j / size o < n) by (apply Nat.div_lt_upper_bound; lia).
    rewrite (concat_nth (size o)).
    + rewrite nth_repeat_lt by exact Hq. rewrite IH by assumption. reflexivity.
    + intros l Hl. apply repeat_spec in Hl. subst l. apply expand_len; assumption.
    + rewrite repeat_length. lia.
Qed.
Lemma list_eq {A} (a b : list A) (def : A) : length a = length b -> (forall j, j < length a -> nth j a def = nth j b def) -> a = b.
Proof. intros H1 H2. apply (nth_ext a b def def H1 H2). Qed.
Lemma zipwith_nth {A B C} (f : A -> B -> C) a b j da db dc : length a = length b -> j < length a -> nth j (zipwith f a b) dc = f (nth j a da) (nth j b db).
Proof.
  revert b j. induction a as [|x a IH]; intros [|y b] j HL Hj; cbn in HL, Hj; try lia. destruct j; [reflexivity|].
  change (zipwith f (x :: a) (y :: b)) with (f x y :: zipwith f a b). cbn [nth]. apply IH; lia.
Qed.
Lemma expand_map {A B} (f : A -> B) s o d : M s o -> length d = size s -> expand s o (map f d) = map f (expand s o d).
Proof.
  intros H Hd. assert (L1 : length (expand s o (map f d)) = size o) by (apply expand_len; [exact H | rewrite map_length; exact Hd]).
  assert (L2 : length (map f (expand s o d)) = size o) by (rewrite map_length; apply expand_len; assumption).
  destruct d as [|x0 d0] eqn:Ed.
  - destruct (expand s o (@nil A)) as [|y ys] eqn:E.
    + cbn in L2. cbn [map] in *. destruct (expand s o (@nil B)); [reflexivity | cbn in L1; congruence].
    + exfalso. cbn in L2. assert (0 < size o) by lia. pose proof (sel_lt s o 0 H ltac:(assumption)). cbn in Hd. lia.
  - rewrite <- Ed in *. clear Ed. apply (list_eq _ _ (f x0)); [congruence|]. intros j Hj. rewrite L1 in Hj.
    rewrite map_nth, !expand_nth by (rewrite ?map_length; assumption). apply map_nth.
Qed.
Lemma expand_zip {A B C} (f : A -> B -> C) s o a b : M s o -> length a = size s -> length b = size s ->
  expand s o (zipwith f a b) = zipwith f (expand s o a) (expand s o b).
Proof.
  intros H Ha Hb. assert (Lz : length (zipwith f a b) = size s) by (rewrite zipwith_length; lia).
  pose proof (expand_len s o _ H Lz) as L1. pose proof (expand_len s o _ H Ha) as L2. pose proof (expand_len s o _ H Hb) as L3.
  assert (L4 : length (zipwith f (expand s o a) (expand s o b)) = size o) by (rewrite zipwith_length; lia).
  destruct (expand s o (zipwith f a b)) as [|c0 cs] eqn:E; [cbn in L1; destruct (zipwith f (expand s o a) (expand s o b)); [reflexivity | cbn in L4; lia]|]. rewrite <- E in *. clear E.
  apply (list_eq _ _ c0); [congruence|]. intros j Hj. rewrite L1 in Hj. pose proof (sel_lt s o j H Hj) as Hs.
  destruct a as [|a0 a']; [cbn in Ha; lia|]. destruct b as [|b0 b']; [cbn in Hb; lia|].
  rewrite expand_nth by assumption. rewrite (zipwith_nth f _ _ _ a0 b0), (zipwith_nth f _ _ _ a0 b0) by lia. rewrite !expand_nth by assumption. reflexivity.
Qed.
Lemma sel_trans s p o j : M s p -> M p o -> j < size o -> sel s p (sel p o j) = sel s o j.
Proof.
  intros H. revert o j. induction H as [|m n s p Hm H IH]; intros o j HM Hj; inversion HM as [|x q y o' Hn HM' E1 E2]; subst; [reflexivity|].
  cbn [sel]. rewrite size_cons in Hj. assert (Ho : size o' <> 0) by (intros E; rewrite E in Hj; lia).
  pose proof (Nat.mod_upper_bound j (size o') Ho) as Hmod. pose proof (sel_lt p o' _ HM' Hmod) as HB. set (B := sel p o' (j mod size o')) in *.
  assert (Q : forall k, (k * size p + B) / size p = k /\ (k * size p + B) mod size p = B).
  { intros k. split; [rewrite Nat.div_add_l, Nat.div_small by lia; lia | rewrite Nat.add_comm, Nat.mod_add, Nat.mod_small by lia; reflexivity]. }
  assert (Q0 := Q 0). cbn [Nat.mul Nat.add] in Q0. destruct Q0 as [Q1 Q2].
  destruct (Nat.eqb_spec m n) as [C1|C1], (Nat.eqb_spec n q) as [C2|C2], (Nat.eqb_spec m q) as [C3|C3]; subst; try contradiction; try lia;
    rewrite ?(proj1 (Q _)), ?(proj2 (Q _)), ?Nat.add_0_l, ?Q1, ?Q2; unfold B; try (rewrite IH by assumption); try reflexivity.
  all: exfalso; lia.
Qed.
Lemma expand_trans {A} s p o (d : list A) : M s p -> M p o -> M s o -> length d = size s -> expand p o (expand s p d) = expand s o d.
Proof.
  intros H1 H2 H3 Hd. pose proof (expand_len s p d H1 Hd) as L1. pose proof (expand_len p o _ H2 L1) as L2. pose proof (expand_len s o d H3 Hd) as L3.
  destruct d as [|x d'] eqn:Ed.
  - destruct (expand p o (expand s p [])) as [|y ys]; [destruct (expand s o []); [reflexivity | cbn in *; congruence]|].
    exfalso. cbn in L2. pose proof (sel_lt s o 0 H3 ltac:(lia)). cbn in Hd. lia.
  - rewrite <- Ed in *. apply (list_eq _ _ x); [congruence|]. intros j Hj. rewrite L2 in Hj.
    rewrite expand_nth by assumption. rewrite expand_nth; [|assumption|assumption|apply sel_lt; assumption]. rewrite expand_nth by assumption. rewrite sel_trans by assumption. reflexivity.
Qed.
Lemma M_trans s p o : M s p -> M p o -> M s o.
Proof.
  intros H. revert o. induction H as [|m n s p Hm H IH]; intros o HM; inversion HM; subst; constructor; [lia | apply IH; assumption].
Qed.
Lemma M_refl o : M o o. Proof. induction o; constructor; [left; reflexivity | assumption]. Qed.
Lemma sel_id o j : j < size o -> sel o o j = j.
Proof.
  revert j. induction o as [|n o IH]; intros j Hj; [cbn in *; lia|]. cbn [sel]. rewrite Nat.eqb_refl. rewrite size_cons in Hj. assert (Ho : size o <> 0) by (intros E; rewrite E in Hj; lia).
  rewrite IH by (apply Nat.mod_upper_bound; exact Ho). pose proof (Nat.div_mod j (size o) Ho). lia.
Qed.
Lemma expand_id {A} o (d : list A) : length d = size o -> expand o o d = d.
Proof.
  intros Hd. pose proof (expand_len o o d (M_refl o) Hd) as L. destruct d as [|x d'] eqn:Ed; [destruct (expand o o []); [reflexivity | cbn in *; congruence]|]. rewrite <- Ed in *.
  apply (list_eq _ _ x); [congruence|]. intros j Hj. rewrite expand_nth, sel_id by (assumption || apply M_refl || congruence). reflexivity.
Qed.
Lemma size_ones k s : size (repeat 1 k ++ s) = size s.
Proof. induction k; [reflexivity|]. cbn [repeat app]. rewrite size_cons, IHk. lia. Qed.
Lemma expand_ones {A} k s o (d : list A) : length d = size s -> expand (repeat 1 k ++ s) (repeat 1 k ++ o) d = expand s o d.
Proof.
  intros Hd. induction k; [reflexivity|]. cbn [repeat app expand Nat.eqb]. change (1 =? 1) with true. cbv iota.
  cbn [chunks map concat]. rewrite size_ones, firstn_all2, app_nil_r by lia. exact IHk.
Qed.
Lemma pad_length k s : length s <= k -> length (pad k s) = k.
Proof. intros H. unfold pad. rewrite app_length, repeat_length. lia. Qed.
Lemma pad_pad k k' s : length s <= k -> k <= k' -> pad k' (pad k s) = pad k' s.
Proof. intros H1 H2. unfold pad at 1. rewrite pad_length by exact H1. unfold pad. rewrite app_assoc, <- repeat_app. do 2 f_equal. lia. Qed.
Lemma size_pad k s : size (pad k s) = size s. Proof. apply size_ones. Qed.
Lemma f2_length {A B} (R : A -> B -> Prop) a b : Forall2 R a b -> length a = length b.
Proof. intros H. induction H; cbn; congruence. Qed.
Lemma M_length s o : M s o -> length s = length o. Proof. apply f2_length. Qed.
Lemma M_pad k s o : M s o -> M (pad k s) (pad k o).
Proof. intros H. unfold pad. rewrite (M_length _ _ H). apply Forall2_app; [|exact H]. induction (k - length o); constructor; [left; reflexivity | assumption]. Qed.
Lemma bdims_M s t o : bdims s t = Some o -> M s o /\ M t o.
Proof.
  revert t o. induction s as [|m s IH]; intros [|n t] o E; cbn in E; try discriminate; [injection E as <-; split; constructor|].
  destruct (bdims s t) as [o'|] eqn:E'; [|discriminate]. destruct (IH _ _ E') as [H1 H2].
  destruct (Nat.eqb_spec m n); [|destruct (Nat.eqb_spec m 1); [|destruct (Nat.eqb_spec n 1); [|discriminate]]]; injection E as <-; subst; split; constructor; auto.
Qed.
Lemma bdims_absorb s o : M s o -> bdims s o = Some o.
Proof.
  intros H. induction H as [|m n s o Hm H IH]; [reflexivity|]. cbn [bdims]. rewrite IH. destruct (Nat.eqb_spec m n) as [->|C]; [reflexivity|].
  destruct Hm as [Hm|Hm]; [contradiction|]. subst m. reflexivity.
Qed.
(** ** Positions *)
Fixpoint loff (s ix : list nat) : nat :=
  match s, ix with m :: s', i :: ix' => (if m =? 1 then 0 else i) * size s' + loff s' ix' | _, _ => 0 end.
Lemma size_app s t : size (s ++ t) = size s * size t.
Proof. induction s as [|m s IH]; [cbn [app]; change (size []) with 1; rewrite Nat.mul_1_l; reflexivity|]. cbn [app]. rewrite !size_cons, IH. apply Nat.mul_assoc. Qed.
Lemma size_rev s : size (rev s) = size s.
Proof. induction s as [|m s IH]; [reflexivity|]. cbn [rev]. rewrite size_app, IH, !size_cons. change (size []) with 1. rewrite Nat.mul_1_r. apply Nat.mul_comm. Qed.
Lemma position_snoc rs rix m i : length rs = length rix -> position (rs ++ [m]) (rix ++ [i]) = position rs rix + size rs * (if m =? 1 then 0 else i).
Proof.
  revert rix. induction rs as [|n rs IH]; intros [|k rix] H; try discriminate H; cbn [app position].
  - cbn. destruct (m =? 1); lia.
  - rewrite IH by (cbn in H; lia). rewrite size_cons. rewrite Nat.mul_add_distr_l, Nat.mul_assoc. lia.
Qed.
Lemma position_loff s ix : length s = length ix -> position (rev s) (rev ix) = loff s ix.
Proof.
  revert ix. induction s as [|m s IH]; intros [|i ix] H; try discriminate H; [reflexivity|]. cbn [rev loff].
  rewrite position_snoc by (rewrite !rev_length; cbn in H; lia). rewrite IH by (cbn in H; lia). rewrite size_rev, Nat.mul_comm. lia.
Qed.
Lemma position_more rs rix extra : length rs = length rix -> position rs (rix ++ extra) = position rs rix.
Proof. revert rix. induction rs as [|m rs IH]; intros [|i rix] H; try discriminate H; [destruct extra; reflexivity|]. cbn [app position]. rewrite IH by (cbn in H; lia). reflexivity. Qed.
Lemma loff_ones k s ix ix' : length ix = k -> loff (repeat 1 k ++ s) (ix ++ ix') = loff s ix'.
Proof. revert ix. induction k as [|k IH]; intros [|i ix] H; try discriminate H; [reflexivity|]. cbn [repeat app loff]. change (1 =? 1) with true. cbv iota. rewrite IH by (cbn in H; lia). lia. Qed.
Lemma position_pad s ix : length s <= length ix -> position (rev s) (rev ix) = loff (pad (length ix) s) ix.
Proof.
  intros H. unfold pad. set (k := length ix - length s). rewrite <- (firstn_skipn k ix) at 1 2. rewrite loff_ones by (rewrite firstn_length; lia).
  rewrite rev_app_distr, position_more by (rewrite !rev_length, skipn_length; lia). apply position_loff. rewrite skipn_length. lia.
Qed.
Lemma loff_lt o ix : index_of o ix -> loff o ix < size o.
Proof.
  intros H. induction H as [|i n ix o Hi H IH]; [cbn; lia|]. cbn [loff]. rewrite size_cons. destruct (Nat.eqb_spec n 1); nia.
Qed.
Lemma sel_loff s o ix : M s o -> index_of o ix -> sel s o (loff o ix) = loff s ix.
Proof.
  intros H. revert ix. induction H as [|m n s o Hm H IH]; intros ix Hx; inversion Hx as [|i ? ix' ? Hi Hx' E1 E2]; subst; [reflexivity|].
  cbn [sel loff]. pose proof (loff_lt _ _ Hx') as HB. set (B := loff o ix') in *.
  assert (EI : (if n =? 1 then 0 else i) = i) by (destruct (Nat.eqb_spec n 1); lia). rewrite EI.
  rewrite Nat.div_add_l, Nat.div_small, Nat.add_0_r by lia. replace ((i * size o + B) mod size o) with B by (rewrite Nat.add_comm, Nat.mod_add, Nat.mod_small by lia; reflexivity).
  unfold B. rewrite IH by exact Hx'. destruct (Nat.eqb_spec m n) as [->|C]; [rewrite EI; reflexivity|]. destruct Hm as [Hm|Hm]; [contradiction|]. subst m. reflexivity.
Qed.
Lemma entry_expand {A} s o (d : list A) ix def : length s <= length o -> M (pad (length o) s) o -> length d = size s -> index_of o ix ->
  nth (position (rev o) (rev ix)) (expand (pad (length o) s) o d) def = entry s d ix def.
Proof.
  intros Hl HM Hd Hx. pose proof (f2_length _ _ _ Hx) as HL. unfold entry. rewrite position_loff by congruence.
  rewrite expand_nth; [|assumption|rewrite size_pad; exact Hd|apply loff_lt; exact Hx]. rewrite sel_loff by assumption.
  rewrite position_pad by lia. rewrite HL. reflexivity.
Qed.
Lemma entry_self {A} o (d : list A) ix def : entry o d ix def = nth (position (rev o) (rev ix)) d def. Proof. reflexivity. Qed.
(** ** Shapes *)
Lemma nth_over {A} j (l : list A) d : length l <= j -> nth j l d = d. Proof. apply nth_overflow. Qed.
Lemma dim_pad k s j : dim (pad k s) j = dim s j.
Proof.
  unfold dim, pad. rewrite rev_app_distr. set (m := k - length s). assert (E : rev (repeat 1 m) = repeat 1 m).
  { induction m; [reflexivity|]. cbn [repeat rev]. rewrite IHm. change [1] with (repeat 1 1). rewrite <- repeat_app. replace (m + 1) with (S m) by lia. reflexivity. }
  rewrite E. destruct (Nat.lt_ge_cases j (length (rev s))) as [H|H]; [apply app_nth1; exact H|].
  rewrite app_nth2, (nth_over j (rev s)) by exact H. destruct (Nat.lt_ge_cases (j - length (rev s)) m) as [H'|H'].
  - apply (repeat_spec m 1). apply nth_In. rewrite repeat_length. exact H'.
  - apply nth_over. rewrite repeat_length. exact H'.
Qed.
Lemma M_rev s o : M s o -> M (rev s) (rev o).
Proof. intros H. induction H as [|m n s o Hm H IH]; [constructor|]. cbn [rev]. apply Forall2_app; [exact IH | constructor; [exact Hm | constructor]]. Qed.
Lemma M_dim s o k : M s o -> dim s k = dim o k \/ dim s k = 1.
Proof.
  intros H. apply M_rev in H. unfold dim. revert k. induction H as [|m n s' o' Hm H IH]; intros k; [destruct k; auto|]. destruct k; [exact Hm | apply IH].
Qed.
Lemma dim_nth s j : j < length s -> nth j s 1 = dim s (length s - S j).
Proof. intros H. unfold dim. rewrite rev_nth by lia. f_equal. lia. Qed.
Lemma bdims_nth s t o : bdims s t = Some o -> length o = length s /\ length o = length t /\ forall j, nth j o 1 = nth j s 1 \/ nth j o 1 = nth j t 1.
Proof.
  revert t o. induction s as [|m s IH]; intros [|n t] o E; cbn in E; try discriminate; [injection E as <-; repeat split; auto|].
  destruct (bdims s t) as [o'|] eqn:E'; [|discriminate]. destruct (IH _ _ E') as (L1 & L2 & H).
  destruct (Nat.eqb_spec m n); [|destruct (Nat.eqb_spec m 1); [|destruct (Nat.eqb_spec n 1); [|discriminate]]]; injection E as <-; subst; cbn [length];
    (repeat split; [congruence | congruence |]); intros [|j]; cbn [nth]; auto.
Qed.
Lemma bdims_none s t : length s = length t -> bdims s t = None -> exists j, j < length s /\ nth j s 1 <> nth j t 1 /\ nth j s 1 <> 1 /\ nth j t 1 <> 1.
Proof.
  revert t. induction s as [|m s IH]; intros [|n t] L E; try discriminate L; [discriminate E|]. cbn in L, E.
  destruct (bdims s t) as [o'|] eqn:E'.
  - destruct (Nat.eqb_spec m n); [discriminate|]. destruct (Nat.eqb_spec m 1); [discriminate|]. destruct (Nat.eqb_spec n 1); [discriminate|]. exists 0. cbn. repeat split; try assumption. lia.
  - destruct (IH t ltac:(lia) E') as (j & Hj & H). exists (S j). split; [cbn; lia | exact H].
Qed.
Lemma bshape_some s t o : bshape s t = Some o ->
  length o = Nat.max (length s) (length t) /\ M (pad (length o) s) o /\ M (pad (length o) t) o /\ forall k, dim o k = dim s k \/ dim o k = dim t k.
Proof.
  unfold bshape. set (k := Nat.max (length s) (length t)). intros E. destruct (bdims_nth _ _ _ E) as (L1 & L2 & H). destruct (bdims_M _ _ _ E) as [M1 M2].
  rewrite pad_length in L1 by lia. rewrite L1. split; [reflexivity|]. split; [exact M1|]. split; [exact M2|].
  intros j. destruct (Nat.lt_ge_cases j k) as [Hj|Hj].
  - specialize (H (k - S j)). rewrite !dim_nth in H by (rewrite ?pad_length by lia; lia). rewrite !dim_pad, L1, !pad_length in H by lia.
    replace (k - S (k - S j)) with j in H by lia. exact H.
  - left. unfold dim. rewrite !nth_over; [reflexivity | rewrite rev_length; lia | rewrite rev_length; lia].
Qed.
Lemma bshape_none s t : bshape s t = None -> ~ fitting s t.
Proof.
  unfold bshape. set (k := Nat.max (length s) (length t)). intros E F.
  assert (L1 : length (pad k s) = k) by (apply pad_length; lia). assert (L2 : length (pad k t) = k) by (apply pad_length; lia).
  destruct (bdims_none _ _ (eq_trans L1 (eq_sym L2)) E) as (j & Hj & H1 & H2 & H3). rewrite L1 in Hj.
  assert (D1 : nth j (pad k s) 1 = dim s (k - S j)) by (rewrite dim_nth, L1, dim_pad by lia; reflexivity).
  assert (D2 : nth j (pad k t) 1 = dim t (k - S j)) by (rewrite dim_nth, L2, dim_pad by lia; reflexivity).
  destruct (F (k - S j)) as [C|[C|C]]; congruence.
Qed.
Lemma bshape_fit s t o : bshape s t = Some o -> fitting s t.
Proof.
  intros E k. destruct (bshape_some _ _ _ E) as (_ & M1 & M2 & _). pose proof (M_dim _ _ k M1) as A. pose proof (M_dim _ _ k M2) as B. rewrite dim_pad in A, B. lia.
Qed.
Lemma bshape_absorb s o : length s <= length o -> M (pad (length o) s) o -> bshape s o = Some o.
Proof.
  intros L H. unfold bshape. replace (Nat.max (length s) (length o)) with (length o) by lia. unfold pad at 2. rewrite Nat.sub_diag. apply bdims_absorb. exact H.
Qed.
Lemma pad_self o : pad (length o) o = o. Proof. unfold pad. rewrite Nat.sub_diag. reflexivity. Qed.

Section Op.
Context {N : Num}.
Local Open Scope num_scope.
Local Notation at_ a ix := (entry (nd_shape a) (nd_data a) ix (nofZ 0)).
Lemma expand_pads {A} k s o (d : list A) : length s = length o -> length d = size s -> expand (pad k s) (pad k o) d = expand s o d.
Proof. intros L Hd. unfold pad. rewrite L. apply expand_ones. exact Hd. Qed.
Lemma expand_up {A} s k o o' (d : list A) : length o = k -> length s <= k -> k <= length o' -> M (pad k s) o -> M (pad (length o') o) o' -> length d = size s ->
  expand (pad (length o') o) o' (expand (pad k s) o d) = expand (pad (length o') s) o' d /\ M (pad (length o') s) o'.
Proof.
  intros Lo Ls Lk M1 M2 Hd. assert (MM : M (pad (length o') s) (pad (length o') o)) by (rewrite <- (pad_pad k) by lia; apply M_pad; exact M1).
  assert (M3 : M (pad (length o') s) o') by (apply (M_trans _ _ _ MM M2)). split; [|exact M3].
  rewrite <- (expand_trans _ _ _ d MM M2 M3) by (rewrite size_pad; exact Hd). f_equal. rewrite <- (pad_pad k (length o') s) by lia. symmetry.
  apply expand_pads; [rewrite pad_length; lia | rewrite size_pad; exact Hd].
Qed.
Lemma nd_op_ok (f : N -> N -> N) (a b : nd N) o : filled (nd_shape a) (nd_data a) -> filled (nd_shape b) (nd_data b) -> bshape (nd_shape a) (nd_shape b) = Some o ->
  exists r, nd_op f a b = Ok (ND o r) /\ filled o r /\
  forall o' ix, length o <= length o' -> M (pad (length o') o) o' -> index_of o' ix -> entry o r ix (nofZ 0) = f (at_ a ix) (at_ b ix).
Proof.
  intros Fa Fb E. unfold nd_op. rewrite E. destruct (bshape_some _ _ _ E) as (L & M1 & M2 & _). rewrite <- L. eexists. split; [reflexivity|].
  pose proof (expand_len _ _ (nd_data a) M1 ltac:(rewrite size_pad; exact Fa)) as L1. pose proof (expand_len _ _ (nd_data b) M2 ltac:(rewrite size_pad; exact Fb)) as L2.
  split; [unfold filled; rewrite zipwith_length, L1, L2; apply Nat.min_id|].
  intros o' ix Lo Mo Hx. destruct (expand_up (nd_shape a) (length o) o o' (nd_data a) eq_refl ltac:(lia) Lo M1 Mo Fa) as [E1 M1']. destruct (expand_up (nd_shape b) (length o) o o' (nd_data b) eq_refl ltac:(lia) Lo M2 Mo Fb) as [E2 M2'].
  rewrite <- (entry_expand o o' _ ix _ Lo Mo) by (try exact Hx; rewrite zipwith_length, L1, L2; apply Nat.min_id).
  rewrite expand_zip, E1, E2 by (rewrite ?size_pad; assumption).
  pose proof (expand_len _ _ (nd_data a) M1' ltac:(rewrite size_pad; exact Fa)) as L1'. pose proof (expand_len _ _ (nd_data b) M2' ltac:(rewrite size_pad; exact Fb)) as L2'.
  rewrite (zipwith_nth f _ _ _ (nofZ 0) (nofZ 0)).
  - rewrite !entry_expand by (try assumption; lia). reflexivity.
  - congruence.
  - rewrite L1', position_loff by (symmetry; apply (f2_length _ _ _ Hx)). apply loff_lt. exact Hx.
Qed.
Lemma at_lt (a : nd N) o ix : filled (nd_shape a) (nd_data a) -> length (nd_shape a) <= length o -> M (pad (length o) (nd_shape a)) o -> index_of o ix ->
  position (rev (nd_shape a)) (rev ix) < length (nd_data a).
Proof.
  intros Fa L HM Hx. unfold filled in Fa. rewrite Fa. pose proof (f2_length _ _ _ Hx) as HL. rewrite position_pad by lia. rewrite HL. rewrite <- (sel_loff _ _ _ HM Hx).
  change (fold_right Nat.mul 1 (nd_shape a)) with (size (nd_shape a)). rewrite <- (size_pad (length o)). apply sel_lt; [exact HM | apply loff_lt; exact Hx].
Qed.
Lemma nd_fun_at (f : N -> N) (a : nd N) o ix : filled (nd_shape a) (nd_data a) -> length (nd_shape a) <= length o -> M (pad (length o) (nd_shape a)) o -> index_of o ix ->
  at_ (nd_fun f a) ix = f (at_ a ix).
Proof.
  intros Fa L HM Hx. pose proof (at_lt a o ix Fa L HM Hx) as Hlt. unfold nd_fun, entry. cbn [nd_shape nd_data].
  rewrite (nth_indep _ _ (f (nofZ 0))) by (rewrite map_length; exact Hlt). apply map_nth.
Qed.
Lemma nd_fun_filled (f : N -> N) (a : nd N) : filled (nd_shape a) (nd_data a) -> filled (nd_shape (nd_fun f a)) (nd_data (nd_fun f a)).
Proof. unfold filled, nd_fun. cbn. rewrite map_length. auto. Qed.
Lemma nd_op_raise (f : N -> N -> N) (a b : nd N) : ~ fitting (nd_shape a) (nd_shape b) -> nd_op f a b = Raise ValueError.
Proof. intros H. unfold nd_op. destruct (bshape _ _) eqn:E; [apply bshape_fit in E; contradiction | reflexivity]. Qed.
Lemma fit_some s t : fitting s t -> exists o, bshape s t = Some o.
Proof. intros H. destruct (bshape s t) as [o|] eqn:E; [exists o; reflexivity | apply bshape_none in E; contradiction]. Qed.
End Op.
(** Every number type: the shapes are combined, every element is the density of the elements at its position. *)
Lemma pdf_broadcast (N : Num) (a sd mu : nd N) :
  filled (nd_shape a) (nd_data a) -> filled (nd_shape sd) (nd_data sd) -> filled (nd_shape mu) (nd_data mu) ->
  nd_data a <> [] -> existsb nisnan (nd_data a) = false ->
  (fitting (nd_shape a) (nd_shape mu) -> fitting (nd_shape a) (nd_shape sd) -> fitting (nd_shape mu) (nd_shape sd) ->
   exists o r, pdf_nd a sd mu = Ok (ND o r) /\ common [nd_shape a; nd_shape mu; nd_shape sd] o /\ filled o r /\
   forall ix, index_of o ix ->
     pdf (Arr [1%Z] [entry (nd_shape a) (nd_data a) ix (nofZ 0)]) (entry (nd_shape sd) (nd_data sd) ix (nofZ 0)) (entry (nd_shape mu) (nd_data mu) ix (nofZ 0)) =
       Ok (Arr [1%Z] [entry o r ix (nofZ 0)])) /\
  (~ (fitting (nd_shape a) (nd_shape mu) /\ fitting (nd_shape a) (nd_shape sd) /\ fitting (nd_shape mu) (nd_shape sd)) ->
   pdf_nd a sd mu = Raise ValueError).
Proof.
  intros Fa Fs Fm Hne Hnan. assert (EQ : forall (K : res (nd N)), match nd_data a with [] => Raise ValueError | _ :: _ => if existsb nisnan (nd_data a) then Raise TypeError else K end = K) by (intros K; rewrite Hnan; destruct (nd_data a); [contradiction | reflexivity]).
  unfold pdf_nd. cbv zeta. rewrite EQ. clear EQ.
  set (gx := fun s : N => (_ - nlog s)%num). set (gd := fun s : N => (nofZ 2 * (s * s))%num).
  split.
  - intros F1 F2 F3. destruct (fit_some _ _ F1) as [p Ep]. destruct (bshape_some _ _ _ Ep) as (Lp & Ma & Mm & Dp).
    destruct (nd_op_ok nsub a mu p Fa Fm Ep) as (d & E1 & Fd & Hd). rewrite E1. cbn [bind].
    assert (Fps : fitting p (nd_shape sd)) by (intros k; destruct (Dp k) as [C|C]; rewrite C; [apply F2 | apply F3]).
    destruct (fit_some _ _ Fps) as [o Eo]. destruct (bshape_some _ _ _ Eo) as (Lo & Mp & Ms & Do).
    destruct (nd_op_ok ndiv (nd_fun sq (ND p d)) (nd_fun gd sd) o (nd_fun_filled sq (ND p d) Fd) (nd_fun_filled _ _ Fs) Eo) as (y & E2 & Fy & Hy). rewrite E2. cbn [bind].
    assert (Eso : bshape (nd_shape sd) o = Some o) by (apply bshape_absorb; [lia | exact Ms]).
    destruct (nd_op_ok nsub (nd_fun gx sd) (ND o y) o (nd_fun_filled _ _ Fs) Fy Eso) as (z & E3 & Fz & Hz). rewrite E3. cbn [bind].
    assert (Mao : M (pad (length o) (nd_shape a)) o). { apply (M_trans _ (pad (length o) p)); [|exact Mp]. rewrite <- (pad_pad (length p)) by lia. apply M_pad. exact Ma. }
    assert (Mmo : M (pad (length o) (nd_shape mu)) o). { apply (M_trans _ (pad (length o) p)); [|exact Mp]. rewrite <- (pad_pad (length p)) by lia. apply M_pad. exact Mm. }
    unfold nd_fun at 1. cbn [nd_shape nd_data]. exists o, (map nexp z). split; [reflexivity|]. split; [|split].
    + split; [cbn [map fold_right]; lia|]. split.
      * intros k s [<-|[<-|[<-|[]]]]; [pose proof (M_dim _ _ k Mao) as Q | pose proof (M_dim _ _ k Mmo) as Q | pose proof (M_dim _ _ k Ms) as Q]; rewrite dim_pad in Q; exact Q.
      * intros k. destruct (Do k) as [C|C]; [destruct (Dp k) as [C'|C']|].
        -- exists (nd_shape a). split; [left; reflexivity | congruence].
        -- exists (nd_shape mu). split; [right; left; reflexivity | congruence].
        -- exists (nd_shape sd). split; [right; right; left; reflexivity | exact C].
    + unfold filled. rewrite map_length. exact Fz.
    + intros ix Hx. unfold pdf, nd_check. cbn [elements].
      assert (Ea : nisnan (entry (nd_shape a) (nd_data a) ix (nofZ 0)) = false).
      { destruct (nisnan (entry _ _ _ _)) eqn:E; [|reflexivity]. rewrite <- Hnan. symmetry. apply existsb_exists. eexists. split; [|exact E]. apply nth_In. apply (at_lt a o); (assumption || lia). }
      cbn [existsb]. rewrite Ea. cbn [orb bind nd_map map]. do 3 f_equal.
      assert (Mo : M (pad (length o) o) o) by (rewrite pad_self; apply M_refl).
      transitivity (nexp (entry o z ix (nofZ 0))); [f_equal | symmetry; apply (nd_fun_at nexp (ND o z) o); (assumption || apply le_n)].
      rewrite (Hz o ix (le_n _) Mo Hx). cbn [nd_shape nd_data]. rewrite (nd_fun_at gx sd o) by (assumption || lia). rewrite (Hy o ix (le_n _) Mo Hx).
      rewrite (nd_fun_at sq (ND p d) o) by (assumption || cbn [nd_shape]; lia). rewrite (nd_fun_at gd sd o) by (assumption || lia). cbn [nd_shape nd_data].
      assert (Q : entry p d ix (nofZ 0) = (entry (nd_shape a) (nd_data a) ix (nofZ 0) - entry (nd_shape mu) (nd_data mu) ix (nofZ 0))%num); [|rewrite Q; reflexivity].
      apply (Hd o); (assumption || lia).
  - intros HN. destruct (bshape (nd_shape a) (nd_shape mu)) as [p|] eqn:Ep.
    + destruct (bshape_some _ _ _ Ep) as (Lp & Ma & Mm & Dp).
      destruct (nd_op_ok nsub a mu p Fa Fm Ep) as (d & E1 & Fd & Hd). rewrite E1. cbn [bind].
      rewrite nd_op_raise; [reflexivity|]. cbn [nd_fun nd_shape]. intros F. apply HN. split; [apply bshape_fit in Ep; exact Ep|].
      split; intros k; [pose proof (M_dim _ _ k Ma) as Q | pose proof (M_dim _ _ k Mm) as Q]; rewrite dim_pad in Q; specialize (F k); lia.
    + rewrite nd_op_raise by (apply bshape_none; exact Ep). reflexivity.
Qed.
Lemma nth_M s o : length s = length o -> (forall j, j < length s -> nth j s 1 = nth j o 1 \/ nth j s 1 = 1) -> M s o.
Proof.
  revert o. induction s as [|m s IH]; intros [|n o] L H; try discriminate L; [constructor|]. constructor; [apply (H 0); cbn; lia|].
  apply IH; [cbn in L; lia|]. intros j Hj. apply (H (S j)). cbn. lia.
Qed.
Lemma common_M ss o s : common ss o -> In s ss -> length s <= length o /\ M (pad (length o) s) o.
Proof.
  intros (L & H & _) Hs. assert (Ls : length s <= length o).
  { rewrite L. clear - Hs. induction ss as [|t ss IH]; [contradiction Hs|]. cbn [map fold_right]. destruct Hs as [->|Hs]; [lia | specialize (IH Hs); lia]. }
  split; [exact Ls|]. assert (Lp : length (pad (length o) s) = length o) by (apply pad_length; exact Ls).
  apply nth_M; [exact Lp|]. intros j Hj. rewrite Lp in Hj. rewrite !dim_nth by (rewrite ?Lp; exact Hj). rewrite Lp, dim_pad. apply H. exact Hs.
Qed.
Lemma common_in {A} ss o s (d : list A) ix def : common ss o -> In s ss -> filled s d -> index_of o ix -> In (entry s d ix def) d.
Proof.
  intros C Hs Fd Hx. destruct (common_M _ _ _ C Hs) as [L HM]. unfold entry. apply nth_In. unfold filled in Fd. rewrite Fd.
  pose proof (f2_length _ _ _ Hx) as HL. rewrite position_pad by lia. rewrite HL. rewrite <- (sel_loff _ _ _ HM Hx).
  change (fold_right Nat.mul 1 s) with (size s). rewrite <- (size_pad (length o)). apply sel_lt; [exact HM | apply loff_lt; exact Hx].
Qed.
Lemma unrank o j : j < size o -> exists ix, index_of o ix /\ position (rev o) (rev ix) = j.
Proof.
  assert (U : forall o j, j < size o -> exists ix, index_of o ix /\ loff o ix = j).
  { clear. induction o as [|n o IH]; intros j Hj; [exists []; split; [constructor | cbn in *; lia]|]. rewrite size_cons in Hj.
    assert (Ho : size o <> 0) by (intros E; rewrite E in Hj; lia). destruct (IH (j mod size o) (Nat.mod_upper_bound _ _ Ho)) as (ix & Hx & E).
    exists (j / size o :: ix). assert (Hd : j / size o < n) by (apply Nat.div_lt_upper_bound; lia). split; [constructor; assumption|]. cbn [loff]. rewrite E.
    assert (EI : (if n =? 1 then 0 else j / size o) = j / size o) by (destruct (Nat.eqb_spec n 1); lia). rewrite EI. pose proof (Nat.div_mod j (size o) Ho). lia. }
  intros Hj. destruct (U o j Hj) as (ix & Hx & E). exists ix. split; [exact Hx|]. rewrite position_loff by (symmetry; apply (f2_length _ _ _ Hx)). exact E.
Qed.
