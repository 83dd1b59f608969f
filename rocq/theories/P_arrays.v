(** Containers handed to the descriptive functions. *)
From Coq Require Import Reals Lra Lia.
From Verif Require Import Num Lib LibR XR Spec Spec9 M_arrays.
Import ListNotations.

Lemma to_num_ok (N : Num) (l : list (pyval N)) : existsb is_str l = false -> exists xs, mapM to_num l = Ok xs /\ length xs = length l.
Proof.
  induction l as [|v l IH]; intros H; [exists []; split; reflexivity|]. cbn [existsb] in H. apply Bool.orb_false_iff in H. destruct H as [H1 H2].
  destruct (IH H2) as (xs & E & L). destruct v; try discriminate; cbn [mapM to_num bind]; rewrite E; cbn [bind]; eexists; (split; [reflexivity|cbn; lia]).
Qed.
Lemma mean_step_id (N : Num) parse (l : list (pyval N)) a : existsb is_str l = false -> fold_left (mean_step parse) l a = a.
Proof.
  revert a. induction l as [|v l IH]; intros a H; [reflexivity|]. cbn [existsb] in H. apply Bool.orb_false_iff in H. destruct H as [H1 H2].
  cbn [fold_left]. rewrite <- (IH a H2) at 2. f_equal. destruct v; (reflexivity || discriminate).
Qed.
Lemma mean_seq (N : Num) parse (l : list (pyval N)) xs : existsb is_str l = false -> l <> [] -> mapM to_num l = Ok xs ->
  desc_mean parse (ASeq l) = Ok (MVal (ndiv (nsum xs) (nofZ (zlen l)))).
Proof.
  intros H Hl E. unfold desc_mean. destruct l as [|v l]; [congruence|]. cbn [length Nat.eqb negb andb].
  destruct (forallb is_int_or_float (v :: l)); [|rewrite mean_step_id by exact H]; unfold sum_over_size; rewrite E; reflexivity.
Qed.
Lemma mean_c_ok (N : Num) parse (c : container N) : (forall a, c = CArr a -> (1 <= nd_ndim a)%Z) ->
  existsb is_str (nd_items (np_array c)) = false -> exists m, mean_c parse c = Ok m.
Proof.
  intros Hd H. destruct c as [l|[d l]].
  - cbn [np_array nd_items] in H. cbn [mean_c]. destruct l as [|v l]; [eexists; reflexivity|].
    destruct (to_num_ok N _ H) as (xs & E & _). rewrite (mean_seq N parse _ xs H) by (discriminate || exact E). eexists. reflexivity.
  - specialize (Hd _ eq_refl). cbn [nd_ndim] in Hd. cbn [np_array nd_items] in H. cbn [mean_c]. replace (d <=? 0)%Z with false by (symmetry; apply Z.leb_gt; lia).
    destruct (to_num_ok N _ H) as (xs & E & _). destruct l as [|v l].
    + destruct (d =? 1)%Z; eexists; reflexivity.
    + destruct (d =? 1)%Z; [rewrite (mean_seq N parse _ xs H) by (discriminate || exact E); eexists; reflexivity|].
      unfold sum_over_size. rewrite E. eexists. reflexivity.
Qed.

Theorem lists_rejected (N : Num) parse (items : list (pyval N)) : existsb is_str items = false ->
  variance_c (CList items) = Raise AttributeError /\ std_c (CList items) = Raise AttributeError /\
  median_c (CList items) = Raise AttributeError /\ skewness_c parse (CList items) = Raise AttributeError.
Proof.
  intros H. repeat split. unfold skewness_c. destruct (mean_c_ok N parse (CList items)) as [m ->]; [discriminate | exact H | reflexivity].
Qed.
Theorem kurtosis_accepts_lists (N : Num) parse (items : list (pyval N)) xs : items <> [] -> mapM to_num items = Ok xs ->
  kurtosis_c parse (CList items) = kurtosis_c parse (CArr (NDA 1 items)) /\ kurtosis_c parse (CList items) = moment_kurtosis xs.
Proof.
  intros Hi E. split; [reflexivity|].
  assert (H : existsb is_str items = false).
  { clear Hi. revert xs E. induction items as [|v l IH]; intros xs E; [reflexivity|]. cbn [existsb]. destruct v; cbn in E |- *; try discriminate;
      destruct (mapM to_num l) as [ys|]; try discriminate; exact (IH ys eq_refl). }
  assert (L : length xs = length items) by (destruct (to_num_ok N items H) as (ys & Ey & Ly); rewrite E in Ey; injection Ey as <-; exact Ly).
  assert (S : spread_std (NDA 1 items) = spread_std (farr xs)).
  { unfold spread_std, farr. cbn [nd_ndim nd_items]. change (negb (1 =? 1)%Z) with false. cbv iota. rewrite H.
    assert (F : existsb is_str (map (@PyFloat N) xs) = false) by (clear; induction xs; [reflexivity|assumption]). rewrite F.
    assert (M : forall l : list N, mapM to_num (map (@PyFloat N) l) = Ok l) by (clear; intros l; induction l as [|x l IH]; [reflexivity|]; cbn [map mapM to_num bind]; rewrite IH; reflexivity).
    destruct items as [|v l]; [congruence|]. rewrite E. destruct xs as [|x xs]; [discriminate|]. cbn [map]. change (PyFloat x :: map (@PyFloat N) xs) with (map (@PyFloat N) (x :: xs)). rewrite M. reflexivity. }
  assert (MM : mean_of xs = Ok (MVal (ndiv (nsum xs) (nofZ (zlen items))))).
  { assert (M : forall l : list N, mapM to_num (map (@PyFloat N) l) = Ok l) by (clear; intros l; induction l as [|x l IH]; [reflexivity|]; cbn [map mapM to_num bind]; rewrite IH; reflexivity).
    assert (F : existsb is_str (map (@PyFloat N) xs) = false) by (clear; induction xs; [reflexivity|assumption]).
    unfold mean_of. rewrite (mean_seq N _ _ xs F); [|destruct xs; [destruct items; [congruence|discriminate]|discriminate]|apply M].
    replace (zlen (map (@PyFloat N) xs)) with (zlen items) by (unfold zlen; rewrite map_length, L; reflexivity). reflexivity. }
  unfold kurtosis_c, moment_kurtosis. cbn [np_array mean_c nd_items std_c]. change (1 <=? 0)%Z with false. change (1 =? 1)%Z with true. cbv iota.
  rewrite (mean_seq N parse items xs H Hi E), MM, S, E. reflexivity.
Qed.
Theorem kurtosis_not_flattened (N : Num) parse d (items : list (pyval N)) : (2 <= d)%Z -> existsb is_str items = false ->
  kurtosis_c parse (CArr (NDA d items)) = Raise ValueError /\ skewness_c parse (CArr (NDA d items)) = Raise ValueError.
Proof.
  intros Hd H. assert (S : spread_std (NDA d items) = Raise ValueError).
  { unfold spread_std. cbn [nd_ndim]. replace (d =? 1)%Z with false by (symmetry; apply Z.eqb_neq; lia). reflexivity. }
  unfold kurtosis_c, skewness_c. cbn [np_array std_c]. rewrite S.
  destruct (mean_c_ok N parse (CArr (NDA d items))) as [m ->]; [intros a Ea; injection Ea as <-; cbn; lia | exact H|]. split; reflexivity.
Qed.
Theorem kurtosis_nan (N : Num) parse (l : list N) : nan_laws N -> pow_nan N ->
  (exists x, In x l /\ nisnan x = true) ->
  exists v, kurtosis_c parse (CArr (farr l)) = Ok v /\ nisnan v = true.
Proof.
  intros NL PW (x & Hx & Nx). assert (Hl : l <> []) by (intros ->; destruct Hx).
  assert (M : forall l : list N, mapM to_num (map (@PyFloat N) l) = Ok l) by (clear; intros l; induction l as [|x l IH]; [reflexivity|]; cbn [map mapM to_num bind]; rewrite IH; reflexivity).
  assert (F : forall l : list N, existsb is_str (map (@PyFloat N) l) = false) by (clear; intros l; induction l; [reflexivity|assumption]).
  assert (ME : forall k : list N, k <> [] -> mean_of k = Ok (MVal (ndiv (nsum k) (nofZ (zlen k))))).
  { intros k Hk. unfold mean_of. rewrite (mean_seq N _ _ k (F k)); [rewrite zlen_map; reflexivity|destruct k; [congruence|discriminate]|apply M]. }
  unfold kurtosis_c. cbn [np_array farr mean_c nd_items std_c]. change (1 <=? 0)%Z with false. change (1 =? 1)%Z with true. cbv iota.
  rewrite (mean_seq N parse _ l (F l)); [|destruct l; [congruence|discriminate]|apply M]. cbn [bind as_num].
  assert (S : exists s, spread_std (NDA 1 (map (@PyFloat N) l)) = Ok s).
  { unfold spread_std. cbn [nd_ndim nd_items]. change (negb (1 =? 1)%Z) with false. cbv iota. rewrite F. destruct l as [|y t]; [congruence|]. cbn [map].
    change (PyFloat y :: map (@PyFloat N) t) with (map (@PyFloat N) (y :: t)). rewrite M. eexists. reflexivity. }
  change (NDA 1 (map (@PyFloat N) l)) with (farr l) in S. destruct S as [s ->]. cbn [bind]. rewrite M. cbn [bind]. rewrite ME by (destruct l; [congruence|discriminate]). cbn [bind as_num].
  eexists. split; [reflexivity|]. apply (nan_div N NL). left. apply (nan_div N NL). left. apply (nan_sum N NL).
  eexists. split; [apply in_map, Hx|]. apply PW, (nan_sub N NL). left. exact Nx.
Qed.
