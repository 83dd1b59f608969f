(** Second-order sections: the grouping loop (C63). *)
From Coq Require Import Reals Lra Psatz Permutation.
From Coquelicot Require Import Complex.
From Flocq Require Import Core.Raux.
From Verif Require Import Num NpBase Lib XR M_butter Spec3 P_cx P_butter P_poly P_cxr.
Local Open Scope R_scope.

(** ** Lists *)
Lemma argmin_from_lt {N : Num} l : forall (b : N) bi i, (bi < i)%nat -> (argmin_from b bi i l < i + length l)%nat.
Proof.
  induction l as [|v l IH]; intros b bi i H; cbn; [lia|].
  destruct (nltb v b).
  - specialize (IH v i (S i) ltac:(lia)). lia.
  - specialize (IH b bi (S i) ltac:(lia)). lia.
Qed.
Lemma argmin_ok {N : Num} (l : list N) : l <> [] -> exists i, argmin l = Ok i /\ (i < length l)%nat.
Proof.
  destruct l as [|v l]; [easy|]. intros _. eexists. split; [reflexivity|].
  pose proof (argmin_from_lt l v 0 1 ltac:(lia)). cbn. lia.
Qed.
Lemma iw_ok ag (y : list C) : y <> [] -> exists i, @iw XR ag (cfs y) = Ok i /\ (i < length y)%nat.
Proof.
  intros H. unfold iw. set (d := map _ _).
  assert (E : length d = length y) by (unfold d; now rewrite map_length, cfs_length).
  rewrite <- E. apply argmin_ok. intros Z. rewrite Z in E. now destruct y.
Qed.

Lemma nth_split_delete {A} (l : list A) i d : (i < length l)%nat -> Permutation l (nth i l d :: delete l i).
Proof.
  intros H. unfold delete. rewrite Permutation_middle.
  rewrite <- (firstn_skipn i l) at 1. apply Permutation_app_head.
  assert (E : skipn i l = nth i l d :: skipn (S i) l); [|now rewrite E].
  revert i H. induction l as [|x l IH]; intros [|i] H; cbn in *; try lia; [easy|]. apply IH. lia.
Qed.
Definition at' (l : list C) (i : nat) : C := nth i l (RtoC 0).
Lemma geti_cfs l i : (i < length l)%nat -> geti (cfs l) i = Ok (cf (at' l i)).
Proof.
  intros H. unfold geti, cfs, at'.
  rewrite (nth_error_nth' _ (cf (RtoC 0))) by now rewrite map_length. now rewrite map_nth.
Qed.
Lemma delete_cfs l i : delete (cfs l) i = cfs (delete l i).
Proof. unfold delete, cfs. now rewrite map_app, firstn_map, skipn_map. Qed.
Lemma delete_length {A} (l : list A) i : (i < length l)%nat -> length (delete l i) = (length l - 1)%nat.
Proof. intros H. unfold delete. rewrite app_length, firstn_length, skipn_length. lia. Qed.

Lemma isreal_cf v : @isreal XR (cf v) = realb v. Proof. reflexivity. Qed.
Lemma realb_spec v : realb v = true <-> snd v = 0.
Proof. unfold realb. destruct (Req_bool_spec (snd v) 0); now split. Qed.

Lemma count_real_cf l : @count_real XR (cfs l) = length (filter realb l).
Proof. unfold count_real. rewrite (filter_cfs _ realb) by apply isreal_cf. apply cfs_length. Qed.

(** ** Pairs and reals *)
Definition expand1 (v : C) : list C := if realb v then [v] else [v; Cconj v].
Definition expand (l : list C) : list C := flat_map expand1 l.
Lemma expand_perm l l' : Permutation l l' -> Permutation (expand l) (expand l').
Proof. unfold expand. intros H. now apply Permutation_flat_map. Qed.
Lemma expand_app a b : expand (a ++ b) = expand a ++ expand b.
Proof. apply flat_map_app. Qed.
Lemma expand_parity l : exists c, length (expand l) = (length (filter realb l) + 2 * c)%nat.
Proof.
  induction l as [|v l [c E]]; [now exists 0%nat|]. cbn [expand flat_map filter].
  fold (expand l). rewrite app_length, E. unfold expand1. destruct (realb v); cbn [length].
  - exists c. lia.
  - exists (S c). lia.
Qed.
Lemma expand_len_ge l : (length l <= length (expand l))%nat.
Proof.
  induction l as [|v l IH]; [easy|]. cbn [expand flat_map]. fold (expand l). rewrite app_length.
  unfold expand1. destruct (realb v); cbn [length]; lia.
Qed.
Lemma expand_real l : (forall v, In v l -> snd v = 0) -> expand l = l.
Proof.
  intros H. induction l as [|v l IH]; [easy|]. cbn [expand flat_map]. fold (expand l).
  rewrite IH by (intros; apply H; now right). unfold expand1.
  rewrite (proj2 (realb_spec v)) by (apply H; now left). reflexivity.
Qed.
Lemma expand_pos l : (forall v, In v l -> 0 < snd v) -> Permutation (expand l) (l ++ map Cconj l).
Proof.
  intros H. induction l as [|v l IH]; [easy|]. cbn [expand flat_map map app]. fold (expand l).
  rewrite IH by (intros; apply H; now right). unfold expand1.
  replace (realb v) with false.
  - cbn. constructor. apply Permutation_middle.
  - symmetry. apply Req_bool_false. specialize (H v (or_introl eq_refl)). lra.
Qed.

Lemma conj_closed_pair v : conj_closed [v; Cconj v].
Proof. unfold conj_closed. cbn [map]. rewrite Cconj_conj. apply perm_swap. Qed.
Lemma conj_closed_reals l : (forall v, In v l -> snd v = 0) -> conj_closed l.
Proof.
  intros H. unfold conj_closed. replace (map Cconj l) with l; [easy|].
  rewrite <- (map_id l) at 1. apply map_ext_in. intros v Hv. symmetry. now apply Cconj_Im0, H.
Qed.

(** ** [closest] *)
Lemma mapM_geti l g : (forall i, In i g -> (i < length l)%nat) ->
  mapM (geti (cfs l)) g = Ok (cfs (map (at' l) g)).
Proof.
  intros H. induction g as [|i g IH]; [easy|]. cbn [mapM]. rewrite geti_cfs by (apply H; now left).
  cbn [bind]. rewrite IH by (intros; apply H; now right). reflexivity.
Qed.
Lemma geti_head {A} (l : list A) (d : A) : l <> [] -> geti l 0 = Ok (nth 0 l d).
Proof. destruct l; easy. Qed.
Lemma geti_nth {A} (l : list A) i d : (i < length l)%nat -> geti l i = Ok (nth i l d).
Proof. intros H. unfold geti. now rewrite (nth_error_nth' _ d). Qed.

Section Loop.
Variable argsort : list XR -> list nat.
Hypothesis Hsort : is_argsort argsort.

Lemma sort_bound x y i : In i (argsort (map (fun v => @cabs XR (csub v y)) (cfs x))) -> (i < length x)%nat.
Proof.
  intros H. apply (Permutation_in _ (Hsort _)) in H. apply in_seq in H.
  rewrite map_length, cfs_length in H. lia.
Qed.
Lemma sort_length x y : length (argsort (map (fun v => @cabs XR (csub v y)) (cfs x))) = length x.
Proof. rewrite (Permutation_length (Hsort _)), seq_length, map_length, cfs_length. reflexivity. Qed.

Lemma closest_any x y : x <> [] -> exists i, @closest XR argsort (cfs x) y KAny = Ok i /\ (i < length x)%nat.
Proof.
  intros H. unfold closest. set (g := argsort _).
  assert (Hg : g <> []).
  { intros E. pose proof (sort_length x y) as L. fold g in L. rewrite E in L. now destruct x. }
  exists (nth 0 g 0%nat). split; [now apply geti_head|]. apply (sort_bound x y). fold g.
  apply nth_In. destruct g; [easy|cbn; lia].
Qed.

Lemma closest_real x y : (exists v, In v x /\ snd v = 0) ->
  exists i, @closest XR argsort (cfs x) y KReal = Ok i /\ (i < length x)%nat /\ snd (at' x i) = 0.
Proof.
  intros (v & Hv & Rv). unfold closest. set (g := argsort _).
  assert (Hb : forall i, In i g -> (i < length x)%nat) by (intros i; apply sort_bound).
  rewrite mapM_geti by exact Hb. cbn [bind].
  set (h := map isreal (cfs (map (at' x) g))).
  assert (Eh : h = map (fun i => realb (at' x i)) g).
  { unfold h, cfs. rewrite !map_map. reflexivity. }
  set (nz := filter (fun i => nth i h false) (seq 0 (length h))).
  assert (Hnz : nz <> []).
  { destruct (In_nth x v (RtoC 0) Hv) as (i & Hi & Ei).
    assert (Hig : In i g).
    { apply (Permutation_in _ (Permutation_sym (Hsort _))). apply in_seq. rewrite map_length, cfs_length. split; [apply Nat.le_0_l|exact Hi]. }
    destruct (In_nth g i 0%nat Hig) as (j & Hj & Ej). intros E.
    assert (Hin : In j nz).
    { apply filter_In. split.
      - apply in_seq. rewrite Eh, map_length. lia.
      - rewrite Eh. rewrite (nth_indep _ false (realb (at' x 0%nat))) by now rewrite map_length.
        rewrite (map_nth (fun i => realb (at' x i))), Ej. apply realb_spec. exact (eq_trans (f_equal snd Ei) Rv). }
    now rewrite E in Hin. }
  rewrite (geti_head nz 0%nat Hnz). cbn [bind]. set (j := nth 0 nz 0%nat).
  assert (Hj : In j nz) by (apply nth_In; destruct nz; [easy|cbn; lia]).
  apply filter_In in Hj as [Hj1 Hj2]. apply in_seq in Hj1. rewrite Eh, map_length in Hj1.
  exists (nth j g 0%nat). split; [now apply geti_nth|]. split; [apply Hb, nth_In; lia|].
  rewrite Eh in Hj2. rewrite (nth_indep _ false (realb (at' x 0%nat))) in Hj2 by (rewrite map_length; lia).
  rewrite (map_nth (fun i => realb (at' x i))) in Hj2. now apply realb_spec.
Qed.

Lemma closest_cplx x y : (exists v, In v x /\ realb v = false) ->
  exists i, @closest XR argsort (cfs x) y KComplex = Ok i /\ (i < length x)%nat /\ realb (at' x i) = false.
Proof.
  intros (v & Hv & Rv). unfold closest. set (g := argsort _).
  assert (Hb : forall i, In i g -> (i < length x)%nat) by (intros i; apply sort_bound).
  rewrite mapM_geti by exact Hb. cbn [bind].
  set (h := map negb (map isreal (cfs (map (at' x) g)))).
  assert (Eh : h = map (fun i => negb (realb (at' x i))) g).
  { unfold h, cfs. rewrite !map_map. reflexivity. }
  set (nz := filter (fun i => nth i h false) (seq 0 (length h))).
  assert (Hnz : nz <> []).
  { destruct (In_nth x v (RtoC 0) Hv) as (i & Hi & Ei).
    assert (Hig : In i g).
    { apply (Permutation_in _ (Permutation_sym (Hsort _))). apply in_seq. rewrite map_length, cfs_length. split; [apply Nat.le_0_l|exact Hi]. }
    destruct (In_nth g i 0%nat Hig) as (j & Hj & Ej). intros E.
    assert (Hin : In j nz).
    { apply filter_In. split.
      - apply in_seq. rewrite Eh, map_length. lia.
      - rewrite Eh. rewrite (nth_indep _ false (negb (realb (at' x 0%nat)))) by now rewrite map_length.
        rewrite (map_nth (fun i => negb (realb (at' x i)))), Ej. apply negb_true_iff. exact (eq_trans (f_equal realb Ei) Rv). }
    now rewrite E in Hin. }
  rewrite (geti_head nz 0%nat Hnz). cbn [bind]. set (j := nth 0 nz 0%nat).
  assert (Hj : In j nz) by (apply nth_In; destruct nz; [easy|cbn; lia]).
  apply filter_In in Hj as [Hj1 Hj2]. apply in_seq in Hj1. rewrite Eh, map_length in Hj1.
  exists (nth j g 0%nat). split; [now apply geti_nth|]. split; [apply Hb, nth_In; lia|].
  rewrite Eh in Hj2. rewrite (nth_indep _ false (negb (realb (at' x 0%nat)))) in Hj2 by (rewrite map_length; lia).
  rewrite (map_nth (fun i => negb (realb (at' x i)))) in Hj2. now apply negb_true_iff.
Qed.

Lemma filter_pos_ex {A} (p : A -> bool) l : (0 < length (filter p l))%nat -> exists v, In v l /\ p v = true.
Proof.
  intros H. destruct (filter p l) as [|v r] eqn:E; [cbn in H; lia|].
  exists v. apply filter_In. rewrite E. now left.
Qed.

Lemma filter_neg_ex {A} (p : A -> bool) l : (length (filter p l) < length l)%nat -> exists v, In v l /\ p v = false.
Proof.
  induction l as [|v l IH]; cbn; [lia|]. destruct (p v) eqn:E; cbn; intros H.
  - destruct IH as (u & Hu & Eu); [lia|]. exists u. auto.
  - exists v. auto.
Qed.
Lemma expand_nil l : length (expand l) = 0%nat -> l = [].
Proof. intros H. pose proof (expand_len_ge l). destruct l; [easy|cbn in *; lia]. Qed.
Lemma expand_count l : (length (expand l) + length (filter realb l) = 2 * length l)%nat.
Proof.
  induction l as [|v l IH]; [reflexivity|]. change (expand (v :: l)) with (expand1 v ++ expand l). rewrite app_length. cbn [filter].
  unfold expand1. destruct (realb v); cbn [length]; lia.
Qed.

(** The second real pole. *)
Lemma second_real ag y : (0 < length (filter realb y))%nat ->
  exists i, (i < length y)%nat /\ snd (at' y i) = 0 /\
   (let prealidx := filter (fun i => match nth_error (cfs y) i with Some v => @isreal XR v | None => false end)
                           (seq 0 (length (cfs y))) in
    let* ys := mapM (geti (cfs y)) prealidx in
    let* w := @iw XR ag ys in
    let* y2_i := geti prealidx w in
    let* y2 := geti (cfs y) y2_i in
    Ok (delete (cfs y) y2_i, y2)) = Ok (cfs (delete y i), cf (at' y i)).
Proof.
  intros H. destruct (filter_pos_ex _ _ H) as (v & Hv & Rv).
  cbv zeta. set (pr := filter _ _).
  assert (Hp : forall i, In i pr -> (i < length y)%nat /\ snd (at' y i) = 0).
  { intros i Hi. apply filter_In in Hi as [H1 H2]. apply in_seq in H1. rewrite cfs_length in H1.
    split; [lia|]. unfold cfs in H2.
    rewrite (nth_error_nth' _ (cf (RtoC 0))) in H2 by (rewrite map_length; lia).
    rewrite map_nth, isreal_cf in H2. now apply realb_spec. }
  assert (Hne : pr <> []).
  { destruct (In_nth y v (RtoC 0) Hv) as (i & Hi & Ei). intros E.
    assert (Hin : In i pr); [|now rewrite E in Hin].
    apply filter_In. split; [apply in_seq; rewrite cfs_length; lia|].
    unfold cfs. rewrite (nth_error_nth' _ (cf (RtoC 0))) by (rewrite map_length; lia).
    rewrite map_nth, isreal_cf. rewrite <- Rv. exact (f_equal realb Ei). }
  rewrite mapM_geti by (intros i Hi; now apply Hp). cbn [bind].
  destruct (iw_ok ag (map (at' y) pr)) as (w & Ew & Hw).
  { destruct pr; easy. }
  rewrite map_length in Hw. rewrite Ew. cbn [bind]. rewrite (geti_nth pr w 0%nat Hw). cbn [bind].
  set (i := nth w pr 0%nat). destruct (Hp i (nth_In _ _ Hw)) as [Hi Ri].
  exists i. split; [exact Hi|]. split; [exact Ri|]. rewrite geti_cfs by exact Hi. cbn [bind].
  now rewrite delete_cfs.
Qed.


Lemma reals_count l : reals l -> length (filter realb l) = length l.
Proof.
  intros H. induction l as [|v l IH]; [easy|]. cbn [filter].
  rewrite (proj2 (realb_spec v)) by (apply H; now left). cbn. f_equal. apply IH.
  intros u Hu. apply H. now right.
Qed.
Lemma reals_delete l i : reals l -> (i < length l)%nat -> reals (delete l i).
Proof.
  intros H Hi v Hv. apply H. apply (Permutation_in _ (Permutation_sym (nth_split_delete l i (RtoC 0) Hi))).
  now right.
Qed.
Lemma take_expand l i : (i < length l)%nat -> Permutation (expand l) (expand1 (at' l i) ++ expand (delete l i)).
Proof. intros H. apply (expand_perm _ _ (nth_split_delete l i (RtoC 0) H)). Qed.
Lemma take_count l i : (i < length l)%nat ->
  length (filter realb l) = ((if realb (at' l i) then 1 else 0) + length (filter realb (delete l i)))%nat.
Proof.
  intros H. rewrite (Permutation_length (filter_perm realb _ _ (nth_split_delete l i (RtoC 0) H))).
  cbn [filter]. fold (at' l i). destruct (realb (at' l i)); reflexivity.
Qed.

Definition step_cases (pg : pairing) (wy wx : nat) (pad ys xs : list C) : Prop :=
  (pad = [] /\ length ys = 2 /\ length xs = Nat.min 2 wx)%nat \/
  (Nat.Odd wy /\ is_ml pg = true /\ pad = [] /\ length ys = 1 /\ length xs = Nat.min 1 wx)%nat \/
  (Nat.Odd wy /\ is_ml pg = false /\ pad = [RtoC 0] /\ length ys = 2 /\ length xs = 2)%nat.

(** What keeps the pairing going: even numbers of poles and zeros, real zeros only, or one real pole and as many zeros
    as poles. *)
Definition pre (y x : list C) : Prop :=
  (Nat.Even (length (expand y)) /\ Nat.Even (length (expand x))) \/ reals x \/
  (length (filter realb y) = 1%nat /\ length (expand x) = length (expand y)).

Definition step_post (pg : pairing) (y x : list C) (sop : list (list XR))
  (r : res (list (XR * XR) * list (XR * XR) * list (list XR))) : Prop :=
  exists y' x' ys xs pad row,
    r = Ok (cfs y', cfs x', fins row :: sop) /\ length row = 6%nat /\
    (forall z, num_at row z = from_roots xs z) /\ (forall z, den_at row z = from_roots ys z) /\
    pre y' x' /\
    Permutation (ys ++ expand y') (pad ++ expand y) /\ Permutation (xs ++ expand x') (pad ++ expand x) /\
    step_cases pg (length (expand y)) (length (expand x)) pad ys xs.

Lemma one_real v : snd v = 0 -> expand1 v = [v].
Proof. intros H. unfold expand1. now rewrite (proj2 (realb_spec v) H). Qed.
Lemma one_cplx v : realb v = false -> expand1 v = [v; Cconj v].
Proof. intros H. unfold expand1. now rewrite H. Qed.

Lemma odd_of_count y : length (filter realb y) = 1%nat -> Nat.Odd (length (expand y)).
Proof. intros H. destruct (expand_parity y) as [c E]. exists c. lia. Qed.

Lemma reals_list l : Forall (fun v : C => snd v = 0) l -> forall v, In v l -> snd v = 0.
Proof. now rewrite Forall_forall. Qed.

Lemma sop_step_ok ag pg y x sop ci : y <> [] ->
  pre y x -> (is_ml pg = false -> (0 < length (expand x))%nat) ->
  step_post pg y x sop (@sop_step XR argsort ag pg (cfs y, cfs x, sop) ci).
Proof.
  intros Hy Hpre Hnm. unfold sop_step.
  destruct (iw_ok ag y Hy) as (i & Ei & Hi). rewrite Ei. cbn [bind].
  rewrite geti_cfs by exact Hi. cbn [bind]. rewrite delete_cfs.
  set (y1 := at' y i) in *. set (y' := delete y i) in *.
  pose proof (take_expand y i Hi) as TY. pose proof (take_count y i Hi) as CY. fold y1 y' in TY, CY.
  rewrite !count_real_cf, isreal_cf, !cfs_length.
  destruct (expand_parity y) as [cy PY]. destruct (expand_parity x) as [cx PX].
  destruct (realb y1 && (length (filter realb y') =? 0)%nat) eqn:B1.
  - (* a real pole without a real partner *)
    apply andb_prop in B1 as [Ry N0]. apply Nat.eqb_eq in N0. rewrite Ry in CY.
    assert (Hodd : Nat.Odd (length (expand y))) by (apply odd_of_count; lia).
    assert (Rx : reals x \/ (length (filter realb y) = 1%nat /\ length (expand x) = length (expand y))).
    { destruct Hpre as [[E _]|]; [|easy]. exfalso. now apply (Nat.Even_Odd_False _ E). }
    apply realb_spec in Ry. rewrite (one_real y1 Ry) in TY.
    assert (Hx0 : (0 < length x)%nat -> exists v, In v x /\ snd v = 0).
    { intros H. destruct Rx as [Rx|[_ Rx]].
      - destruct x as [|v x0]; [cbn in H; lia|]. exists v. split; [now left|]. apply Rx. now left.
      - destruct (filter_pos_ex realb x) as (v & Hv & Rv); [destruct Hodd; lia|]. exists v. split; [easy|now apply realb_spec]. }
    assert (Hpost : forall j, (j < length x)%nat -> snd (at' x j) = 0 -> pre y' (delete x j)).
    { intros j Hj Rj. pose proof (Permutation_length (take_expand x j Hj)) as LX. rewrite (one_real _ Rj) in LX.
      pose proof (Permutation_length TY) as LY. cbn [app length] in LX, LY.
      destruct Rx as [Rx|[_ Rx]]; [right; left; now apply reals_delete|]. left. destruct Hodd as [o Ho].
      split; exists o; lia. }
    destruct (is_ml pg) eqn:M; cbn [negb].
    + destruct (Nat.ltb_spec 0 (length x)) as [H0|H0].
      * destruct (closest_real x (cf y1) (Hx0 H0)) as (j & Ej & Hj & Rj). rewrite Ej. cbn [bind].
        rewrite geti_cfs by exact Hj. cbn [bind]. rewrite delete_cfs.
        change [cf (at' x j)] with (cfs [at' x j]). change [cf y1] with (cfs [y1]).
        destruct (lone_ok [at' x j] [y1]) as (row & Er & Lr & Nr & Dr).
        1-2: cbn; lia.
        1-2: apply conj_closed_reals, reals_list; repeat constructor; assumption.
        rewrite Er. cbn [bind].
        exists y', (delete x j), [y1], [at' x j], [], row. pose proof (take_expand x j Hj) as TX. rewrite (one_real _ Rj) in TX.
        split; [reflexivity|]. repeat split; auto.
        -- now rewrite TY.
        -- cbn [app]. now rewrite TX.
        -- right. left. repeat split; auto. pose proof (Permutation_length TX) as LX. cbn [app length] in LX |- *. lia.
      * destruct x as [|v x0]; [|cbn in H0; lia].
        change [cf y1] with (cfs [y1]). change (@nil (XR * XR)) with (cfs []).
        destruct (lone_ok [] [y1]) as (row & Er & Lr & Nr & Dr).
        1-2: cbn; lia.
        1-2: apply conj_closed_reals, reals_list; repeat constructor; assumption.
        rewrite Er. cbn [bind].
        exists y', [], [y1], [], [], row. repeat split; auto.
        -- right. left. intros v [].
        -- now rewrite TY.
        -- right. left. repeat split; auto.
    + specialize (Hnm eq_refl). assert (Hne : (0 < length x)%nat) by (destruct x; [cbn in Hnm; lia | cbn; lia]).
      destruct (closest_real x (cf y1) (Hx0 Hne)) as (j & Ej & Hj & Rj). rewrite Ej. cbn [bind].
      rewrite geti_cfs by exact Hj. cbn [bind]. rewrite delete_cfs.
      change [cf (at' x j); @cre XR (@nofZ XR 0)] with (cfs [at' x j; RtoC 0]).
      change [cf y1; @cre XR (@nofZ XR 0)] with (cfs [y1; RtoC 0]).
      destruct (lone_ok [at' x j; RtoC 0] [y1; RtoC 0]) as (row & Er & Lr & Nr & Dr).
      1-2: cbn; lia.
      1-2: apply conj_closed_reals, reals_list; repeat constructor; easy.
      rewrite Er. cbn [bind].
      exists y', (delete x j), [y1; RtoC 0], [at' x j; RtoC 0], [RtoC 0], row.
      pose proof (take_expand x j Hj) as TX. rewrite (one_real _ Rj) in TX. repeat split; auto.
      * rewrite TY. cbn [app]. apply perm_swap.
      * rewrite TX. cbn [app]. apply perm_swap.
      * right. right. repeat split; auto.
  - (* no special case *)
    match goal with |- context [if ?b then _ else _] =>
      match b with context [(length y' + 1 =? length x)%nat] => destruct b eqn:B2 end end.
    { rewrite !andb_true_iff in B2. destruct B2 as [[[L1 N1] K1] K2].
      apply Nat.eqb_eq in L1, K1, K2. apply negb_true_iff in N1. rewrite N1 in CY.
      assert (EL : length (filter realb y) = 1%nat /\ length (expand x) = length (expand y)).
      { destruct Hpre as [[E _]|[Rx|E]]; [exfalso|exfalso|exact E].
        - apply (Nat.Even_Odd_False _ E). apply odd_of_count. lia.
        - rewrite (reals_count x Rx) in K2. pose proof (filter_length_le' realb y'). lia. }
      destruct EL as [_ EL]. rewrite (one_cplx y1 N1) in TY.
      pose proof (Permutation_length TY) as LY. cbn [app length] in LY.
      destruct (closest_cplx x (cf y1)) as (j & Ej & Hj & Rj).
      { apply filter_neg_ex. pose proof (expand_count x). pose proof (expand_count y). lia. }
      rewrite Ej. cbn [bind]. rewrite geti_cfs by exact Hj. cbn [bind]. rewrite delete_cfs.
      pose proof (take_expand x j Hj) as TX. pose proof (take_count x j Hj) as CX. rewrite Rj in CX. rewrite (one_cplx _ Rj) in TX.
      pose proof (Permutation_length TX) as LX. cbn [app length] in LX.
      rewrite !cconj_cf. change [cf (at' x j); cf (Cconj (at' x j))] with (cfs [at' x j; Cconj (at' x j)]).
      change [cf y1; cf (Cconj y1)] with (cfs [y1; Cconj y1]).
      destruct (lone_ok [at' x j; Cconj (at' x j)] [y1; Cconj y1]) as (row & Er & Lr & Nr & Dr).
      1-2: cbn; lia.
      1-2: apply conj_closed_pair.
      rewrite Er. cbn [bind].
      exists y', (delete x j), [y1; Cconj y1], [at' x j; Cconj (at' x j)], [], row. repeat split; auto.
      - right. right. split; [exact K1|]. lia.
      - now rewrite TY.
      - now rewrite TX.
      - left. repeat split. cbn [length]. lia. }
    assert (B3 : length (filter realb y) = 1%nat -> length (expand x) = length (expand y) -> realb y1 = false -> length (filter realb x) <> 1%nat).
    { intros K L N1 KX. rewrite N1 in CY. pose proof (expand_count x). pose proof (expand_count y).
      pose proof (Permutation_length (nth_split_delete y i (RtoC 0) Hi)) as LD. cbn [length] in LD. fold y' in LD.
      rewrite N1, KX in B2. replace (length (filter realb y')) with 1%nat in B2 by lia.
      replace (length y' + 1)%nat with (length x) in B2 by lia. rewrite Nat.eqb_refl in B2. discriminate. }
    clear B2.
    (* the second pole *)
    assert (P2 : exists y'' y2,
      (if realb y1 then
        let prealidx := filter (fun i => match nth_error (cfs y') i with Some v => @isreal XR v | None => false end)
                           (seq 0 (length y')) in
        let* ys := mapM (geti (cfs y')) prealidx in
        let* w := @iw XR ag ys in
        let* y2_i := geti prealidx w in
        let* y2 := geti (cfs y') y2_i in
        Ok (delete (cfs y') y2_i, y2)
       else Ok (cfs y', @cconj XR (cf y1))) = Ok (cfs y'', cf y2) /\
      Permutation ([y1; y2] ++ expand y'') (expand y) /\ conj_closed [y1; y2] /\
      (length (filter realb y) = 1%nat -> length (filter realb y'') = 1%nat /\ realb y1 = false)).
    { destruct (realb y1) eqn:Ry.
      - cbn [andb] in B1. apply Nat.eqb_neq in B1.
        destruct (second_real ag y') as (k & Hk & Rk & Ek); [lia|]. cbv zeta in Ek.
        rewrite cfs_length in Ek. cbv zeta. rewrite Ek.
        exists (delete y' k), (at' y' k). split; [easy|]. apply realb_spec in Ry.
        pose proof (take_expand y' k Hk) as T2. rewrite (one_real _ Rk) in T2. rewrite (one_real _ Ry) in TY.
        split.
        + rewrite TY, T2. reflexivity.
        + split; [apply conj_closed_reals, reals_list; repeat constructor; assumption | lia].
      - exists y', (Cconj y1). split; [now rewrite cconj_cf|]. split.
        + rewrite TY, (one_cplx y1 Ry). reflexivity.
        + split; [apply conj_closed_pair | intros; split; [lia | reflexivity]]. }
    destruct P2 as (y'' & y2 & E2 & T2 & CC2 & K2).
    pose proof (Permutation_length T2) as LY. cbn [app length] in LY.
    assert (Hpost : forall x', (reals x -> reals x') -> (length (expand x) = 2 + length (expand x') \/ length (expand x) <= 1)%nat -> pre y'' x').
    { intros x' R' L'. destruct Hpre as [[[c1 E1] [c3 E3]]|[Rx|[K L]]]; [|right; left; auto|].
      - destruct L' as [L'|L'].
        + left. split; [exists (c1 - 1)%nat; lia|exists (c3 - 1)%nat; lia].
        + right. left. apply R'. intros v Hv. assert (x = []) as -> by (apply expand_nil; lia). destruct Hv.
      - right. right. split; [now apply K2|]. lia. }
    match goal with |- step_post _ _ _ _ (bind ?m _) =>
      replace m with (@Ok (list (XR * XR) * (XR * XR)) (cfs y'', cf y2)) by (symmetry; exact E2) end.
    cbn [bind].
    rewrite ?cfs_length.
    change [cf y1; cf y2] with (cfs [y1; y2]).
    destruct (Nat.ltb_spec 0 (length x)) as [H0|H0].
    + destruct (closest_any x (cf y1)) as (j & Ej & Hj); [now destruct x|]. rewrite Ej. cbn [bind].
      rewrite geti_cfs by exact Hj. cbn [bind]. rewrite delete_cfs, isreal_cf.
      set (x1 := at' x j) in *. set (x' := delete x j) in *.
      pose proof (take_expand x j Hj) as TX. pose proof (take_count x j Hj) as CX. fold x1 x' in TX, CX.
      destruct (realb x1) eqn:Rx1; cbn [negb].
      * rewrite cfs_length. apply realb_spec in Rx1. rewrite (one_real x1 Rx1) in TX.
        pose proof (Permutation_length TX) as LX. cbn [app length] in LX.
        destruct (Nat.ltb_spec 0 (length x')) as [H1|H1].
        -- destruct (closest_real x' (cf y1)) as (k & Ek & Hk & Rk).
           { destruct Hpre as [[_ [c Ec]]|[Rx|[K L]]].
             - destruct (filter_pos_ex realb x') as (v & Hv & Rv); [lia|]. exists v.
               split; [easy|now apply realb_spec].
             - destruct x' as [|v x0] eqn:Ex; [cbn in H1; lia|]. exists v. split; [now left|].
               apply (reals_delete x j Rx Hj). fold x'. rewrite Ex. now left.
             - destruct (K2 K) as [_ N1]. pose proof (B3 K L N1).
               pose proof (expand_count x). pose proof (expand_count y).
               destruct (filter_pos_ex realb x') as (v & Hv & Rv); [lia|]. exists v. split; [easy|now apply realb_spec]. }
           rewrite Ek. cbn [bind]. rewrite geti_cfs by exact Hk. cbn [bind].
           rewrite delete_cfs, isreal_cf, (proj2 (realb_spec _) Rk). cbn [negb].
           set (x2 := at' x' k) in *. set (x'' := delete x' k) in *.
           pose proof (take_expand x' k Hk) as TX2. fold x2 x'' in TX2. rewrite (one_real x2 Rk) in TX2.
           pose proof (Permutation_length TX2) as LX2. cbn [app length] in LX2.
           change [cf x1; cf x2] with (cfs [x1; x2]).
           destruct (lone_ok [x1; x2] [y1; y2]) as (row & Er & Lr & Nr & Dr).
           1-2: cbn; lia.
           1: apply conj_closed_reals, reals_list; repeat constructor; assumption.
           1: assumption.
           rewrite Er. cbn [bind].
           exists y'', x'', [y1; y2], [x1; x2], [], row. repeat split; auto.
           ++ apply Hpost; [|lia]. intros Rx. unfold x'', x'. apply reals_delete; [|assumption]. now apply reals_delete.
           ++ cbn [app]. rewrite TX, TX2. reflexivity.
           ++ left. repeat split. cbn [length]. lia.
        -- assert (X0 : x' = []) by (destruct x'; [easy|cbn in H1; lia]).
           rewrite X0 in *. change [cf x1] with (cfs [x1]).
           destruct (lone_ok [x1] [y1; y2]) as (row & Er & Lr & Nr & Dr).
           1-2: cbn; lia.
           1: apply conj_closed_reals, reals_list; repeat constructor; assumption.
           1: assumption.
           rewrite Er. cbn [bind].
           exists y'', [], [y1; y2], [x1], [], row. repeat split; auto.
           ++ apply Hpost; [intros _ v [] | right; rewrite LX; cbn; lia].
           ++ cbn [app]. now rewrite TX.
           ++ left. repeat split. cbn [length]. rewrite LX. reflexivity.
      * rewrite (one_cplx x1 Rx1) in TX.
        pose proof (Permutation_length TX) as LX. cbn [app length] in LX.
        rewrite cconj_cf. change [cf x1; cf (Cconj x1)] with (cfs [x1; Cconj x1]).
        destruct (lone_ok [x1; Cconj x1] [y1; y2]) as (row & Er & Lr & Nr & Dr).
        1-2: cbn; lia.
        1: apply conj_closed_pair.
        1: assumption.
        rewrite Er. cbn [bind].
        exists y'', x', [y1; y2], [x1; Cconj x1], [], row. repeat split; auto.
        -- apply Hpost; [intros Rx; now apply reals_delete | lia].
        -- cbn [app]. now rewrite TX.
        -- left. repeat split. cbn [length]. lia.
    + destruct x as [|v x0]; [|cbn in H0; lia].
      change (@nil (XR * XR)) with (cfs []).
      destruct (lone_ok [] [y1; y2]) as (row & Er & Lr & Nr & Dr).
      1-2: cbn; lia.
      1: apply conj_closed_reals, reals_list; repeat constructor; assumption.
      1: assumption.
      rewrite Er. cbn [bind].
      exists y'', [], [y1; y2], [], [], row. repeat split; auto.
      left. repeat split.
Qed.

(** ** The loop *)

Lemma loop_ok ag pg (cs : list Z) : forall y x sop,
  (length (expand y) <= 2 * length cs <= length (expand y) + 1)%nat ->
  (length (expand x) <= length (expand y))%nat ->
  (is_ml pg = false -> length (expand x) = length (expand y)) ->
  pre y x ->
  exists rows, foldM (@sop_step XR argsort ag pg) (cfs y, cfs x, sop) cs
               = Ok ([], [], map fins rows ++ sop) /\
    length rows = length cs /\ (forall r, In r rows -> length r = 6%nat) /\
    let e := (if is_ml pg then 0 else 2 * length cs - length (expand y))%nat in
    (forall z, nums_at rows z = from_roots (expand x) z * Cpown z e)%C /\
    (forall z, dens_at rows z = from_roots (expand y) z * Cpown z e)%C.
Proof.
  induction cs as [|ci cs IH]; intros y x sop HL HX HM Hpre.
  - cbn [length] in HL.
    rewrite (expand_nil y), (expand_nil x) by lia. exists []. cbn.
    split; [easy|]. split; [easy|]. split; [easy|].
    destruct (is_ml pg); split; intros z; unfold nums_at, dens_at, from_roots; cbn; ring.
  - cbn [length] in HL.
    destruct (sop_step_ok ag pg y x sop ci) as (y' & x' & ys & xs & pad & row & E & Lr & Nr & Dr & RR & PY & PX & SC).
    + intros ->. cbn in HL. lia.
    + exact Hpre.
    + intros M. rewrite HM by exact M. lia.
    + cbn [foldM]. rewrite E. cbn [bind].
      pose proof (Permutation_length PY) as LY. pose proof (Permutation_length PX) as LX.
      rewrite !app_length in LY, LX.
      assert (Hl : (length (expand y') <= 2 * length cs <= length (expand y') + 1)%nat /\
                   (length (expand x') <= length (expand y'))%nat /\
                   (is_ml pg = false -> length (expand x') = length (expand y')) /\
                   (if is_ml pg then pad = [] else
                      (length pad + (2 * length cs - length (expand y')) = 2 * S (length cs) - length (expand y))%nat)
                   /\ (pad = [] \/ pad = [RtoC 0])).
      { destruct SC as [(-> & L1 & L2)|[(O & M & -> & L1 & L2)|(O & M & -> & L1 & L2)]];
          cbn [length] in LY, LX; rewrite L1 in LY; rewrite L2 in LX.
        - split; [lia|]. split; [lia|]. split; [intros M; specialize (HM M); lia|].
          split; [destruct (is_ml pg); cbn [length]; [easy|lia]|now left].
        - destruct O as [o O]. split; [lia|]. split; [lia|]. split; [congruence|].
          split; [now rewrite M|now left].
        - destruct O as [o O]. specialize (HM M). split; [lia|]. split; [lia|]. split; [lia|].
          split; [rewrite M; cbn [length]; lia|now right]. }
      destruct Hl as (H1 & H2 & H3 & H5 & H6).
      destruct (IH y' x' (fins row :: sop) H1 H2 H3 RR) as (rows & EF & LR & L6 & NN & DD).
      exists (rows ++ [row]). rewrite EF. split; [rewrite map_app, <- app_assoc; reflexivity|].
      split; [rewrite app_length; cbn; lia|]. split.
      { intros r Hr. apply in_app_iff in Hr as [Hr|[<- |[]]]; auto. }
      assert (PD : forall z, from_roots pad z = Cpown z (length pad)).
      { intros z. destruct H6 as [-> | ->]; unfold from_roots; cbn; [easy|ring]. }
      assert (EE : (if is_ml pg then 0 else 2 * length (ci :: cs) - length (expand y))%nat
        = (length pad + if is_ml pg then 0 else 2 * length cs - length (expand y'))%nat).
      { destruct (is_ml pg); [now rewrite H5|]. cbn [length]. lia. }
      cbv zeta in *. rewrite EE. split; intros z.
      * unfold nums_at. rewrite map_app, Cprodl_app. cbn [map Cprodl]. rewrite Nr.
        fold (nums_at rows z). rewrite NN. pose proof (from_roots_perm _ _ z PX) as F.
        rewrite !from_roots_app, PD in F. rewrite Cpown_add.
        transitivity (from_roots xs z * from_roots (expand x') z * Cpown z (if is_ml pg then 0 else 2 * length cs - length (expand y')))%C; [ring|].
        rewrite F. ring.
      * unfold dens_at. rewrite map_app, Cprodl_app. cbn [map Cprodl]. rewrite Dr.
        fold (dens_at rows z). rewrite DD. pose proof (from_roots_perm _ _ z PY) as F.
        rewrite !from_roots_app, PD in F. rewrite Cpown_add.
        transitivity (from_roots ys z * from_roots (expand y') z * Cpown z (if is_ml pg then 0 else 2 * length cs - length (expand y')))%C; [ring|].
        rewrite F. ring.
Qed.
End Loop.
