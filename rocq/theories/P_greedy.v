(** The pairing of poles and zeros in the second-order sections (C152). *)
From Coq Require Import Reals Lra Psatz Permutation Sorted.
From Coquelicot Require Import Complex.
From Flocq Require Import Core.Raux.
From Verif Require Import Num NpBase Lib XR M_butter Spec3 Spec26 Spec27 P_cx P_butter P_poly P_cxr P_sop P_sop2 P_buttap P_design P_bwfun P_bwprops P_sop3 P_bwfinal P_worst.
Local Open Scope R_scope.

Section G.
Variable argsort : list XR -> list nat.
Hypothesis Hsort : is_argsort argsort.
Hypothesis Hord : sorts argsort.

Definition dist (p v : C) : R := Cmod (v - p)%C.
Lemma dists x p : map (fun v => @cabs XR (csub v (cf p))) (cfs x) = fins (map (dist p) x).
Proof. unfold cfs, fins. rewrite !map_map. apply map_ext. intros v. change (@csub XR (cf v) (cf p)) with (cf (v - p)%C). apply cabs_cf. Qed.
Lemma nth_dist p x i : (i < length x)%nat -> nth i (map (dist p) x) 0 = dist p (at' x i).
Proof. intros H. unfold at'. rewrite (nth_indep _ 0 (dist p (RtoC 0))) by (rewrite map_length; exact H). apply map_nth. Qed.
Lemma sorted_nth {A} (R : A -> A -> Prop) l d : StronglySorted R l -> forall i j, (i < j < length l)%nat -> R (nth i l d) (nth j l d).
Proof.
  induction 1 as [|a l S IH F]; intros i j Hij; cbn in Hij; [lia|]. destruct j as [|j]; [lia|]. destruct i as [|i]; cbn.
  - rewrite Forall_forall in F. apply F, nth_In. lia.
  - apply IH. lia.
Qed.

Lemma closest_any_min (x : list C) p : x <> [] -> exists i, @closest XR argsort (cfs x) (cf p) KAny = Ok i /\ (i < length x)%nat /\
  forall v, In v x -> dist p (at' x i) <= dist p v.
Proof.
  intros H. destruct (closest_any argsort Hsort x (cf p) H) as (i & E & Hi). exists i. split; [exact E|]. split; [exact Hi|].
  intros v Hv. destruct (In_nth x v (RtoC 0) Hv) as (j & Hj & Ej). unfold closest in E. rewrite dists in E.
  pose proof (Hord (map (dist p) x)) as SS. fold (fins (map (dist p) x)) in SS. pose proof (Hsort (fins (map (dist p) x))) as PP.
  set (g := argsort (fins (map (dist p) x))) in *. unfold geti in E. destruct (nth_error g 0) as [i0|] eqn:E0; [|discriminate]. injection E as ->.
  unfold fins in PP; rewrite !map_length in PP.
  assert (Ij : In j g) by (apply (Permutation_in _ (Permutation_sym PP)), in_seq; split; [apply Nat.le_0_l | exact Hj]).
  destruct (In_nth g j 0%nat Ij) as (m & Hm & Em). rewrite <- Ej. fold (at' x j). rewrite <- !nth_dist by assumption.
  assert (G0 : nth 0 g 0%nat = i) by (apply nth_error_nth; exact E0).
  destruct m as [|m]; [rewrite G0 in Em; subst; lra|].
  pose proof (sorted_nth _ g 0%nat SS 0%nat (S m) ltac:(lia)) as Q. cbv beta in Q. rewrite G0, Em in Q. exact Q.
Qed.

Lemma filter_seq_first (q : nat -> bool) n j0 rest : filter q (seq 0 n) = j0 :: rest -> forall j, (j < n)%nat -> q j = true -> (j0 <= j)%nat.
Proof.
  intros E j Hj Q. assert (I : In j (j0 :: rest)) by (rewrite <- E; apply filter_In; split; [apply in_seq; lia | exact Q]).
  assert (S : StronglySorted (fun a b : nat => (a < b)%nat) (filter q (seq 0 n))).
  { apply sorted_filter. clear. generalize 0%nat. induction n as [|n IH]; intros a; cbn; constructor; [apply IH|]. apply Forall_forall. intros b Hb. apply in_seq in Hb. lia. }
  rewrite E in S. inversion S as [|? ? _ F]; subst. destruct I as [<-|I]; [lia|]. rewrite Forall_forall in F. specialize (F j I). cbn in F. lia.
Qed.
Lemma closest_real_min (x : list C) p : (exists v : C, In v x /\ snd v = 0) ->
  exists i, @closest XR argsort (cfs x) (cf p) KReal = Ok i /\ (i < length x)%nat /\ snd (at' x i) = 0 /\
    forall v : C, In v x -> snd v = 0 -> dist p (at' x i) <= dist p v.
Proof.
  intros Hex. destruct (closest_real argsort Hsort x (cf p) Hex) as (i & E & Hi & Ri). exists i. split; [exact E|]. split; [exact Hi|]. split; [exact Ri|].
  intros v Hv Rv. destruct (In_nth x v (RtoC 0) Hv) as (j & Hj & Ej). unfold closest in E. rewrite dists in E.
  pose proof (Hord (map (dist p) x)) as SS. fold (fins (map (dist p) x)) in SS. pose proof (Hsort (fins (map (dist p) x))) as PP.
  set (g := argsort (fins (map (dist p) x))) in *. unfold fins in PP; rewrite !map_length in PP.
  assert (Hb : forall a, In a g -> (a < length x)%nat) by (intros a Ha; apply (Permutation_in _ PP) in Ha; apply in_seq in Ha; exact (proj2 Ha)).
  rewrite mapM_geti in E by exact Hb. cbn [bind] in E.
  set (h := map isreal (cfs (map (at' x) g))) in E.
  assert (Eh : h = map (fun i => realb (at' x i)) g) by (unfold h, cfs; rewrite !map_map; reflexivity).
  assert (Lh : length h = length g) by (rewrite Eh, map_length; reflexivity).
  destruct (filter (fun i => nth i h false) (seq 0 (length h))) as [|m0 nz] eqn:EN; [discriminate E|]. cbn [geti nth_error bind] in E.
  assert (Hm0 : In m0 (filter (fun i => nth i h false) (seq 0 (length h)))) by (rewrite EN; left; reflexivity).
  apply filter_In in Hm0 as [Hm0 _]. apply in_seq in Hm0. rewrite (geti_nth g m0 0%nat) in E by lia. injection E as Ei.
  assert (Ij : In j g) by (apply (Permutation_in _ (Permutation_sym PP)), in_seq; split; [apply Nat.le_0_l | exact Hj]).
  destruct (In_nth g j 0%nat Ij) as (m & Hm & Em). rewrite <- Ej. fold (at' x j). rewrite <- !nth_dist by assumption.
  assert (Q : nth m h false = true).
  { rewrite Eh. rewrite (nth_indep _ false (realb (at' x 0%nat))) by (rewrite map_length; exact Hm). rewrite (map_nth (fun i => realb (at' x i))), Em.
    apply realb_spec. exact (eq_trans (f_equal snd Ej) Rv). }
  pose proof (filter_seq_first _ _ _ _ EN m ltac:(lia) Q) as L.
  destruct (Nat.eq_dec m m0) as [->|NE]; [replace j with i by congruence; apply Rle_refl|].
  pose proof (sorted_nth _ g 0%nat SS m0 m ltac:(lia)) as Q'. cbv beta in Q'. rewrite Ei, Em in Q'. exact Q'.
Qed.

Lemma second_real_min ag y : (0 < length (filter realb y))%nat ->
  exists i, (i < length y)%nat /\ snd (at' y i) = 0 /\ (forall v, In v y -> snd v = 0 -> margin ag (at' y i) <= margin ag v) /\
   (let prealidx := filter (fun i => match nth_error (cfs y) i with Some v => @isreal XR v | None => false end)
                           (seq 0 (length (cfs y))) in
    let* ys := mapM (geti (cfs y)) prealidx in
    let* w := @iw XR ag ys in
    let* y2_i := geti prealidx w in
    let* y2 := geti (cfs y) y2_i in
    Ok (delete (cfs y) y2_i, y2)) = Ok (cfs (delete y i), cf (at' y i)).
Proof.
  intros H. cbv zeta. set (pr := filter _ _).
  assert (Hp : forall i, In i pr <-> (i < length y)%nat /\ snd (at' y i) = 0).
  { intros i. unfold pr. rewrite filter_In, in_seq, cfs_length.
    assert (T : (i < length y)%nat -> nth_error (cfs y) i = Some (cf (at' y i))).
    { intros Hi. unfold cfs. rewrite (nth_error_nth' _ (cf (RtoC 0))) by (rewrite map_length; lia). rewrite map_nth. reflexivity. }
    split; intros [H1 H2].
    - rewrite T, isreal_cf in H2 by lia. split; [lia | apply realb_spec, H2].
    - rewrite T, isreal_cf by lia. split; [lia | apply realb_spec, H2]. }
  destruct (filter_pos_ex _ _ H) as (v & Hv & Rv).
  assert (Hne : pr <> []).
  { destruct (In_nth y v (RtoC 0) Hv) as (i & Hi & Ei). intros E. assert (Hin : In i pr); [|rewrite E in Hin; destruct Hin].
    apply Hp. split; [exact Hi|]. apply realb_spec. rewrite <- Rv. exact (f_equal realb Ei). }
  rewrite mapM_geti by (intros i Hi; apply Hp, Hi). cbn [bind].
  destruct (iw_ok ag (map (at' y) pr)) as (w & Ew & Hw); [destruct pr; [exfalso; apply Hne; reflexivity | discriminate]|].
  rewrite map_length in Hw. destruct (iw_min ag _ _ Ew) as [_ Hmin]. rewrite Ew. cbn [bind]. rewrite (geti_nth pr w 0%nat Hw). cbn [bind].
  set (i := nth w pr 0%nat) in *. destruct (proj1 (Hp i) (nth_In _ _ Hw)) as [Hi Ri].
  assert (Ai : at' (map (at' y) pr) w = at' y i).
  { unfold at' at 1. rewrite (nth_indep _ (RtoC 0) (at' y 0%nat)) by (rewrite map_length; exact Hw). rewrite map_nth. reflexivity. }
  exists i. split; [exact Hi|]. split; [exact Ri|]. split.
  - intros u Hu Ru. destruct (In_nth y u (RtoC 0) Hu) as (m & Hm & Em). fold (at' y m) in Em. rewrite <- Ai. apply Hmin. rewrite <- Em. apply in_map, Hp.
    split; [exact Hm|]. rewrite Em. exact Ru.
  - rewrite geti_cfs by exact Hi. cbn [bind]. rewrite delete_cfs. reflexivity.
Qed.

Definition up (l : list C) : Prop := forall v, In v l -> 0 <= snd v.
Lemma up_delete l i : (i < length l)%nat -> up l -> up (delete l i).
Proof. intros Hi H v Hv. apply H. apply (Permutation_in v (Permutation_sym (nth_split_delete l i (RtoC 0) Hi))). right. exact Hv. Qed.
Lemma conj_farther p v : 0 <= snd p -> 0 <= snd v -> dist p v <= dist p (Cconj v).
Proof.
  intros Hp Hv. unfold dist, Cmod. apply sqrt_le_1_alt. destruct p as [a b], v as [c d]. cbn in *. nra.
Qed.
Lemma expand_dist l p z0 : up l -> 0 <= snd p -> (forall v, In v l -> dist p z0 <= dist p v) -> forall z, In z (expand l) -> dist p z0 <= dist p z.
Proof.
  intros U Hp H z Hz. apply in_flat_map in Hz as (v & Hv & Hz). specialize (H v Hv). unfold expand1 in Hz.
  destruct (realb v); [destruct Hz as [<-|[]]; exact H|]. destruct Hz as [<-|[<-|[]]]; [exact H|].
  pose proof (conj_farther p v Hp (U v Hv)). lra.
Qed.
Lemma expand_reals l v : In v (expand l) -> snd v = 0 -> In v l.
Proof.
  intros H R. apply in_flat_map in H as (u & Hu & H). unfold expand1 in H. destruct (realb u) eqn:E; [destruct H as [<-|[]]; exact Hu|].
  destruct H as [<-|[<-|[]]]; [exact Hu|]. exfalso. cbn in R. assert (E' : realb u = true) by (apply realb_spec; lra). congruence.
Qed.

Lemma step_greedy ag pg y x sop ci : y <> [] -> up y -> up x ->
  length (expand x) = length (expand y) -> Nat.Even (length (expand y)) ->
  exists y' x' p1 p2 z1 z2 r, @sop_step XR argsort ag pg (cfs y, cfs x, sop) ci = Ok (cfs y', cfs x', fins r :: sop) /\
    up y' /\ up x' /\ Permutation (expand y) (p1 :: p2 :: expand y') /\ Permutation (expand x) (z1 :: z2 :: expand x') /\
    (forall p, In p (expand y) -> margin ag p1 <= margin ag p) /\ companion (margin ag) p1 p2 (expand y') /\
    (forall z, In z (expand x) -> dist p1 z1 <= dist p1 z) /\ companion (dist p1) z1 z2 (expand x') /\
    length r = 6%nat /\ (forall s, num_at r s = from_roots [z1; z2] s) /\ (forall s, den_at r s = from_roots [p1; p2] s).
Proof.
  intros Hy Uy Ux HL HE. unfold sop_step.
  destruct (iw_ok ag y Hy) as (i & Ei & Hi). destruct (iw_min ag y i Ei) as [_ Hm]. rewrite Ei. cbn [bind].
  rewrite geti_cfs by exact Hi. cbn [bind]. rewrite delete_cfs.
  set (p1 := at' y i) in *. set (yd := delete y i) in *.
  pose proof (take_expand y i Hi) as TY. pose proof (take_count y i Hi) as CY. fold p1 yd in TY, CY.
  rewrite !count_real_cf, isreal_cf, !cfs_length.
  pose proof (expand_count y) as PY. pose proof (expand_count x) as PX. destruct HE as [e HE].
  assert (I1 : In p1 y) by (apply nth_In; exact Hi). assert (Up : 0 <= snd p1) by (apply Uy, I1).
  destruct (realb p1 && (length (filter realb yd) =? 0)%nat) eqn:B1.
  { exfalso. apply andb_prop in B1 as [R1 N0]. apply Nat.eqb_eq in N0. rewrite R1, N0 in CY. cbn in CY. lia. }
  match goal with |- context [if ?c then _ else _] => destruct c eqn:B2 end.
  { exfalso. apply andb_prop in B2 as [B2 _]. apply andb_prop in B2 as [B2 N1]. apply andb_prop in B2 as [_ R1]. apply negb_true_iff in R1. apply Nat.eqb_eq in N1.
    rewrite R1, N1 in CY. cbn in CY. lia. }
  assert (G : exists y' p2, (let* yy2 :=
      if realb p1 then
        let prealidx := filter (fun i => match nth_error (cfs yd) i with Some v => @isreal XR v | None => false end) (seq 0 (length yd)) in
        let* ys := mapM (geti (cfs yd)) prealidx in
        let* w := @iw XR ag ys in
        let* y2_i := geti prealidx w in
        let* y2 := geti (cfs yd) y2_i in
        Ok (delete (cfs yd) y2_i, y2)
      else Ok (cfs yd, cconj (cf p1)) in Ok yy2) = Ok (cfs y', cf p2) /\ up y' /\ Permutation (expand y) (p1 :: p2 :: expand y') /\
      companion (margin ag) p1 p2 (expand y') /\ conj_closed [p1; p2]).
  { destruct (realb p1) eqn:R1.
    - cbn [andb] in B1. apply Nat.eqb_neq in B1. destruct (second_real_min ag yd ltac:(lia)) as (j & Hj & Rj & Mj & E). rewrite cfs_length in E. cbv zeta in E.
      exists (delete yd j), (at' yd j). cbv zeta. rewrite E. cbn [bind]. apply realb_spec in R1. split; [reflexivity|]. split; [apply up_delete; [exact Hj | apply up_delete; assumption]|].
      split; [rewrite TY, (take_expand yd j Hj), (one_real _ R1), (one_real _ Rj); reflexivity|]. split.
      + split; [intros Z; exfalso; exact (Z R1)|]. intros _. split; [exact Rj|]. intros v Hv Rv. apply Mj; [|exact Rv]. apply expand_reals in Hv; [|exact Rv].
        apply (Permutation_in v (Permutation_sym (nth_split_delete yd j (RtoC 0) Hj))). right. exact Hv.
      + apply conj_closed_reals. intros v [<-|[<-|[]]]; assumption.
    - exists yd, (Cconj p1). cbn [bind]. rewrite cconj_cf. split; [reflexivity|]. split; [apply up_delete; assumption|].
      split; [rewrite TY, one_cplx by exact R1; reflexivity|]. split; [|apply conj_closed_pair]. split; [reflexivity|].
      intros Z. exfalso. apply realb_spec in Z. congruence. }
  destruct G as (y' & p2 & E2 & Uy' & PY' & K2 & CC). 
  match type of E2 with (let* a := ?m in Ok a) = _ => destruct m as [yy|] eqn:Em in E2 |- *; [|discriminate E2]; cbn [bind] in E2; injection E2 as -> end.
  cbn [bind]. clear Em.
  assert (Hx : x <> []) by (intros ->; cbn in HL; pose proof (Permutation_length PY') as Z; cbn in Z; lia).
  destruct (Nat.ltb_spec 0 (length x)) as [_|Z]; [|exfalso; destruct x; [apply Hx; reflexivity | cbn in Z; lia]].
  destruct (closest_any_min x p1 Hx) as (j & Ej & Hj & Mj). rewrite Ej. cbn [bind]. rewrite geti_cfs by exact Hj. cbn [bind]. rewrite delete_cfs, isreal_cf.
  set (z1 := at' x j) in *. set (xd := delete x j) in *. pose proof (take_expand x j Hj) as TX. pose proof (take_count x j Hj) as CX. fold z1 xd in TX, CX.
  pose proof (expand_dist x p1 z1 Ux Up Mj) as MZ.
  assert (MP : forall p, In p (expand y) -> margin ag p1 <= margin ag p) by (intros p Hp; apply (expand_margin ag p1 y); assumption).
  destruct (realb z1) eqn:RZ; cbn [negb].
  - destruct (Nat.ltb_spec 0 (length (cfs xd))) as [_|Z].
    2:{ exfalso. rewrite cfs_length in Z. assert (xd = []) as Zx by (destruct xd; [reflexivity | cbn in Z; lia]). rewrite Zx in CX. cbn in CX. lia. }
    destruct (closest_real_min xd p1) as (j2 & E2 & H2 & R2 & M2).
    { destruct (filter_pos_ex realb xd) as (v & Hv & Rv); [lia|]. exists v. split; [exact Hv | apply realb_spec, Rv]. }
    rewrite E2. cbn [bind]. rewrite geti_cfs by exact H2. cbn [bind]. rewrite isreal_cf, (proj2 (realb_spec _) R2). cbn [negb]. rewrite delete_cfs.
    apply realb_spec in RZ.
    change [cf z1; cf (at' xd j2)] with (cfs [z1; at' xd j2]). change [cf p1; cf p2] with (cfs [p1; p2]).
    destruct (lone_ok [z1; at' xd j2] [p1; p2]) as (r & Er & Lr & Nr & Dr); [cbn; lia | cbn; lia | apply conj_closed_reals; intros v [<-|[<-|[]]]; assumption | exact CC|].
    rewrite Er. cbn [bind]. exists y', (delete xd j2), p1, p2, z1, (at' xd j2), r. split; [reflexivity|]. split; [exact Uy'|].
    split; [apply up_delete; [exact H2 | apply up_delete; assumption]|]. split; [exact PY'|].
    split; [rewrite TX, (take_expand xd j2 H2), (one_real _ RZ), (one_real _ R2); reflexivity|].
    split; [exact MP|]. split; [exact K2|]. split; [exact MZ|]. split; [|repeat split; assumption].
    split; [intros Z; exfalso; exact (Z RZ)|]. intros _. split; [exact R2|]. intros v Hv Rv. apply M2; [|exact Rv]. apply expand_reals in Hv; [|exact Rv].
    apply (Permutation_in v (Permutation_sym (nth_split_delete xd j2 (RtoC 0) H2))). right. exact Hv.
  - rewrite cconj_cf. change [cf z1; cf (Cconj z1)] with (cfs [z1; Cconj z1]). change [cf p1; cf p2] with (cfs [p1; p2]).
    destruct (lone_ok [z1; Cconj z1] [p1; p2]) as (r & Er & Lr & Nr & Dr); [cbn; lia | cbn; lia | apply conj_closed_pair | exact CC|].
    rewrite Er. cbn [bind]. exists y', xd, p1, p2, z1, (Cconj z1), r. split; [reflexivity|]. split; [exact Uy'|].
    split; [apply up_delete; assumption|]. split; [exact PY'|].
    split; [rewrite TX, one_cplx by exact RZ; reflexivity|].
    split; [exact MP|]. split; [exact K2|]. split; [exact MZ|]. split; [|repeat split; assumption].
    split; [reflexivity|]. intros Z. exfalso. apply realb_spec in Z. congruence.
Qed.

Lemma loop_greedy ag pg cs : forall y x sop, up y -> up x ->
  length (expand y) = (2 * length cs)%nat -> length (expand x) = (2 * length cs)%nat ->
  exists rows, foldM (@sop_step XR argsort ag pg) (cfs y, cfs x, sop) cs = Ok ([], [], map fins rows ++ sop) /\
    length rows = length cs /\ greedy ag (expand y) (expand x) rows.
Proof.
  induction cs as [|ci cs IH]; intros y x sop Uy Ux Ly Lx.
  - apply expand_nil in Ly, Lx. subst. exists []. split; [reflexivity|]. split; [reflexivity | constructor].
  - cbn [length] in Ly, Lx. destruct (step_greedy ag pg y x sop ci) as (y' & x' & p1 & p2 & z1 & z2 & r & E & Uy' & Ux' & PY & PX & MP & KP & MZ & KZ & L6 & Nr & Dr);
      [intros ->; cbn in Ly; lia | assumption | assumption | lia | exists (S (length cs)); lia |].
    pose proof (Permutation_length PY) as LY'. pose proof (Permutation_length PX) as LX'. cbn [length] in LY', LX'.
    cbn [foldM]. rewrite E. cbn [bind].
    destruct (IH y' x' (fins r :: sop)) as (rows & ER & LR & GR); [assumption | assumption | lia | lia |].
    exists (rows ++ [r]). split; [rewrite ER, map_app, <- app_assoc; reflexivity|]. split; [rewrite app_length; cbn; lia|].
    eapply greedy_last; eassumption.
Qed.

Lemma greedy_six ag P Z rows : greedy ag P Z rows -> forall r, In r rows -> length r = 6%nat.
Proof. induction 1; intros q Hq; [destruct Hq|]. apply in_app_iff in Hq as [Hq|[<-|[]]]; auto. Qed.
Lemma greedy_perm ag P Z rows P0 Z0 : Permutation P0 P -> Permutation Z0 Z -> greedy ag P Z rows -> greedy ag P0 Z0 rows.
Proof.
  intros HP HZ H. destruct H as [|P Z p1 p2 P' z1 z2 Z' rows r QP QZ MP KP MZ KZ L6 Nr Dr H].
  - apply Permutation_sym, Permutation_nil in HP, HZ. subst. constructor.
  - refine (greedy_last ag P0 Z0 p1 p2 P' z1 z2 Z' rows r _ _ _ KP _ KZ L6 Nr Dr H).
    + rewrite HP. exact QP.
    + rewrite HZ. exact QZ.
    + intros p Hp. apply MP, (Permutation_in _ HP), Hp.
    + intros z Hz. apply MZ, (Permutation_in _ HZ), Hz.
Qed.

Lemma core_greedy ag pg X Y k n : conj_closed X -> conj_closed Y -> length X = (2 * n)%nat -> length Y = (2 * n)%nat -> (0 < n)%nat ->
  exists rows, (let* xx := @cxr XR (cfs X) in
    let x := fst xx ++ snd xx in
    let* yy := @cxr XR (cfs Y) in
    let y := fst yy ++ snd yy in
    let* st := foldM (@sop_step XR argsort ag pg) (y, x, []) (rev (zrange 0 (Z.of_nat n))) in
    let '(y, x, sop) := st in
    if negb ((length y =? length x)%nat && (length x =? 0)%nat) then Raise AssertionError
    else @scale_first XR (Fin k) sop) = Ok (map fins (with_gain k rows)) /\ length rows = n /\ greedy ag (map snap Y) (map snap X) rows.
Proof.
  intros CX CY LX LY Hn.
  assert (U : forall W, conj_closed W -> exists xc xr, @cxr XR (cfs W) = Ok (cfs xc, cfs xr) /\ Permutation (expand (xc ++ xr)) (map snap W) /\ up (xc ++ xr)).
  { intros W CW. destruct (cxr_ok W CW) as (xc & xr & E & Pc & Pr & PP). exists xc, xr. split; [exact E|]. split.
    - rewrite expand_app, (expand_real xr) by exact Pr. rewrite expand_pos by exact Pc. rewrite <- app_assoc. symmetry. exact PP.
    - intros v Hv. apply in_app_iff in Hv as [Hv|Hv]; [apply Rlt_le, Pc, Hv | rewrite (Pr v Hv); apply Rle_refl]. }
  destruct (U X CX) as (xc & xr & EX & PX & UX). destruct (U Y CY) as (yc & yr & EY & PY & UY).
  rewrite EX. cbn [bind fst snd]. rewrite EY. cbn [bind fst snd]. rewrite <- !cfs_app.
  pose proof (Permutation_length PX) as LX'. pose proof (Permutation_length PY) as LY'. rewrite map_length in LX', LY'.
  assert (LZ : length (rev (zrange 0 (Z.of_nat n))) = n) by (rewrite rev_length, zrange_length; lia).
  destruct (loop_greedy ag pg (rev (zrange 0 (Z.of_nat n))) (yc ++ yr) (xc ++ xr) [] UY UX) as (rows & E & LR & GR); [lia | lia|].
  rewrite E. cbn [bind length Nat.eqb andb negb]. rewrite app_nil_r. rewrite LZ in LR. exists rows.
  split; [|split; [exact LR | apply (greedy_perm ag _ _ rows _ _ (Permutation_sym PY) (Permutation_sym PX) GR)]].
  pose proof (greedy_six _ _ _ _ GR) as S6. destruct rows as [|r rows]; [cbn in LR; lia|]. specialize (S6 r (or_introl eq_refl)).
  destruct r as [|b0 [|b1 [|b2 [|a0 [|a1 [|a2 [|]]]]]]]; try discriminate S6. reflexivity.
Qed.

Lemma snap_pad n l : map snap (l ++ repeat (RtoC 0) (n - length l)) = padded_to n (map snap l).
Proof. rewrite snap_zeros. unfold padded_to. rewrite map_length. reflexivity. Qed.

Lemma sop_greedy x y k pgs ag : conj_closed x -> conj_closed y -> x <> [] \/ y <> [] ->
  let m := Nat.max (length x) (length y) in let n := Nat.div (m + 1) 2 in
  ag = false /\ (pgs = None \/ pgs = Some "nr"%string) \/
  ag = false /\ pgs = Some "kd"%string /\ Nat.Even m \/
  (ag = true /\ pgs = None \/ pgs = Some "ml"%string) /\ length x = length y /\ Nat.Even m ->
  exists rows, @xyz_to_sop XR argsort (cfs x) (cfs y) (Fin k) pgs ag = Ok (map fins (with_gain k rows)) /\ length rows = n /\
    greedy ag (padded_to (2 * n) (map snap y)) (padded_to (2 * n) (map snap x)) rows.
Proof.
  intros CX CY Hne m n Hcase.
  assert (E0 : ((length x =? 0)%nat && (length y =? 0)%nat) = false) by (destruct x, y; try reflexivity; destruct Hne as [Z|Z]; exfalso; apply Z; reflexivity).
  assert (Hm : (0 < m)%nat) by (unfold m; destruct x, y; try (cbn; lia); destruct Hne as [Z|Z]; exfalso; apply Z; reflexivity).
  pose proof (Nat.div_mod (m + 1) 2 ltac:(lia)) as DM. pose proof (Nat.mod_upper_bound (m + 1) 2 ltac:(lia)) as DU. fold n in DM.
  pose proof (Nat.div_mod m 2 ltac:(lia)) as DM2. pose proof (Nat.mod_upper_bound m 2 ltac:(lia)) as DU2.
  assert (EV : Nat.Even m -> m = (2 * n)%nat) by (intros [e E]; lia).
  assert (D : exists pg, (let* pg := if String.eqb (match pgs with None => if ag then "ml" else "nr" | Some s => s end)%string "nr" then Ok PNr
      else if String.eqb (match pgs with None => if ag then "ml" else "nr" | Some s => s end)%string "kd" then Ok PKd
      else if String.eqb (match pgs with None => if ag then "ml" else "nr" | Some s => s end)%string "ml" then Ok PMl else Raise ValueError in Ok pg) = Ok pg /\
      (ag && negb (is_ml pg)) = false /\ (pg = PNr \/ (pg = PKd /\ Nat.Even m) \/ (pg = PMl /\ length x = length y /\ Nat.Even m))).
  { destruct Hcase as [[-> [->| ->]]|[[-> [-> He]]|[[[-> ->]| ->] [HL He]]]]; eexists; (split; [reflexivity|]); (split; [try reflexivity; destruct ag; reflexivity|]); auto. }
  destruct D as (pg & Epg & Eag & Hpg). clear Hcase.
  unfold xyz_to_sop. cbv zeta. match goal with |- context [bind ?m0 ?k0] => match m0 with context [String.eqb] => destruct m0 as [pg0|] eqn:Em; [|discriminate Epg] end end.
  cbn [bind] in Epg |- *. injection Epg as ->. rewrite Eag, !cfs_length, E0.
  destruct Hpg as [->|[[-> He]|[-> [HL He]]]]; cbn [is_ml negb].
  3:{ destruct (Nat.ltb_spec (length y) (length x)) as [Z|_]; [lia|]. cbn [bind]. replace (length y) with m by (unfold m; lia). fold n.
      destruct (core_greedy ag PMl x y k n CX CY) as (rows & E & LR & GR); [specialize (EV He); unfold m in *; lia | specialize (EV He); unfold m in *; lia | specialize (EV He); lia|].
      exists rows. split; [exact E|]. split; [exact LR|].
      assert (PI : forall l, length l = (2 * n)%nat -> padded_to (2 * n) (map snap l) = map snap l).
      { intros l Hl. unfold padded_to. rewrite map_length, Hl, Nat.sub_diag. cbn. apply app_nil_r. }
      rewrite !PI by (specialize (EV He); unfold m in *; lia). exact GR. }
  all: rewrite !cfs_zeros, !cfs_length, !app_length, !repeat_length;
    replace (Nat.max (length y + (length x - length y)) (length x + (length y + (length x - length y) - length x))) with m by (unfold m; lia); fold n;
    replace (length y + (length x - length y))%nat with m by (unfold m; lia).
  - rewrite andb_true_r. destruct (Nat.eqb_spec (m mod 2) 1) as [O|O].
    + rewrite !cfs_zero1, !cfs_length, !app_length, !repeat_length.
      destruct (Nat.eqb_spec (length y + S (length x - length y)) (length x + S (m - length x))) as [_|Z]; [|exfalso; unfold m in *; lia]. cbn [negb bind].
      destruct (core_greedy ag PNr (x ++ repeat (RtoC 0) (2 * n - length x)) (y ++ repeat (RtoC 0) (2 * n - length y)) k n) as (rows & E & LR & GR);
        [apply conj_closed_zeros; exact CX | apply conj_closed_zeros; exact CY | rewrite app_length, repeat_length; unfold m in *; lia | rewrite app_length, repeat_length; unfold m in *; lia | lia |].
      exists rows. rewrite !snap_pad in GR. split; [|split; [exact LR | exact GR]].
      replace (S (m - length x)) with (2 * n - length x)%nat by (unfold m in *; lia). replace (S (length x - length y)) with (2 * n - length y)%nat by (unfold m in *; lia). exact E.
    + rewrite !cfs_length, !app_length, !repeat_length.
      destruct (Nat.eqb_spec (length y + (length x - length y)) (length x + (m - length x))) as [_|Z]; [|exfalso; unfold m in *; lia]. cbn [negb bind].
      destruct (core_greedy ag PNr (x ++ repeat (RtoC 0) (2 * n - length x)) (y ++ repeat (RtoC 0) (2 * n - length y)) k n) as (rows & E & LR & GR);
        [apply conj_closed_zeros; exact CX | apply conj_closed_zeros; exact CY | rewrite app_length, repeat_length; unfold m in *; lia | rewrite app_length, repeat_length; unfold m in *; lia | lia |].
      exists rows. rewrite !snap_pad in GR. split; [|split; [exact LR | exact GR]].
      replace (m - length x)%nat with (2 * n - length x)%nat by (unfold m in *; lia). replace (length x - length y)%nat with (2 * n - length y)%nat by (unfold m in *; lia). exact E.
  - rewrite andb_false_r. specialize (EV He). rewrite !cfs_length, !app_length, !repeat_length.
    destruct (Nat.eqb_spec (length y + (length x - length y)) (length x + (m - length x))) as [_|Z]; [|exfalso; unfold m in *; lia]. cbn [negb bind].
    destruct (core_greedy ag PKd (x ++ repeat (RtoC 0) (2 * n - length x)) (y ++ repeat (RtoC 0) (2 * n - length y)) k n) as (rows & E & LR & GR);
      [apply conj_closed_zeros; exact CX | apply conj_closed_zeros; exact CY | rewrite app_length, repeat_length; unfold m in *; lia | rewrite app_length, repeat_length; unfold m in *; lia | lia |].
    exists rows. rewrite !snap_pad in GR. split; [|split; [exact LR | exact GR]].
    replace (m - length x)%nat with (2 * n - length x)%nat by (unfold m in *; lia). replace (length x - length y)%nat with (2 * n - length y)%nat by (unfold m in *; lia). exact E.
Qed.

(** Every digital design. *)
Lemma butter_greedy b n s o o' zs ps k : (0 < n)%nat -> digital_ok b -> lower s = band_name b ->
  lower o = "zps"%string -> lower o' = "sop"%string ->
  butterworth argsort (Fin (INR n)) (fins (band_freqs b)) s false o (@SrNone XR) = Ok (Zps (cfs zs, cfs ps, Fin k)) ->
  let c := Nat.div (length ps + 1) 2 in
  exists rows, butterworth argsort (Fin (INR n)) (fins (band_freqs b)) s false o' (@SrNone XR) = Ok (Sop (map fins (with_gain k rows))) /\ length rows = c /\
    greedy false (padded_to (2 * c) (map snap ps)) (padded_to (2 * c) (map snap zs)) rows.
Proof.
  intros Hn Hb Hs Ho Ho' E c.
  rewrite (butter_zps_digital argsort b n Hb s o Hs Ho) in E. apply zps_inj in E as (E1 & E2 & E3).
  pose proof (ddesign_same_length b n) as HL. destruct (ddesign_conj b n) as [C1 C2]. pose proof (ddesign_lengths b n) as [L1 L2].
  assert (HO : (0 < band_order b n)%nat) by (destruct b; cbn; lia).
  rewrite E1 in *. rewrite E2 in *.
  destruct (sop_greedy zs ps k None false C1 C2) as (rows & ER & LR & GR); [right; intros Z; rewrite Z in *; cbn in *; lia | left; split; [reflexivity | left; reflexivity]|].
  replace (Nat.max (length zs) (length ps)) with (length ps) in * by lia.
  exists rows. split; [|split; [exact LR | exact GR]].
  assert (HX : is_sop (butterworth argsort (Fin (INR n)) (fins (band_freqs b)) s false o' (@SrNone XR)) = Ok (map fins (with_gain k rows))).
  { rewrite butterworth_digital by (try easy; unfold good_output; rewrite Ho'; cbn; tauto). rewrite finish_sop by easy. cbn [fst snd]. rewrite E1, E2, E3. exact ER. }
  destruct (butterworth argsort (Fin (INR n)) (fins (band_freqs b)) s false o' (@SrNone XR)) as [[| |S]|]; try discriminate HX. cbn in HX. injection HX as ->. reflexivity.
Qed.
End G.

(** The insertion sort of the examples sorts. *)
Lemma ins_pos_sorted (d : list R) i l : StronglySorted (fun a b => nth a d 0 <= nth b d 0) l ->
  (forall a, In a (i :: l) -> (a < length d)%nat) ->
  StronglySorted (fun a b => nth a d 0 <= nth b d 0) (@ins_pos XR (map Fin d) i l).
Proof.
  assert (NN : forall a, (a < length d)%nat -> nth a (map Fin d) (@nnan XR) = Fin (nth a d 0)).
  { intros a Ha. rewrite (nth_indep _ _ (Fin 0)) by (rewrite map_length; exact Ha). apply (map_nth Fin). }
  induction l as [|j l IH]; intros S B; cbn [ins_pos]; [repeat constructor|].
  change (map Fin d) with (fins d) in *. rewrite !NN by (apply B; cbn; auto). change (@nltb XR (Fin (nth i d 0)) (Fin (nth j d 0))) with (Rlt_bool (nth i d 0) (nth j d 0)).
  inversion S as [|? ? S' F]; subst. rewrite Forall_forall in F. destruct (Rlt_bool_spec (nth i d 0) (nth j d 0)) as [H|H].
  - constructor; [exact S|]. apply Forall_forall. intros a [<-|Ha]; [lra|]. specialize (F a Ha). lra.
  - constructor; [apply IH; [exact S' | intros a [<-|Ha]; apply B; cbn; auto]|]. apply Forall_forall. intros a Ha.
    apply (Permutation_in _ (ins_pos_perm (fins d) i l)) in Ha. destruct Ha as [<-|Ha]; [exact H | apply F, Ha].
Qed.
Lemma ins_argsort_sorts : sorts (@ins_argsort XR).
Proof.
  intros d. unfold ins_argsort. rewrite map_length.
  assert (H : forall s acc, (forall a, In a (s ++ acc) -> (a < length d)%nat) -> StronglySorted (fun a b => nth a d 0 <= nth b d 0) acc ->
    StronglySorted (fun a b => nth a d 0 <= nth b d 0) (fold_left (fun l i => @ins_pos XR (map Fin d) i l) s acc)).
  { induction s as [|i s IH]; intros acc B S; [exact S|]. cbn [fold_left]. apply IH.
    - intros a Ha. apply B. apply in_app_iff in Ha as [Ha|Ha]; [right; apply in_app_iff; left; exact Ha|]. apply (Permutation_in _ (ins_pos_perm (N:=XR) (map Fin d) i acc)) in Ha. destruct Ha as [<-|Ha]; [left; reflexivity | right; apply in_app_iff; right; exact Ha].
    - apply ins_pos_sorted; [exact S|]. intros a [<-|Ha]; apply B; [left; reflexivity | right; apply in_app_iff; right; exact Ha]. }
  apply H; [|constructor]. intros a Ha. rewrite app_nil_r in Ha. apply in_seq in Ha. lia.
Qed.
