(** The order of the second-order sections (C151). *)
From Coq Require Import Reals Lra Psatz Permutation.
From Coquelicot Require Import Complex.
From Flocq Require Import Core.Raux.
From Verif Require Import Num NpBase Lib XR M_butter Spec3 Spec26 P_cx P_butter P_poly P_cxr P_sop P_sop2 P_buttap P_design P_bwfun P_bwprops P_sop3.
Local Open Scope R_scope.

Lemma skipn_tl {A} i : forall l : list A, skipn (S i) l = tl (skipn i l).
Proof. induction i as [|i IH]; intros [|x l]; cbn in *; try reflexivity. apply (IH l). Qed.
Lemma argmin_from_min l : forall b bi i (L : list R),
  skipn i L = l -> (bi < i <= length L)%nat -> nth bi L 0 = b -> (forall j, (j < i)%nat -> b <= nth j L 0) ->
  let r := @argmin_from XR (Fin b) bi i (fins l) in
  (r < length L)%nat /\ forall j, (j < length L)%nat -> nth r L 0 <= nth j L 0.
Proof.
  induction l as [|v l IH]; intros b bi i L HS Hi Hb Hm.
  - cbn. assert (length L = i).
    { pose proof (skipn_length i L) as HL. rewrite HS in HL. cbn in HL. lia. }
    split; [lia|]. intros j Hj. rewrite Hb. apply Hm. lia.
  - assert (Hlt : (i < length L)%nat) by (pose proof (skipn_length i L) as HL; rewrite HS in HL; cbn in HL; lia).
    assert (Hv : nth i L 0 = v) by (rewrite <- (firstn_skipn i L), HS, app_nth2; rewrite firstn_length; [|lia]; replace (i - Nat.min i (length L))%nat with 0%nat by lia; reflexivity).
    assert (HS' : skipn (S i) L = l).
    { rewrite skipn_tl, HS. reflexivity. }
    change (fins (v :: l)) with (Fin v :: fins l). cbn [argmin_from].
    change (@nltb XR (Fin v) (Fin b)) with (Rlt_bool v b). destruct (Rlt_bool_spec v b) as [H|H].
    + apply IH; [exact HS' | lia | exact Hv|]. intros j Hj. destruct (Nat.eq_dec j i) as [-> |]; [lra|]. specialize (Hm j ltac:(lia)). lra.
    + apply IH; [exact HS' | lia | exact Hb|]. intros j Hj. destruct (Nat.eq_dec j i) as [-> |]; [lra|]. apply Hm. lia.
Qed.

Lemma iw_min ag (y : list C) i : @iw XR ag (cfs y) = Ok i ->
  (i < length y)%nat /\ forall v, In v y -> margin ag (at' y i) <= margin ag v.
Proof.
  unfold iw. intros H.
  assert (E : map (fun v : XR * XR => if ag then @nabs XR (@re XR v) else @nabs XR (@nsub XR (@nofZ XR 1) (@cabs XR v))) (cfs y) = fins (map (margin ag) y)).
  { unfold cfs, fins. rewrite !map_map. apply map_ext. intros v. unfold margin. destruct ag; [reflexivity|]. rewrite cabs_cf. reflexivity. }
  rewrite E in H. destruct y as [|v0 y]; [discriminate|]. cbn [map] in H. change (fins (margin ag v0 :: map (margin ag) y)) with (Fin (margin ag v0) :: fins (map (margin ag) y)) in H.
  cbn [argmin] in H. injection H as H.
  destruct (argmin_from_min (map (margin ag) y) (margin ag v0) 0 1 (map (margin ag) (v0 :: y))) as [A B]; [reflexivity | cbn; lia | reflexivity | intros j Hj; replace j with 0%nat by lia; cbn; lra|].
  cbv zeta in A, B. rewrite H in A, B. rewrite map_length in A, B. split; [exact A|]. intros v Hv.
  assert (NM : forall j, (j < length (v0 :: y))%nat -> nth j (map (margin ag) (v0 :: y)) 0 = margin ag (at' (v0 :: y) j)).
  { intros j Hj. unfold at'. rewrite (nth_indep _ 0 (margin ag (RtoC 0))) by (rewrite map_length; exact Hj). apply map_nth. }
  destruct (In_nth _ _ (RtoC 0) Hv) as (j & Hj & Ej). specialize (B j Hj). rewrite !NM in B by assumption. unfold at' in B at 2. rewrite Ej in B. exact B.
Qed.

Definition den_ok (row : list XR) (ys : list C) : Prop := forall r, row = fins r -> forall z, den_at r z = from_roots ys z.
Lemma pad3_len g h : @pad3 XR g = Ok h -> length h = 3%nat.
Proof. unfold pad3. destruct (Nat.ltb_spec 3 (length g)); [discriminate|]. intros [= <-]. rewrite app_length, repeat_length, map_length. destruct g as [|? [|? [|? [|]]]]; cbn in *; lia. Qed.
Lemma fins_inj a : forall b, fins a = fins b -> a = b.
Proof. induction a as [|x a IH]; intros [|y b] H; try discriminate; [reflexivity|]. injection H as -> H. f_equal. apply IH, H. Qed.
Lemma lone_den (X : list (XR * XR)) ys row : (length ys <= 2)%nat -> conj_closed ys ->
  @lone_xyzsop XR X (cfs ys) (@nofZ XR 1) = Ok row -> den_ok row ys.
Proof.
  intros HL HC H r -> z. destruct (lone_ok [] ys ltac:(cbn; lia) HL ltac:(constructor) HC) as (r0 & E & _ & _ & D). rewrite <- D.
  unfold lone_xyzsop, xyz_to_ptf in H, E. destruct (pad3 (real_if_paired X _)) as [g|] eqn:Eg; [|discriminate H]. cbn [bind] in H.
  destruct (pad3 (real_if_paired (cfs []) _)) as [g0|] eqn:Eg0; [|discriminate E]. cbn [bind] in E.
  destruct (pad3 (real_if_paired (cfs ys) _)) as [h|] eqn:Eh; [|discriminate H]. cbn [bind] in H, E.
  injection H as H. injection E as E. apply pad3_len in Eg, Eg0, Eh.
  destruct g as [|? [|? [|? [|]]]]; try discriminate Eg. destruct g0 as [|? [|? [|? [|]]]]; try discriminate Eg0. destruct h as [|? [|? [|? [|]]]]; try discriminate Eh.
  cbn [app] in H, E. destruct r as [|? [|? [|? [|? [|? [|? [|]]]]]]]; try discriminate H. destruct r0 as [|? [|? [|? [|? [|? [|? [|]]]]]]]; try discriminate E.
  cbn [fins map] in H, E. injection H as -> -> -> -> -> ->. injection E as _ _ _ -> -> ->. reflexivity.
Qed.

Lemma ok_bind {A B} (m : res A) (k : A -> res B) b : bind m k = Ok b -> exists a, m = Ok a /\ k a = Ok b.
Proof. destruct m; cbn; [eauto | discriminate]. Qed.
Tactic Notation "ub" hyp(H) ident(a) ident(Ha) := apply ok_bind in H; destruct H as (a & Ha & H).
Lemma geti_cfs_ok l i v : geti (cfs l) i = Ok v -> (i < length l)%nat /\ v = cf (at' l i).
Proof.
  intros H. assert (Hi : (i < length l)%nat).
  { unfold geti in H. destruct (nth_error (cfs l) i) eqn:E; [|discriminate]. rewrite <- (cfs_length l). apply nth_error_Some. congruence. }
  split; [exact Hi|]. rewrite geti_cfs in H by exact Hi. congruence.
Qed.

Section Run.
Variable argsort : list XR -> list nat.
Definition padded (pg : pairing) (y : list C) (p : C) : Prop := is_ml pg = false /\ p = RtoC 0 /\ Nat.Odd (length (filter realb y)).
Lemma margin_conj ag p : margin ag (Cconj p) = margin ag p.
Proof. unfold margin. destruct ag; [reflexivity|]. do 2 f_equal. unfold Cmod. cbn. f_equal. ring. Qed.

Lemma step_pick ag pg y X sop ci Y' X' sop' :
  @sop_step XR argsort ag pg (cfs y, X, sop) ci = Ok (Y', X', sop') ->
  exists y' y1 ys row, Y' = cfs y' /\ sop' = row :: sop /\ den_ok row ys /\ In y1 y /\ In y1 ys /\
    (forall v, In v y -> margin ag y1 <= margin ag v) /\ (forall v, In v y' -> In v y) /\
    (forall p, In p ys -> padded pg y p \/ In p (expand y)) /\
    (Nat.Odd (length (filter realb y')) -> Nat.Odd (length (filter realb y))).
Proof.
  unfold sop_step. intros H. ub H i Ei. destruct (iw_min ag y i Ei) as [Hi Hm]. rewrite geti_cfs in H by exact Hi. cbn [bind] in H.
  rewrite delete_cfs, !count_real_cf, isreal_cf in H. set (y1 := at' y i) in *. set (yd := delete y i) in *.
  pose proof (take_count y i Hi) as CY. fold y1 yd in CY.
  assert (I1 : In y1 y) by (apply nth_In; exact Hi).
  assert (Sub : forall v, In v yd -> In v y).
  { intros v Hv. apply (Permutation_in v (Permutation_sym (nth_split_delete y i (RtoC 0) Hi))). right. exact Hv. }
  assert (Ex : forall v, In v y -> In v (expand y)).
  { intros v Hv. apply in_flat_map. exists v. split; [exact Hv|]. unfold expand1. destruct (realb v); left; reflexivity. }
  destruct (realb y1 && (length (filter realb yd) =? 0)%nat) eqn:B1.
  - apply andb_prop in B1 as [Ry N0]. apply Nat.eqb_eq in N0. rewrite Ry, N0 in CY. cbn in CY.
    assert (Odd : Nat.Odd (length (filter realb y))) by (rewrite CY; exists 0%nat; reflexivity).
    apply realb_spec in Ry.
    destruct (is_ml pg) eqn:M; cbn [negb] in H.
    + assert (G : exists xx row, @lone_xyzsop XR xx (cfs [y1]) (@nofZ XR 1) = Ok row /\ Y' = cfs yd /\ sop' = row :: sop).
      { destruct (0 <? length X)%nat; [ub H j Ej; ub H x1 Ex1|]; ub H row Er; injection H as <- <- <-; eauto. }
      destruct G as (xx & row & Er & -> & ->). exists yd, y1, [y1], row. split; [reflexivity|]. split; [reflexivity|].
      split; [apply (lone_den xx); [cbn; lia | apply conj_closed_reals; intros v [<-|[]]; exact Ry | exact Er]|].
      split; [exact I1|]. split; [left; reflexivity|]. split; [exact Hm|]. split; [exact Sub|].
      split; [intros p [<-|[]]; right; apply Ex, I1 | intros _; exact Odd].
    + ub H j Ej. ub H x1 Ex1. ub H row Er. injection H as <- <- <-. change [cf y1; @cre XR (@nofZ XR 0)] with (cfs [y1; RtoC 0]) in Er.
      exists yd, y1, [y1; RtoC 0], row. split; [reflexivity|]. split; [reflexivity|].
      split; [refine (lone_den _ [y1; RtoC 0] _ _ _ Er); [cbn; lia|]; apply conj_closed_reals; intros v [<-|[<-|[]]]; [exact Ry | reflexivity]|].
      split; [exact I1|]. split; [left; reflexivity|]. split; [exact Hm|]. split; [exact Sub|].
      split; [intros p [<-|[<-|[]]]; [right; apply Ex, I1 | left; repeat split; [exact M | exact Odd]] | intros _; exact Odd].
  - match type of H with (if ?c then _ else _) = _ => destruct c eqn:B2 end.
    + apply andb_prop in B2 as [B2 _]. apply andb_prop in B2 as [B2 _]. apply andb_prop in B2 as [_ Ry]. apply negb_true_iff in Ry.
      ub H j Ej. ub H x1 Ex1. ub H row Er. injection H as <- <- <-. rewrite cconj_cf in Er. change [cf y1; cf (Cconj y1)] with (cfs [y1; Cconj y1]) in Er.
      exists yd, y1, [y1; Cconj y1], row. split; [reflexivity|]. split; [reflexivity|].
      split; [refine (lone_den _ [y1; Cconj y1] _ _ _ Er); [cbn; lia | apply conj_closed_pair]|].
      split; [exact I1|]. split; [left; reflexivity|]. split; [exact Hm|]. split; [exact Sub|]. rewrite Ry in CY. cbn in CY.
      split; [|rewrite CY; auto]. intros p Hp. right. apply in_flat_map. exists y1. split; [exact I1|]. rewrite one_cplx by exact Ry. exact Hp.
    + ub H yy2 E2.
      assert (G : exists y' y2, yy2 = (cfs y', cf y2) /\ conj_closed [y1; y2] /\ (forall v, In v y' -> In v y) /\ In y2 (expand y) /\
        (Nat.Odd (length (filter realb y')) -> Nat.Odd (length (filter realb y)))).
      { destruct (realb y1) eqn:Ry.
        - cbn [andb] in B1. apply Nat.eqb_neq in B1. destruct (second_real ag yd ltac:(lia)) as (j & Hj & Rj & E). pose proof (eq_trans (eq_sym E) E2) as E3. injection E3 as <-.
          exists (delete yd j), (at' yd j). split; [reflexivity|]. apply realb_spec in Ry.
          split; [apply conj_closed_reals; intros v [<-|[<-|[]]]; assumption|].
          assert (IJ : In (at' yd j) yd) by (apply nth_In; exact Hj).
          split; [intros v Hv; apply Sub, (Permutation_in v (Permutation_sym (nth_split_delete yd j (RtoC 0) Hj))); right; exact Hv|].
          split; [apply Ex, Sub, IJ|]. pose proof (take_count yd j Hj) as CJ. rewrite (proj2 (realb_spec _) Rj) in CJ.
          rewrite CY, CJ. intros [o O]. exists (S o). cbn. lia.
        - injection E2 as <-. rewrite cconj_cf. exists yd, (Cconj y1). split; [reflexivity|]. split; [apply conj_closed_pair|]. split; [exact Sub|].
          split; [apply in_flat_map; exists y1; split; [exact I1|]; rewrite one_cplx by exact Ry; right; left; reflexivity|]. cbn in CY. rewrite CY. auto. }
      destruct G as (y' & y2 & -> & CC & Sub' & I2 & Od). clear E2.
      assert (G : exists xx row, @lone_xyzsop XR xx (cfs [y1; y2]) (@nofZ XR 1) = Ok row /\ Y' = cfs y' /\ sop' = row :: sop).
      { change [cf y1; cf y2] with (cfs [y1; y2]) in H. destruct (0 <? length X)%nat; [|ub H row Er; injection H as <- <- <-; eauto].
        ub H j Ej. ub H x1 Ex1. destruct (negb (isreal x1)); [ub H row Er; injection H as <- <- <-; eauto|].
        destruct (0 <? length (delete X j))%nat; [|ub H row Er; injection H as <- <- <-; eauto].
        ub H j2 Ej2. ub H x2 Ex2. destruct (negb (isreal x2)); [discriminate H|]. ub H row Er; injection H as <- <- <-; eauto. }
      destruct G as (xx & row & Er & -> & ->). exists y', y1, [y1; y2], row. split; [reflexivity|]. split; [reflexivity|].
      split; [apply (lone_den xx); [cbn; lia | exact CC | exact Er]|]. split; [exact I1|]. split; [left; reflexivity|]. split; [exact Hm|]. split; [exact Sub'|].
      split; [intros p [<-|[<-|[]]]; right; [apply Ex, I1 | exact I2] | exact Od].
Qed.
Definition sub_exempt (E1 E2 : C -> Prop) : Prop := forall p, E1 p -> E2 p.
Lemma from_roots_in l p : In p l -> from_roots l p = RtoC 0.
Proof. unfold from_roots. induction l as [|v l IH]; intros []; cbn [map Cprodl]; [subst; ring|]. rewrite IH by assumption. ring. Qed.
Lemma from_roots_root l p : from_roots l p = RtoC 0 -> In p l.
Proof.
  unfold from_roots. induction l as [|v l IH]; cbn [map Cprodl]; intros H.
  - exfalso. apply (f_equal fst) in H. cbn in H. lra.
  - destruct (Ceq_dec p v) as [->|N]; [left; reflexivity|]. right. apply IH.
    assert (D : (p - v)%C <> RtoC 0) by (intros Z; apply N; rewrite <- (Cplus_0_l v), <- Z; ring).
    destruct (Ceq_dec (Cprodl (map (fun r => (p - r)%C) l)) (RtoC 0)) as [Z|Z]; [exact Z|]. exfalso. exact (Cmult_neq_0 _ _ D Z H).
Qed.
Lemma expand_margin ag y1 y p : (forall v, In v y -> margin ag y1 <= margin ag v) -> In p (expand y) -> margin ag y1 <= margin ag p.
Proof.
  intros H Hp. apply in_flat_map in Hp as (v & Hv & Hp). specialize (H v Hv). unfold expand1 in Hp.
  destruct (realb v); [destruct Hp as [<-|[]]; exact H|]. destruct Hp as [<-|[<-|[]]]; [exact H | rewrite margin_conj; exact H].
Qed.
Lemma expand_sub y y' p : (forall v, In v y' -> In v y) -> In p (expand y') -> In p (expand y).
Proof. intros H Hp. apply in_flat_map in Hp as (v & Hv & Hp). apply in_flat_map. exists v. split; [apply H, Hv | exact Hp]. Qed.
Lemma loop_worst ag pg cs : forall y X sop Y' X' R,
  foldM (@sop_step XR argsort ag pg) (cfs y, X, sop) cs = Ok (Y', X', R) ->
  exists out, R = out ++ sop /\ length out = length cs /\ forall rows, out = map fins rows ->
    (forall r p, In r rows -> den_at r p = RtoC 0 -> padded pg y p \/ In p (expand y)) /\ worst_last ag (padded pg y) rows.
Proof.
  induction cs as [|ci cs IH]; intros y X sop Y' X' R H.
  - cbn [foldM] in H. injection H as <- <- <-. exists []. split; [reflexivity|]. split; [reflexivity|]. intros [|r rows] E; [|discriminate].
    split; [intros r p []|]. intros [|? ?] r after E2; discriminate.
  - cbn [foldM] in H. ub H st Es. destruct st as [[Y1 X1] S1].
    destruct (step_pick _ _ _ _ _ _ _ _ _ Es) as (y' & y1 & ys & row & -> & -> & D & I1 & I1' & Hm & Sub & Hys & Od).
    destruct (IH _ _ _ _ _ _ H) as (out & -> & Hl & Hout). exists (out ++ [row]). split; [rewrite <- app_assoc; reflexivity|].
    split; [rewrite app_length; cbn [length]; rewrite Nat.add_1_r; f_equal; exact Hl|]. intros rows Er.
    destruct (exists_last (l := rows)) as (rows' & r0 & ->); [intros ->; destruct out; discriminate|].
    rewrite map_app in Er. apply app_inj_tail in Er as [Er0 Er1]. specialize (D r0 Er1). destruct (Hout rows' Er0) as [A B]. clear Hout.
    assert (A' : forall r p, In r (rows' ++ [r0]) -> den_at r p = RtoC 0 -> padded pg y p \/ In p (expand y)).
    { intros r p Hr Hp. apply in_app_iff in Hr as [Hr|[<-|[]]].
      - destruct (A r p Hr Hp) as [(P1 & P2 & P3)|P]; [left; repeat split; auto | right; apply (expand_sub y y'); assumption].
      - apply Hys, from_roots_root. rewrite <- D. exact Hp. }
    split; [exact A'|]. intros before r after E.
    destruct after as [|a after _] using rev_ind.
    + apply app_inj_tail in E as [<- <-]. exists y1. split; [rewrite D; apply from_roots_in; exact I1'|].
      intros r' p Hr' Hp. destruct (A' r' p Hr' Hp) as [P|P]; [left; exact P | right; apply (expand_margin ag y1 y); assumption].
    + rewrite app_comm_cons, app_assoc in E. apply app_inj_tail in E as [E _]. destruct (B before r after E) as (q & Hq & HB). exists q. split; [exact Hq|].
      intros r' p Hr' Hp. destruct (HB r' p Hr' Hp) as [(P1 & P2 & P3)|P]; [left; repeat split; auto | right; exact P].
Qed.
End Run.

Lemma xmul_fin (v : XR) k w : @nmul XR v (Fin k) = Fin w -> exists u, v = Fin u /\ w = u * k.
Proof. destruct v as [u|b|]; cbn; [intros [= <-]; eauto | |discriminate]. unfold xmul. cbn. repeat match goal with |- context [if ?c then _ else _] => destruct c end; discriminate. Qed.
Lemma scale_back k (row : list XR) r' : map (fun v => @nmul XR v (Fin k)) (firstn 3 row) ++ skipn 3 row = fins r' ->
  exists r, row = fins r /\ forall z, den_at r' z = den_at r z.
Proof.
  assert (T : forall l r, l = fins r -> exists r0, l = fins r0 /\ r0 = r) by (intros; eauto).
  destruct row as [|a [|b [|c row]]]; cbn [firstn skipn map app]; intros H.
  - destruct r'; [|discriminate]. exists []. split; reflexivity.
  - destruct r' as [|x [|]]; try discriminate. injection H as H. apply xmul_fin in H as (u & -> & _). exists [u]. split; reflexivity.
  - destruct r' as [|x [|y [|]]]; try discriminate. injection H as H1 H2. apply xmul_fin in H1 as (u & -> & _). apply xmul_fin in H2 as (v & -> & _). exists [u; v]. split; reflexivity.
  - destruct r' as [|x [|y [|w r']]]; try discriminate. injection H as H1 H2 H3 ->. apply xmul_fin in H1 as (u & -> & _). apply xmul_fin in H2 as (v & -> & _). apply xmul_fin in H3 as (t & -> & _).
    exists (u :: v :: t :: r'). split; [reflexivity|]. intros z. destruct r' as [|? [|? [|? [|]]]]; reflexivity.
Qed.
Lemma worst_last_head ag E r0 r1 rows : (forall z, den_at r0 z = den_at r1 z) -> worst_last ag E (r1 :: rows) -> worst_last ag E (r0 :: rows).
Proof.
  intros D H before r after Eq. destruct before as [|b0 before].
  - cbn in Eq. injection Eq as <- <-. destruct (H [] r1 rows eq_refl) as (q & Hq & HB). exists q. split; [rewrite D; exact Hq|].
    intros r' p [<-|[]] Hp. apply (HB r1); [left; reflexivity | rewrite <- D; exact Hp].
  - cbn in Eq. injection Eq as <- ->. destruct (H (r1 :: before) r after eq_refl) as (q & Hq & HB). exists q. split; [exact Hq|].
    intros r' p [<-|Hr'] Hp; [apply (HB r1); [left; reflexivity | rewrite <- D; exact Hp] | apply (HB r'); [right; exact Hr' | exact Hp]].
Qed.
Lemma worst_last_weaken ag (E1 E2 : C -> Prop) rows : (forall p, E1 p -> E2 p) -> worst_last ag E1 rows -> worst_last ag E2 rows.
Proof.
  intros HE H before r after Eq. destruct (H before r after Eq) as (q & Hq & HB). exists q. split; [exact Hq|].
  intros r' p Hr' Hp. destruct (HB r' p Hr' Hp) as [P|P]; [left; apply HE, P | right; exact P].
Qed.

Section Final.
Variable argsort : list XR -> list nat.
Lemma core_worst ag pg (X : list (XR * XR)) Y k n rows : conj_closed Y ->
  (let* xx := @cxr XR X in
    let x := fst xx ++ snd xx in
    let* yy := @cxr XR (cfs Y) in
    let y := fst yy ++ snd yy in
    let* st := foldM (@sop_step XR argsort ag pg) (y, x, []) (rev (zrange 0 (Z.of_nat n))) in
    let '(y, x, sop) := st in
    if negb ((length y =? length x)%nat && (length x =? 0)%nat) then Raise AssertionError
    else @scale_first XR (Fin k) sop) = Ok (map fins rows) ->
  worst_last ag (fun p => is_ml pg = false /\ p = RtoC 0 /\ Nat.Odd (length Y)) rows.
Proof.
  intros CY H. ub H xx Ex. ub H yy Ey. destruct (cxr_expand Y CY) as (yc & yr & EY & PY & _). rewrite EY in Ey. injection Ey as <-. cbn [fst snd] in H.
  ub H st Es. destruct st as [[Y' X'] S]. rewrite <- cfs_app in Es. destruct (loop_worst argsort _ _ _ _ _ _ _ _ _ Es) as (out & -> & _ & Hout). rewrite app_nil_r in H.
  destruct (negb _); [discriminate H|]. destruct out as [|row out]; [discriminate H|]. cbn [scale_first] in H. injection H as H.
  destruct rows as [|r0 rows]; [discriminate H|]. cbn [map] in H. injection H as H1 H2.
  destruct (scale_back k row r0 H1) as (r & -> & D). subst out. destruct (Hout (r :: rows) eq_refl) as [_ W].
  apply (worst_last_head ag _ r0 r rows D). apply (worst_last_weaken ag (padded pg (yc ++ yr))); [|exact W].
  intros p (P1 & P2 & [o P3]). split; [exact P1|]. split; [exact P2|]. pose proof (Permutation_length PY) as LY. rewrite map_length in LY. rewrite <- LY.
  pose proof (expand_count (yc ++ yr)) as EC. exists (length (yc ++ yr) - o - 1)%nat. lia.
Qed.
Lemma sop_worst (X : list (XR * XR)) (y : list C) k pgs ag rows : conj_closed y -> X <> [] \/ y <> [] ->
  @xyz_to_sop XR argsort X (cfs y) (Fin k) pgs ag = Ok (map fins rows) ->
  worst_last ag (fun p => p = RtoC 0 /\ pgs = Some "kd"%string /\ Nat.Odd (Nat.max (length X) (length y))) rows.
Proof.
  intros CY Hne H. unfold xyz_to_sop in H. ub H pg Epg.
  assert (Ekd : pg = PKd -> pgs = Some "kd"%string).
  { intros ->. destruct pgs as [s|]; [|destruct ag; discriminate Epg]. destruct (String.eqb s "nr"); [discriminate Epg|]. destruct (String.eqb_spec s "kd"); [congruence|]. destruct (String.eqb s "ml"); discriminate Epg. }
  clear Epg. destruct (ag && negb (is_ml pg)); [discriminate H|]. rewrite cfs_length in H.
  assert (E0 : ((length X =? 0)%nat && (length y =? 0)%nat) = false) by (destruct X, y; try reflexivity; destruct Hne as [Z|Z]; exfalso; apply Z; reflexivity).
  rewrite E0 in H. ub H pre Epre. destruct pre as [[y' x'] n].
  assert (G : exists m, y' = cfs (y ++ repeat (RtoC 0) m) /\ (pg = PMl \/ Nat.Even (length y + m) \/ (pg = PKd /\ (length y + m = Nat.max (length X) (length y))%nat))).
  { destruct (is_ml pg) eqn:M; cbn [negb] in Epre.
    - destruct (length y <? length X)%nat; [discriminate Epre|]. injection Epre as <- <- <-. exists 0%nat. cbn [repeat]. rewrite app_nil_r. split; [reflexivity|]. left. destruct pg; try discriminate M. reflexivity.
    - rewrite !cfs_zeros in Epre. rewrite !cfs_length, !app_length, !repeat_length in Epre.
      destruct (_ && _) eqn:EP in Epre.
      + rewrite cfs_zero1 in Epre. destruct (negb _) in Epre; [discriminate Epre|]. injection Epre as <- <- <-. exists (S (length X - length y)). split; [reflexivity|]. right. left.
        apply andb_prop in EP as [EO _]. apply Nat.eqb_eq in EO. pose proof (Nat.div_mod (length y + (length X - length y)) 2 ltac:(lia)). exists (S ((length y + (length X - length y)) / 2)). lia.
      + destruct (negb _) in Epre; [discriminate Epre|]. injection Epre as <- <- <-. exists (length X - length y)%nat. split; [reflexivity|].
        destruct pg; [right; left | right; right; split; [reflexivity | lia] | discriminate M].
        rewrite andb_true_r in EP. apply Nat.eqb_neq in EP. pose proof (Nat.div_mod (length y + (length X - length y)) 2 ltac:(lia)). pose proof (Nat.mod_upper_bound (length y + (length X - length y)) 2 ltac:(lia)).
        exists ((length y + (length X - length y)) / 2)%nat. lia. }
  destruct G as (m & -> & G). apply core_worst in H; [|apply conj_closed_zeros; exact CY].
  eapply worst_last_weaken; [|exact H].
  intros p (P1 & P2 & P3). rewrite app_length, repeat_length in P3. split; [exact P2|].
  destruct G as [->|[G|[-> G]]]; [discriminate P1 | exfalso; exact (Nat.Even_Odd_False _ G P3) |]. split; [apply Ekd; reflexivity|]. rewrite <- G. exact P3.
Qed.
Lemma butter_worst b n s o' ag rows : (0 < n)%nat -> (if ag : bool then band_ok b else digital_ok b) -> lower s = band_name b ->
  lower o' = "sop"%string ->
  butterworth argsort (Fin (INR n)) (fins (band_freqs b)) s ag o' (@SrNone XR) = Ok (Sop (map fins rows)) ->
  worst_last ag (fun _ => False) rows.
Proof.
  intros Hn Hb Hs Ho' E. assert (HO : (0 < band_order b n)%nat) by (destruct b; cbn; lia).
  assert (G : exists zs ps k, conj_closed ps /\ ps <> [] /\ @xyz_to_sop XR argsort (cfs zs) (cfs ps) (Fin k) None ag = Ok (map fins rows)).
  { assert (HX : is_sop (butterworth argsort (Fin (INR n)) (fins (band_freqs b)) s ag o' (@SrNone XR)) = Ok (map fins rows)) by (rewrite E; reflexivity).
    destruct ag.
    - rewrite butterworth_analog in HX by (try easy; unfold good_output; rewrite Ho'; cbn; tauto). rewrite finish_sop in HX by easy. cbn [fst snd] in HX.
      destruct (adesign_lengths b n) as [L1 L2]. destruct (adesign_conj b n) as [C1 C2].
      eexists _, _, _. split; [|split; [|exact HX]]; [assumption | intros Z; rewrite Z in *; cbn in *; lia].
    - rewrite butterworth_digital in HX by (try easy; unfold good_output; rewrite Ho'; cbn; tauto). rewrite finish_sop in HX by easy. cbn [fst snd] in HX.
      pose proof (ddesign_same_length b n) as HL. destruct (ddesign_conj b n) as [C1 C2]. destruct (ddesign_lengths b n) as [L1 L2].
      eexists _, _, _. split; [|split; [|exact HX]]; [assumption | intros Z; rewrite Z in *; cbn in *; lia]. }
  destruct G as (zs & ps & k & CP & NE & EX). eapply worst_last_weaken; [|exact (sop_worst (cfs zs) ps k None ag rows CP (or_intror NE) EX)].
  intros p (_ & Z & _). discriminate Z.
Qed.
End Final.

(** ** Letter case *)
Lemma lower_same a b : same_char a b -> lower_ascii a = lower_ascii b.
Proof.
  assert (P : forall p, In p case_pairs -> lower_ascii (fst p) = lower_ascii (snd p)).
  { apply Forall_forall. vm_compute. repeat constructor. }
  intros [->|[H|H]]; [reflexivity | exact (P _ H) | symmetry; exact (P _ H)].
Qed.
Lemma lower_text s : forall s', same_text s s' -> lower s = lower s'.
Proof.
  induction s as [|a s IH]; intros [|b s'] H; cbn in *; try reflexivity; try destruct H as [].
  rewrite (lower_same a b) by assumption. f_equal. apply IH. assumption.
Qed.
Lemma butter_case (N : Num) argsort (q : N) w s s' ag o o' sr : same_text s s' -> same_text o o' ->
  butterworth argsort q w s ag o sr = butterworth argsort q w s' ag o' sr.
Proof. intros H1 H2. unfold butterworth. rewrite (lower_text s s' H1), (lower_text o o' H2). reflexivity. Qed.
