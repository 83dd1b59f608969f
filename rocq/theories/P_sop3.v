(** Sections of whole filters, and where the grouping fails (C63). *)
From Coq Require Import Reals Lra Psatz Permutation.
From Coquelicot Require Import Complex.
From Flocq Require Import Core.Raux.
From Verif Require Import Num NpBase Lib XR M_butter Spec3 P_cx P_butter P_buttap P_design P_bwfun P_poly P_cxr P_sop P_sop2.
Local Open Scope R_scope.

Lemma section_quot r z : length r = 6%nat -> section_at r z = (num_at r z / den_at r z)%C.
Proof. destruct r as [|b0 [|b1 [|b2 [|a0 [|a1 [|a2 [|]]]]]]]; try discriminate. reflexivity. Qed.

Lemma sections_quot rows z : (forall r, In r rows -> length r = 6%nat) -> dens_at rows z <> RtoC 0 ->
  sections_at rows z = (nums_at rows z / dens_at rows z)%C.
Proof.
  unfold sections_at, nums_at, dens_at. induction rows as [|r rows IH]; intros H6 HD; cbn [map Cprodl] in *.
  - apply C_eq; cbn; field.
  - assert (D1 : den_at r z <> RtoC 0) by (intros E; apply HD; rewrite E; ring).
    assert (D2 : Cprodl (map (fun r => den_at r z) rows) <> RtoC 0) by (intros E; apply HD; rewrite E; ring).
    rewrite IH by (try easy; intros; apply H6; now right). rewrite section_quot by (apply H6; now left).
    field. easy.
Qed.

(** The sections as one rational function. *)
Definition sop_tf (n : nat) (k : R) (x y : list C) (ok : C -> Prop) (r : res (list (list XR))) : Prop :=
  exists rows, r = Ok (map fins rows) /\ length rows = n /\ (forall r, In r rows -> length r = 6%nat) /\
    forall z, ~ In z y -> ok z -> sections_at rows z = tf x y k z.

Lemma sop_result_tf n k x y e (ok : C -> Prop) r : (forall z, ok z -> e = 0%nat \/ z <> RtoC 0) ->
  sop_result n k x y e e r -> sop_tf n k x y ok r.
Proof.
  intros Hok (rows & E & L & L6 & NN & DD). exists rows. split; [easy|]. split; [easy|]. split; [easy|].
  intros z Hz Oz.
  assert (HF : from_roots y z <> RtoC 0) by now apply from_roots_nz.
  assert (HP : Cpown z e <> RtoC 0).
  { destruct (Hok z Oz) as [-> |H]; [cbn; apply C1_nz|now apply Cpown_nz]. }
  rewrite sections_quot; [|easy|rewrite DD; now apply Cmult_neq_0].
  rewrite NN, DD. unfold tf. field. easy.
Qed.

Definition every (z : C) : Prop := True.
Definition nonzero (z : C) : Prop := z <> RtoC 0.

Section A.
Variable argsort : list XR -> list nat.
Hypothesis Hsort : is_argsort argsort.

Lemma sop_digital_tf x y k : conj_closed x -> conj_closed y -> real_or_apart x -> real_or_apart y ->
  length x = length y -> y <> [] ->
  sop_tf (Nat.div (length y + 1) 2) k x y nonzero (@xyz_to_sop XR argsort (cfs x) (cfs y) (Fin k) None false).
Proof.
  intros CX CY SX SY HL Hy.
  pose proof (sop_nrkd argsort Hsort x y k PNr None CX CY (or_introl (conj eq_refl (or_introl eq_refl)))
                (or_intror Hy)) as H. cbv zeta in H.
  rewrite HL, Nat.max_id, (snap_apart x SX), (snap_apart y SY) in H.
  eapply sop_result_tf; [|exact H]. intros z Hz. now right.
Qed.

Lemma sop_analog_tf x y k : conj_closed x -> conj_closed y -> real_or_apart x -> real_or_apart y ->
  (length x <= length y)%nat -> y <> [] ->
  (Nat.Even (length y) /\ Nat.Even (length x)) \/ reals x ->
  sop_tf (Nat.div (length y + 1) 2) k x y every (@xyz_to_sop XR argsort (cfs x) (cfs y) (Fin k) None true).
Proof.
  intros CX CY SX SY HL Hy HE.
  pose proof (sop_ml argsort Hsort x y k None true CX CY (or_intror (conj eq_refl eq_refl)) HL Hy) as H.
  rewrite (snap_apart x SX), (snap_apart y SY) in H.
  eapply sop_result_tf; [|exact (H (match HE with or_introl a => or_introl a | or_intror b => or_intror (or_introl b) end))]. intros z _. now left.
Qed.

Lemma cfs_inj a b : cfs a = cfs b -> a = b.
Proof.
  intros H. apply (f_equal (map uncf)) in H. unfold cfs in H. rewrite !map_map in H.
  rewrite (map_ext _ _ uncf_cf), (map_ext _ _ uncf_cf) in H. now rewrite !map_id in H.
Qed.
Lemma zps_inj a b k a' b' k' :
  @Ok (design XR) (Zps (cfs a, cfs b, Fin k)) = Ok (Zps (cfs a', cfs b', Fin k')) -> a = a' /\ b = b' /\ k = k'.
Proof.
  intros H. injection H as H1 H2 H3. repeat split; [now apply cfs_inj|now apply cfs_inj|easy].
Qed.

Definition is_sop (r : res (design XR)) : res (list (list XR)) :=
  match r with Ok (Sop s) => Ok s | Ok _ => Raise TypeError | Raise e => Raise e end.

Lemma finish_sop o ag f : lower o = "sop"%string ->
  is_sop (finish argsort o ag f) = @xyz_to_sop XR argsort (fst (fst f)) (snd (fst f)) (snd f) None ag.
Proof.
  intros H. unfold finish. rewrite H. destruct f as [[z p] k].
  cbn [String.eqb Ascii.eqb Bool.eqb fst snd]. destruct (xyz_to_sop _ _ _ _ _ _); reflexivity.
Qed.

Lemma even_double n : Nat.Even (2 * n). Proof. now exists n. Qed.

Lemma butter_sop_analog b n s o o' zs ps k : (0 < n)%nat -> band_ok b -> lower s = band_name b ->
  lower o = "zps"%string -> lower o' = "sop"%string ->
  butterworth argsort (Fin (INR n)) (fins (band_freqs b)) s true o (@SrNone XR) = Ok (Zps (cfs zs, cfs ps, Fin k)) ->
  real_or_apart zs -> real_or_apart ps ->
  sop_tf (Nat.div (band_order b n + 1) 2) k zs ps every
    (is_sop (butterworth argsort (Fin (INR n)) (fins (band_freqs b)) s true o' (@SrNone XR))).
Proof.
  intros Hn Hb Hs Ho Ho' E Az Ap.
  rewrite (butter_zps_analog argsort b n Hb s o Hs Ho) in E. apply zps_inj in E as (E1 & E2 & E3).
  rewrite butterworth_analog by (try easy; unfold good_output; rewrite Ho'; cbn; tauto).
  rewrite finish_sop by easy. cbn [fst snd]. rewrite E1, E2, E3.
  destruct (adesign_lengths b n) as [L1 L2]. destruct (adesign_conj b n) as [C1 C2].
  rewrite E1 in *. rewrite E2 in *. rewrite <- L1.
  assert (HO : (0 < band_order b n)%nat) by (destruct b; cbn; lia).
  apply sop_analog_tf; auto; try lia.
  - intros Z. rewrite Z in L1. cbn in L1. lia.
  - rewrite L1, <- E1. pose proof (proto_length n) as HL. destruct b as [w|w|w1 w2|w1 w2];
      cbn [adesign fst snd map split_roots app].
    + right. intros v [].
    + right. intros v Hv. apply repeat_spec in Hv. now subst.
    + right. intros v Hv. apply repeat_spec in Hv. now subst.
    + left. split; [apply even_double|]. rewrite app_length, !repeat_length, HL. exists (n - 0)%nat. lia.
Qed.

Lemma ddesign_same_length b n : length (fst (fst (ddesign b n))) = length (snd (fst (ddesign b n))).
Proof.
  cbn [ddesign fst snd]. rewrite app_length, !map_length, repeat_length.
  destruct (adesign_lengths (band_map warp b) n). lia.
Qed.

Lemma butter_sop_digital b n s o o' zs ps k : (0 < n)%nat -> digital_ok b -> lower s = band_name b ->
  lower o = "zps"%string -> lower o' = "sop"%string ->
  butterworth argsort (Fin (INR n)) (fins (band_freqs b)) s false o (@SrNone XR) = Ok (Zps (cfs zs, cfs ps, Fin k)) ->
  real_or_apart zs -> real_or_apart ps ->
  sop_tf (Nat.div (band_order b n + 1) 2) k zs ps nonzero
    (is_sop (butterworth argsort (Fin (INR n)) (fins (band_freqs b)) s false o' (@SrNone XR))).
Proof.
  intros Hn Hb Hs Ho Ho' E Az Ap.
  rewrite (butter_zps_digital argsort b n Hb s o Hs Ho) in E. apply zps_inj in E as (E1 & E2 & E3).
  rewrite butterworth_digital by (try easy; unfold good_output; rewrite Ho'; cbn; tauto).
  rewrite finish_sop by easy. cbn [fst snd]. rewrite E1, E2, E3.
  pose proof (ddesign_same_length b n) as HL. destruct (ddesign_conj b n) as [C1 C2].
  pose proof (ddesign_lengths b n) as [L1 L2].
  rewrite E1 in *. rewrite E2 in *.
  assert (HO : (0 < band_order b n)%nat) by (destruct b; cbn; lia).
  assert (LP' : length ps = band_order b n) by lia.
  rewrite <- LP'. apply sop_digital_tf; auto.
  intros Z. rewrite Z in LP'. cbn in LP'. lia.
Qed.

(** Near-real pairs are flattened. *)
Lemma flattened e k : 0 < e <= 100 / 2 ^ 52 ->
  exists rows, @xyz_to_sop XR argsort (cfs []) (cfs [(1, e); (1, - e)]) (Fin k) None false = Ok (map fins rows) /\
    forall z, dens_at rows z = ((z - 1) * (z - 1))%C /\ dens_at rows z <> from_roots [(1, e); (1, - e)] z.
Proof.
  intros He. set (y := [(1, e); (1, - e)] : list C).
  assert (CY : conj_closed y) by (apply (conj_closed_pair (1, e))).
  assert (NE : y <> []) by discriminate.
  destruct (sop_nrkd argsort Hsort [] y k PNr None ltac:(constructor) CY (or_introl (conj eq_refl (or_introl eq_refl)))
                (or_intror NE)) as (rows & E & L & _ & _ & DD).
  exists rows. split; [exact E|]. intros z.
  assert (S1 : map snap y = [RtoC 1; RtoC 1]).
  { assert (HS : forall d, Rabs d = e -> snap (1, d) = RtoC 1).
    { intros d Hd. unfold snap. destruct (Rle_dec _ _) as [H|H]; [reflexivity|]. exfalso. apply H.
      cbn [fst snd]. rewrite Hd. pose proof (Cmod_ge_fst (1, d)) as M. cbn [fst] in M. rewrite Rabs_R1 in M.
      pose proof tol_pos. nra. }
    unfold y. cbn [map]. rewrite !HS; [easy| |]; rewrite ?Rabs_Ropp; apply Rabs_pos_eq; lra. }
  assert (ED : dens_at rows z = ((z - 1) * (z - 1))%C).
  { rewrite DD, S1. unfold from_roots, y. cbn. ring. }
  split; [exact ED|]. rewrite ED. unfold from_roots, y. cbn [map Cprodl]. destruct z as [a b]. intros H.
  apply (f_equal fst) in H. cbn in H. nra.
Qed.
End A.
