(** Means of integer arrays: the int64 sum. *)
From Coq Require Import Reals Lra Lia Permutation.
From Flocq Require Import Core Relative IEEE754.BinarySingleNaN.
From Verif Require Import Num Lib LibR XR F64 F64ex Spec Spec6 Spec9 M_arrays P_arrays P_float P_float2.
Import ListNotations.
Local Open Scope R_scope.

Local Existing Instance F64.prec_gt_0_53.
Local Existing Instance F64.prec_lt_emax_53.

Lemma fold_zsum l a : fold_left Z.add l a = (a + zsum l)%Z.
Proof. revert a. induction l as [|x l IH]; intros a; cbn [fold_left zsum fold_right]; [lia|]. rewrite IH. unfold zsum. lia. Qed.
Lemma wrap_id z : (- 2 ^ 63 <= z < 2 ^ 63)%Z -> wrap64 z = z.
Proof. intros H. unfold wrap64. rewrite Z.mod_small; lia. Qed.

Lemma ofZ_big n : (Z.abs n <= 2 ^ 63)%Z -> is_finite (f64_ofZ n) = true /\ B2R (f64_ofZ n) = rnd (IZR n).
Proof.
  intros H. pose proof (binary_normalize_correct 53 1024 _ _ mode_NE n 0 false) as C. cbn [round_mode] in C.
  change (SpecFloat.fexp 53 1024) with fexp64 in C. assert (E : F2R (Float radix2 n 0) = IZR n) by (unfold F2R; cbn; ring). rewrite E in C.
  rewrite Rlt_bool_true in C.
  - destruct C as (E1 & E2 & _). split; [exact E2 | exact E1].
  - apply rnd_lt_max with 63%Z; [lia|]. rewrite <- abs_IZR. change (pow2 63) with (IZR (2 ^ 63)). apply IZR_le. exact H.
Qed.
Lemma ofZ_sign n : (Z.abs n <= 2 ^ 53)%Z -> Bsign (f64_ofZ n) = (n <? 0)%Z.
Proof.
  intros H. pose proof (binary_normalize_correct 53 1024 _ _ mode_NE n 0 false) as C. cbn [round_mode] in C.
  change (SpecFloat.fexp 53 1024) with fexp64 in C. assert (E : F2R (Float radix2 n 0) = IZR n) by (unfold F2R; cbn; ring). rewrite E in C.
  rewrite rnd_gen in C by (apply gen_IZR; exact H). rewrite Rlt_bool_true in C.
  - destruct C as (_ & _ & S). unfold f64_ofZ. rewrite S. destruct (Rcompare_spec (IZR n) 0) as [L|L|L].
    + symmetry. apply Z.ltb_lt. apply lt_IZR. exact L.
    + symmetry. apply Z.ltb_ge. apply le_IZR. lra.
    + symmetry. apply Z.ltb_ge. apply le_IZR. lra.
  - apply Rle_lt_trans with (pow2 53); [|apply bpow_lt; lia]. rewrite <- abs_IZR. change (pow2 53) with (IZR (2 ^ 53)). apply IZR_le. exact H.
Qed.
Lemma ofZ_add a b : (Z.abs a <= 2 ^ 53)%Z -> (Z.abs b <= 2 ^ 53)%Z -> (Z.abs (a + b) <= 2 ^ 53)%Z ->
  Bplus mode_NE (f64_ofZ a) (f64_ofZ b) = f64_ofZ (a + b).
Proof.
  intros Ha Hb Hab. destruct (ofZ_fl a Ha) as [Fa Ra]. destruct (ofZ_fl b Hb) as [Fb Rb]. destruct (ofZ_fl (a + b) Hab) as [Fc Rc].
  pose proof (Bplus_correct 53 1024 _ _ mode_NE _ _ Fa Fb) as C. cbn [round_mode] in C. change (SpecFloat.fexp 53 1024) with fexp64 in C.
  rewrite Ra, Rb, <- plus_IZR in C. rewrite rnd_gen in C by (apply gen_IZR; exact Hab). rewrite Rlt_bool_true in C.
  - destruct C as (E & F & S). apply B2R_Bsign_inj; [exact F | exact Fc | rewrite E, Rc; reflexivity |]. rewrite S, (ofZ_sign (a + b) Hab).
    destruct (Rcompare_spec (IZR (a + b)) 0) as [L|L|L].
    + symmetry. apply Z.ltb_lt. apply lt_IZR. exact L.
    + rewrite !ofZ_sign by assumption. apply eq_IZR in L. destruct (Z.ltb_spec a 0), (Z.ltb_spec b 0), (Z.ltb_spec (a + b) 0); cbn; lia || reflexivity.
    + symmetry. apply Z.ltb_ge. apply le_IZR. lra.
  - apply Rle_lt_trans with (pow2 53); [|apply bpow_lt; lia]. rewrite <- abs_IZR. change (pow2 53) with (IZR (2 ^ 53)). apply IZR_le. exact Hab.
Qed.

Lemma zsum_app a b : zsum (a ++ b) = (zsum a + zsum b)%Z.
Proof. induction a as [|x a IH]; cbn [app zsum fold_right]; [reflexivity|]. fold (zsum (a ++ b)). fold (zsum a). rewrite IH. lia. Qed.
Lemma zsum_perm a b : Permutation a b -> zsum a = zsum b.
Proof. induction 1; cbn [zsum fold_right] in *; unfold zsum in *; lia. Qed.
Lemma zsum_abs l : (Z.abs (zsum l) <= zsum (map Z.abs l))%Z.
Proof. induction l as [|x l IH]; cbn [map zsum fold_right]; [lia|]. fold (zsum l). fold (zsum (map Z.abs l)). lia. Qed.

Lemma ts_ints l s : tree_sum l s -> forall zs, l = map f64_ofZ zs -> (zsum (map Z.abs zs) <= 2 ^ 53)%Z -> s = f64_ofZ (zsum zs).
Proof.
  induction 1 as [x|x|l1 l2 l s1 s2 H1 IH1 H2 IH2 P]; intros zs E B.
  - destruct zs as [|z [|]]; try discriminate. injection E as ->. cbn [zsum fold_right]. rewrite Z.add_0_r. reflexivity.
  - destruct zs as [|z [|]]; try discriminate. injection E as ->. cbn [zsum fold_right map] in *. rewrite Z.add_0_r. rewrite ofZ_add; [reflexivity|lia|lia|lia].
  - subst l. destruct (Permutation_map_inv _ _ (Permutation_sym P)) as (ys & Ey & Py). symmetry in Ey. apply map_eq_app in Ey.
    destruct Ey as (y1 & y2 & -> & E1 & E2). pose proof (zsum_perm _ _ (Permutation_map Z.abs Py)) as PA. rewrite map_app, zsum_app in PA.
    assert (G : forall l, (0 <= zsum (map Z.abs l))%Z) by (intros k; pose proof (zsum_abs k); lia).
    pose proof (G y1). pose proof (G y2). rewrite (IH1 y1 (eq_sym E1)) by lia. rewrite (IH2 y2 (eq_sym E2)) by lia.
    pose proof (zsum_abs y1). pose proof (zsum_abs y2). rewrite ofZ_add by lia. rewrite <- zsum_app. f_equal. symmetry. apply zsum_perm. exact Py.
Qed.

Theorem int_mean_same (L : Libm) (parse : string -> option (F64 L)) (zs : list Z) : sums_somehow L -> zs <> [] -> (zsum (map Z.abs zs) <= 2 ^ 53)%Z ->
  exists m : F64 L, @int_mean (F64 L) zs = Ok (MVal m) /\ desc_mean parse (ASeq (map PyInt zs)) = Ok (MVal m).
Proof.
  intros HL Hz HB. pose proof (zsum_abs zs) as HA. destruct zs as [|z zs]; [congruence|]. set (l := z :: zs) in *.
  assert (E : mapM (@to_num (F64 L)) (map (@PyInt (F64 L)) l) = Ok (map f64_ofZ l)).
  { clear. induction l as [|x l IH]; [reflexivity|]. cbn [map mapM to_num bind]. rewrite IH. reflexivity. }
  assert (F : existsb (@is_str (F64 L)) (map (@PyInt (F64 L)) l) = false) by (clear; induction l; [reflexivity|assumption]).
  exists (@ndiv (F64 L) (f64_ofZ (zsum l)) (f64_ofZ (zlen l))). split.
  - unfold int_mean. subst l. cbv iota. rewrite fold_zsum, Z.add_0_l, wrap_id by lia. reflexivity.
  - rewrite (mean_seq (F64 L) parse _ _ F) by (first [exact E | subst l; discriminate]). do 3 f_equal.
    + apply (ts_ints (map f64_ofZ l)); [apply HL; subst l; discriminate | reflexivity | exact HB].
    + rewrite zlen_map. reflexivity.
Qed.

Theorem int_mean_accurate (L : Libm) (zs : list Z) : zs <> [] -> (zlen zs <= 2 ^ 53)%Z -> (- 2 ^ 63 <= zsum zs < 2 ^ 63)%Z ->
  exists m : F64 L, @int_mean (F64 L) zs = Ok (MVal m) /\ is_finite m = true /\
    let exact := IZR (zsum zs) / IZR (zlen zs) in Rabs (B2R m - exact) <= bpow radix2 (-51) * Rabs exact.
Proof.
  intros Hz HL HS. assert (Hn : (1 <= zlen zs)%Z) by (destruct zs; [congruence|unfold zlen; cbn [length]; lia]).
  exists (Bdiv mode_NE (f64_ofZ (zsum zs)) (f64_ofZ (zlen zs))). split.
  { unfold int_mean. destruct zs as [|z zs]; [congruence|]. rewrite fold_zsum, Z.add_0_l, wrap_id by lia. reflexivity. }
  destruct (ofZ_big (zsum zs)) as [F1 R1]; [lia|]. destruct (ofZ_fl (zlen zs)) as [F2 R2]; [lia|].
  assert (Hn' : 1 <= IZR (zlen zs)) by (apply IZR_le in Hn; exact Hn). set (n := IZR (zlen zs)) in *. set (s := IZR (zsum zs)) in *.
  assert (Hs : Rabs s <= pow2 63) by (subst s; rewrite <- abs_IZR; change (pow2 63) with (IZR (2 ^ 63)); apply IZR_le; lia).
  assert (Hr : Rabs (rnd s) <= pow2 63) by (apply rnd_abs_le; [lia|exact Hs]).
  assert (Hq : Rabs (rnd s / n) <= pow2 63).
  { unfold Rdiv. rewrite Rabs_mult, Rabs_inv, (Rabs_right n) by lra. apply Rle_trans with (Rabs (rnd s) * 1); [|lra].
    apply Rmult_le_compat_l; [apply Rabs_pos|]. rewrite <- Rinv_1. apply Rinv_le; lra. }
  destruct (div_fl (f64_ofZ (zsum zs)) (f64_ofZ (zlen zs)) F1) as [FD RD].
  { rewrite R2. lra. } { rewrite R1, R2. apply rnd_lt_max with 63%Z; [lia|exact Hq]. }
  split; [exact FD|]. cbv zeta. rewrite RD, R1, R2.
  assert (H53 : 0 < pow2 (-53) < / 9000000000000000) by exact pow2_53.
  assert (E51 : bpow radix2 (-51) = 4 * pow2 (-53)) by (change 4 with (pow2 2); rewrite <- bpow_plus; reflexivity).
  destruct (Z.eq_dec (zsum zs) 0) as [E0|E0].
  { assert (Es : s = 0) by (subst s; rewrite E0; reflexivity). rewrite Es. replace (rnd 0) with 0 by (symmetry; apply round_0; typeclasses eauto).
    replace (0 / n) with 0 by (field; lra). replace (rnd 0) with 0 by (symmetry; apply round_0; typeclasses eauto). rewrite Rminus_0_r, Rabs_R0. lra. }
  assert (Hs1 : 1 <= Rabs s) by (subst s; rewrite <- abs_IZR; apply (IZR_le 1); lia).
  assert (P20 : pow2 (-20) <= 1) by (change 1 with (pow2 0); apply bpow_le; lia).
  assert (Er : Rabs (rnd s - s) <= pow2 (-53) * Rabs s) by (apply rnd_rel_big; lra).
  assert (Hr1 : 1 <= Rabs (rnd s)).
  { destruct (Rcase_abs s) as [N|P].
    - rewrite Rabs_left in Hs1 by exact N. assert (rnd s <= -1); [|rewrite Rabs_left; lra].
      replace (-1) with (- rnd 1); [rewrite <- rnd_opp; apply rnd_mono; lra | rewrite rnd_gen; [lra|apply (gen_IZR 1); lia]].
    - rewrite Rabs_right in Hs1 by exact P. assert (1 <= rnd s); [|rewrite Rabs_right; lra].
      rewrite <- (rnd_gen 1) by (apply (gen_IZR 1); lia). apply rnd_mono. exact Hs1. }
  assert (Hn53 : n <= pow2 53) by (change (pow2 53) with (IZR (2 ^ 53)); apply IZR_le; exact HL).
  assert (Aq : Rabs (rnd s / n) = Rabs (rnd s) / n) by (unfold Rdiv; rewrite Rabs_mult, Rabs_inv, (Rabs_right n) by lra; reflexivity).
  assert (As : Rabs (s / n) = Rabs s / n) by (unfold Rdiv; rewrite Rabs_mult, Rabs_inv, (Rabs_right n) by lra; reflexivity).
  assert (Eq : Rabs (rnd (rnd s / n) - rnd s / n) <= pow2 (-53) * Rabs (rnd s / n)).
  { apply rnd_rel. rewrite Aq. apply Rle_trans with (pow2 (-53)); [apply bpow_le; lia|]. replace (pow2 (-53)) with (/ pow2 53) by (symmetry; exact (bpow_opp radix2 53)).
    apply Rle_trans with (1 * / n); [rewrite Rmult_1_l; apply Rinv_le; [lra|exact Hn53]|]. apply Rmult_le_compat_r; [|exact Hr1]. left. apply Rinv_0_lt_compat. lra. }
  assert (Ed : Rabs (rnd s / n - s / n) <= pow2 (-53) * Rabs (s / n)).
  { replace (rnd s / n - s / n) with ((rnd s - s) / n) by (field; lra). unfold Rdiv at 1. rewrite Rabs_mult, Rabs_inv, (Rabs_right n), As by lra.
    unfold Rdiv. rewrite <- Rmult_assoc. apply Rmult_le_compat_r; [left; apply Rinv_0_lt_compat; lra | exact Er]. }
  assert (Et : Rabs (rnd s / n) <= 2 * Rabs (s / n)).
  { apply Rle_trans with (Rabs (rnd s / n - s / n) + Rabs (s / n)).
    - replace (rnd s / n) with ((rnd s / n - s / n) + s / n) at 1 by ring. apply Rabs_triang.
    - pose proof (Rabs_pos (s / n)) as P. assert (pow2 (-53) * Rabs (s / n) <= 1 * Rabs (s / n)) by (apply Rmult_le_compat_r; lra). lra. }
  replace (rnd (rnd s / n) - s / n) with ((rnd (rnd s / n) - rnd s / n) + (rnd s / n - s / n)) by ring.
  eapply Rle_trans; [apply Rabs_triang|]. rewrite E51.
  assert (pow2 (-53) * Rabs (rnd s / n) <= pow2 (-53) * (2 * Rabs (s / n))) by (apply Rmult_le_compat_l; lra).
  pose proof (Rabs_pos (s / n)). assert (0 <= pow2 (-53) * Rabs (s / n)) by (apply Rmult_le_pos; lra). lra.
Qed.
Theorem int_mean_bound (l : list Z) B : (forall z, In z l -> (Z.abs z <= B)%Z) -> (zlen l * B < 2 ^ 63)%Z -> (- 2 ^ 63 <= zsum l < 2 ^ 63)%Z.
Proof.
  intros H HB. assert (G : (Z.abs (zsum l) <= zlen l * B)%Z); [|lia]. clear HB. induction l as [|x l IH]; [cbn; lia|].
  replace (zlen (x :: l)) with (zlen l + 1)%Z by (unfold zlen; cbn [length]; lia). cbn [zsum fold_right]. fold (zsum l).
  pose proof (H x (or_introl eq_refl)). pose proof (IH (fun z Hz => H z (or_intror Hz))). lia.
Qed.
Theorem int_mean_refuted (L : Libm) : exists zs (m : F64 L), (forall z, In z zs -> (0 < z < 2 ^ 63)%Z) /\ @int_mean (F64 L) zs = Ok (MVal m) /\ B2R (m : f64) = - IZR (2 ^ 62).
Proof.
  exists [2 ^ 62; 2 ^ 62]%Z. eexists. split; [|split; [reflexivity|]].
  - intros z [<-|[<-|[]]]; lia.
  - transitivity (B2R (Bdiv mode_NE (f64_ofZ (- 2 ^ 63)) (f64_ofZ 2))); [reflexivity|].
    assert (E : B2R (f64_ofZ (- 2 ^ 63)) = IZR (- 2 ^ 63)).
    { destruct (ofZ_big (- 2 ^ 63)) as [_ ->]; [lia|]. rewrite opp_IZR, rnd_opp. change (IZR (2 ^ 63)) with (pow2 63). rewrite rnd_pow2 by lia. reflexivity. }
    destruct (ofZ_big (- 2 ^ 63)) as [F1 _]; [lia|]. destruct (ofZ_fl 2) as [F2 R2]; [lia|].
    assert (Q : IZR (- 2 ^ 63) / 2 = - pow2 62) by (change (pow2 62) with (IZR (2 ^ 62)); rewrite opp_IZR; change (2 ^ 63)%Z with (2 * 2 ^ 62)%Z; rewrite mult_IZR; field).
    destruct (div_fl _ _ F1 ltac:(rewrite R2; lra) ltac:(rewrite E, R2, Q; apply rnd_lt_max with 62%Z; [lia|rewrite Rabs_Ropp, Rabs_right; [lra|apply Rle_ge, bpow_ge_0]])) as [_ ->].
    rewrite E, R2, Q, rnd_opp, rnd_pow2 by lia. reflexivity.
Qed.
