(** Lemmas: the rotation angle of the spherical phase-space detector. *)
From Coq Require Import Reals Lra.
From Flocq Require Import Core.Raux.
From Verif Require Export P_sph P_units Spec21.
Local Open Scope R_scope.

Lemma rgradient_length c : length (rgradient c) = length c.
Proof. unfold rgradient. rewrite map_length, seq_length. reflexivity. Qed.
Lemma rgradient_nth c i : (i < length c)%nat -> nth i (rgradient c) 0 = rgrad c i.
Proof.
  intros Hi. unfold rgradient. rewrite (nth_indep _ 0 (rgrad c 0)) by (rewrite map_length, seq_length; exact Hi).
  rewrite map_nth, seq_nth by exact Hi. reflexivity.
Qed.
Lemma gradient_fins (c : list R) : (2 <= length c)%nat -> @np_gradient XR (fins c) = Ok (fins (rgradient c)).
Proof.
  intros Hn. assert (Hz : zlen (fins c) = Z.of_nat (length c)) by (unfold zlen; rewrite fins_length; reflexivity).
  destruct (np_gradient_gen XR (fins c) (Fin 0)) as (g & E & L & H); [lia|].
  rewrite E. f_equal. rewrite fins_length in L. unfold rgradient. apply fins_build; [exact L|].
  intros k Hk. specialize (H (Z.of_nat k)). rewrite Nat2Z.id in H. rewrite H by lia. rewrite Hz, fins_length.
  unfold rgrad.
  assert (E0 : (Z.of_nat k =? 0)%Z = (k =? 0)%nat) by (destruct (Z.eqb_spec (Z.of_nat k) 0), (Nat.eqb_spec k 0); try reflexivity; lia).
  assert (E1 : (Z.of_nat k =? Z.of_nat (length c) - 1)%Z = (k =? length c - 1)%nat)
    by (destruct (Z.eqb_spec (Z.of_nat k) (Z.of_nat (length c) - 1)), (Nat.eqb_spec k (length c - 1)); try reflexivity; lia).
  rewrite E0, E1. destruct (Nat.eqb_spec k 0) as [->|H0].
  - rewrite !nth_indep_fins by lia. rewrite xofZ_fin, xsub_fin, xdiv_fin by lra. f_equal. lra.
  - destruct (Nat.eqb_spec k (length c - 1)) as [->|H1].
    + rewrite !nth_indep_fins by lia. rewrite xofZ_fin, xsub_fin, xdiv_fin by lra. f_equal.
      replace (length c - 1 - 1)%nat with (length c - 2)%nat by lia. lra.
    + replace (Z.to_nat (Z.of_nat k + 1)) with (k + 1)%nat by lia.
      replace (Z.to_nat (Z.of_nat k - 1)) with (k - 1)%nat by lia.
      rewrite !nth_indep_fins by lia. rewrite xofZ_fin, xsub_fin, xdiv_fin by lra. reflexivity.
Qed.

(** The sum over the record telescopes to its ends. *)
Lemma dot_gradient (c : list R) : (2 <= length c)%nat ->
  rdot c (rgradient c) =
  let n := length c in
  nth (n - 1) c 0 ^ 2 - nth 0 c 0 ^ 2 + (nth 0 c 0 * nth 1 c 0 - nth (n - 2) c 0 * nth (n - 1) c 0) / 2.
Proof.
  intros Hn. cbv zeta. unfold rdot.
  rewrite (Rsum_ext _ (fun i => nth i c 0 * rgrad c i)) by (intros i Hi; apply in_seq in Hi; rewrite rgradient_nth by lia; reflexivity).
  set (T := fun i => nth i c 0 * rgrad c i).
  assert (P : forall k, (S k <= length c - 1)%nat ->
    Rsum (map T (seq 0 (S k))) = nth 0 c 0 * (nth 1 c 0 - nth 0 c 0) + (nth k c 0 * nth (S k) c 0 - nth 0 c 0 * nth 1 c 0) / 2).
  { induction k as [|k IH]; intros Hk.
    - change (Rsum (map T (seq 0 1))) with (T 0%nat + 0). unfold T, rgrad. rewrite Nat.eqb_refl. lra.
    - rewrite seq_S, map_app, Rsum_app, IH by lia. change (0 + S k)%nat with (S k). cbn [map Rsum]. unfold T, rgrad.
      destruct (Nat.eqb_spec (S k) 0); [lia|]. destruct (Nat.eqb_spec (S k) (length c - 1)); [lia|].
      replace (S k + 1)%nat with (S (S k)) by lia. replace (S k - 1)%nat with k by lia.
      set (a := nth 0 c 0). set (b := nth 1 c 0). set (x := nth k c 0). set (y := nth (S k) c 0). set (z := nth (S (S k)) c 0). lra. }
  replace (length c) with (S (S (length c - 2))) at 1 by lia.
  rewrite seq_S, map_app, Rsum_app, P by lia. change (0 + S (length c - 2))%nat with (S (length c - 2)).
  replace (S (length c - 2)) with (length c - 1)%nat by lia. cbn [map Rsum]. unfold T, rgrad.
  destruct (Nat.eqb_spec (length c - 1) 0); [lia|]. rewrite Nat.eqb_refl.
  replace (length c - 1 - 1)%nat with (length c - 2)%nat by lia.
  set (a := nth 0 c 0). set (b := nth 1 c 0). set (x := nth (length c - 2) c 0). set (y := nth (length c - 1) c 0). lra.
Qed.

Lemma rdot_zip a b : length a = length b -> Rsum (zipwith Rmult a b) = rdot a b.
Proof. intros H. rewrite (zipwith_build _ _ _ 0 0) by exact H. reflexivity. Qed.
Lemma rdot_sq a : Rsum (map (fun x => x ^ 2) a) = rdot a a.
Proof.
  rewrite <- rdot_zip by reflexivity. f_equal. unfold zipwith. induction a as [|x a IH]; [reflexivity|].
  cbn in *. f_equal; [ring | exact IH].
Qed.
Lemma sumsq_fins (a : list R) : @nsum XR (map sq (fins a)) = Fin (rdot a a).
Proof.
  rewrite <- rdot_sq, <- xsum_fins. f_equal. unfold fins. rewrite !map_map. apply map_ext. intros x.
  unfold sq. cbn. f_equal. ring.
Qed.
Lemma rdot_nonneg a : 0 <= rdot a a.
Proof.
  rewrite <- rdot_sq. induction a as [|x a IH]; cbn [map Rsum]; [lra|]. pose proof (pow2_ge_0 x). lra.
Qed.

(** The detector with its angle: the denominator is that of the second derivative, the numerator is made of the two first
    and the two last samples. *)
Lemma spherical_angle (l : list R) it (m : XR) : (2 <= length l)%nat ->
  let c := map (fun x => round_dec 4 (x - rmean l)) l in
  let n := length l in
  let theta := round_dec 4 (atan2R
    (nth (n - 1) c 0 ^ 2 - nth 0 c 0 ^ 2 + (nth 0 c 0 * nth 1 c 0 - nth (n - 2) c 0 * nth (n - 1) c 0) / 2)
    (rdot (rgradient (rgradient c)) (rgradient (rgradient c)))) in
  spherical_phasespace_thresholding (fins l) it m =
  (let* (x, y, z) := @sph_rotation XR (fins c) (fins (rgradient c)) (fins (rgradient (rgradient c))) (Fin theta) in
   let '(a, b, d) := sph_parameters x y z in
   sph_spike_indices x y z a b d).
Proof.
  intros Hn c n theta. assert (Lc : length c = length l) by apply map_length.
  unfold spherical_phasespace_thresholding, sph_descript.
  rewrite nanmean_fins_rmean by (intros ->; cbn in Hn; lia).
  assert (Ec : map (fun x : XR => @around XR (nsub x (Fin (rmean l))) 4) (fins l) = fins c).
  { unfold c, fins. rewrite !map_map. apply map_ext. intros x. rewrite xsub_fin. apply around_fin. }
  rewrite Ec. rewrite gradient_fins by lia. cbn [bind].
  rewrite gradient_fins by (rewrite rgradient_length; lia). cbn [bind].
  rewrite bcast_same by (rewrite !fins_length, rgradient_length; reflexivity). cbn [bind].
  rewrite (zipwith_fins Rmult) by reflexivity. rewrite xsum_fins, rdot_zip by (rewrite rgradient_length; reflexivity).
  rewrite dot_gradient by lia. cbv zeta. rewrite sumsq_fins. change (@natan2 XR) with xatan2. cbn [xatan2].
  rewrite around_fin. rewrite Lc. reflexivity.
Qed.

Lemma atan2R_0 x : 0 <= x -> atan2R 0 x = 0.
Proof.
  intros H. unfold atan2R.
  repeat match goal with |- context [Rlt_bool ?a ?b] => destruct (Rlt_bool_spec a b) | |- context [Rle_bool ?a ?b] => destruct (Rle_bool_spec a b)
    | |- context [Req_bool ?a ?b] => destruct (Req_bool_spec a b) end; try lra.
  - unfold Rdiv. rewrite Rmult_0_l. apply atan_0.
Qed.

(** Records that start and end at their mean, or start as they end, are not rotated, whatever lies between. *)
Lemma spherical_not_rotated (l : list R) it (m : XR) : (2 <= length l)%nat ->
  let c := map (fun x => round_dec 4 (x - rmean l)) l in
  (nth 0 c 0 = 0 /\ nth (length l - 1) c 0 = 0 \/
   nth 0 c 0 = nth (length l - 1) c 0 /\ nth 1 c 0 = nth (length l - 2) c 0) ->
  spherical_phasespace_thresholding (fins l) it m =
  (let '(a, b, d) := sph_parameters (N := XR) (fins c) (fins (rgradient c)) (fins (rgradient (rgradient c))) in
   sph_spike_indices (fins c) (fins (rgradient c)) (fins (rgradient (rgradient c))) a b d).
Proof.
  intros Hn c H. rewrite spherical_angle by exact Hn. cbv zeta. fold c.
  match goal with |- context [atan2R ?e ?d] => replace e with 0; [rewrite (atan2R_0 d) by apply rdot_nonneg|] end.
  - rewrite round_dec_0'. unfold sph_rotation. rewrite xofZ_fin, xeqb_fin, Req_bool_true by reflexivity. reflexivity.
  - destruct H as [[-> ->]|[-> ->]]; field.
Qed.

(** Oscillations of any length: the slope is -1 (45 degrees), the detector does not rotate. *)
Lemma wave_SS a i : wave a (S (S i)) = - wave a i. Proof. reflexivity. Qed.
Lemma wave_4 a k : wave a (4 * k) = 0 /\ wave a (S (4 * k)) = a.
Proof.
  induction k as [|k [IH1 IH2]]; [split; reflexivity|].
  replace (4 * S k)%nat with (S (S (S (S (4 * k))))) by lia. rewrite !wave_SS, IH1, IH2. lra.
Qed.
Lemma wave_sum a k : Rsum (map (wave a) (seq 0 (4 * k + 1))) = 0.
Proof.
  induction k as [|k IH]; [cbn; lra|].
  replace (4 * S k + 1)%nat with (S (S (S (S (4 * k + 1))))) by lia.
  rewrite 4 seq_S, !map_app, !Rsum_app, IH. cbn [map Rsum Nat.add]. rewrite !wave_SS. lra.
Qed.
Lemma nth_map_seq (f : nat -> R) n i : (i < n)%nat -> nth i (map f (seq 0 n)) 0 = f i.
Proof.
  intros Hi. rewrite (nth_indep _ 0 (f O)) by (rewrite map_length, seq_length; exact Hi).
  rewrite map_nth, seq_nth by exact Hi. reflexivity.
Qed.
Lemma wave_gradient a k : (1 <= k)%nat -> let n := (4 * k + 1)%nat in
  rgradient (map (wave a) (seq 0 n)) = map (fun i => wave a (S i)) (seq 0 n).
Proof.
  intros Hk n. unfold rgradient. rewrite map_length, seq_length. apply map_ext_in. intros i Hi. apply in_seq in Hi.
  unfold rgrad. rewrite map_length, seq_length.
  destruct (Nat.eqb_spec i 0) as [->|H0].
  - rewrite !nth_map_seq by (unfold n; lia). cbn. lra.
  - destruct (Nat.eqb_spec i (n - 1)) as [->|H1].
    + rewrite !nth_map_seq by (unfold n; lia). destruct (wave_4 a k) as [W0 W1]. destruct (wave_4 a (k - 1)) as [V0 V1].
      replace (S (n - 1)) with (S (4 * k)) by (unfold n; lia). replace (n - 1)%nat with (4 * k)%nat by (unfold n; lia).
      replace (4 * k - 1)%nat with (S (S (S (4 * (k - 1))))) by lia. rewrite wave_SS, V1, W0, W1. lra.
    + rewrite !nth_map_seq by (unfold n; lia). replace (i + 1)%nat with (S (S (i - 1))) by lia.
      replace (S i) with (S (S (i - 1))) by lia. rewrite !wave_SS. lra.
Qed.
Lemma wave_dot a k : (1 <= k)%nat -> let c := map (wave a) (seq 0 (4 * k + 1)) in
  rdot c (rgradient (rgradient c)) = - rdot c c.
Proof.
  intros Hk c. set (n := (4 * k + 1)%nat) in *.
  replace (- rdot c c) with ((-1) * rdot c c) by ring. unfold rdot. rewrite <- Rsum_map_scal. apply Rsum_ext.
  intros i Hi. apply in_seq in Hi. assert (Lc : length c = n) by (unfold c; rewrite map_length, seq_length; reflexivity).
  rewrite rgradient_nth by (rewrite rgradient_length; lia). unfold c at 2. unfold n at 1. rewrite wave_gradient by exact Hk. fold n.
  unfold c. rewrite !nth_map_seq by lia. unfold rgrad. rewrite map_length, seq_length.
  destruct (wave_4 a k) as [W0 W1].
  destruct (Nat.eqb_spec i 0) as [->|H0]; [cbn; lra|].
  destruct (Nat.eqb_spec i (n - 1)) as [->|H1].
  - replace (n - 1)%nat with (4 * k)%nat by (unfold n; lia). rewrite W0. lra.
  - rewrite !nth_map_seq by lia. replace (S (i - 1)) with i by lia. replace (S (i + 1)) with (S (S i)) by lia.
    rewrite wave_SS. lra.
Qed.
Lemma rdot_pos c i : (i < length c)%nat -> nth i c 0 <> 0 -> 0 < rdot c c.
Proof.
  intros Hi Hx. rewrite <- rdot_sq. revert i Hi Hx. induction c as [|x c IH]; intros i Hi Hx; [cbn in Hi; lia|].
  cbn [map Rsum]. pose proof (pow2_ge_0 x). assert (0 <= Rsum (map (fun y => y ^ 2) c)) by (rewrite rdot_sq; apply rdot_nonneg).
  destruct i as [|i]; cbn [nth] in Hx.
  - assert (0 < x ^ 2) by (cbn [pow]; rewrite Rmult_1_r; apply Rsqr_pos_lt; exact Hx). lra.
  - specialize (IH i ltac:(cbn in Hi; lia) Hx). lra.
Qed.
Lemma wave_round j i : round_dec 4 (wave (IZR j) i) = wave (IZR j) i.
Proof.
  assert (H : exists k, wave (IZR j) i = IZR k /\ exists k', wave (IZR j) (S i) = IZR k').
  { induction i as [|i (k & E & k' & E')]; [exists 0%Z; split; [reflexivity|]; exists j; reflexivity|].
    exists k'. split; [exact E'|]. exists (- k)%Z. rewrite wave_SS, E, opp_IZR. reflexivity. }
  destruct H as (k & E & _). rewrite E. apply round4_int.
Qed.

Lemma spherical_angle_refuted (j : Z) (k : nat) it (m : XR) : (j <> 0)%Z -> (1 <= k)%nat ->
  let c := map (wave (IZR j)) (seq 0 (4 * k + 1)) in
  rmean c = 0 /\ regression_slope c (rgradient (rgradient c)) = -1 /\
  spherical_phasespace_thresholding (fins c) it m =
  (let '(a, b, d) := sph_parameters (N := XR) (fins c) (fins (rgradient c)) (fins (rgradient (rgradient c))) in
   sph_spike_indices (fins c) (fins (rgradient c)) (fins (rgradient (rgradient c))) a b d).
Proof.
  intros Hj Hk c. set (n := (4 * k + 1)%nat) in *.
  assert (Lc : length c = n) by (unfold c; rewrite map_length, seq_length; reflexivity).
  assert (Hm : rmean c = 0) by (unfold rmean, c, n; rewrite wave_sum; unfold Rdiv; ring).
  split; [exact Hm|]. split.
  - unfold regression_slope, c, n. rewrite wave_dot by exact Hk.
    assert (0 < rdot c c).
    { apply (rdot_pos c 1); [unfold n in Lc; lia|]. unfold c. rewrite nth_map_seq by (unfold n; lia). cbn. apply IZR_neq. exact Hj. }
    unfold c, n in *. field. lra.
  - assert (Ec : map (fun x => round_dec 4 (x - rmean c)) c = c).
    { rewrite Hm. unfold c. rewrite map_map. apply map_ext. intros i. rewrite Rminus_0_r. apply wave_round. }
    rewrite spherical_not_rotated; [rewrite Ec; reflexivity | unfold n in Lc; lia|].
    rewrite Ec. left. rewrite Lc. unfold c. rewrite !nth_map_seq by (unfold n; lia). split; [reflexivity|].
    replace (n - 1)%nat with (4 * k)%nat by (unfold n; lia). apply wave_4.
Qed.
