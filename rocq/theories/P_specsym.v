(** Symmetries of the power spectra. (C162) *)
From Coq Require Import Reals Lra Lia Psatz Permutation.
From Verif Require Import Num NpBase Lib XR LibR Spec Spec2 Spec8 M_spectrum P_dct P_spectrum P_spectrum2 P_spectrum3 P_moment.
Import ListNotations.
Local Open Scope R_scope.

Lemma rhann_sym B j : (2 <= B)%nat -> (j < B)%nat -> rhann B (B - 1 - j) = rhann B j.
Proof.
  intros HB Hj. unfold rhann. do 2 f_equal.
  assert (H1 : INR (B - 1) <> 0) by (apply not_0_INR; lia).
  rewrite minus_INR by lia. replace (2 * PI * (INR (B - 1) - INR j) / INR (B - 1)) with (- (2 * PI * INR j / INR (B - 1)) + 2 * INR 1 * PI) by (cbn [INR]; field; exact H1).
  rewrite cos_period, cos_neg. reflexivity.
Qed.
Lemma rmean_rev s : rmean (rev s) = rmean s.
Proof. apply rmean_perm. symmetry. apply Permutation_rev. Qed.
Lemma periodogram_rev B fs s k : (2 <= B)%nat -> length s = B -> periodogram B fs (rev s) k = periodogram B fs s k.
Proof.
  intros HB HL. unfold periodogram. f_equal.
  set (t := fun j => 2 * PI * INR k * INR j / INR B).
  assert (HT : forall j, (j < B)%nat -> tapered B (rev s) j = tapered B s (B - 1 - j)).
  { intros j Hj. unfold tapered. rewrite rhann_sym by lia. rewrite rmean_rev, rev_nth by lia. rewrite HL. replace (B - S j)%nat with (B - 1 - j)%nat by lia. reflexivity. }
  set (p := 2 * PI * INR k * INR (B - 1) / INR B).
  assert (HP : forall j, (j < B)%nat -> t (B - 1 - j)%nat = p - t j).
  { intros j Hj. unfold t, p. rewrite (minus_INR (B - 1) j) by lia. field. apply not_0_INR. lia. }
  set (C := sumn B (fun j => tapered B s j * cos (t j))). set (S1 := sumn B (fun j => tapered B s j * sin (t j))).
  assert (EC : sumn B (fun j => tapered B (rev s) j * cos (t j)) = cos p * C + sin p * S1).
  { rewrite <- (sumn_rev B (fun j => tapered B (rev s) j * cos (t j))). unfold C, S1. rewrite <- !sumn_scal, <- sumn_plus. apply sumn_ext. intros j Hj.
    rewrite HT by lia. replace (B - 1 - (B - 1 - j))%nat with j by lia. rewrite HP by exact Hj. rewrite cos_minus. ring. }
  assert (ES : sumn B (fun j => tapered B (rev s) j * sin (t j)) = sin p * C + (- cos p) * S1).
  { rewrite <- (sumn_rev B (fun j => tapered B (rev s) j * sin (t j))). unfold C, S1. rewrite <- !sumn_scal, <- sumn_plus. apply sumn_ext. intros j Hj.
    rewrite HT by lia. replace (B - 1 - (B - 1 - j))%nat with j by lia. rewrite HP by exact Hj. rewrite sin_minus. ring. }
  fold t. change (fun j => tapered B (rev s) j * cos (2 * PI * INR k * INR j / INR B)) with (fun j => tapered B (rev s) j * cos (t j)).
  change (fun j => tapered B (rev s) j * sin (2 * PI * INR k * INR j / INR B)) with (fun j => tapered B (rev s) j * sin (t j)).
  rewrite EC, ES. fold C. change (sumn B (fun j => tapered B s j * cos (2 * PI * INR k * INR j / INR B))) with C.
  change (sumn B (fun j => tapered B s j * sin (2 * PI * INR k * INR j / INR B))) with S1.
  pose proof (sin2_cos2 p) as H. unfold Rsqr in H.
  replace ((cos p * C + sin p * S1) ^ 2 + (sin p * C + - cos p * S1) ^ 2) with ((sin p * sin p + cos p * cos p) * (C ^ 2 + S1 ^ 2)) by ring.
  rewrite H. ring.
Qed.
Lemma segment_rev l B st n i : (i < n)%nat -> ((n - 1) * st + B = length l)%nat -> segment (rev l) B st i = rev (segment l B st (n - 1 - i)).
Proof.
  intros Hi HL. unfold segment. rewrite skipn_rev, firstn_rev. f_equal. rewrite firstn_length, skipn_firstn_comm.
  assert (H : ((n - 1 - i) * st + i * st = (n - 1) * st)%nat) by (rewrite <- Nat.mul_add_distr_r; f_equal; lia).
  assert (H1 : (length l - i * st = (n - 1 - i) * st + B)%nat) by (rewrite <- HL, <- H; set (u := ((n - 1 - i) * st)%nat); set (w := (i * st)%nat); lia).
  rewrite H1, Nat.min_l by (rewrite <- H1; apply Nat.le_sub_l). rewrite Nat.add_sub.
  rewrite (Nat.add_comm ((n - 1 - i) * st) B), Nat.add_sub. reflexivity.
Qed.
Lemma rwelch_rev B st n fs l k : (2 <= B)%nat -> (1 <= n)%nat -> ((n - 1) * st + B = length l)%nat -> rwelch B st n fs (rev l) k = rwelch B st n fs l k.
Proof.
  intros HB Hn HL. unfold rwelch, rmean. rewrite !map_length, seq_length. f_equal.
  change (sumn n (fun i => periodogram B fs (segment (rev l) B st i) k) = sumn n (fun i => periodogram B fs (segment l B st i) k)).
  rewrite <- (sumn_rev n (fun i => periodogram B fs (segment l B st i) k)). apply sumn_ext. intros i Hi.
  rewrite (segment_rev l B st n i Hi HL). apply periodogram_rev; [exact HB|]. unfold segment. rewrite firstn_length, skipn_length.
  assert (H : ((n - 1 - i) * st + i * st = (n - 1) * st)%nat) by (rewrite <- Nat.mul_add_distr_r; f_equal; lia). lia.
Qed.
Lemma spectra_reversed fft l fs ov B (os : bool) : exact_fft fft -> (3 <= B <= length l)%nat -> (ov < Z.of_nat B)%Z -> fs <> 0 ->
  ((zlen l - Z.of_nat B) mod (Z.of_nat B - ov) = 0)%Z ->
  power_spectra fft (fins (rev l)) (Fin fs) ov (Z.of_nat B) os = power_spectra fft (fins l) (Fin fs) ov (Z.of_nat B) os.
Proof.
  intros HF HB Hov Hfs HM.
  rewrite (spectra_welch fft (rev l) fs ov B os HF) by (rewrite ?rev_length; assumption). rewrite (spectra_welch fft l fs ov B os HF) by assumption.
  assert (HZ : zlen (rev l) = zlen l) by (unfold zlen; rewrite rev_length; reflexivity). rewrite HZ. do 3 f_equal. apply map_ext. intros k. f_equal.
  set (st := (Z.of_nat B - ov)%Z) in *. assert (Hst : (0 < st)%Z) by (unfold st; lia).
  apply Z.mod_divide in HM; [|lia]. destruct HM as [q Hq].
  assert (Hq0 : (0 <= q)%Z). { assert ((0 <= q * st)%Z) by (rewrite <- Hq; unfold zlen; lia). nia. }
  assert (Hn : ((zlen l - ov) / st = q + 1)%Z).
  { replace (zlen l - ov)%Z with ((q + 1) * st)%Z by (unfold st in *; nia). apply Z.div_mul. lia. }
  rewrite Hn. apply rwelch_rev; [lia | lia|].
  apply Nat2Z.inj. rewrite Nat2Z.inj_add, Nat2Z.inj_mul, Nat2Z.inj_sub, !Z2Nat.id by lia. unfold zlen in Hq. nia.
Qed.
Lemma spectra_rate fft l fs ov B (os : bool) c : exact_fft fft -> (3 <= B <= length l)%nat -> (ov < Z.of_nat B)%Z -> fs <> 0 -> c <> 0 ->
  exists f p, power_spectra fft (fins l) (Fin fs) ov (Z.of_nat B) os = Ok (fins f, fins p) /\
    power_spectra fft (fins l) (Fin (c * fs)) ov (Z.of_nat B) os = Ok (fins (map (Rmult c) f), fins (map (fun v => v / c) p)).
Proof.
  intros HF HB Hov Hfs Hc. rewrite (spectra_welch fft l fs ov B os HF) by assumption.
  rewrite (spectra_welch fft l (c * fs) ov B os HF); [|assumption|assumption|intros H; apply Rmult_integral in H; tauto].
  eexists _, _. split; [reflexivity|]. rewrite !map_map. do 2 f_equal; f_equal; apply map_ext; intros k.
  - field. apply not_0_INR. lia.
  - assert (E : forall st n, rwelch B st n (c * fs) l k = rwelch B st n fs l k / c).
    { intros st n. unfold rwelch, rmean. rewrite !map_length, seq_length.
      change (sumn n (fun i => periodogram B (c * fs) (segment l B st i) k) / INR n = sumn n (fun i => periodogram B fs (segment l B st i) k) / INR n / c).
      rewrite (sumn_ext n _ (fun i => / c * periodogram B fs (segment l B st i) k)).
      - rewrite sumn_scal. unfold Rdiv. ring.
      - intros i _. unfold periodogram, Rdiv. rewrite !Rinv_mult. ring. }
    rewrite E. unfold Rdiv. ring.
Qed.
Lemma periodogram_mirror B fs s k : (1 <= B)%nat -> (k <= B)%nat -> periodogram B fs s (B - k) = periodogram B fs s k.
Proof.
  intros HB Hk. assert (HN : INR B <> 0) by (apply not_0_INR; lia). unfold periodogram. f_equal.
  assert (E : forall j, 2 * PI * INR (B - k) * INR j / INR B = - (2 * PI * INR k * INR j / INR B) + 2 * INR j * PI).
  { intros j. rewrite minus_INR by exact Hk. field. exact HN. }
  rewrite (sumn_ext B (fun j => tapered B s j * cos (2 * PI * INR (B - k) * INR j / INR B)) (fun j => tapered B s j * cos (2 * PI * INR k * INR j / INR B))).
  2:{ intros j _. rewrite E, cos_period, cos_neg. reflexivity. }
  rewrite (sumn_ext B (fun j => tapered B s j * sin (2 * PI * INR (B - k) * INR j / INR B)) (fun j => -1 * (tapered B s j * sin (2 * PI * INR k * INR j / INR B)))).
  2:{ intros j _. rewrite E, sin_period, sin_neg. ring. }
  rewrite sumn_scal. ring.
Qed.
Lemma spectra_mirror fft l fs ov B : exact_fft fft -> (3 <= B <= length l)%nat -> (ov < Z.of_nat B)%Z -> fs <> 0 ->
  exists f p, power_spectra fft (fins l) (Fin fs) ov (Z.of_nat B) false = Ok (fins f, fins p) /\ length p = B /\
    forall k, (0 < k < B)%nat -> nth (B - k) p 0 = nth k p 0.
Proof.
  intros HF HB Hov Hfs. rewrite (spectra_welch fft l fs ov B false HF) by assumption. eexists _, _. split; [reflexivity|].
  split; [rewrite map_length, seq_length; reflexivity|]. intros k Hk.
  rewrite !(nth_map_in _ _ _ O) by (rewrite seq_length; lia). rewrite !seq_nth by lia. cbn [Nat.add]. f_equal.
  unfold rwelch. f_equal. apply map_ext. intros i. apply periodogram_mirror; lia.
Qed.
Lemma spectra_three fft a b c : exact_fft fft -> forall rest, zlen rest = 1%Z ->
  power_spectra fft (fins ([a; b; c] ++ rest)) (Fin 1) 0 3 true = Ok (fins [0; 1 / 3], fins [(b - (a + b + c) / 3) ^ 2; 2 * (b - (a + b + c) / 3) ^ 2]).
Proof.
  intros HF rest HR. destruct rest as [|d [|]]; try (cbn in HR; discriminate). 2:{ unfold zlen in HR. cbn [length] in HR. lia. }
  cbn [app]. change 3%Z with (Z.of_nat 3). rewrite (spectra_exact fft [a; b; c; d] 1 0 3 HF); [|cbn; lia|lia|lra].
  assert (E : forall k, rwelch 3 (Z.to_nat (Z.of_nat 3 - 0)) (Z.to_nat ((zlen [a; b; c; d] - 0) / (Z.of_nat 3 - 0))) 1 [a; b; c; d] k = (b - (a + b + c) / 3) ^ 2).
  { intros k. change (Z.to_nat (Z.of_nat 3 - 0)) with 3%nat. change (Z.to_nat ((zlen [a; b; c; d] - 0) / (Z.of_nat 3 - 0))) with 1%nat.
    unfold rwelch. cbn [seq map]. unfold segment. cbn [Nat.mul skipn firstn]. unfold rmean at 1. cbn [length Rsum fold_right].
    unfold periodogram, sumn. cbn [seq map Rsum fold_right]. unfold tapered. destruct (rhann_ends 3 ltac:(lia)) as [-> E2]. cbn [Nat.sub] in E2. rewrite E2.
    assert (R1 : rhann 3 1 = 1). { unfold rhann. cbn [Nat.sub INR]. replace (2 * PI * 1 / (1 + 1)) with PI by field. rewrite cos_PI. lra. }
    rewrite R1. cbn [nth]. unfold rmean. cbn [length Rsum fold_right]. replace (INR 3) with 3 by (cbn; lra). replace (INR 1) with 1 by reflexivity.
    set (t := 2 * PI * INR k * 1 / 3). pose proof (sin2_cos2 t) as SC. unfold Rsqr in SC.
    match goal with |- ?x = ?y => replace x with (y * (sin t * sin t + cos t * cos t)) by field end. rewrite SC. ring. }
  change (3 / 2 + 1)%nat with 2%nat. cbn [seq map]. rewrite !E. unfold sides. cbn [Nat.eqb Nat.mul Nat.add].
  replace (INR 0 * 1 / INR 3) with 0 by (cbn; field). replace (INR 1 * 1 / INR 3) with (1 / 3) by (cbn; field). rewrite Rmult_1_l. reflexivity.
Qed.
Lemma spectra_direction fft : exact_fft fft ->
  power_spectra fft (fins [0; 3; 0; 7]) (Fin 1) 0 3 true = Ok (fins [0; 1 / 3], fins [4; 8]) /\
  power_spectra fft (fins (rev [0; 3; 0; 7])) (Fin 1) 0 3 true = Ok (fins [0; 1 / 3], fins [100 / 9; 200 / 9]).
Proof.
  intros HF. split.
  - pose proof (spectra_three fft 0 3 0 HF [7] eq_refl) as E. cbn [app] in E. rewrite E. do 3 f_equal. f_equal; [lra|]. f_equal. lra.
  - cbn [rev app]. pose proof (spectra_three fft 7 0 3 HF [0] eq_refl) as E. cbn [app] in E. rewrite E. do 3 f_equal. f_equal; [lra|]. f_equal. lra.
Qed.
