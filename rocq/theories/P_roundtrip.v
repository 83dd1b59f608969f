(** Polluting a constant record, detecting and repairing the spikes (C168). *)
From Coq Require Import Reals Lra Psatz.
From Flocq Require Import Core.Raux.
From Verif Require Import Num NpBase Lib XR LibR Spec Spec32 Spec34 Spec36 Spec37 M_descriptive M_series M_signal M_replacement M_detection P_series P_order P_signal P_replacement P_moment P_noise P_noisemean P_indep P_restore P_block P_greedy P_detect.
Local Open Scope R_scope.

Lemma accel_sorted (N : Num) (v : list N) f g kg ks r : acceleration_thresholding v f 1 g kg ks = Ok r -> StronglySorted Z.lt r.
Proof.
  unfold acceleration_thresholding. cbn [Z.eqb Pos.eqb]. intros E. apply bind_ok in E. destruct E as (s & _ & E).
  repeat (apply bind_ok in E; destruct E as (? & _ & E)).
  match type of E with Ok ?x = _ => assert (r = x) by congruence; subst r end. apply intersect1d_sorted.
Qed.

Lemma const_polluted (c : R) (n : nat) (r : list R) (p : R) draws idx :
  (0 < n)%nat -> (forall i, In i draws -> (0 <= i < Z.of_nat n)%Z) -> length r = n ->
  @random_index XR (Z.of_nat n) (Fin p) draws = Some (Ok idx) ->
  exists m, @synthetic_noise XR (fins (repeat c n)) (Fin p) draws (fins r) = Some (Ok (fins m)) /\ length m = n /\
    StronglySorted Z.lt idx /\ (forall i, In i idx -> (0 <= i < Z.of_nat n)%Z) /\
    (forall i, (0 <= i < Z.of_nat n)%Z -> ~ In i idx -> nth (Z.to_nat i) m 0 = c) /\
    (forall k, (k < length idx)%nat -> nth (Z.to_nat (nth k idx 0%Z)) m 0 = c + (-1) ^ k * (Rabs (nth k r 0) + p) * c).
Proof.
  intros Hn Hd Hr E. assert (HZ : zlen (repeat c n) = Z.of_nat n) by (unfold zlen; rewrite repeat_length; reflexivity).
  assert (Hl : repeat c n <> []) by (destruct n; [lia|cbn; congruence]).
  destruct (random_index_correct XR _ _ _ _ Hd E) as (_ & HS & HB).
  assert (HV : forall k, (k < n)%nat -> nth k (repeat c n) 0 = c).
  { intros k Hk. rewrite (nth_indep _ 0 c) by (rewrite repeat_length; exact Hk). apply nth_repeat'. }
  destruct (noise_exact (repeat c n) r p draws idx Hl) as (m & Em & Lm & H1 & H2);
    [rewrite HZ; exact Hd | rewrite repeat_length; exact Hr | rewrite repeat_length; apply sorted_short; [exact HS | intros i Hi; apply (HB i Hi)] | rewrite HZ; exact E|].
  rewrite repeat_length in Lm, H1. rewrite rmean_repeat in H2 by exact Hn. exists m. split; [exact Em|]. split; [exact Lm|]. split; [exact HS|]. split; [intros i Hi; apply HB, Hi|]. split.
  - intros i Hi Hni. rewrite H1; [apply HV; lia|lia|]. rewrite Z2Nat.id by lia. exact Hni.
  - intros k Hk. specialize (H2 k Hk). cbv zeta in H2. rewrite H2, amp_pow. rewrite HV; [reflexivity|]. pose proof (HB _ (nth_In idx 0%Z Hk)) as [A _]. lia.
Qed.

Lemma one_spike (c : R) (n : nat) (r : list R) (p f g kg ks : R) draws i0 :
  0 < c -> 0 < p -> 0 <= kg * g -> 0 <= ks -> (forall i, In i draws -> (0 <= i < Z.of_nat n)%Z) -> length r = n ->
  @random_index XR (Z.of_nat n) (Fin p) draws = Some (Ok [i0]) -> (0 < i0)%Z ->
  kg * g < (Rabs (nth 0 r 0) + p) * c * f -> 1 + ks ^ 2 < INR n ->
  exists m, @synthetic_noise XR (fins (repeat c n)) (Fin p) draws (fins r) = Some (Ok (fins m)) /\
    @acceleration_thresholding XR (fins m) (Fin f) 1 (Fin g) (Fin kg) (Fin ks) = Ok [i0] /\
    @last_valid_data XR (fins m) [i0] = Ok (fins (repeat c n)).
Proof.
  intros Hc Hp Hkg Hks Hd Hr E Hi0 Hf Hn1.
  assert (Hn : (0 < n)%nat) by (destruct n; [cbn in Hn1; pose proof (pow2_ge_0 ks); lra|lia]).
  destruct (restore_constant c n r p draws [i0] Hn Hd Hr E) as (m & Em & HR); [intros [A|[]]; lia|].
  destruct (const_polluted c n r p draws [i0] Hn Hd Hr E) as (m' & Em' & Lm & HS & HB & H1 & H2).
  assert (EF : fins m = fins m') by congruence. rewrite EF in *. clear EF Em'. exists m'. split; [exact Em|]. split; [|exact HR].
  pose proof (HB i0 (or_introl eq_refl)) as Hb.
  set (h := (Rabs (nth 0 r 0) + p) * c) in *.
  assert (EM : m' = raised c h (Z.to_nat i0) 1 (n - 1 - Z.to_nat i0)).
  { apply (list_eq_nth _ _ 0); [unfold raised; rewrite !app_length, !repeat_length; lia|]. intros k Hk. rewrite Lm in Hk.
    unfold raised. destruct (Nat.lt_trichotomy k (Z.to_nat i0)) as [A|[A|A]].
    - rewrite app_nth1 by (rewrite repeat_length; exact A). rewrite (nth_indep (repeat c (Z.to_nat i0)) 0 c) by (rewrite repeat_length; exact A). rewrite nth_repeat'.
      specialize (H1 (Z.of_nat k)). rewrite Nat2Z.id in H1. apply H1; [lia|]. intros [B|[]]; lia.
    - subst k. rewrite app_nth2 by (rewrite repeat_length; lia). rewrite repeat_length, Nat.sub_diag. cbn [repeat app nth].
      specialize (H2 O ltac:(cbn; lia)). cbn [nth pow] in H2. rewrite H2. unfold h. ring.
    - rewrite app_nth2 by (rewrite repeat_length; lia). rewrite repeat_length. cbn [repeat].
      replace (k - Z.to_nat i0)%nat with (S (k - Z.to_nat i0 - 1)) by lia. cbn [app nth].
      rewrite (nth_indep (repeat c (n - 1 - Z.to_nat i0)) 0 c) by (rewrite repeat_length; lia). rewrite nth_repeat'.
      specialize (H1 (Z.of_nat k)). rewrite Nat2Z.id in H1. apply H1; [lia|]. intros [B|[]]; lia. }
  assert (Hh : 0 < h) by (unfold h; pose proof (Rabs_pos (nth 0 r 0)); nra).
  destruct (accel_block c h (Z.to_nat i0) 1 (n - 1 - Z.to_nat i0) f g kg ks) as (s & Es & Hs); [lia|lia|exact Hh|exact Hkg|exact Hks|].
  rewrite <- EM in Es. rewrite Es. f_equal. apply sorted_ext; [eapply accel_sorted; exact Es|repeat constructor|].
  intros i. rewrite Hs. replace (Z.to_nat i0 + 1 + (n - 1 - Z.to_nat i0))%nat with n by lia. rewrite Z2Nat.id by lia. cbn [In INR]. split.
  - intros (-> & _). left. reflexivity.
  - intros [<-|[]]. split; [reflexivity|]. split; [exact Hf|]. lra.
Qed.

Lemma odd_spikes_missed (c : R) (n : nat) (r : list R) (p f g kg ks : R) draws idx :
  0 < c -> 0 < p -> 0 < f -> 0 <= kg * g -> (0 < n)%nat -> (forall i, In i draws -> (0 <= i < Z.of_nat n)%Z) -> length r = n ->
  @random_index XR (Z.of_nat n) (Fin p) draws = Some (Ok idx) ->
  exists m, @synthetic_noise XR (fins (repeat c n)) (Fin p) draws (fins r) = Some (Ok (fins m)) /\
    forall s, @acceleration_thresholding XR (fins m) (Fin f) 1 (Fin g) (Fin kg) (Fin ks) = Ok s ->
      forall k, (k < length idx)%nat -> Nat.even k = false -> ~ In (nth k idx 0%Z) s.
Proof.
  intros Hc Hp Hf Hkg Hn Hd Hr E.
  destruct (const_polluted c n r p draws idx Hn Hd Hr E) as (m & Em & Lm & HS & HB & H1 & H2).
  exists m. split; [exact Em|]. intros s Es k Hk Hev Hin.
  destruct (accel_rising m f g kg ks s _ Hf Hkg Es Hin) as [Hb Hlt].
  rewrite (H2 k Hk), pow_m1_even, Hev in Hlt. pose proof (Rabs_pos (nth k r 0)) as P0.
  assert (Lo : c + -1 * (Rabs (nth k r 0) + p) * c < c) by nra.
  assert (Hi : c <= nth (Z.to_nat (nth k idx 0%Z - 1)) m 0); [|lra]. clear Hlt.
  assert (HZm : zlen m = Z.of_nat n) by (unfold zlen; lia). rewrite HZm in Hb.
  destruct (in_dec Z.eq_dec (nth k idx 0%Z - 1)%Z idx) as [A|A]; [|rewrite H1 by (assumption || lia); lra].
  destruct (in_idx_nth _ _ A) as (j & Hj & Ej).
  pose proof (sorted_nth Z.lt idx 0%Z HS) as HN.
  assert (Hjk : j = (k - 1)%nat).
  { destruct (Nat.lt_trichotomy j k) as [B|[B|B]].
    - destruct (Nat.eq_dec j (k - 1)) as [C|C]; [exact C|]. pose proof (HN j (k - 1)%nat ltac:(lia)). pose proof (HN (k - 1)%nat k ltac:(lia)). lia.
    - subst j. lia.
    - pose proof (HN k j ltac:(lia)). lia. }
  assert (Hk1 : k = S j) by (destruct k; [discriminate Hev|lia]).
  rewrite <- Ej, (H2 j Hj), pow_m1_even. rewrite Hk1, Nat.even_succ, <- Nat.negb_even in Hev. apply Bool.negb_false_iff in Hev. rewrite Hev.
  pose proof (Rabs_pos (nth j r 0)). nra.
Qed.

Lemma even_spikes_missed (c : R) (n : nat) (r : list R) (p f g kg ks : R) draws idx :
  0 < c -> 0 < p -> 0 < f -> 0 <= kg * g -> (0 < n)%nat -> (forall i, In i draws -> (0 <= i < Z.of_nat n)%Z) -> length r = n ->
  @random_index XR (Z.of_nat n) (Fin p) draws = Some (Ok idx) ->
  exists m, @synthetic_noise XR (fins (repeat c n)) (Fin p) draws (fins r) = Some (Ok (fins m)) /\
    forall s, @acceleration_thresholding XR (fins m) (Fin f) 2 (Fin g) (Fin kg) (Fin ks) = Ok s ->
      forall k, (k < length idx)%nat -> Nat.even k = true -> ~ In (nth k idx 0%Z) s.
Proof.
  intros Hc Hp Hf Hkg Hn Hd Hr E.
  destruct (const_polluted c n r p draws idx Hn Hd Hr E) as (m & Em & Lm & HS & HB & H1 & H2).
  exists m. split; [exact Em|]. intros s Es k Hk Hev Hin. rewrite accel_mirror in Es.
  destruct (accel_rising (map Ropp m) f g kg ks s _ Hf Hkg Es Hin) as [Hb Hlt].
  assert (HZm : zlen (map Ropp m) = Z.of_nat n) by (unfold zlen; rewrite map_length; lia). rewrite HZm in Hb.
  rewrite !(nth_map_in Ropp m _ 0 0) in Hlt by lia.
  rewrite (H2 k Hk), pow_m1_even, Hev in Hlt. pose proof (Rabs_pos (nth k r 0)) as P0.
  assert (Lo : c < c + 1 * (Rabs (nth k r 0) + p) * c) by nra.
  assert (Hi : nth (Z.to_nat (nth k idx 0%Z - 1)) m 0 <= c); [|lra]. clear Hlt.
  destruct (in_dec Z.eq_dec (nth k idx 0%Z - 1)%Z idx) as [A|A]; [|rewrite H1 by (assumption || lia); lra].
  destruct (in_idx_nth _ _ A) as (j & Hj & Ej).
  pose proof (sorted_nth Z.lt idx 0%Z HS) as HN.
  assert (Hk1 : k = S j).
  { destruct (Nat.lt_trichotomy j k) as [B|[B|B]].
    - destruct (Nat.eq_dec k (S j)) as [C|C]; [exact C|]. pose proof (HN j (S j) ltac:(lia)). pose proof (HN (S j) k ltac:(lia)). lia.
    - subst j. lia.
    - pose proof (HN k j ltac:(lia)). lia. }
  rewrite <- Ej, (H2 j Hj), pow_m1_even. rewrite Hk1, Nat.even_succ, <- Nat.negb_even in Hev. apply Bool.negb_true_iff in Hev. rewrite Hev.
  pose proof (Rabs_pos (nth j r 0)). nra.
Qed.
