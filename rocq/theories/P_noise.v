(** Which samples the synthetic noise changes (C158). *)
From Coq Require Import Reals Lra Psatz.
From Flocq Require Import Core.Raux.
From Verif Require Import Num NpBase Lib XR LibR Spec M_descriptive M_series M_signal P_series P_order P_signal P_replacement P_moment.
Local Open Scope R_scope.

Lemma in_idx_nth (idx : list Z) i : In i idx -> exists k, (k < length idx)%nat /\ nth k idx 0%Z = i.
Proof. intros H. apply (In_nth _ _ 0%Z) in H. destruct H as (k & Hk & E). eauto. Qed.
(** The signed amplitude of spike number [k], in units of the mean. *)
Definition amp (r : list R) (p : R) (k : nat) : R := if Nat.even k then Rabs (nth k r 0) + p else - Rabs (nth k r 0) - p.
Lemma amp_abs r p k : 0 <= p -> Rabs (amp r p k) = Rabs (nth k r 0) + p.
Proof.
  intros Hp. pose proof (Rabs_pos (nth k r 0)). unfold amp. destruct (Nat.even k); [apply Rabs_pos_eq; lra|].
  rewrite Rabs_left1 by lra. lra.
Qed.
Lemma noise_exact (l r : list R) (p : R) draws idx : l <> [] -> (forall i, In i draws -> (0 <= i < zlen l)%Z) -> length r = length l ->
  (length idx <= length l)%nat ->
  @random_index XR (zlen l) (Fin p) draws = Some (Ok idx) ->
  exists m, @synthetic_noise XR (fins l) (Fin p) draws (fins r) = Some (Ok (fins m)) /\ length m = length l /\
    (forall i, (i < length l)%nat -> ~ In (Z.of_nat i) idx -> nth i m 0 = nth i l 0) /\
    (forall k, (k < length idx)%nat -> let i := Z.to_nat (nth k idx 0%Z) in nth i m 0 = nth i l 0 + amp r p k * rmean l).
Proof.
  intros Hl Hd Hr Hk E. pose proof (proj2 (proj2 (random_index_correct XR _ _ _ _ Hd E))) as HB.
  destruct (noise_effect XR (fins l) (Fin p) draws (fins r) idx) as (out & Eo & Lo & H1 & H2);
    [intros i Hi; rewrite zlen_fins; apply Hd, Hi | rewrite !fins_length; exact Hr | rewrite zlen_fins; exact E|].
  rewrite fins_length in Lo. rewrite zlen_fins in H1.
  assert (EM : @ndiv XR (nsum (fins l)) (nofZ (zlen (fins l))) = Fin (rmean l)).
  { apply np_mean_fins, Hl. }
  assert (HN : forall i (q : list R), (i < length q)%nat -> nth i (fins q) (@nnan XR) = Fin (nth i q 0)).
  { intros i q Hi. rewrite (nth_indep _ _ (Fin 0)) by (rewrite fins_length; exact Hi). apply fins_nth. }
  assert (F1 : forall i, (i < length l)%nat -> ~ In (Z.of_nat i) idx -> nth i out (@nnan XR) = Fin (nth i l 0)).
  { intros i Hi Hn. specialize (H1 (Z.of_nat i)). rewrite Nat2Z.id in H1. rewrite H1 by (try assumption; unfold zlen; lia).
    rewrite HN by exact Hi. rewrite xofZ_fin, xadd_fin. f_equal. cbn. ring. }
  assert (F2 : forall k, (k < length idx)%nat -> let i := Z.to_nat (nth k idx 0%Z) in nth i out (@nnan XR) = Fin (nth i l 0 + amp r p k * rmean l)).
  { intros k Hk'. cbv zeta. specialize (H2 k Hk'). cbv zeta in H2. rewrite H2, EM.
    assert (Hi : (Z.to_nat (nth k idx 0%Z) < length l)%nat) by (pose proof (HB _ (nth_In idx 0%Z Hk')) as [Hb _]; unfold zlen in Hb; lia).
    rewrite !HN by (first [exact Hi | lia]). unfold amp, noise_sign.
    destruct (Nat.even k); rewrite xabs_fin, ?xopp_fin, ?xadd_fin, ?xsub_fin, xmul_fin, xadd_fin; reflexivity. }
  set (val := fun x : XR => match x with Fin r => r | _ => 0 end).
  assert (Em : out = fins (map val out)).
  { apply (list_eq_nth _ _ (@nnan XR)); [rewrite fins_length, map_length; reflexivity|]. intros i Hi. rewrite Lo in Hi.
    rewrite HN by (rewrite map_length; lia). rewrite (nth_indep (map val out) 0 (val nnan)) by (rewrite map_length; lia). rewrite map_nth.
    destruct (in_dec Z.eq_dec (Z.of_nat i) idx) as [Hin|Hin]; [|rewrite F1 by assumption; reflexivity].
    destruct (in_idx_nth _ _ Hin) as (k & Hk' & Ek). specialize (F2 k Hk'). rewrite Ek, Nat2Z.id in F2. cbv zeta in F2. rewrite F2. reflexivity. }
  exists (map val out). split; [rewrite <- Em; exact Eo|]. split; [rewrite map_length; exact Lo|].
  assert (V : forall i, (i < length l)%nat -> nth i (map val out) 0 = val (nth i out (@nnan XR))).
  { intros i Hi. rewrite (nth_indep (map val out) 0 (val nnan)) by (rewrite map_length; lia). apply map_nth. }
  split.
  - intros i Hi Hn. rewrite V by exact Hi. rewrite F1 by assumption. reflexivity.
  - intros k Hk'. cbv zeta. rewrite V; [rewrite (F2 k Hk'); reflexivity|]. pose proof (HB _ (nth_In idx 0%Z Hk')) as [Hb _]. unfold zlen in Hb. lia.
Qed.
Lemma sorted_short (idx : list Z) n : StronglySorted Z.lt idx -> (forall i, In i idx -> (0 <= i < Z.of_nat n)%Z) -> (length idx <= n)%nat.
Proof.
  intros HS HB. assert (HN : NoDup idx).
  { clear HB. induction HS as [|x l HS IH HF]; constructor; [|exact IH]. intros Hx. rewrite Forall_forall in HF. specialize (HF x Hx). lia. }
  replace n with (length (zrange 0 (Z.of_nat n))) by (rewrite zrange_length; lia).
  apply NoDup_incl_length; [exact HN|]. intros i Hi. apply in_zrange, HB, Hi.
Qed.
Lemma noise_changes (l r : list R) (p : R) draws idx : 0 < p -> rmean l <> 0 ->
  (forall i, In i draws -> (0 <= i < zlen l)%Z) -> length r = length l ->
  @random_index XR (zlen l) (Fin p) draws = Some (Ok idx) ->
  exists m, @synthetic_noise XR (fins l) (Fin p) draws (fins r) = Some (Ok (fins m)) /\ length m = length l /\
    (forall i, (i < length l)%nat -> (nth i m 0 <> nth i l 0 <-> In (Z.of_nat i) idx)) /\
    (forall i, (i < length l)%nat -> In (Z.of_nat i) idx -> p * Rabs (rmean l) <= Rabs (nth i m 0 - nth i l 0)) /\
    (forall j k, (j < length idx)%nat -> (k < length idx)%nat -> let x := Z.to_nat (nth j idx 0%Z) in let y := Z.to_nat (nth k idx 0%Z) in
       (0 < (nth x m 0 - nth x l 0) * (nth y m 0 - nth y l 0) <-> Nat.even j = Nat.even k)).
Proof.
  intros Hp Hm Hd Hr E. assert (Hl : l <> []) by (intros ->; apply Hm; unfold rmean; cbn; lra).
  destruct (random_index_correct XR _ _ _ _ Hd E) as (_ & HS & HB).
  destruct (noise_exact l r p draws idx Hl Hd Hr) as (m & Em & Lm & H1 & H2); [apply sorted_short; [exact HS | intros i Hi; apply (HB i Hi)] | exact E|].
  assert (HA : forall k, 0 < Rabs (amp r p k)) by (intros k; rewrite amp_abs by lra; pose proof (Rabs_pos (nth k r 0)); lra).
  exists m. split; [exact Em|]. split; [exact Lm|]. split; [|split].
  - intros i Hi. split.
    + intros Hc. destruct (in_dec Z.eq_dec (Z.of_nat i) idx) as [Hin|Hin]; [exact Hin|]. exfalso. apply Hc, H1; assumption.
    + intros Hin. destruct (in_idx_nth _ _ Hin) as (k & Hk & Ek). specialize (H2 k Hk). rewrite Ek, Nat2Z.id in H2. cbv zeta in H2. rewrite H2.
      intros Hc. assert (Hz : amp r p k * rmean l = 0) by lra. apply Rmult_integral in Hz. specialize (HA k). destruct Hz as [Hz|Hz]; [rewrite Hz, Rabs_R0 in HA; lra | contradiction].
  - intros i Hi Hin. destruct (in_idx_nth _ _ Hin) as (k & Hk & Ek). specialize (H2 k Hk). rewrite Ek, Nat2Z.id in H2. cbv zeta in H2. rewrite H2.
    replace (nth i l 0 + amp r p k * rmean l - nth i l 0) with (amp r p k * rmean l) by ring. rewrite Rabs_mult, amp_abs by lra.
    apply Rmult_le_compat_r; [apply Rabs_pos|]. pose proof (Rabs_pos (nth k r 0)). lra.
  - intros j k Hj Hk. cbv zeta. rewrite (H2 j Hj), (H2 k Hk).
    replace ((nth (Z.to_nat (nth j idx 0%Z)) l 0 + amp r p j * rmean l - nth (Z.to_nat (nth j idx 0%Z)) l 0) *
             (nth (Z.to_nat (nth k idx 0%Z)) l 0 + amp r p k * rmean l - nth (Z.to_nat (nth k idx 0%Z)) l 0)) with (amp r p j * amp r p k * (rmean l * rmean l)) by ring.
    assert (Hq : 0 < rmean l * rmean l) by nra.
    assert (Ha : forall i, (Nat.even i = true -> 0 < amp r p i) /\ (Nat.even i = false -> amp r p i < 0)).
    { intros i. unfold amp. pose proof (Rabs_pos (nth i r 0)). destruct (Nat.even i); split; intros; try discriminate; lra. }
    destruct (Ha j) as [A1 A2], (Ha k) as [B1 B2]. destruct (Nat.even j), (Nat.even k); split; intros HH; try reflexivity; try discriminate.
    + specialize (A1 eq_refl). specialize (B1 eq_refl). apply Rmult_lt_0_compat; [apply Rmult_lt_0_compat; assumption | exact Hq].
    + exfalso. specialize (A1 eq_refl). specialize (B2 eq_refl). assert (amp r p j * amp r p k < 0) by nra. nra.
    + exfalso. specialize (A2 eq_refl). specialize (B1 eq_refl). assert (amp r p j * amp r p k < 0) by nra. nra.
    + specialize (A2 eq_refl). specialize (B2 eq_refl). assert (0 < amp r p j * amp r p k) by nra. apply Rmult_lt_0_compat; [assumption | exact Hq].
Qed.
Lemma noise_zero_mean (l r : list R) (p : R) draws idx : l <> [] -> rmean l = 0 ->
  (forall i, In i draws -> (0 <= i < zlen l)%Z) -> length r = length l ->
  @random_index XR (zlen l) (Fin p) draws = Some (Ok idx) ->
  @synthetic_noise XR (fins l) (Fin p) draws (fins r) = Some (Ok (fins l)).
Proof.
  intros Hl Hm Hd Hr E. destruct (random_index_correct XR _ _ _ _ Hd E) as (_ & HS & HB).
  destruct (noise_exact l r p draws idx Hl Hd Hr) as (m & Em & Lm & H1 & H2); [apply sorted_short; [exact HS | intros i Hi; apply (HB i Hi)] | exact E|].
  rewrite Em. do 3 f_equal. apply (list_eq_nth _ _ 0); [exact Lm|]. intros i Hi. rewrite Lm in Hi.
  destruct (in_dec Z.eq_dec (Z.of_nat i) idx) as [Hin|Hin]; [|apply H1; assumption].
  destruct (in_idx_nth _ _ Hin) as (k & Hk & Ek). specialize (H2 k Hk). rewrite Ek, Nat2Z.id in H2. cbv zeta in H2. rewrite H2, Hm. ring.
Qed.
(** 70 percent of three samples are two. *)
Lemma noise_hyp : @random_index XR (zlen [1; 2; 3]) (Fin 70) [2; 2; 0]%Z = Some (Ok [0; 2]%Z).
Proof.
  unfold random_index, spike_count. change (zlen [1; 2; 3]) with 3%Z. rewrite !xofZ_fin, xmul_fin, xdiv_fin by lra.
  replace (IZR 3 * 70 / 100) with (21 / 10) by lra. cbn [nisnan nisfin XR negb].
  change (@nfloorZ XR (Fin (21 / 10))) with (Zfloor (21 / 10)). rewrite (Zfloor_imp 2) by (cbn; lra). reflexivity.
Qed.
