(** The synthetic noise and the mean, the unit and the origin of the record (C166). *)
From Coq Require Import Reals Lra Psatz.
From Verif Require Import Num NpBase Lib XR LibR Spec Spec36 M_descriptive M_series M_signal P_series P_order P_signal P_replacement P_moment P_noise.
Local Open Scope R_scope.

Lemma pow_m1_even k : (-1) ^ k = if Nat.even k then 1 else -1.
Proof.
  induction k as [|k IH]; [reflexivity|]. cbn [pow]. rewrite IH, Nat.even_succ, <- Nat.negb_even.
  destruct (Nat.even k); cbn; ring.
Qed.
Lemma amp_pow r p k : amp r p k = (-1) ^ k * (Rabs (nth k r 0) + p).
Proof. rewrite pow_m1_even. unfold amp. destruct (Nat.even k); ring. Qed.

Lemma alternating_S f c : alternating f (S c) = alternating f c + (-1) ^ c * f c.
Proof. unfold alternating. rewrite seq_S, map_app, Rsum_app. cbn. ring. Qed.
Lemma alternating_double f q : alternating f (2 * q) = Rsum (map (fun j => f (2 * j)%nat - f (2 * j + 1)%nat) (seq 0 q)).
Proof.
  induction q as [|q IH]; [reflexivity|]. replace (2 * S q)%nat with (S (S (2 * q))) by lia.
  rewrite !alternating_S, IH, seq_S, map_app, Rsum_app. cbn [map Rsum Nat.add].
  rewrite !pow_m1_even. replace (Nat.even (2 * q)) with true by (symmetry; apply Nat.even_spec; exists q; lia).
  replace (Nat.even (S (2 * q))) with false by (rewrite Nat.even_succ, <- Nat.negb_even; replace (Nat.even (2 * q)) with true by (symmetry; apply Nat.even_spec; exists q; lia); reflexivity).
  replace (2 * q + 1)%nat with (S (2 * q)) by lia. ring.
Qed.
Lemma alternating_small f q e : (forall k, (k < 2 * q)%nat -> 0 <= f k <= e) -> Rabs (alternating f (2 * q)) <= INR q * e.
Proof.
  intros H. rewrite alternating_double. induction q as [|q IH]; [cbn; rewrite Rabs_R0; lra|].
  rewrite seq_S, map_app, Rsum_app, S_INR. cbn [map Rsum Nat.add].
  assert (I : forall k, (k < 2 * q)%nat -> 0 <= f k <= e) by (intros k Hk; apply H; lia). specialize (IH I).
  pose proof (H (2 * q)%nat ltac:(lia)) as A. pose proof (H (2 * q + 1)%nat ltac:(lia)) as B.
  eapply Rle_trans; [apply Rabs_triang|]. 
  assert (Rabs (f (2 * q)%nat - f (2 * q + 1)%nat + 0) <= e) by (apply Rabs_le; lra). lra.
Qed.
Lemma alternating_plus f p c : alternating (fun k => f k + p) c = alternating f c + (if Nat.even c then 0 else p).
Proof.
  induction c as [|c IH]; [cbn; ring|]. rewrite !alternating_S, IH, pow_m1_even, Nat.even_succ, <- Nat.negb_even.
  destruct (Nat.even c); cbn; ring.
Qed.

Lemma Rsum_support (f : nat -> R) : forall js S0, NoDup S0 -> NoDup js -> incl js S0 -> (forall i, In i S0 -> ~ In i js -> f i = 0) ->
  Rsum (map f S0) = Rsum (map f js).
Proof.
  induction js as [|j js IH]; intros S0 HS HJ HI HZ.
  - cbn. assert (Z : forall i, In i S0 -> f i = 0) by (intros i Hi; apply HZ; [exact Hi|intros []]). clear - Z.
    induction S0 as [|x S0 IH]; [reflexivity|]. cbn. rewrite (Z x) by (left; reflexivity). rewrite IH; [ring|]. intros i Hi. apply Z. right. exact Hi.
  - assert (Hj : In j S0) by (apply HI; left; reflexivity). apply in_split in Hj. destruct Hj as (S1 & S2 & ->).
    apply NoDup_remove in HS. destruct HS as [HS Hn]. inversion HJ as [|? ? Hnj HJ']; subst.
    rewrite map_app, Rsum_app. cbn [map Rsum]. rewrite <- (IH (S1 ++ S2)); [rewrite map_app, Rsum_app; ring|exact HS|exact HJ'| |].
    + intros i Hi. assert (A : In i (S1 ++ j :: S2)) by (apply HI; right; exact Hi). apply in_app_iff in A. apply in_app_iff.
      destruct A as [A|[A|A]]; [left; exact A|subst; contradiction|right; exact A].
    + intros i Hi Hni. apply HZ.
      * apply in_app_iff in Hi. apply in_app_iff. destruct Hi; [left|right; right]; assumption.
      * intros [->|A]; contradiction.
Qed.
Lemma Rsum_seq (l : list R) : Rsum (map (fun i => nth i l 0) (seq 0 (length l))) = Rsum l.
Proof.
  f_equal. apply (list_eq_nth _ _ 0); [rewrite map_length, seq_length; reflexivity|]. intros i Hi. rewrite map_length, seq_length in Hi.
  rewrite (nth_map_in _ (seq 0 (length l)) i O) by (rewrite seq_length; lia). rewrite seq_nth by lia. reflexivity.
Qed.
Lemma Rsum_minus {A} (f g : A -> R) l : Rsum (map (fun i => f i - g i) l) = Rsum (map f l) - Rsum (map g l).
Proof. induction l as [|x l IH]; cbn; [ring|rewrite IH; ring]. Qed.

Lemma noise_mean (l r : list R) (p : R) draws idx : l <> [] ->
  (forall i, In i draws -> (0 <= i < zlen l)%Z) -> length r = length l ->
  @random_index XR (zlen l) (Fin p) draws = Some (Ok idx) ->
  exists m, @synthetic_noise XR (fins l) (Fin p) draws (fins r) = Some (Ok (fins m)) /\ length m = length l /\
    rmean m = rmean l * (1 + alternating (fun k => Rabs (nth k r 0) + p) (length idx) / INR (length l)).
Proof.
  intros Hl Hd Hr E. destruct (random_index_correct XR _ _ _ _ Hd E) as (_ & HS & HB).
  destruct (noise_exact l r p draws idx Hl Hd Hr) as (m & Em & Lm & H1 & H2); [apply sorted_short; [exact HS | intros i Hi; apply (HB i Hi)] | exact E|].
  exists m. split; [exact Em|]. split; [exact Lm|].
  assert (HN : NoDup idx).
  { clear - HS. induction HS as [|x q HS IH HF]; constructor; [|exact IH]. intros Hx. rewrite Forall_forall in HF. specialize (HF x Hx). lia. }
  assert (Hne : INR (length l) <> 0) by (apply not_0_INR; destruct l; [congruence|cbn; lia]).
  assert (HSum : Rsum m - Rsum l = alternating (fun k => Rabs (nth k r 0) + p) (length idx) * rmean l).
  { rewrite <- (Rsum_seq m), <- (Rsum_seq l), Lm, <- Rsum_minus.
    rewrite (Rsum_support _ (map Z.to_nat idx)).
    - unfold alternating. rewrite map_map.
      transitivity (Rsum (map (fun k => (-1) ^ k * (Rabs (nth k r 0) + p) * rmean l) (seq 0 (length idx)))).
      + f_equal. apply (list_eq_nth _ _ 0); [rewrite !map_length, seq_length; reflexivity|]. intros k Hk. rewrite map_length in Hk.
        rewrite (nth_map_in _ idx k 0%Z) by exact Hk. rewrite (nth_map_in _ (seq 0 (length idx)) k O) by (rewrite seq_length; exact Hk).
        rewrite seq_nth by exact Hk. cbn [Nat.add]. rewrite <- amp_pow. pose proof (H2 k Hk) as A. cbv zeta in A. rewrite A. ring.
      + generalize (seq 0 (length idx)). intros q. induction q as [|x q IH]; cbn [map Rsum]; [ring|rewrite IH; ring].
    - apply seq_NoDup.
    - clear - HN HB. induction HN as [|x q Hx HN IH]; cbn; constructor; [|apply IH; intros i Hi; apply HB; right; exact Hi].
      intros Hi. apply in_map_iff in Hi. destruct Hi as (y & Ey & Hy). apply Hx.
      pose proof (HB x (or_introl eq_refl)) as [A _]. pose proof (HB y (or_intror Hy)) as [B _]. replace x with y by lia. exact Hy.
    - intros i Hi. apply in_map_iff in Hi. destruct Hi as (y & Ey & Hy). pose proof (HB y Hy) as [A _]. unfold zlen in A. apply in_seq. lia.
    - intros i Hi Hni. apply in_seq in Hi. rewrite H1; [ring|lia|]. intros A. apply Hni. apply in_map_iff. exists (Z.of_nat i). split; [lia|exact A]. }
  unfold rmean at 1. rewrite Lm. replace (Rsum m) with (Rsum l + alternating (fun k => Rabs (nth k r 0) + p) (length idx) * rmean l) by lra.
  unfold rmean. field. exact Hne.
Qed.

Lemma noise_mean_even (l r : list R) (p e : R) draws idx : l <> [] ->
  (forall i, In i draws -> (0 <= i < zlen l)%Z) -> length r = length l -> (forall k, Rabs (nth k r 0) <= e) ->
  @random_index XR (zlen l) (Fin p) draws = Some (Ok idx) -> Nat.even (length idx) = true ->
  exists m, @synthetic_noise XR (fins l) (Fin p) draws (fins r) = Some (Ok (fins m)) /\
    Rabs (rmean m - rmean l) <= Rabs (rmean l) * (e * INR (length idx) / (2 * INR (length l))).
Proof.
  intros Hl Hd Hr He E Hev. destruct (noise_mean l r p draws idx Hl Hd Hr E) as (m & Em & Lm & HM). exists m. split; [exact Em|].
  rewrite alternating_plus, Hev, Rplus_0_r in HM. apply Nat.even_spec in Hev. destruct Hev as [q Hq].
  assert (Hn : 0 < INR (length l)) by (apply lt_0_INR; destruct l; [congruence|cbn; lia]).
  rewrite HM, Hq. pose proof (alternating_small (fun k => Rabs (nth k r 0)) q e) as HA.
  specialize (HA (fun k _ => conj (Rabs_pos _) (He k))). set (A := alternating (fun k => Rabs (nth k r 0)) (2 * q)) in *.
  replace (rmean l * (1 + A / INR (length l)) - rmean l) with (rmean l * (A / INR (length l))) by ring.
  rewrite Rabs_mult. apply Rmult_le_compat_l; [apply Rabs_pos|]. unfold Rdiv at 1. rewrite Rabs_mult, (Rabs_pos_eq (/ _)) by (apply Rlt_le, Rinv_0_lt_compat, Hn).
  rewrite mult_INR. change (INR 2) with 2. replace (e * (2 * INR q) / (2 * INR (length l))) with (INR q * e * / INR (length l)) by (field; lra).
  apply Rmult_le_compat_r; [apply Rlt_le, Rinv_0_lt_compat, Hn|exact HA].
Qed.
Lemma noise_mean_odd (l r : list R) (p e : R) draws idx : rmean l <> 0 ->
  (forall i, In i draws -> (0 <= i < zlen l)%Z) -> length r = length l -> (forall k, Rabs (nth k r 0) <= e) ->
  @random_index XR (zlen l) (Fin p) draws = Some (Ok idx) -> Nat.even (length idx) = false -> e * INR (length idx) < 2 * p ->
  exists m, @synthetic_noise XR (fins l) (Fin p) draws (fins r) = Some (Ok (fins m)) /\
    Rabs (rmean l) * ((p - e * INR (length idx) / 2) / INR (length l)) <= Rabs (rmean m - rmean l) /\ rmean m <> rmean l.
Proof.
  intros Hm Hd Hr He E Hev Hs. assert (Hl : l <> []) by (intros ->; apply Hm; unfold rmean; cbn; lra).
  destruct (noise_mean l r p draws idx Hl Hd Hr E) as (m & Em & Lm & HM). exists m. split; [exact Em|].
  rewrite alternating_plus, Hev in HM.
  assert (Hod : Nat.odd (length idx) = true) by (rewrite <- Nat.negb_even, Hev; reflexivity). apply Nat.odd_spec in Hod. destruct Hod as [q Hq].
  assert (Hn : 0 < INR (length l)) by (apply lt_0_INR; destruct l; [congruence|cbn; lia]).
  pose proof (alternating_small (fun k => Rabs (nth k r 0)) q e) as HA.
  specialize (HA (fun k _ => conj (Rabs_pos _) (He k))).
  assert (HB : - (INR q * e) <= alternating (fun k => Rabs (nth k r 0)) (length idx)).
  { rewrite Hq. replace (2 * q + 1)%nat with (S (2 * q)) by lia. rewrite alternating_S, pow_m1_even.
    replace (Nat.even (2 * q)) with true by (symmetry; apply Nat.even_spec; exists q; lia).
    pose proof (Rabs_pos (nth (2 * q) r 0)). pose proof (Rle_abs (- alternating (fun k => Rabs (nth k r 0)) (2 * q))) as HQ. rewrite Rabs_Ropp in HQ. lra. }
  set (A := alternating (fun k => Rabs (nth k r 0)) (length idx)) in *.
  assert (Hc : INR (length idx) = 2 * INR q + 1) by (rewrite Hq, plus_INR, mult_INR; cbn; ring).
  assert (He0 : 0 <= e) by (eapply Rle_trans; [apply Rabs_pos|apply (He O)]).
  assert (HP : p - e * INR (length idx) / 2 <= A + p) by (rewrite Hc; nra).
  assert (HP0 : 0 < p - e * INR (length idx) / 2) by lra.
  assert (ED : rmean m - rmean l = rmean l * ((A + p) / INR (length l))) by (rewrite HM; ring).
  assert (Hi : 0 < / INR (length l)) by (apply Rinv_0_lt_compat, Hn).
  split.
  - rewrite ED, Rabs_mult. apply Rmult_le_compat_l; [apply Rabs_pos|]. unfold Rdiv at 1 3. rewrite Rabs_mult, (Rabs_pos_eq (/ INR (length l))) by lra.
    apply Rmult_le_compat_r; [lra|]. rewrite Rabs_pos_eq; lra.
  - intros HE. assert (Z : rmean l * ((A + p) / INR (length l)) = 0) by lra. apply Rmult_integral in Z. destruct Z as [Z|Z]; [contradiction|].
    unfold Rdiv in Z. apply Rmult_integral in Z. lra.
Qed.

Lemma noise_affine (l r : list R) (p a b : R) draws idx : l <> [] ->
  (forall i, In i draws -> (0 <= i < zlen l)%Z) -> length r = length l ->
  @random_index XR (zlen l) (Fin p) draws = Some (Ok idx) ->
  exists m m', @synthetic_noise XR (fins l) (Fin p) draws (fins r) = Some (Ok (fins m)) /\
    @synthetic_noise XR (fins (map (fun x => a * x + b) l)) (Fin p) draws (fins r) = Some (Ok (fins m')) /\
    length m = length l /\ length m' = length l /\
    (forall i, (i < length l)%nat -> ~ In (Z.of_nat i) idx -> nth i m' 0 = a * nth i m 0 + b) /\
    (forall k, (k < length idx)%nat -> let i := Z.to_nat (nth k idx 0%Z) in
       nth i m' 0 = a * nth i m 0 + b + (-1) ^ k * (Rabs (nth k r 0) + p) * b).
Proof.
  intros Hl Hd Hr E. destruct (random_index_correct XR _ _ _ _ Hd E) as (_ & HS & HB).
  assert (HK : (length idx <= length l)%nat) by (apply sorted_short; [exact HS | intros i Hi; apply (HB i Hi)]).
  destruct (noise_exact l r p draws idx Hl Hd Hr HK E) as (m & Em & Lm & H1 & H2).
  assert (EZ : zlen (map (fun x => a * x + b) l) = zlen l) by (unfold zlen; rewrite map_length; reflexivity).
  destruct (noise_exact (map (fun x => a * x + b) l) r p draws idx) as (m' & Em' & Lm' & H1' & H2').
  - destruct l; [congruence|cbn; congruence].
  - rewrite EZ. exact Hd.
  - rewrite map_length. exact Hr.
  - rewrite map_length. exact HK.
  - rewrite EZ. exact E.
  - rewrite map_length in *. exists m, m'. split; [exact Em|]. split; [exact Em'|]. split; [exact Lm|]. split; [exact Lm'|].
    assert (HM : rmean (map (fun x => a * x + b) l) = a * rmean l + b).
    { assert (Hne : INR (length l) <> 0) by (apply not_0_INR; destruct l; [congruence|cbn; lia]).
      unfold rmean. rewrite map_length. replace (Rsum (map (fun x => a * x + b) l)) with (a * Rsum l + INR (length l) * b); [field; exact Hne|].
      clear. induction l as [|x l IH]; [cbn; ring|]. cbn [map Rsum length]. rewrite <- IH, S_INR. ring. }
    assert (HV : forall i, (i < length l)%nat -> nth i (map (fun x => a * x + b) l) 0 = a * nth i l 0 + b) by (intros i Hi; apply (nth_map_in (fun x => a * x + b) l i 0 0), Hi).
    split.
    + intros i Hi Hn. rewrite H1', H1, HV by assumption. reflexivity.
    + intros k Hk. cbv zeta. specialize (H2 k Hk). specialize (H2' k Hk). cbv zeta in H2, H2'. rewrite H2', H2, HM, amp_pow.
      rewrite HV; [ring|]. pose proof (HB _ (nth_In idx 0%Z Hk)) as [Hb _]. unfold zlen in Hb. lia.
Qed.
Lemma noise_unit (l r : list R) (p a : R) draws idx : l <> [] ->
  (forall i, In i draws -> (0 <= i < zlen l)%Z) -> length r = length l ->
  @random_index XR (zlen l) (Fin p) draws = Some (Ok idx) ->
  exists m, @synthetic_noise XR (fins l) (Fin p) draws (fins r) = Some (Ok (fins m)) /\
    @synthetic_noise XR (fins (map (Rmult a) l)) (Fin p) draws (fins r) = Some (Ok (fins (map (Rmult a) m))).
Proof.
  intros Hl Hd Hr E. destruct (noise_affine l r p a 0 draws idx Hl Hd Hr E) as (m & m' & Em & Em' & Lm & Lm' & H1 & H2).
  exists m. split; [exact Em|]. replace (map (Rmult a) l) with (map (fun x => a * x + 0) l) by (apply map_ext; intros; ring). rewrite Em'.
  do 3 f_equal. apply (list_eq_nth _ _ 0); [rewrite map_length; lia|]. intros i Hi. rewrite (nth_map_in _ m i 0) by lia.
  destruct (in_dec Z.eq_dec (Z.of_nat i) idx) as [Hin|Hin]; [|rewrite H1 by (assumption || lia); ring].
  destruct (in_idx_nth _ _ Hin) as (k & Hk & Ek). specialize (H2 k Hk). cbv zeta in H2. rewrite Ek, Nat2Z.id in H2. rewrite H2. ring.
Qed.
