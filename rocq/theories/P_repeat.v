(** Repeated calls of the replacement methods. *)
From Coq Require Import Reals Lra Lia.
From Verif Require Export Spec11 P_interp.
Local Open Scope Z_scope.

(** ** last_valid_data *)
Lemma last_valid_twice (N : Num) (v : list N) idx : StronglySorted Z.lt idx -> (forall i, In i idx -> 0 <= i < zlen v) ->
  ~ (In 0 idx /\ In (zlen v - 1) idx) ->
  forall r, last_valid_data v idx = Ok r -> last_valid_data r idx = Ok r.
Proof.
  intros HS HB HN r E. set (d := @nnan N).
  destruct (last_valid_gen N idx v d HS HB) as (r1 & E1 & L1 & K1 & P1 & F1). rewrite E in E1. injection E1 as <-.
  assert (Zr : zlen r = zlen v) by (unfold zlen; rewrite L1; reflexivity).
  destruct (last_valid_gen N idx r d HS) as (q & Eq & Lq & Kq & Pq & Fq); [rewrite Zr; exact HB|]. rewrite Eq. f_equal.
  assert (HI : forall i, 0 <= i -> i < zlen v -> nth (Z.to_nat i) q d = nth (Z.to_nat i) r d).
  { intros i Hi. pattern i. apply Zlt_0_ind; [|exact Hi]. clear i Hi. intros i IH Hi Hv.
    destruct (in_dec Z.eq_dec i idx) as [Hin|Hin].
    - destruct (Z.eq_dec i 0) as [->|H0].
      + change (Z.to_nat 0) with 0%nat. rewrite (Fq Hin), L1. rewrite (F1 Hin). specialize (K1 (zlen v - 1)). replace (Z.to_nat (zlen v - 1)) with (length v - 1)%nat in K1 by (unfold zlen in *; lia).
        apply K1; [lia|]. intros H. apply HN. split; assumption.
      + rewrite (Pq i Hin) by lia. rewrite (P1 i Hin) by lia. apply IH; lia.
    - apply Kq; [rewrite Zr; lia | exact Hin]. }
  apply (nth_ext _ _ d d); [exact Lq|]. intros n Hn. specialize (HI (Z.of_nat n)). rewrite Nat2Z.id in HI. apply HI; [lia|]. rewrite Lq in Hn. unfold zlen. lia.
Qed.
Lemma last_valid_twice_refuted (N : Num) (a b c : N) :
  last_valid_data [a; b; c] [0; 2] = Ok [c; b; b] /\ last_valid_data [c; b; b] [0; 2] = Ok [b; b; b].
Proof. split; reflexivity. Qed.

(** ** linear_interpolation *)
Lemma run_start idx n : (forall i, In i idx -> 0 < i < n) -> forall i, In i idx ->
  exists a, 0 < a <= i /\ ~ In (a - 1) idx /\ forall k, a <= k <= i -> In k idx.
Proof.
  intros HB i Hi. destruct (last_valid_exists_before idx n HB i Hi) as (j & Hj & Hn & H). exists (j + 1).
  split; [lia|]. split; [replace (j + 1 - 1) with j by lia; exact Hn|]. intros k Hk. apply H. lia.
Qed.
Lemma run_end idx n : (forall i, In i idx -> 0 < i < n) -> forall i, In i idx ->
  exists b, i <= b < n /\ ~ In (b + 1) idx /\ forall k, i <= k <= b -> In k idx.
Proof.
  intros HB i Hi. assert (H : forall m, 0 <= m -> forall i, n - i = m -> In i idx -> exists b, i <= b < n /\ ~ In (b + 1) idx /\ forall k, i <= k <= b -> In k idx).
  { intros m Hm. pattern m. apply Zlt_0_ind; [|exact Hm]. clear m Hm i Hi. intros m IH Hm i Ei Hi.
    destruct (in_dec Z.eq_dec (i + 1) idx) as [H1|H1].
    - destruct (IH (m - 1)) with (i := i + 1) as (b & Hb & Nb & Ib); [specialize (HB _ H1); lia | lia | exact H1|].
      exists b. split; [lia|]. split; [exact Nb|]. intros k Hk. destruct (Z.eq_dec k i) as [->|]; [exact Hi | apply Ib; lia].
    - exists i. split; [specialize (HB i Hi); lia|]. split; [exact H1|]. intros k Hk. replace k with i by lia. exact Hi. }
  apply (H (n - i)); [specialize (HB i Hi); lia | reflexivity | exact Hi].
Qed.
Lemma interpolation_twice (N : Num) (v : list N) idx dec d : idx <> [] -> StronglySorted Z.lt idx -> (forall i, In i idx -> 0 < i < zlen v - 1) ->
  (forall i, 0 <= i < zlen v -> ~ In i idx -> nisnan (nth (Z.to_nat i) v d) = false /\ around (nth (Z.to_nat i) v d) dec = nth (Z.to_nat i) v d) ->
  exists r, linear_interpolation DFloat v idx dec = Ok r /\ linear_interpolation DFloat r idx dec = Ok r.
Proof.
  intros Hne HS HB HV.
  assert (HB' : forall i, In i idx -> 0 <= i < zlen v) by (intros i Hi; specialize (HB i Hi); lia).
  assert (HB1 : forall i, In i idx -> 0 < i < zlen v) by (intros i Hi; specialize (HB i Hi); lia).
  assert (H0 : ~ In 0 idx) by (intros H; specialize (HB 0 H); lia).
  assert (Hn : 2 < zlen v) by (destruct idx as [|i0 ?]; [congruence|]; specialize (HB i0 (or_introl eq_refl)); lia).
  assert (VO : forall w : list N, length w = length v -> nth 0 w d = nth 0 v d -> valid_only w <> []).
  { intros w Lw E0. destruct w as [|x w]; [unfold zlen in Hn; cbn in Lw; lia|]. cbn in E0. unfold valid_only. cbn [filter].
    destruct (HV 0 ltac:(lia) H0) as [HN _]. change (Z.to_nat 0) with 0%nat in HN. rewrite <- E0 in HN. rewrite HN. discriminate. }
  destruct (li_keeps_rounded N v idx dec d 0 (VO v eq_refl eq_refl) Hne HS HB' ltac:(lia) H0) as (r & E & Lr & _).
  exists r. split; [exact E|].
  assert (Zr : zlen r = zlen v) by (unfold zlen; rewrite Lr; reflexivity).
  assert (HU : forall i, 0 <= i < zlen v -> ~ In i idx -> nth (Z.to_nat i) r d = nth (Z.to_nat i) v d).
  { intros i Hi Hni. destruct (li_keeps_rounded N v idx dec d i (VO v eq_refl eq_refl) Hne HS HB' Hi Hni) as (r' & E' & _ & K).
    rewrite E in E'. injection E' as <-. rewrite K. apply HV; assumption. }
  assert (VR : valid_only r <> []) by (apply VO; [exact Lr | apply (HU 0); [lia | exact H0]]).
  assert (HBr : forall i, In i idx -> 0 <= i < zlen r) by (rewrite Zr; exact HB').
  destruct (li_keeps_rounded N r idx dec d 0 VR Hne HS HBr ltac:(lia) H0) as (q & Eq & Lq & _). rewrite Eq. f_equal.
  apply (nth_ext _ _ d d); [exact Lq|]. intros n Hnq. set (i := Z.of_nat n). assert (Hi : 0 <= i < zlen v) by (unfold i, zlen; lia).
  replace n with (Z.to_nat i) by (unfold i; apply Nat2Z.id). destruct (in_dec Z.eq_dec i idx) as [Hin|Hin].
  - destruct (run_start idx _ HB i Hin) as (a & Ha & Na & Ia). destruct (run_end idx _ HB i Hin) as (b & Hb & Nb & Ib).
    assert (Iab : forall j, a <= j <= b -> In j idx) by (intros j Hj; destruct (Z_le_gt_dec j i); [apply Ia | apply Ib]; lia).
    assert (Ra : 0 <= a - 1 < zlen v) by lia. assert (Rb : 0 <= b + 1 < zlen v) by lia.
    destruct (HV (a - 1) Ra Na) as [NA _]. destruct (HV (b + 1) Rb Nb) as [NB _].
    destruct (li_chord N v idx dec d a b HS HB' ltac:(lia) ltac:(lia) Iab Na Nb NA NB) as (r' & E' & _ & C1).
    rewrite E in E'. injection E' as <-.
    destruct (li_chord N r idx dec d a b HS HBr ltac:(lia) ltac:(lia) Iab Na Nb) as (q' & E' & _ & C2); [rewrite HU by assumption; exact NA | rewrite HU by assumption; exact NB |].
    rewrite Eq in E'. injection E' as <-. rewrite C1, C2 by lia. rewrite (HU (a - 1) Ra Na), (HU (b + 1) Rb Nb). reflexivity.
  - destruct (li_keeps_rounded N r idx dec d i VR Hne HS HBr ltac:(lia) Hin) as (q' & E' & _ & K). rewrite Eq in E'. injection E' as <-.
    rewrite K, HU by assumption. apply HV; assumption.
Qed.

(** ** mean_value *)
Lemma nth_error_ext {A} (l k : list A) : (forall i, nth_error l i = nth_error k i) -> l = k.
Proof.
  revert k. induction l as [|x l IH]; intros [|y k] H; try reflexivity; [specialize (H 0%nat); discriminate | specialize (H 0%nat); discriminate|].
  f_equal; [specialize (H 0%nat); injection H; auto | apply IH; intros i; apply (H (S i))].
Qed.
Lemma hit_flagged n idx k : hit n idx k = true <-> flagged n idx k.
Proof.
  unfold hit, flagged, addresses. rewrite existsb_exists. split; intros (i & Hi & H); exists i; (split; [exact Hi|]).
  - apply Bool.orb_true_iff in H. rewrite !Z.eqb_eq in H. exact H.
  - apply Bool.orb_true_iff. rewrite !Z.eqb_eq. exact H.
Qed.
(** The record with value [c] at the flagged positions. *)
Definition put (idx : list Z) (l : list R) (c : R) : list R :=
  map (fun k => if hit (zlen l) idx k then c else nth k l 0%R) (seq 0 (length l)).
Lemma put_length idx l c : length (put idx l c) = length l.
Proof. unfold put. rewrite map_length, seq_length. reflexivity. Qed.
Lemma nth_seq_map {A} (f : nat -> A) n k d : (k < n)%nat -> nth k (map f (seq 0 n)) d = f k.
Proof. intros H. rewrite (nth_indep _ d (f 0%nat)) by (rewrite map_length, seq_length; exact H). rewrite map_nth, seq_nth by exact H. reflexivity. Qed.
Lemma put_nth idx l c k : (k < length l)%nat -> nth k (put idx l c) 0%R = if hit (zlen l) idx k then c else nth k l 0%R.
Proof. intros H. unfold put. rewrite nth_seq_map by exact H. reflexivity. Qed.
Lemma Rsum_split {A} (p : A -> bool) (f g : A -> R) l :
  Rsum (map (fun k => if p k then f k else g k) l) = (Rsum (map f (filter p l)) + Rsum (map g (filter (fun k => negb (p k)) l)))%R.
Proof.
  induction l as [|a l IH]; cbn [map filter]; [cbn; ring|]. change (Rsum ((if p a then f a else g a) :: ?x)) with ((if p a then f a else g a) + Rsum x)%R.
  destruct (p a); cbn [negb map]; unfold Rsum in *; cbn [fold_right]; rewrite IH; ring.
Qed.
Lemma Rsum_const {A} (c : R) (l : list A) : Rsum (map (fun _ => c) l) = (INR (length l) * c)%R.
Proof. induction l as [|a l IH]; [cbn; ring|]. cbn [map length]. rewrite S_INR. unfold Rsum in *. cbn [fold_right]. rewrite IH. ring. Qed.
Lemma filter_split {A} (p : A -> bool) l : (length (filter p l) + length (filter (fun k => negb (p k)) l) = length l)%nat.
Proof. induction l as [|a l IH]; cbn; [reflexivity|]. destruct (p a); cbn; lia. Qed.
Lemma hits_others idx l : (length (hits idx l) + length (others idx l) = length l)%nat.
Proof. unfold hits, others. rewrite !map_length, filter_split, seq_length. reflexivity. Qed.
Lemma put_sum idx l c : Rsum (put idx l c) = (INR (length (hits idx l)) * c + Rsum (others idx l))%R.
Proof.
  unfold put. rewrite (Rsum_split (hit (zlen l) idx) (fun _ => c) (fun k => nth k l 0%R)). rewrite Rsum_const. unfold hits, others. rewrite map_length. reflexivity.
Qed.
Lemma self_sum idx l : Rsum l = (Rsum (hits idx l) + Rsum (others idx l))%R.
Proof.
  unfold hits, others. rewrite <- Rsum_split. f_equal.
  apply (nth_ext _ _ 0%R 0%R); [rewrite map_length, seq_length; reflexivity|]. intros n Hn.
  rewrite (nth_seq_map _ _ _ _ Hn). destruct (hit _ _ _); reflexivity.
Qed.
Lemma mean_value_put idx l l' : l' <> [] -> in_bounds (zlen l') idx -> length l' = length l ->
  (forall k, (k < length l)%nat -> hit (zlen l) idx k = false -> nth k l' 0%R = nth k l 0%R) ->
  @mean_value XR DFloat (fins l') idx = Ok (fins (put idx l (rmean l'))).
Proof.
  intros Hne HB HL HK. assert (HZ : zlen l' = zlen l) by (unfold zlen; rewrite HL; reflexivity).
  destruct (mean_value_exact l' idx Hne HB) as (r & E & Lr & Hr). rewrite E. f_equal.
  destruct (mean_value_keeps XR DFloat _ _ _ E) as [_ Hk]. rewrite fins_length in Hk.
  apply nth_error_ext. intros k. destruct (lt_dec k (length l')) as [Hlt|Hge].
  - assert (HN : nth_error (fins (put idx l (rmean l'))) k = Some (Fin (nth k (put idx l (rmean l')) 0%R))).
    { unfold fins. apply map_nth_error. apply nth_error_nth'. rewrite put_length, <- HL. exact Hlt. }
    rewrite HN, put_nth by lia. destruct (hit (zlen l) idx k) eqn:EH.
    + rewrite Hr; [reflexivity | exact Hlt|]. apply hit_flagged. rewrite HZ. exact EH.
    + rewrite Hk; [|exact Hlt | rewrite zlen_fins, HZ; intros HF; apply hit_flagged in HF; congruence].
      rewrite <- HK by (lia || exact EH). unfold fins. apply map_nth_error. apply nth_error_nth'. exact Hlt.
  - rewrite (proj2 (nth_error_None _ _)) by lia. symmetry. apply nth_error_None. unfold fins. rewrite map_length, put_length. lia.
Qed.
Lemma mean_value_repeated (l : list R) idx j : in_bounds (zlen l) idx -> others idx l <> [] -> hits idx l <> [] ->
  exists r, calls (fun v => @mean_value XR DFloat v idx) (S j) (fins l) = Ok (fins r) /\ length r = length l /\
    forall k, (k < length l)%nat -> nth k r 0%R =
      if hit (zlen l) idx k
      then (rmean (others idx l) + (INR (length (hits idx l)) / INR (length l)) ^ S j * (rmean (hits idx l) - rmean (others idx l)))%R
      else nth k l 0%R.
Proof.
  intros HB HO HH. set (mu := rmean (others idx l)). set (s := rmean (hits idx l)). set (q := (INR (length (hits idx l)) / INR (length l))%R).
  assert (Hsum := hits_others idx l).
  assert (Hn : (0 < length (others idx l))%nat) by (destruct (others idx l); [congruence | cbn; lia]).
  assert (Hh : (0 < length (hits idx l))%nat) by (destruct (hits idx l); [congruence | cbn; lia]).
  assert (Hne : l <> []) by (intros HE; apply (f_equal (@length R)) in HE; cbn [length] in HE; lia).
  assert (P1 : (0 < INR (length l))%R) by (apply lt_0_INR; lia).
  assert (P2 : (0 < INR (length (others idx l)))%R) by (apply lt_0_INR; lia).
  assert (P3 : (0 < INR (length (hits idx l)))%R) by (apply lt_0_INR; lia).
  assert (PS : (INR (length (hits idx l)) + INR (length (others idx l)) = INR (length l))%R) by (rewrite <- plus_INR, Hsum; reflexivity).
  assert (SO : Rsum (others idx l) = (mu * INR (length (others idx l)))%R) by (unfold mu, rmean; field; lra).
  assert (SH : Rsum (hits idx l) = (s * INR (length (hits idx l)))%R) by (unfold s, rmean; field; lra).
  assert (M0 : rmean l = (mu + q ^ 1 * (s - mu))%R).
  { unfold rmean. rewrite (self_sum idx l), SO, SH. unfold q. rewrite <- PS. field. lra. }
  assert (MS : forall c, rmean (put idx l c) = (mu + q * (c - mu))%R).
  { intros c. unfold rmean. rewrite put_sum, put_length, SO. unfold q. rewrite <- PS. field. lra. }
  assert (HF : forall j i, calls (fun v => @mean_value XR DFloat v idx) j (fins (put idx l (mu + q ^ S i * (s - mu)))) = Ok (fins (put idx l (mu + q ^ (S i + j) * (s - mu))))).
  { clear j. induction j as [|j IH]; intros i; [rewrite Nat.add_0_r; reflexivity|]. cbn [calls].
    rewrite (mean_value_put idx l).
    - cbn [bind]. rewrite MS. replace (mu + q * (mu + q ^ S i * (s - mu) - mu))%R with (mu + q ^ S (S i) * (s - mu))%R by (cbn [pow]; ring).
      rewrite IH. do 6 f_equal. lia.
    - intros E. apply (f_equal (@length R)) in E. rewrite put_length in E. cbn in E. lia.
    - unfold zlen. rewrite put_length. exact HB.
    - apply put_length.
    - intros k Hk E. rewrite put_nth, E by exact Hk. reflexivity. }
  exists (put idx l (mu + q ^ S j * (s - mu))). split; [|split; [apply put_length | intros k Hk; apply put_nth; exact Hk]].
  cbn [calls]. rewrite (mean_value_put idx l l Hne HB eq_refl) by reflexivity. cbn [bind]. rewrite M0. apply (HF j 0%nat).
Qed.
Lemma mean_value_limit (l : list R) idx : in_bounds (zlen l) idx -> others idx l <> [] -> hits idx l <> [] ->
  forall eps, (0 < eps)%R -> exists j0, forall j, (j0 <= j)%nat ->
  exists r, calls (fun v => @mean_value XR DFloat v idx) j (fins l) = Ok (fins r) /\
    forall k, (k < length l)%nat -> hit (zlen l) idx k = true -> (Rabs (nth k r 0 - rmean (others idx l)) < eps)%R.
Proof.
  intros HB HO HH eps He. set (mu := rmean (others idx l)). set (s := rmean (hits idx l)). set (q := (INR (length (hits idx l)) / INR (length l))%R).
  assert (Hsum := hits_others idx l).
  assert (Hn : (0 < length (others idx l))%nat) by (destruct (others idx l); [congruence | cbn; lia]).
  assert (P1 : (0 < INR (length l))%R) by (apply lt_0_INR; lia).
  assert (Q0 : (0 <= q)%R) by (unfold q; apply Rmult_le_pos; [apply pos_INR | left; apply Rinv_0_lt_compat; exact P1]).
  assert (Q1 : (q < 1)%R).
  { unfold q. apply (Rmult_lt_reg_r (INR (length l))); [exact P1|]. unfold Rdiv. rewrite Rmult_assoc, Rinv_l, Rmult_1_r, Rmult_1_l by lra. apply lt_INR. lia. }
  set (A := (Rabs (s - mu) + 1)%R). assert (HA : (0 < A)%R) by (unfold A; pose proof (Rabs_pos (s - mu)); lra).
  destruct (pow_lt_1_zero q) with (y := (eps / A)%R) as [j0 Hj0].
  { rewrite Rabs_pos_eq; assumption. }
  { apply Rdiv_lt_0_compat; assumption. }
  exists (S j0). intros j Hj. destruct j as [|j]; [lia|].
  destruct (mean_value_repeated l idx j HB HO HH) as (r & E & _ & Hr). exists r. split; [exact E|].
  intros k Hk Hh. rewrite Hr, Hh by exact Hk. fold q s mu. replace (mu + q ^ S j * (s - mu) - mu)%R with (q ^ S j * (s - mu))%R by ring.
  rewrite Rabs_mult. specialize (Hj0 (S j) ltac:(lia)).
  apply Rle_lt_trans with (Rabs (q ^ S j) * A)%R.
  { apply Rmult_le_compat_l; [apply Rabs_pos | unfold A; lra]. }
  apply (Rmult_lt_compat_r A) in Hj0; [|exact HA]. replace (eps / A * A)%R with eps in Hj0 by (field; lra). exact Hj0.
Qed.
