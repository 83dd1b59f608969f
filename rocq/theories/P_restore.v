(** Polluting a record and repairing it (C167). *)
From Coq Require Import Reals Lra Psatz.
From Flocq Require Import Core.Raux.
From Flocq Require Import IEEE754.BinarySingleNaN.
From Verif Require Import Num NpBase Lib XR F64 LibR Spec Spec32 Spec36 Spec37 M_descriptive M_series M_signal M_replacement P_series P_order P_signal P_replacement P_interp P_moment P_pipeline P_noise P_noisemean P_indep.
Local Open Scope R_scope.

Lemma noise_same (l r : list R) (p : R) draws idx : l <> [] ->
  (forall i, In i draws -> (0 <= i < zlen l)%Z) -> length r = length l ->
  @random_index XR (zlen l) (Fin p) draws = Some (Ok idx) ->
  exists m, @synthetic_noise XR (fins l) (Fin p) draws (fins r) = Some (Ok (fins m)) /\ same_good idx l m 0 /\
    StronglySorted Z.lt idx /\ (forall i, In i idx -> (0 <= i < zlen l)%Z).
Proof.
  intros Hl Hd Hr E. destruct (random_index_correct XR _ _ _ _ Hd E) as (_ & HS & HB).
  destruct (noise_exact l r p draws idx Hl Hd Hr) as (m & Em & Lm & H1 & H2); [apply sorted_short; [exact HS | intros i Hi; apply (HB i Hi)] | exact E|].
  exists m. split; [exact Em|]. split; [|split; [exact HS|intros i Hi; apply HB, Hi]]. split; [exact Lm|].
  intros i Hi Hn. apply H1; [unfold zlen in Hi; lia|]. rewrite Z2Nat.id by lia. exact Hn.
Qed.
Lemma restore_last (l r : list R) (p : R) draws idx : l <> [] ->
  (forall i, In i draws -> (0 <= i < zlen l)%Z) -> length r = length l ->
  @random_index XR (zlen l) (Fin p) draws = Some (Ok idx) -> ~ In 0%Z idx ->
  exists m, @synthetic_noise XR (fins l) (Fin p) draws (fins r) = Some (Ok (fins m)) /\
    @last_valid_data XR (fins m) idx = last_valid_data (fins l) idx.
Proof.
  intros Hl Hd Hr E H0. destruct (noise_same l r p draws idx Hl Hd Hr E) as (m & Em & [HL HG] & HS & HB). exists m. split; [exact Em|].
  apply (lvd_indep XR (fins l) (fins m) idx (Fin 0)); [exact HS| |].
  - intros i Hi. rewrite zlen_fins. specialize (HB i Hi). assert (i <> 0%Z) by (intros ->; contradiction). lia.
  - split; [rewrite !fins_length; exact HL|]. intros i Hi Hn. rewrite zlen_fins in Hi. rewrite !fins_nth, HG by assumption. reflexivity.
Qed.
Lemma restore_linear (l r : list R) (p : R) draws idx dec : l <> [] ->
  (forall i, In i draws -> (0 <= i < zlen l)%Z) -> length r = length l ->
  @random_index XR (zlen l) (Fin p) draws = Some (Ok idx) -> ~ In (zlen l - 1)%Z idx ->
  exists m, @synthetic_noise XR (fins l) (Fin p) draws (fins r) = Some (Ok (fins m)) /\
    @linear_interpolation XR DFloat (fins m) idx dec = linear_interpolation DFloat (fins l) idx dec.
Proof.
  intros Hl Hd Hr E H0. destruct (noise_same l r p draws idx Hl Hd Hr E) as (m & Em & HG & HS & HB). exists m. split; [exact Em|].
  apply li_indep; [exact HS| |exact HG]. intros i Hi. specialize (HB i Hi). assert (i <> (zlen l - 1)%Z) by (intros ->; contradiction). lia.
Qed.

Lemma nth_fins_repeat c n k : (k < n)%nat -> nth k (fins (repeat c n)) (Fin 0) = Fin c.
Proof. intros Hk. rewrite fins_nth, (nth_indep _ 0 c) by (rewrite repeat_length; exact Hk). rewrite nth_repeat'. reflexivity. Qed.
Lemma lvd_const c n idx : StronglySorted Z.lt idx -> (forall i, In i idx -> (0 < i < Z.of_nat n)%Z) ->
  @last_valid_data XR (fins (repeat c n)) idx = Ok (fins (repeat c n)).
Proof.
  intros HS HB. assert (HZ : zlen (fins (repeat c n)) = Z.of_nat n) by (rewrite zlen_fins; unfold zlen; rewrite repeat_length; reflexivity).
  destruct (last_valid_nearest XR (fins (repeat c n)) idx (Fin 0) HS) as (s & F & K); [rewrite HZ; exact HB|].
  rewrite F. f_equal. pose proof (last_valid_keeps XR _ _ _ F) as [L1 K1]. rewrite fins_length, repeat_length in L1.
  apply (list_eq_nth _ _ (Fin 0 : XR)); [rewrite fins_length, repeat_length; exact L1|]. intros k Hk. rewrite L1 in Hk.
  change (car XR) with xr in *. rewrite nth_fins_repeat by exact Hk.
  destruct (in_zmem_dec (Z.of_nat k) idx) as [Hin|Hin].
  - destruct (last_valid_exists_before idx (Z.of_nat n) HB _ Hin) as (j & Hj & Hn & Hr).
    specialize (K (Z.of_nat k) j). rewrite Nat2Z.id, HZ in K. rewrite K by (assumption || lia). apply nth_fins_repeat. lia.
  - assert (A : nth_error s k = nth_error (fins (repeat c n)) k).
    { apply K1; [rewrite fins_length, repeat_length; exact Hk|]. intros (i & Hi & Ha). apply Hin. specialize (HB i Hi). unfold addresses in Ha. rewrite HZ in Ha. replace (Z.of_nat k) with i; [exact Hi|]. lia. }
    apply nth_error_nth. rewrite A. rewrite (nth_error_nth' _ (Fin 0 : xr)) by (rewrite fins_length, repeat_length; exact Hk). rewrite nth_fins_repeat by exact Hk. reflexivity.
Qed.
Lemma restore_constant (c : R) (n : nat) (r : list R) (p : R) draws idx :
  (0 < n)%nat -> (forall i, In i draws -> (0 <= i < Z.of_nat n)%Z) -> length r = n ->
  @random_index XR (Z.of_nat n) (Fin p) draws = Some (Ok idx) -> ~ In 0%Z idx ->
  exists m, @synthetic_noise XR (fins (repeat c n)) (Fin p) draws (fins r) = Some (Ok (fins m)) /\
    @last_valid_data XR (fins m) idx = Ok (fins (repeat c n)).
Proof.
  intros Hn Hd Hr E H0. assert (HZ : zlen (repeat c n) = Z.of_nat n) by (unfold zlen; rewrite repeat_length; reflexivity).
  assert (Hl : repeat c n <> []) by (destruct n; [lia|cbn; congruence]).
  destruct (restore_last (repeat c n) r p draws idx Hl) as (m & Em & H); [rewrite HZ; exact Hd|rewrite repeat_length; exact Hr|rewrite HZ; exact E|exact H0|].
  exists m. split; [exact Em|]. rewrite H. destruct (random_index_correct XR _ _ _ _ Hd E) as (_ & HS & HB).
  apply lvd_const; [exact HS|]. intros i Hi. specialize (HB i Hi). assert (i <> 0%Z) by (intros ->; contradiction). lia.
Qed.

Lemma line_length a b n : length (line a b n) = n.
Proof. unfold line. rewrite map_length, seq_length. reflexivity. Qed.
Lemma line_nth a b n i : (0 <= i < Z.of_nat n)%Z -> nth (Z.to_nat i) (line a b n) 0 = a + b * IZR i.
Proof.
  intros Hi. unfold line. rewrite (nth_map_in _ (seq 0 n) (Z.to_nat i) O) by (rewrite seq_length; lia). rewrite seq_nth by lia.
  cbn [Nat.add]. rewrite INR_IZR_INZ, Z2Nat.id by lia. reflexivity.
Qed.
Lemma li_line a b n idx dec : idx <> [] -> StronglySorted Z.lt idx -> (forall i, In i idx -> (0 < i < Z.of_nat n - 1)%Z) ->
  @linear_interpolation XR DFloat (fins (line a b n)) idx dec = Ok (fins (map (round_dec dec) (line a b n))).
Proof.
  intros Hne HS HB. assert (HZ : zlen (line a b n) = Z.of_nat n) by (unfold zlen; rewrite line_length; reflexivity).
  assert (HB0 : forall i, In i idx -> (0 <= i < zlen (line a b n))%Z) by (intros i Hi; specialize (HB i Hi); lia).
  destruct (li_exact (line a b n) idx dec Hne HS HB0) as (m & E & L & H1 & _). rewrite line_length in L.
  rewrite E. f_equal. 
  assert (LE : length (map (fun x : xr => @around XR x dec) m) = n) by (rewrite map_length; exact L).
  apply (list_eq_nth _ _ (Fin 0 : XR)); [transitivity n; [exact LE|symmetry; rewrite fins_length, map_length; apply line_length]|].
  intros k Hk0. assert (Hk : (k < n)%nat) by (rewrite <- LE; exact Hk0). clear Hk0. change (car XR) with xr in *.
  assert (Hk' : (0 <= Z.of_nat k < Z.of_nat n)%Z) by lia.
  rewrite fins_nth, (nth_map_in _ (line a b n) k 0) by (rewrite line_length; exact Hk).
  destruct (in_zmem_dec (Z.of_nat k) idx) as [Hin|Hin].
  - destruct (run_exists idx (Z.of_nat n) (Z.of_nat k)) as (u & v & Hu & Hv & R1 & R2 & R3); [intros i Hi; specialize (HB i Hi); lia | exact Hin|].
    assert (Hu0 : (0 < u)%Z) by (apply HB, R1; lia). assert (Hv0 : (v < Z.of_nat n - 1)%Z) by (apply HB, R1; lia).
    destruct (li_chord_exact (line a b n) idx dec u v HS HB0) as (r & Er & Lr & HC); [lia|rewrite HZ; lia|exact R1|exact R2|exact R3|].
    pose proof (f_equal (fun q : res (list xr) => match q with Ok y => y | Raise _ => [] end) (eq_trans (eq_sym Er) E)) as EE. cbv beta iota in EE. subst r.
    specialize (HC (Z.of_nat k) ltac:(lia)). rewrite Nat2Z.id in HC. apply (nth_error_nth _ _ (Fin 0 : xr)) in HC. change (car XR) with xr in *. rewrite HC.
    do 2 f_equal. rewrite !line_nth by lia. pose proof (line_nth a b n (Z.of_nat k) Hk') as EK. rewrite Nat2Z.id in EK. rewrite EK.
    rewrite !plus_IZR, !minus_IZR, !plus_IZR.
    assert (IZR v - IZR u + 2 <> 0) by (rewrite <- minus_IZR, <- plus_IZR; apply not_0_IZR; lia). field. lra.
  - rewrite (nth_map_in _ m k (Fin 0 : xr)) by lia. specialize (H1 (Z.of_nat k)). rewrite Nat2Z.id in H1. change (car XR) with xr in *. rewrite H1 by (rewrite ?HZ; assumption || lia).
    apply around_fin.
Qed.
Lemma restore_line (a b : R) (n : nat) (r : list R) (p : R) draws idx dec :
  (0 < n)%nat -> (forall i, In i draws -> (0 <= i < Z.of_nat n)%Z) -> length r = n ->
  @random_index XR (Z.of_nat n) (Fin p) draws = Some (Ok idx) -> idx <> [] -> ~ In 0%Z idx -> ~ In (Z.of_nat n - 1)%Z idx ->
  exists m, @synthetic_noise XR (fins (line a b n)) (Fin p) draws (fins r) = Some (Ok (fins m)) /\
    @linear_interpolation XR DFloat (fins m) idx dec = Ok (fins (map (round_dec dec) (line a b n))).
Proof.
  intros Hn Hd Hr E Hne H0 H1. assert (HZ : zlen (line a b n) = Z.of_nat n) by (unfold zlen; rewrite line_length; reflexivity).
  assert (Hl : line a b n <> []) by (intros Z; apply (f_equal (@length R)) in Z; rewrite line_length in Z; cbn in Z; lia).
  destruct (restore_linear (line a b n) r p draws idx dec Hl) as (m & Em & H); [rewrite HZ; exact Hd|rewrite line_length; exact Hr|rewrite HZ; exact E|rewrite HZ; exact H1|].
  exists m. split; [exact Em|]. rewrite H. destruct (random_index_correct XR _ _ _ _ Hd E) as (_ & HS & HB).
  apply li_line; [exact Hne|exact HS|]. intros i Hi. pose proof (HB i Hi) as [A _].
  assert (i <> 0%Z) by (intros ->; contradiction). assert (i <> (Z.of_nat n - 1)%Z) by (intros ->; contradiction). lia.
Qed.

Lemma rmean_repeat c n : (0 < n)%nat -> rmean (repeat c n) = c.
Proof.
  intros Hn. unfold rmean. rewrite repeat_length. assert (INR n <> 0) by (apply not_0_INR; lia).
  replace (Rsum (repeat c n)) with (INR n * c); [field; assumption|]. clear. induction n as [|n IH]; [cbn; ring|]. cbn [repeat Rsum]. rewrite <- IH, S_INR. ring.
Qed.
Lemma restore_mean (c : R) (n : nat) (r : list R) (p e : R) draws idx :
  c <> 0 -> (0 < n)%nat -> (forall i, In i draws -> (0 <= i < Z.of_nat n)%Z) -> length r = n -> (forall k, Rabs (nth k r 0) <= e) ->
  @random_index XR (Z.of_nat n) (Fin p) draws = Some (Ok idx) -> Nat.even (length idx) = false -> e * INR (length idx) < 2 * p ->
  exists m s x, @synthetic_noise XR (fins (repeat c n)) (Fin p) draws (fins r) = Some (Ok (fins m)) /\
    @mean_value XR DFloat (fins m) idx = Ok s /\ x <> c /\ forall i, In i idx -> nth_error s (Z.to_nat i) = Some (Fin x).
Proof.
  intros Hc Hn Hd Hr He E Hev Hs. assert (HZ : zlen (repeat c n) = Z.of_nat n) by (unfold zlen; rewrite repeat_length; reflexivity).
  assert (Hl : repeat c n <> []) by (destruct n; [lia|cbn; congruence]).
  destruct (noise_mean_odd (repeat c n) r p e draws idx) as (m & Em & _ & HM);
    [rewrite rmean_repeat by exact Hn; exact Hc|rewrite HZ; exact Hd|rewrite repeat_length; exact Hr|exact He|rewrite HZ; exact E|exact Hev|exact Hs|].
  rewrite rmean_repeat in HM by exact Hn.
  destruct (noise_same (repeat c n) r p draws idx Hl) as (m' & Em' & [HL _] & HS & HB); [rewrite HZ; exact Hd|rewrite repeat_length; exact Hr|rewrite HZ; exact E|].
  assert (EM : fins m = fins m') by congruence. assert (LM : length m = n) by (rewrite <- fins_length, EM, fins_length, HL, repeat_length; reflexivity).
  assert (HZm : zlen m = Z.of_nat n) by (unfold zlen; lia). rewrite HZ in HB.
  destruct (mean_value_exact m idx) as (s & F & Ls & K).
  - intros ->. cbn in LM. lia.
  - intros i Hi. specialize (HB i Hi). lia.
  - exists m, s, (rmean m). split; [exact Em|]. split; [exact F|]. split; [exact HM|]. intros i Hi. specialize (HB i Hi).
    apply K; [lia|]. exists i. split; [exact Hi|]. unfold addresses. lia.
Qed.
(** 40 percent of five samples are two, 20 percent one. *)
Lemma restore_hyp : @random_index XR 5 (Fin 40) [3; 3; 1]%Z = Some (Ok [1; 3]%Z) /\ @random_index XR 5 (Fin 20) [3; 3; 1]%Z = Some (Ok [3]%Z).
Proof.
  split; unfold random_index, spike_count; rewrite !xofZ_fin, xmul_fin, xdiv_fin by lra.
  - replace (IZR 5 * 40 / 100) with (IZR 2) by lra. cbn [nisnan nisfin XR negb].
    change (@nfloorZ XR (Fin (IZR 2))) with (Zfloor (IZR 2)). rewrite Zfloor_IZR. reflexivity.
  - replace (IZR 5 * 20 / 100) with (IZR 1) by lra. cbn [nisnan nisfin XR negb].
    change (@nfloorZ XR (Fin (IZR 1))) with (Zfloor (IZR 1)). rewrite Zfloor_IZR. reflexivity.
Qed.

Lemma lvd_const_N (N : Num) (c : N) n idx : StronglySorted Z.lt idx -> (forall i, In i idx -> (0 < i < Z.of_nat n)%Z) ->
  last_valid_data (repeat c n) idx = Ok (repeat c n).
Proof.
  intros HS HB. assert (HZ : zlen (repeat c n) = Z.of_nat n) by (unfold zlen; rewrite repeat_length; reflexivity).
  destruct (last_valid_nearest N (repeat c n) idx c HS) as (s & F & K); [rewrite HZ; exact HB|].
  rewrite F. f_equal. pose proof (last_valid_keeps N _ _ _ F) as [L1 K1]. rewrite repeat_length in L1.
  apply (list_eq_nth _ _ c); [rewrite repeat_length; exact L1|]. intros k Hk. rewrite L1 in Hk. rewrite nth_repeat'.
  destruct (in_zmem_dec (Z.of_nat k) idx) as [Hin|Hin].
  - destruct (last_valid_exists_before idx (Z.of_nat n) HB _ Hin) as (j & Hj & Hn & Hr).
    specialize (K (Z.of_nat k) j). rewrite Nat2Z.id, HZ in K. rewrite K by (assumption || lia). apply nth_repeat'.
  - assert (A : nth_error s k = nth_error (repeat c n) k).
    { apply K1; [rewrite repeat_length; exact Hk|]. intros (i & Hi & Ha). apply Hin. specialize (HB i Hi). unfold addresses in Ha. rewrite HZ in Ha. replace (Z.of_nat k) with i; [exact Hi|]. lia. }
    apply nth_error_nth. rewrite A. rewrite (nth_error_nth' _ c) by (rewrite repeat_length; exact Hk). rewrite nth_repeat'. reflexivity.
Qed.
Lemma restore_constant_N (N : Num) (c p : N) (n : nat) (r : list N) draws idx :
  nadd c (nofZ 0) = c -> (forall i, In i draws -> (0 <= i < Z.of_nat n)%Z) -> length r = n ->
  random_index (Z.of_nat n) p draws = Some (Ok idx) -> ~ In 0%Z idx ->
  exists m, synthetic_noise (repeat c n) p draws r = Some (Ok m) /\ last_valid_data m idx = Ok (repeat c n).
Proof.
  intros Hc Hd Hr E H0. assert (HZ : zlen (repeat c n) = Z.of_nat n) by (unfold zlen; rewrite repeat_length; reflexivity).
  destruct (random_index_correct N _ _ _ _ Hd E) as (_ & HS & HB).
  assert (HB1 : forall i, In i idx -> (0 < i < Z.of_nat n)%Z).
  { intros i Hi. specialize (HB i Hi). assert (i <> 0%Z) by (intros ->; contradiction). lia. }
  destruct (noise_effect N (repeat c n) p draws r idx) as (m & Em & Lm & H1 & _); [rewrite HZ; exact Hd|rewrite repeat_length; exact Hr|rewrite HZ; exact E|].
  exists m. split; [exact Em|]. rewrite <- (lvd_const_N N c n idx HS HB1).
  apply (lvd_indep N (repeat c n) m idx nnan HS); [rewrite HZ; exact HB1|]. split; [exact Lm|].
  intros i Hi Hn. rewrite H1 by assumption. rewrite HZ in Hi.
  rewrite (nth_indep (repeat c n) nnan c) by (rewrite repeat_length; lia). rewrite nth_repeat'. exact Hc.
Qed.
Lemma f64_add_zero (L : Libm) (c : F64 L) : is_nan c = false -> c <> B754_zero true -> @nadd (F64 L) c (nofZ 0) = c.
Proof. intros H K. destruct c as [[|]| | |]; try reflexivity; congruence. Qed.
Lemma restore_constant_f64 (L : Libm) (c p : F64 L) (n : nat) (r : list (F64 L)) draws idx :
  is_nan c = false -> c <> B754_zero true -> (forall i, In i draws -> (0 <= i < Z.of_nat n)%Z) -> length r = n ->
  random_index (Z.of_nat n) p draws = Some (Ok idx) -> ~ In 0%Z idx ->
  exists m, synthetic_noise (repeat c n) p draws r = Some (Ok m) /\ last_valid_data m idx = Ok (repeat c n).
Proof. intros H K. apply restore_constant_N, f64_add_zero; assumption. Qed.
