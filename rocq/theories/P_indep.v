(** Does a repaired record depend on the values of the spikes? (C160) *)
From Coq Require Import Reals Lra Psatz.
From Flocq Require Import Core.Raux.
From Verif Require Import Num NpBase Lib XR LibR Spec Spec32 M_descriptive M_series M_replacement P_series P_replacement P_interp P_order P_moment P_pipeline P_cubic P_sph.
Local Open Scope R_scope.

Lemma lvd_indep (N : Num) (v w : list N) idx d : StronglySorted Z.lt idx -> (forall i, In i idx -> (0 < i < zlen v)%Z) ->
  same_good idx v w d -> last_valid_data w idx = last_valid_data v idx.
Proof.
  intros HS HB [HL HG]. assert (HZ : zlen w = zlen v) by (unfold zlen; lia).
  destruct (last_valid_nearest N v idx d HS HB) as (r & E & H). destruct (last_valid_nearest N w idx d HS) as (s & F & K); [rewrite HZ; exact HB|].
  rewrite E, F. f_equal. pose proof (last_valid_keeps N _ _ _ E) as [L1 _]. pose proof (last_valid_keeps N _ _ _ F) as [L2 _].
  apply (list_eq_nth _ _ d); [lia|]. intros k Hk.
  assert (Hk' : (0 <= Z.of_nat k < zlen v)%Z) by (unfold zlen; lia).
  assert (HJ : exists j, (0 <= j <= Z.of_nat k)%Z /\ ~ In j idx /\ forall t, (j < t <= Z.of_nat k)%Z -> In t idx).
  { destruct (in_zmem_dec (Z.of_nat k) idx) as [Hin|Hin].
    - destruct (last_valid_exists_before idx (zlen v) HB _ Hin) as (j & Hj & Hn & Hr). exists j. split; [lia|]. split; assumption.
    - exists (Z.of_nat k). split; [lia|]. split; [exact Hin|]. intros t Ht. lia. }
  destruct HJ as (j & Hj & Hn & Hr).
  assert (HV : forall q s0, length q = length v -> last_valid_data q idx = Ok s0 ->
    (forall i j, (0 <= j < i)%Z -> (i < zlen q)%Z -> ~ In j idx -> (forall k, (j < k <= i)%Z -> In k idx) -> nth (Z.to_nat i) s0 d = nth (Z.to_nat j) q d) ->
    nth k s0 d = nth (Z.to_nat j) q d).
  { intros q s0 Hq Eq Hs. destruct (Z.eq_dec j (Z.of_nat k)) as [->|Hne].
    - rewrite Nat2Z.id. pose proof (last_valid_keeps N _ _ _ Eq) as [_ HK]. specialize (HK k ltac:(lia)).
      assert (HF : ~ flagged (zlen q) idx k).
      { intros (i & Hi & Ha). unfold addresses in Ha. pose proof (HB i Hi). apply Hn. replace (Z.of_nat k) with i by (unfold zlen in *; lia). exact Hi. }
      specialize (HK HF). rewrite !(nth_error_nth' _ d) in HK by (pose proof (last_valid_keeps N _ _ _ Eq) as [? _]; lia). injection HK as HK. exact HK.
    - rewrite <- (Nat2Z.id k) at 1. apply Hs; try assumption; try lia. unfold zlen in *. lia. }
  rewrite (HV w s HL F K), (HV v r eq_refl E H). symmetry. symmetry. apply HG; [lia | exact Hn].
Qed.

Lemma li_indep (l m : list R) idx dec : StronglySorted Z.lt idx -> (forall i, In i idx -> (0 <= i < zlen l - 1)%Z) ->
  same_good idx l m 0 -> @linear_interpolation XR DFloat (fins m) idx dec = @linear_interpolation XR DFloat (fins l) idx dec.
Proof.
  intros HS HB [HL HG]. assert (HZ : zlen m = zlen l) by (unfold zlen; lia).
  destruct idx as [|i0 idx0]; [rewrite !li_empty; reflexivity|]. set (idx := i0 :: idx0) in *.
  destruct (li_exact l idx dec) as (r & E & L1 & A1 & A2); [discriminate | exact HS | intros i Hi; specialize (HB i Hi); lia |].
  destruct (li_exact m idx dec) as (s & F & L2 & B1 & B2); [discriminate | exact HS | intros i Hi; specialize (HB i Hi); lia |].
  rewrite E, F. do 2 f_equal. apply (list_eq_nth _ _ (Fin 0 : XR)); [lia|]. intros k Hk. rewrite <- (Nat2Z.id k).
  change (car XR) with xr in *.
  assert (Hk' : (0 <= Z.of_nat k < zlen l)%Z) by (unfold zlen; lia).
  destruct (in_zmem_dec (Z.of_nat k) idx) as [Hin|Hin].
  - destruct (run_exists idx (zlen l) (Z.of_nat k)) as (a & b & Ha & Hb & R1 & R2 & R3); [intros i Hi; specialize (HB i Hi); lia | exact Hin|].
    rewrite (A2 a b), (B2 a b) by (try assumption; lia). rewrite HZ.
    assert (Hb1 : (b < zlen l - 1)%Z) by (apply HB, R1; lia).
    replace (b <? zlen l - 1)%Z with true by (symmetry; apply Z.ltb_lt; exact Hb1).
    rewrite (HG (b + 1)%Z) by (try assumption; lia).
    destruct (Z.gtb_spec a 0) as [Hg|Hg].
    + rewrite (HG (a - 1)%Z) by (try assumption; lia). reflexivity.
    + reflexivity.
  - rewrite A1, B1 by (try assumption; lia). rewrite HG by assumption. reflexivity.
Qed.

Lemma bump_length l k d : (k < length l)%nat -> length (bump l k d) = length l.
Proof. intros H. unfold bump. rewrite app_length, firstn_length. cbn [length]. rewrite skipn_length. lia. Qed.
Lemma nth_bump l k d j : (k < length l)%nat -> nth j (bump l k d) 0 = nth j l 0 + (if Nat.eqb j k then d else 0).
Proof.
  intros H. unfold bump. destruct (Nat.eqb_spec j k) as [->|Hn].
  - rewrite app_nth2 by (rewrite firstn_length; lia). rewrite firstn_length, Nat.min_l by lia. rewrite Nat.sub_diag. reflexivity.
  - rewrite Rplus_0_r. destruct (Nat.lt_ge_cases j k) as [Hj|Hj].
    + rewrite app_nth1 by (rewrite firstn_length; lia). rewrite <- (firstn_skipn k l) at 2. rewrite app_nth1 by (rewrite firstn_length; lia). reflexivity.
    + rewrite app_nth2 by (rewrite firstn_length; lia). rewrite firstn_length, Nat.min_l by lia.
      replace (j - k)%nat with (S (j - S k)) by lia. cbn [nth]. rewrite nth_skipn. f_equal. lia.
Qed.
Lemma Rsum_bump l k d : (k < length l)%nat -> Rsum (bump l k d) = Rsum l + d.
Proof.
  intros H. unfold bump. rewrite Rsum_app. cbn [Rsum]. rewrite <- (firstn_skipn k l) at 4. rewrite Rsum_app.
  rewrite (skipn_nth_cons l k 0 H). cbn [Rsum]. ring.
Qed.

(** ** Replacements that contain part of the spike *)
Lemma bump_ne l k d : (k < length l)%nat -> bump l k d <> [].
Proof. intros H E. pose proof (bump_length l k d H) as HL. rewrite E in HL. cbn in HL. lia. Qed.
Lemma zlen_bump l k d : (k < length l)%nat -> zlen (bump l k d) = zlen l.
Proof. intros H. unfold zlen. rewrite bump_length by exact H. reflexivity. Qed.
Lemma mean_leak (l : list R) k d idx : (k < length l)%nat -> in_bounds (zlen l) idx ->
  exists r s, @mean_value XR DFloat (fins l) idx = Ok r /\ @mean_value XR DFloat (fins (bump l k d)) idx = Ok s /\
    forall j, (j < length l)%nat -> flagged (zlen l) idx j ->
      exists x, nth_error r j = Some (Fin x) /\ nth_error s j = Some (Fin (x + d / INR (length l))).
Proof.
  intros Hk HB. assert (Hl : l <> []) by (intros ->; cbn in Hk; lia).
  destruct (mean_value_exact l idx Hl HB) as (r & E & _ & H).
  destruct (mean_value_exact (bump l k d) idx (bump_ne l k d Hk)) as (s & F & _ & K); [rewrite zlen_bump by exact Hk; exact HB|].
  exists r, s. split; [exact E|]. split; [exact F|]. intros j Hj Hf. exists (rmean l). split; [apply H; assumption|].
  rewrite K by (rewrite ?bump_length, ?zlen_bump by exact Hk; assumption). do 2 f_equal.
  unfold rmean. rewrite Rsum_bump, bump_length by exact Hk. unfold Rdiv. ring.
Qed.

Lemma Rsum_map_ext_bump (f g : nat -> R) (ns : list nat) k d : NoDup ns -> In k ns ->
  (forall j, In j ns -> g j = f j + (if Nat.eqb j k then d else 0)) -> Rsum (map g ns) = Rsum (map f ns) + d.
Proof.
  assert (H0 : forall ns, ~ In k ns -> (forall j, In j ns -> g j = f j + (if Nat.eqb j k then d else 0)) -> Rsum (map g ns) = Rsum (map f ns)).
  { intros ms Hn H. f_equal. apply map_ext_in. intros j Hj. rewrite H by exact Hj. destruct (Nat.eqb_spec j k) as [->|_]; [contradiction|]. ring. }
  induction ns as [|n ns IH]; intros HN Hin H; [destruct Hin|]. inversion HN as [|a b Hna HN']; subst. cbn [map Rsum].
  rewrite H by (left; reflexivity). destruct (Nat.eqb_spec n k) as [->|Hne].
  - rewrite H0; [ring | exact Hna | intros j Hj; apply H; right; exact Hj].
  - rewrite IH; [ring | exact HN' | destruct Hin; [contradiction|assumption] | intros j Hj; apply H; right; exact Hj].
Qed.
Lemma window_map (l : list R) w i : (i < length l)%nat -> (0 < w)%nat ->
  rwindow l w i = map (fun j => nth (S i - w + j) l 0) (seq 0 (Nat.min (S i) w)).
Proof.
  intros Hi Hw. unfold rwindow. apply (list_eq_nth _ _ 0).
  - rewrite map_length, seq_length, firstn_length, skipn_length. lia.
  - intros j Hj. rewrite firstn_length, skipn_length in Hj. rewrite nth_firstn_skipn by lia.
    rewrite (nth_map_in _ _ _ O) by (rewrite seq_length; lia). rewrite seq_nth by lia. reflexivity.
Qed.
Lemma sma_leak (l : list R) k d idx w : (k < length l)%nat -> (0 < w <= zlen l)%Z -> in_bounds (zlen l) idx ->
  exists r s, @repl_sma XR DFloat (fins l) idx w = Ok r /\ @repl_sma XR DFloat (fins (bump l k d)) idx w = Ok s /\
    forall j, (k <= j < length l)%nat -> (Z.of_nat j < Z.of_nat k + w)%Z -> flagged (zlen l) idx j ->
      exists x, nth_error r j = Some (Fin x) /\ nth_error s j = Some (Fin (x + d / INR (Nat.min (S j) (Z.to_nat w)))).
Proof.
  intros Hk Hw HB. destruct (sma_repl_exact l w idx Hw HB) as (r & E & _ & H).
  destruct (sma_repl_exact (bump l k d) w idx) as (s & F & _ & K); [rewrite zlen_bump by exact Hk; exact Hw | rewrite zlen_bump by exact Hk; exact HB|].
  exists r, s. split; [exact E|]. split; [exact F|]. intros j Hj Hjw Hf. exists (rmean (rwindow l (Z.to_nat w) j)). split; [apply H; [lia|assumption]|].
  rewrite K by (rewrite ?bump_length, ?zlen_bump by exact Hk; try lia; assumption). do 2 f_equal.
  rewrite !window_map by (rewrite ?bump_length by exact Hk; lia). unfold rmean. rewrite !map_length, seq_length.
  rewrite (Rsum_map_ext_bump (fun j0 => nth (S j - Z.to_nat w + j0) l 0) _ _ (k - (S j - Z.to_nat w)) d).
  - unfold Rdiv. ring.
  - apply seq_NoDup.
  - apply in_seq. lia.
  - intros t Ht. apply in_seq in Ht. cbv beta. rewrite nth_bump by exact Hk. f_equal.
    destruct (Nat.eqb_spec (S j - Z.to_nat w + t) k), (Nat.eqb_spec t (k - (S j - Z.to_nat w))); try reflexivity; lia.
Qed.

Lemma rema_bump a l k d : (k < length l)%nat -> forall j, (j < k)%nat /\ rema a (bump l k d) j = rema a l j \/
  (k <= j)%nat /\ rema a (bump l k d) j = rema a l j + ema_weight a j k * d.
Proof.
  intros Hk. induction j as [|j IH].
  - cbn [rema]. rewrite nth_bump by exact Hk. destruct k as [|k]; [right|left].
    + split; [lia|]. cbn. ring.
    + split; [lia|]. cbn. ring.
  - cbn [rema]. rewrite nth_bump by exact Hk. destruct IH as [[Hj IH]|[Hj IH]]; rewrite IH.
    + destruct (Nat.eqb_spec (S j) k) as [<-|Hn].
      * right. split; [lia|]. cbn [ema_weight]. rewrite Nat.sub_diag. cbn [pow]. ring.
      * left. split; [lia|]. ring.
    + right. split; [lia|]. destruct (Nat.eqb_spec (S j) k) as [Hc|_]; [lia|].
      destruct k as [|k]; cbn [ema_weight].
      * cbn [pow]. ring.
      * replace (S j - S k)%nat with (S (j - S k)) by lia. cbn [pow]. ring.
Qed.
Lemma ema_leak (l : list R) k d idx a : (k < length l)%nat -> 0 < a <= 1 -> in_bounds (zlen l) idx ->
  exists r s, @repl_ema XR DFloat (fins l) idx (Fin a) = Ok r /\ @repl_ema XR DFloat (fins (bump l k d)) idx (Fin a) = Ok s /\
    forall j, (k <= j < length l)%nat -> flagged (zlen l) idx j ->
      exists x, nth_error r j = Some (Fin x) /\ nth_error s j = Some (Fin (x + ema_weight a j k * d)).
Proof.
  intros Hk Ha HB. assert (Hl : l <> []) by (intros ->; cbn in Hk; lia).
  destruct (ema_repl_exact l a idx Ha Hl HB) as (r & E & _ & H).
  destruct (ema_repl_exact (bump l k d) a idx Ha (bump_ne l k d Hk)) as (s & F & _ & K); [rewrite zlen_bump by exact Hk; exact HB|].
  exists r, s. split; [exact E|]. split; [exact F|]. intros j Hj Hf. exists (rema a l j). split; [apply H; [lia|assumption]|].
  rewrite K by (rewrite ?bump_length, ?zlen_bump by exact Hk; try lia; assumption). do 2 f_equal.
  destruct (rema_bump a l k d Hk j) as [[Hc _]|[_ Hc]]; [lia | exact Hc].
Qed.
Lemma median_leak x : 0 <= x <= 10 -> @median_value XR DFloat (fins [0; x; 10]) [1%Z] = Ok (fins [0; x; 10]).
Proof.
  intros Hx. unfold median_value. rewrite (median_correct [0; x; 10] [0; x; 10]).
  - cbn [bind storable]. reflexivity.
  - discriminate.
  - split; [apply Permutation.Permutation_refl|]. constructor; [constructor; [constructor; [constructor|]|]|]; repeat (apply Forall_cons || apply Forall_nil); lra.
Qed.
Lemma trailing_leak (l : list R) idx dec a k d : StronglySorted Z.lt idx -> (forall i, In i idx -> (0 <= i < zlen l)%Z) ->
  (0 <= a < zlen l)%Z -> (forall j, (a <= j < zlen l)%Z -> In j idx) -> ~ In (a - 1)%Z idx -> (k < length l)%nat ->
  exists r s, @linear_interpolation XR DFloat (fins l) idx dec = Ok r /\ @linear_interpolation XR DFloat (fins (bump l k d)) idx dec = Ok s /\
    forall j, (a <= j < zlen l)%Z -> nth_error r (Z.to_nat j) = Some (Fin (round_dec dec (rmean l))) /\
      nth_error s (Z.to_nat j) = Some (Fin (round_dec dec (rmean l + d / INR (length l)))).
Proof.
  intros HS HB Ha Hin Hn Hk. destruct (li_trailing l idx dec a HS HB Ha Hin Hn) as (r & E & H).
  pose proof (zlen_bump l k d Hk) as HZ.
  destruct (li_trailing (bump l k d) idx dec a HS) as (s & F & K); try (rewrite HZ; assumption); try assumption.
  exists r, s. split; [exact E|]. split; [exact F|]. intros j Hj. split; [apply H; exact Hj|]. rewrite K by (rewrite HZ; exact Hj).
  do 3 f_equal. unfold rmean. rewrite Rsum_bump, bump_length by exact Hk. unfold Rdiv. ring.
Qed.
Lemma cubic_leak spline (k : Z) : @cubic_12points_polynomial XR spline DFloat (fins [0; IZR (2 * k); 7; 0]) [1; 2]%Z 4 = Ok (fins [0; 0; IZR k; 0]).
Proof.
  assert (A : forall z, @around XR (Fin (IZR z)) 4 = Fin (IZR z)).
  { intros z. rewrite around_fin, round4_int. reflexivity. }
  assert (S1 : @cubic_step XR spline (fins [0; IZR (2 * k); 7; 0]) [Fin 0; NaN; NaN; Fin 0] 1 = Ok [Fin 0; Fin 0; NaN; Fin 0]).
  { transitivity (@Ok (list xr) [Fin 0; @around XR (@ndiv XR (@nadd XR (Fin 0) (Fin 0)) (@nofZ XR 2)) 4; NaN; Fin 0]); [reflexivity|].
    rewrite xadd_fin, xofZ_fin, xdiv_fin by lra. replace ((0 + 0) / 2) with (IZR 0) by lra. rewrite A. reflexivity. }
  assert (S2 : @cubic_step XR spline (fins [0; IZR (2 * k); 7; 0]) [Fin 0; Fin 0; NaN; Fin 0] 2 = Ok [Fin 0; Fin 0; Fin (IZR k); Fin 0]).
  { transitivity (@Ok (list xr) [Fin 0; Fin 0; @around XR (@ndiv XR (@nadd XR (Fin (IZR (2 * k))) (Fin 0)) (@nofZ XR 2)) 4; Fin 0]); [reflexivity|].
    rewrite xadd_fin, xofZ_fin, xdiv_fin by lra. replace ((IZR (2 * k) + 0) / 2) with (IZR k) by (rewrite mult_IZR; lra). rewrite A. reflexivity. }
  unfold cubic_12points_polynomial. change (@fancy_set XR (fins [0; IZR (2 * k); 7; 0]) [1; 2]%Z (@nnan XR)) with (@Ok (list xr) [Fin 0; NaN; NaN; Fin 0]).
  cbn [bind foldM]. change (car XR) with xr in *. rewrite S1. cbn [bind]. rewrite S2. cbn [bind map fins]. rewrite A. change (Fin 0) with (Fin (IZR 0)). rewrite !A. reflexivity.
Qed.
Lemma pyslice_ext {A} (v w : list A) a b d : length w = length v -> (0 <= a <= b)%Z -> (b <= zlen v)%Z ->
  (forall j, (a <= Z.of_nat j < b)%Z -> nth j w d = nth j v d) -> pyslice w a b = pyslice v a b.
Proof.
  intros HL Ha Hb H. rewrite !pyslice_nonneg by (unfold zlen in *; lia). unfold zlen in Hb. apply (list_eq_nth _ _ d).
  - rewrite !firstn_length, !skipn_length. lia.
  - intros k Hk. rewrite firstn_length, skipn_length in Hk. rewrite !nth_firstn_skipn by lia. apply H. lia.
Qed.
Lemma cubic_indep (N : Num) spline (v w : list N) i dec d : (0 < i < zlen v)%Z -> same_good [i] v w d ->
  cubic_12points_polynomial spline DFloat w [i] dec = cubic_12points_polynomial spline DFloat v [i] dec.
Proof.
  intros Hi [HL HG]. assert (HZ : zlen w = zlen v) by (unfold zlen; lia).
  unfold cubic_12points_polynomial, fancy_set. cbn [foldM]. rewrite !setz_ok by lia. cbn [bind].
  assert (HU : upd w (Z.to_nat i) nnan = upd v (Z.to_nat i) nnan).
  { apply (list_eq_nth _ _ d); [rewrite !upd_length; exact HL|]. rewrite upd_length. intros k Hk.
    destruct (Nat.eq_dec k (Z.to_nat i)) as [->|Hn]; [rewrite !nth_upd_same by (unfold zlen in *; lia); reflexivity|].
    rewrite !nth_upd_other by lia. rewrite <- (Nat2Z.id k). apply HG; [unfold zlen; lia|]. intros [E|[]]. lia. }
  rewrite HU. set (m := upd v (Z.to_nat i) nnan). unfold cubic_step. rewrite HZ.
  destruct ((i <=? 30)%Z || (i >=? zlen v - 30)%Z)%bool eqn:EB.
  - rewrite (getz_ok w (i - 1) d), (getz_ok v (i - 1) d) by lia. rewrite HG by (try lia; intros [E|[]]; lia). reflexivity.
  - apply Bool.orb_false_iff in EB. destruct EB as [E1 E2]. apply Z.leb_gt in E1.
    rewrite (pyslice_ext v w (i - 13) i d HL); [reflexivity | lia | lia|]. intros j Hj. rewrite <- (Nat2Z.id j). apply HG; [lia|]. intros [E|[]]. lia.
Qed.
