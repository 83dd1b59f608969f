(** Lemmas about series._diagonal_average, _mobility and ssa. *)
From Coq Require Import Reals Lra.
From Flocq Require Import Core.Raux.
From Verif Require Export P_series.
Local Open Scope Z_scope.

Definition rent (rows : list (list R)) (i j : nat) : R := nth j (nth i rows []) 0%R.

Lemma mshape_row rows L K i : mshape rows L K -> (i < L)%nat -> length (nth i rows []) = K.
Proof. intros [H1 H2] Hi. apply H2, nth_In. lia. Qed.
Lemma mget_finm rows L K i j : mshape rows L K -> 0 <= i < Z.of_nat L -> 0 <= j < Z.of_nat K ->
  mget (finm rows) i j = Ok (Fin (rent rows (Z.to_nat i) (Z.to_nat j))).
Proof.
  intros HS Hi Hj. unfold mget, finm.
  assert (Hl : (Z.to_nat i < L)%nat) by lia.
  pose proof (mshape_row rows L K (Z.to_nat i) HS Hl) as Hr. destruct HS as [H1 H2].
  rewrite (getz_ok _ i (fins [])) by (rewrite zlen_map; unfold zlen; lia).
  rewrite (map_nth fins). cbn [bind].
  rewrite (getz_ok _ j (Fin 0)) by (rewrite zlen_fins; unfold zlen; lia).
  rewrite fins_nth. reflexivity.
Qed.

Lemma diag_total_fin rows L K js (f : Z -> Z) : mshape rows L K ->
  (forall j, In j js -> 0 <= j < Z.of_nat L /\ 0 <= f j < Z.of_nat K) ->
  diag_total (finm rows) js f = Ok (Fin (Rsum (map (fun j => rent rows (Z.to_nat j) (Z.to_nat (f j))) js))).
Proof.
  intros HS Hjs. unfold diag_total. rewrite xofZ_fin.
  assert (H : forall a, foldM (fun total j => let* x := mget (finm rows) j (f j) in Ok (nadd total x)) (Fin a : XR) js
     = Ok (Fin (a + Rsum (map (fun j => rent rows (Z.to_nat j) (Z.to_nat (f j))) js)))).
  { induction js as [|j js IH]; intros a; cbn [foldM map Rsum].
    - do 2 f_equal. lra.
    - destruct (Hjs j (or_introl eq_refl)) as [Hj1 Hj2].
      rewrite (mget_finm rows L K) by assumption. cbn [bind].
      rewrite xadd_fin, IH.
      + do 2 f_equal. lra.
      + intros j' Hj'. apply Hjs. right. exact Hj'. }
  rewrite H. do 2 f_equal. lra.
Qed.

Lemma filter_seq_interval L lo hi : (hi <= L)%nat ->
  filter (fun r => Nat.leb lo r && Nat.ltb r hi) (seq 0 L) = seq lo (hi - lo).
Proof.
  revert hi. induction L as [|L IH]; intros hi H.
  - replace (hi - lo)%nat with O by lia. reflexivity.
  - rewrite seq_S, filter_app. cbn [filter Nat.add].
    destruct (Nat.eq_dec hi (S L)) as [->|Hne].
    + destruct (Nat.leb_spec lo L) as [Hlo|Hlo]; cbn [andb].
      * rewrite (proj2 (Nat.ltb_lt L (S L))) by lia.
        replace (S L - lo)%nat with (S (L - lo)) by lia. rewrite seq_S.
        replace (lo + (L - lo))%nat with L by lia. f_equal.
        rewrite <- (IH L (le_n _)). apply filter_ext_in. intros r Hr. apply in_seq in Hr.
        f_equal. rewrite (proj2 (Nat.ltb_lt r (S L))), (proj2 (Nat.ltb_lt r L)) by lia. reflexivity.
      * replace (S L - lo)%nat with O by lia. cbn [seq].
        rewrite app_nil_r. specialize (IH O (Nat.le_0_l L)). cbn [Nat.sub seq] in IH. rewrite <- IH.
        apply filter_ext_in. intros r Hr. apply in_seq in Hr.
        rewrite (proj2 (Nat.leb_gt lo r)) by lia. reflexivity.
    + rewrite (IH hi) by lia. rewrite (proj2 (Nat.ltb_ge L hi)) by lia. rewrite andb_false_r. apply app_nil_r.
Qed.

Lemma antidiag_seq rows L K t : (0 < K)%nat ->
  antidiag rows L K t = map (fun r => rent rows r (t - r)) (seq (S t - K) (Nat.min L (S t) - (S t - K))).
Proof.
  intros HK. unfold antidiag, rent. f_equal.
  rewrite <- (filter_seq_interval L) by lia. apply filter_ext_in. intros r Hr. apply in_seq in Hr.
  destruct (Nat.leb_spec r t), (Nat.ltb_spec (t - r) K), (Nat.leb_spec (S t - K) r), (Nat.ltb_spec r (Nat.min L (S t)));
    cbn; try reflexivity; lia.
Qed.
Lemma antidiag_length rows L K t : (0 < K)%nat -> length (antidiag rows L K t) = (Nat.min L (S t) - (S t - K))%nat.
Proof. intros HK. rewrite antidiag_seq by exact HK. rewrite map_length, seq_length. reflexivity. Qed.

Lemma zrange_seq (g : Z -> R) (h : nat -> R) a b : 0 <= a ->
  (forall k, (Z.to_nat a <= k < Z.to_nat b)%nat -> g (Z.of_nat k) = h k) ->
  Rsum (map g (zrange a b)) = Rsum (map h (seq (Z.to_nat a) (Z.to_nat b - Z.to_nat a))).
Proof.
  intros Ha H. f_equal. apply (nth_ext_len _ _ 0%R).
  - rewrite !map_length, zrange_length, seq_length. lia.
  - intros k Hk. rewrite map_length, zrange_length in Hk.
    rewrite (nth_map_in g (zrange a b) k 0) by (rewrite zrange_length; lia).
    rewrite (nth_map_in h _ k O) by (rewrite seq_length; lia).
    rewrite nth_zrange by lia. rewrite seq_nth by lia. rewrite <- H by lia. f_equal. lia.
Qed.

(** The three loops on an a x b matrix with a <= b. *)
Definition diag_loops (t : @matrix XR) (min_length max_length size : Z) (fr : list XR) : res (list XR) :=
  let* frequencies := foldM (fun fr i =>
      let* total := diag_total t (zrange 0 i) (fun j => i - 1 - j)%Z in
      setz fr (i - 1) (nmul (ndiv (nofZ 1) (nofZ i)) total)) fr (zrange 1 min_length) in
  let* frequencies := foldM (fun fr i =>
      let* total := diag_total t (zrange 0 min_length) (fun j => i - 1 - j)%Z in
      setz fr (i - 1) (nmul (ndiv (nofZ 1) (nofZ min_length)) total)) frequencies (zrange min_length (max_length + 1)) in
  foldM (fun fr i =>
      let* total := diag_total t (zrange (i - max_length + 1) (size - max_length + 1)) (fun j => i - j)%Z in
      setz fr i (nmul (ndiv (nofZ 1) (nofZ (size - i))) total)) frequencies (zrange max_length size).

Lemma diagonal_average_loops m cols length_ size : diagonal_average m cols length_ size =
  (let* fr := diag_loops (if (length_ <? size - length_ + 1)%Z then m else transpose cols m)
     (Z.min length_ (size - length_ + 1)) (Z.max length_ (size - length_ + 1)) size (repeat (nofZ 0) (Z.to_nat size)) in
   Ok (map (fun x => around x 4) fr)).
Proof.
  unfold diagonal_average, diag_loops.
  set (l1 := foldM _ _ (zrange 1 _)). destruct l1 as [a|e]; cbn [bind]; [|reflexivity].
  set (l2 := foldM _ _ (zrange _ (_ + 1))). destruct l2 as [b|e]; cbn [bind]; reflexivity.
Qed.

Lemma scaled_total (i : Z) (S : R) (l : list R) : IZR i <> 0%R -> INR (length l) = IZR i -> S = Rsum l ->
  @nmul XR (ndiv (nofZ 1) (nofZ i)) (Fin S) = Fin (rmean l).
Proof.
  intros Hi Hl ->. rewrite !xofZ_fin. rewrite xdiv_fin by exact Hi. rewrite xmul_fin. f_equal. unfold rmean. rewrite Hl.
  field. exact Hi.
Qed.

Lemma foldM_fill_shift {A} (f : list A -> Z -> res (list A)) (v : Z -> A) a b (s : list A) d :
  1 <= a <= b -> b - 1 <= zlen s ->
  (forall i s', a <= i < b -> length s' = length s -> f s' i = setz s' (i - 1) (v (i - 1))) ->
  exists s', foldM f s (zrange a b) = Ok s' /\ length s' = length s /\
     (forall j, a - 1 <= j < b - 1 -> nth (Z.to_nat j) s' d = v j) /\
     (forall j, (0 <= j < a - 1 \/ b - 1 <= j) -> nth (Z.to_nat j) s' d = nth (Z.to_nat j) s d).
Proof.
  intros Hab Hb Hf.
  destruct (foldM_range_inv f (fun i s' => length s' = length s /\
     (forall j, a - 1 <= j < i - 1 -> nth (Z.to_nat j) s' d = v j) /\
     (forall j, (0 <= j < a - 1 \/ i - 1 <= j) -> nth (Z.to_nat j) s' d = nth (Z.to_nat j) s d)) a b s) as (s' & E & H).
  - lia.
  - split; [reflexivity|]. split; [lia|]. intros j _. reflexivity.
  - intros i s' Hi (HL & H1 & H2). rewrite (Hf i s' Hi HL).
    assert (Hz : zlen s' = zlen s) by (unfold zlen; lia).
    rewrite setz_ok by lia. eexists. split; [reflexivity|].
    split; [rewrite upd_length; exact HL|]. unfold zlen in *. split.
    + intros j Hj. destruct (Z.eq_dec j (i - 1)) as [->|Hne].
      * apply nth_upd_same. lia.
      * rewrite nth_upd_other by lia. apply H1. lia.
    + intros j Hj. rewrite nth_upd_other by lia. apply H2. lia.
  - exists s'. split; [exact E | exact H].
Qed.

Lemma diag_loops_correct rows (a b : nat) : (1 <= a <= b)%nat -> mshape rows a b ->
  forall fr : list XR, length fr = (a + b - 1)%nat ->
  diag_loops (finm rows) (Z.of_nat a) (Z.of_nat b) (Z.of_nat (a + b - 1)) fr =
  Ok (fins (map (fun t => rmean (antidiag rows a b t)) (seq 0 (a + b - 1)))).
Proof.
  intros Hab HS fr Hfr. unfold diag_loops.
  set (n := (a + b - 1)%nat) in *.
  set (v := fun i : Z => Fin (rmean (antidiag rows a b (Z.to_nat i))) : XR).
  destruct (foldM_fill_shift (fun fr i =>
      let* total := diag_total (finm rows) (zrange 0 i) (fun j => i - 1 - j)%Z in
      setz fr (i - 1) (nmul (ndiv (nofZ 1) (nofZ i)) total)) v 1 (Z.of_nat a) fr (Fin 0)) as (s1 & E1 & HL1 & H1 & _).
  { lia. } { unfold zlen. lia. }
  { intros i s' Hi _. rewrite (diag_total_fin rows a b) by (try assumption; intros j Hj; apply in_zrange in Hj; lia).
    cbn [bind]. f_equal. unfold v. apply scaled_total.
    - apply not_0_IZR. lia.
    - rewrite antidiag_length by lia. rewrite INR_IZR_INZ. f_equal. lia.
    - rewrite antidiag_seq by lia.
      rewrite (zrange_seq _ (fun r => rent rows r (Z.to_nat (i - 1) - r))).
      + f_equal. f_equal. f_equal; lia.
      + lia.
      + intros k Hk. f_equal; lia. }
  rewrite E1. cbn [bind].
  destruct (foldM_fill_shift (fun fr i =>
      let* total := diag_total (finm rows) (zrange 0 (Z.of_nat a)) (fun j => i - 1 - j)%Z in
      setz fr (i - 1) (nmul (ndiv (nofZ 1) (nofZ (Z.of_nat a))) total)) v (Z.of_nat a) (Z.of_nat b + 1) s1 (Fin 0)) as (s2 & E2 & HL2 & H2 & H2').
  { lia. } { unfold zlen. lia. }
  { intros i s' Hi _. rewrite (diag_total_fin rows a b) by (try assumption; intros j Hj; apply in_zrange in Hj; lia).
    cbn [bind]. f_equal. unfold v. apply scaled_total.
    - apply not_0_IZR. lia.
    - rewrite antidiag_length by lia. rewrite INR_IZR_INZ. f_equal. lia.
    - rewrite antidiag_seq by lia.
      rewrite (zrange_seq _ (fun r => rent rows r (Z.to_nat (i - 1) - r))).
      + f_equal. f_equal. f_equal; lia.
      + lia.
      + intros k Hk. f_equal; lia. }
  rewrite E2. cbn [bind].
  destruct (foldM_fill (fun fr i =>
      let* total := diag_total (finm rows) (zrange (i - Z.of_nat b + 1) (Z.of_nat n - Z.of_nat b + 1)) (fun j => i - j)%Z in
      setz fr i (nmul (ndiv (nofZ 1) (nofZ (Z.of_nat n - i))) total)) v (Z.of_nat b) (Z.of_nat n) s2 (Fin 0)) as (s3 & E3 & HL3 & H3 & H3').
  { lia. } { unfold zlen. lia. }
  { intros i s' Hi _ _ _. rewrite (diag_total_fin rows a b) by (try assumption; intros j Hj; apply in_zrange in Hj; lia).
    cbn [bind]. f_equal. unfold v. apply scaled_total.
    - apply not_0_IZR. lia.
    - rewrite antidiag_length by lia. rewrite INR_IZR_INZ. f_equal. lia.
    - rewrite antidiag_seq by lia.
      rewrite (zrange_seq _ (fun r => rent rows r (Z.to_nat i - r))).
      + f_equal. f_equal. f_equal; lia.
      + lia.
      + intros k Hk. f_equal; lia. }
  rewrite E3. f_equal. apply fins_build; [lia|].
  intros k Hk. rewrite <- (Nat2Z.id k) at 1.
  assert (Hv : v (Z.of_nat k) = Fin (rmean (antidiag rows a b k))) by (unfold v; rewrite Nat2Z.id; reflexivity).
  rewrite <- Hv.
  destruct (Z_lt_le_dec (Z.of_nat k) (Z.of_nat b)) as [Hb|Hb]; [|apply H3; lia].
  rewrite H3' by lia.
  destruct (Z_lt_le_dec (Z.of_nat k) (Z.of_nat a - 1)) as [Ha|Ha]; [|apply H2; lia].
  rewrite H2' by lia. apply H1. lia.
Qed.

Definition rcol (rows : list (list R)) (j : nat) : list R := map (fun r => nth j r 0%R) rows.
Definition rtranspose (K : nat) (rows : list (list R)) : list (list R) := map (rcol rows) (seq 0 K).
Lemma col_finm rows j : col (finm rows) j = fins (rcol rows j).
Proof.
  unfold col, finm, rcol, fins. rewrite !map_map. apply map_ext. intros r. rewrite xofZ_fin. exact (fins_nth r j).
Qed.
Lemma transpose_finm K rows : transpose K (finm rows) = finm (rtranspose K rows).
Proof.
  unfold transpose, rtranspose, finm at 2. rewrite map_map. apply map_ext. intros j. apply col_finm.
Qed.
Lemma rtranspose_shape L K rows : mshape rows L K -> mshape (rtranspose K rows) K L.
Proof.
  intros [H1 H2]. split; [unfold rtranspose; rewrite map_length, seq_length; reflexivity|].
  intros r Hr. unfold rtranspose in Hr. apply in_map_iff in Hr. destruct Hr as (j & <- & _).
  unfold rcol. rewrite map_length. exact H1.
Qed.
Lemma rent_transpose L K rows i j : mshape rows L K -> (i < K)%nat -> (j < L)%nat -> rent (rtranspose K rows) i j = rent rows j i.
Proof.
  intros [H1 H2] Hi Hj. unfold rent, rtranspose. rewrite (nth_map_in (rcol rows) (seq 0 K) i O) by (rewrite seq_length; exact Hi).
  rewrite seq_nth by exact Hi. unfold rcol. cbn [Nat.add].
  rewrite (nth_map_in (fun r => nth i r 0%R) rows j []) by lia. reflexivity.
Qed.
Lemma Rsum_rev l : Rsum (rev l) = Rsum l.
Proof. apply Rsum_perm, Permutation_sym, Permutation_rev. Qed.
Lemma Rsum_seq_reflect (g : nat -> R) lo n t : (lo + n <= S t)%nat ->
  Rsum (map (fun j => g (t - j)%nat) (seq lo n)) = Rsum (map g (seq (S t - (lo + n)) n)).
Proof.
  revert lo. induction n as [|n IH]; intros lo H; [reflexivity|].
  cbn [seq map Rsum]. rewrite IH by lia.
  replace (S t - (lo + S n))%nat with (t - (lo + n))%nat by lia.
  change (g (t - (lo + n))%nat + Rsum (map g (seq (S (t - (lo + n))) n)))%R with (Rsum (map g (seq (t - (lo + n)) (S n)))).
  rewrite seq_S, map_app, Rsum_app. cbn [map Rsum].
  replace (t - (lo + n) + n)%nat with (t - lo)%nat by lia.
  replace (S t - (S lo + n))%nat with (t - (lo + n))%nat by lia. lra.
Qed.
Lemma antidiag_transpose L K rows t : mshape rows L K -> (0 < L)%nat -> (0 < K)%nat -> (t < L + K - 1)%nat ->
  rmean (antidiag (rtranspose K rows) K L t) = rmean (antidiag rows L K t).
Proof.
  intros HS HL HK Ht. unfold rmean. rewrite !antidiag_length by assumption.
  replace (Nat.min K (S t) - (S t - L))%nat with (Nat.min L (S t) - (S t - K))%nat by lia. f_equal.
  rewrite !antidiag_seq by assumption.
  rewrite (Rsum_ext _ (fun r => rent rows (t - r) (t - (t - r)))).
  - rewrite (Rsum_seq_reflect (fun r => rent rows r (t - r))) by lia. f_equal. f_equal. f_equal; lia.
  - intros r Hr. apply in_seq in Hr. rewrite (rent_transpose L K) by (try assumption; lia). f_equal. lia.
Qed.

Lemma map_around_fins l d : map (fun x : XR => around x d) (fins l) = fins (map (round_dec d) l).
Proof. apply map_fins. intros x. apply around_fin. Qed.

Lemma diagonal_average_correct rows (L K : nat) : (1 <= L)%nat -> (1 <= K)%nat -> mshape rows L K ->
  diagonal_average (finm rows) K (Z.of_nat L) (Z.of_nat (L + K - 1)) =
  Ok (fins (map (fun t => round_dec 4 (rmean (antidiag rows L K t))) (seq 0 (L + K - 1)))).
Proof.
  intros HL HK HS. rewrite diagonal_average_loops. rewrite Nat2Z.id.
  replace (Z.of_nat (L + K - 1) - Z.of_nat L + 1)%Z with (Z.of_nat K) by lia.
  assert (Hrep : length (repeat (@nofZ XR 0) (L + K - 1)) = (L + K - 1)%nat) by apply repeat_length.
  destruct (Z.ltb_spec (Z.of_nat L) (Z.of_nat K)) as [H|H].
  - rewrite Z.min_l, Z.max_r by lia. rewrite diag_loops_correct by (try assumption; lia). cbn [bind].
    rewrite map_around_fins, map_map. reflexivity.
  - rewrite Z.min_r, Z.max_l by lia. rewrite transpose_finm.
    replace (Z.of_nat (L + K - 1)) with (Z.of_nat (K + L - 1)) by (f_equal; lia).
    rewrite diag_loops_correct; [|lia|apply rtranspose_shape; assumption|rewrite Hrep; lia].
    cbn [bind]. rewrite map_around_fins, map_map. do 2 f_equal.
    replace (K + L - 1)%nat with (L + K - 1)%nat by lia.
    apply map_ext_in. intros t Ht. apply in_seq in Ht. f_equal. apply antidiag_transpose; try assumption; lia.
Qed.
