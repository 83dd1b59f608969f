(** Lemmas about series.ssa. *)
From Coq Require Import Reals Lra.
From Flocq Require Import Core.Raux.
From Verif Require Export P_ssa.
Local Open Scope R_scope.

(** ** Finite sums *)
Lemma sumn_ext n f g : (forall i, (i < n)%nat -> f i = g i) -> sumn n f = sumn n g.
Proof. intros H. apply Rsum_ext. intros i Hi. apply in_seq in Hi. apply H. lia. Qed.
Lemma sumn_S n f : sumn (S n) f = sumn n f + f n.
Proof. unfold sumn. rewrite seq_S, map_app, Rsum_app. cbn. lra. Qed.
Lemma sumn_add n f g : sumn n (fun i => f i + g i) = sumn n f + sumn n g.
Proof. apply Rsum_map_add. Qed.
Lemma sumn_sub n f g : sumn n (fun i => f i - g i) = sumn n f - sumn n g.
Proof. apply Rsum_map_sub. Qed.
Lemma sumn_scal n c f : sumn n (fun i => c * f i) = c * sumn n f.
Proof. apply Rsum_map_scal. Qed.
Lemma sumn_scal_r n c f : sumn n (fun i => f i * c) = sumn n f * c.
Proof. apply Rsum_map_scal_r. Qed.
Lemma sumn_0 n f : (forall i, (i < n)%nat -> f i = 0) -> sumn n f = 0.
Proof. intros H. rewrite (sumn_ext n f (fun _ => 0 * 0)) by (intros i Hi; rewrite H by exact Hi; ring). rewrite sumn_scal. ring. Qed.
Lemma sumn_swap n m (f : nat -> nat -> R) : sumn n (fun i => sumn m (fun j => f i j)) = sumn m (fun j => sumn n (fun i => f i j)).
Proof.
  induction n as [|n IH].
  - cbn. symmetry. apply sumn_0. reflexivity.
  - rewrite sumn_S, IH. rewrite <- sumn_add. apply sumn_ext. intros j Hj. rewrite sumn_S. reflexivity.
Qed.
Lemma sumn_delta n k f : (k < n)%nat -> sumn n (fun i => (if Nat.eqb i k then 1 else 0) * f i) = f k.
Proof.
  induction n as [|n IH]; intros Hk; [lia|]. rewrite sumn_S. destruct (Nat.eq_dec k n) as [->|Hne].
  - rewrite Nat.eqb_refl. rewrite sumn_0; [lra|]. intros i Hi. rewrite (proj2 (Nat.eqb_neq i n)) by lia. ring.
  - rewrite IH by lia. rewrite (proj2 (Nat.eqb_neq n k)) by lia. ring.
Qed.
Lemma sumn_nonneg n f : (forall i, (i < n)%nat -> 0 <= f i) -> 0 <= sumn n f.
Proof. intros H. apply Rsum_map_nonneg. intros i Hi. apply in_seq in Hi. apply H. lia. Qed.
Lemma sumn_zero_inv n f : (forall i, (i < n)%nat -> 0 <= f i) -> sumn n f = 0 -> forall i, (i < n)%nat -> f i = 0.
Proof.
  intros H E i Hi. refine (Rsum_zero_inv f (seq 0 n) _ E i _).
  - intros j Hj. apply in_seq in Hj. apply H. lia.
  - apply in_seq. lia.
Qed.
Lemma sumn_const n c : sumn n (fun _ => c) = INR n * c.
Proof. unfold sumn. rewrite Rsum_map_const, seq_length. reflexivity. Qed.

(** Orthonormal columns of a square matrix have orthonormal rows. *)
Lemma ortho_rows (E : nat -> nat -> R) L :
  (forall c d, (c < L)%nat -> (d < L)%nat -> sumn L (fun i => E i c * E i d) = if Nat.eqb c d then 1 else 0) ->
  forall i k, (i < L)%nat -> (k < L)%nat -> sumn L (fun c => E i c * E k c) = if Nat.eqb k i then 1 else 0.
Proof.
  intros HO.
  set (w := fun i k => (if Nat.eqb k i then 1 else 0) - sumn L (fun c => E i c * E k c)).
  set (s := fun i => sumn L (fun c => E i c * E i c)).
  assert (Hw : forall i, (i < L)%nat -> sumn L (fun k => w i k * w i k) = 1 - s i).
  { intros i Hi. unfold w.
    rewrite (sumn_ext L _ (fun k => (if Nat.eqb k i then 1 else 0) * ((if Nat.eqb k i then 1 else 0) - 2 * sumn L (fun c => E i c * E k c))
        + sumn L (fun c => E i c * E k c) * sumn L (fun d => E i d * E k d))) by (intros k Hk; ring).
    rewrite sumn_add.
    rewrite (sumn_delta L i (fun k => (if Nat.eqb k i then 1 else 0) - 2 * sumn L (fun c => E i c * E k c)) Hi).
    rewrite Nat.eqb_refl.
    assert (Hd : sumn L (fun k => sumn L (fun c => E i c * E k c) * sumn L (fun d => E i d * E k d)) = s i).
    { rewrite (sumn_ext L _ (fun k => sumn L (fun c => sumn L (fun d => (E i c * E i d) * (E k c * E k d))))).
      - rewrite sumn_swap. unfold s. apply sumn_ext. intros c Hc. rewrite sumn_swap.
        rewrite (sumn_ext L _ (fun d => (if Nat.eqb d c then 1 else 0) * (E i c * E i d))).
        + rewrite (sumn_delta L c (fun d => E i c * E i d) Hc). reflexivity.
        + intros d Hdl. rewrite sumn_scal. rewrite HO by assumption. rewrite (Nat.eqb_sym d c). ring.
      - intros k Hk. rewrite <- sumn_scal_r. apply sumn_ext. intros c Hc. rewrite <- sumn_scal. apply sumn_ext. intros d Hd. ring. }
    rewrite Hd. unfold s. ring. }
  assert (Hs1 : forall i, (i < L)%nat -> 0 <= 1 - s i).
  { intros i Hi. rewrite <- (Hw i Hi). apply sumn_nonneg. intros k _. pose proof (pow2_ge_0 (w i k)). nra. }
  assert (Hst : sumn L (fun i => 1 - s i) = 0).
  { rewrite sumn_sub, sumn_const. unfold s. rewrite sumn_swap.
    rewrite (sumn_ext L (fun c => sumn L (fun i => E i c * E i c)) (fun _ => 1)).
    - rewrite sumn_const. ring.
    - intros c Hc. rewrite HO by assumption. rewrite Nat.eqb_refl. reflexivity. }
  intros i k Hi Hk.
  pose proof (sumn_zero_inv L _ Hs1 Hst i Hi) as Hz. cbn beta in Hz. rewrite <- (Hw i Hi) in Hz.
  assert (Hwk : w i k * w i k = 0).
  { apply (sumn_zero_inv L (fun k => w i k * w i k)); [|exact Hz|exact Hk].
    intros j _. pose proof (pow2_ge_0 (w i j)). nra. }
  assert (w i k = 0) by nra. unfold w in H. lra.
Qed.

(** ** Matrix products of finite matrices *)
Lemma dot_fin a b : @dot XR (fins a) (fins b) = Fin (Rsum (zipwith Rmult a b)).
Proof. unfold dot. rewrite (zipwith_fins Rmult) by reflexivity. apply xsum_fins. Qed.
Definition rmatmul (k : nat) (A B : list (list R)) : list (list R) :=
  map (fun r => map (fun j => Rsum (zipwith Rmult r (rcol B j))) (seq 0 k)) A.
Lemma matmul_finm k A B : matmul k (finm A) (finm B) = finm (rmatmul k A B).
Proof.
  unfold matmul, finm, rmatmul. rewrite !map_map. apply map_ext. intros r.
  unfold fins at 3. rewrite map_map. apply map_ext. intros j.
  fold (finm B). rewrite col_finm. apply dot_fin.
Qed.
Lemma rmatmul_shape p q k A B : mshape A p q -> mshape (rmatmul k A B) p k.
Proof.
  intros [H1 H2]. split; [unfold rmatmul; rewrite map_length; exact H1|].
  intros r Hr. apply in_map_iff in Hr. destruct Hr as (r' & <- & _). rewrite map_length, seq_length. reflexivity.
Qed.
Lemma zipwith_sumn a b n : length a = n -> length b = n -> Rsum (zipwith Rmult a b) = sumn n (fun m => nth m a 0 * nth m b 0).
Proof.
  intros Ha Hb. unfold sumn. f_equal. apply (nth_ext_len _ _ 0).
  - rewrite zipwith_length, map_length, seq_length. lia.
  - intros k Hk. rewrite zipwith_length in Hk.
    rewrite (nth_zipwith Rmult a b k 0 0 0) by lia.
    rewrite (nth_map_in _ (seq 0 n) k O) by (rewrite seq_length; lia). rewrite seq_nth by lia. reflexivity.
Qed.
Lemma rcol_nth rows j m : (m < length rows)%nat -> nth m (rcol rows j) 0 = rent rows m j.
Proof. intros H. unfold rcol, rent. rewrite (nth_map_in _ rows m []) by exact H. reflexivity. Qed.
Lemma rent_matmul p q k A B i j : mshape A p q -> length B = q -> (i < p)%nat -> (j < k)%nat ->
  rent (rmatmul k A B) i j = sumn q (fun m => rent A i m * rent B m j).
Proof.
  intros HA HB Hi Hj. pose proof (mshape_row A p q i HA Hi) as Hr. destruct HA as [HA1 HA2].
  unfold rent at 1, rmatmul. rewrite (nth_map_in _ A i []) by lia.
  rewrite (nth_map_in _ (seq 0 k) j O) by (rewrite seq_length; exact Hj). rewrite seq_nth by exact Hj. cbn [Nat.add].
  rewrite (zipwith_sumn _ _ q) by (try exact Hr; unfold rcol; rewrite map_length; exact HB).
  apply sumn_ext. intros m Hm. rewrite rcol_nth by lia. reflexivity.
Qed.
Lemma mshape_ext A B p q : mshape A p q -> mshape B p q ->
  (forall i j, (i < p)%nat -> (j < q)%nat -> rent A i j = rent B i j) -> A = B.
Proof.
  intros [A1 A2] [B1 B2] H. apply (nth_ext_len A B []); [lia|].
  intros i Hi. apply (nth_ext_len _ _ 0).
  - rewrite A2, B2 by (apply nth_In; lia). reflexivity.
  - intros j Hj. rewrite A2 in Hj by (apply nth_In; lia). apply H; lia.
Qed.

(** ** Mobility *)
Lemma np_diff_fins v : np_diff (fins v) = fins (rdiff v).
Proof.
  assert (H : forall v, np_diff (fins v) = fins (map (fun i => nth (S i) v 0 - nth i v 0) (seq 0 (length v - 1)))).
  { clear v. induction v as [|x v IH]; [reflexivity|]. destruct v as [|y v]; [reflexivity|].
    change (np_diff (fins (x :: y :: v))) with ((@nsub XR (Fin y) (Fin x)) :: np_diff (fins (y :: v))).
    rewrite IH, xsub_fin. replace (length (x :: y :: v) - 1)%nat with (S (length v)) by (cbn; lia).
    replace (length (y :: v) - 1)%nat with (length v) by (cbn; lia).
    cbn [seq map]. unfold fins at 2. rewrite map_cons. f_equal. fold (fins (map (fun i => nth (S i) (x :: y :: v) 0 - nth i (x :: y :: v) 0) (seq 1 (length v)))).
    f_equal. rewrite <- seq_shift, map_map. apply map_ext. intros i. reflexivity. }
  apply H.
Qed.
Lemma norm2_fins v : norm2 (fins v) = Fin (rnorm v).
Proof.
  unfold norm2, rnorm. rewrite (map_fins (fun x => x ^ 2)) by apply sq_fin. rewrite xsum_fins. apply xsqrt_fin.
  apply Rsum_map_nonneg. intros x _. apply pow2_ge_0.
Qed.
Lemma mobility_fins v : (2 <= length v)%nat -> rmob_den v <> 0 -> @mobility XR (fins v) = Ok (Fin (rmobility v)).
Proof.
  intros Hn Hd. unfold mobility. rewrite zlen_fins. rewrite (proj2 (Z.ltb_ge (zlen v) 2)) by (unfold zlen; lia).
  rewrite np_diff_fins, !norm2_fins, !xofZ_fin.
  assert (Hz : IZR (zlen v) <> 0) by (apply not_0_IZR; unfold zlen; lia).
  assert (Hz1 : IZR (zlen v - 1) <> 0) by (apply not_0_IZR; unfold zlen; lia).
  rewrite !xdiv_fin by assumption. rewrite around_fin.
  assert (E : round_dec 4 (rnorm v / IZR (zlen v)) = rmob_den v) by (unfold rmob_den; rewrite IZR_zlen; reflexivity).
  rewrite E, xdiv_fin by exact Hd. do 2 f_equal. unfold rmobility. f_equal. f_equal.
  rewrite INR_IZR_INZ. f_equal. unfold zlen. lia.
Qed.
Lemma mobility_ok v : (2 <= length v)%nat -> exists m, @mobility XR (fins v) = Ok m.
Proof.
  intros Hn. unfold mobility. rewrite zlen_fins. rewrite (proj2 (Z.ltb_ge (zlen v) 2)) by (unfold zlen; lia). eexists. reflexivity.
Qed.

(** ** ssa *)
Lemma trajectory_fins x L K :
  @trajectory XR (fins x) L K = finm (map (fun r => map (fun i => nth (i + r) x 0) (seq 0 K)) (seq 0 L)).
Proof.
  unfold trajectory, finm. rewrite map_map. apply map_ext. intros r. unfold fins at 2. rewrite map_map. apply map_ext.
  intros i. rewrite xofZ_fin. apply fins_nth.
Qed.
Lemma table_shape (f : nat -> nat -> R) L K : mshape (map (fun r => map (f r) (seq 0 K)) (seq 0 L)) L K.
Proof.
  split; [rewrite map_length, seq_length; reflexivity|].
  intros r Hr. apply in_map_iff in Hr. destruct Hr as (i & <- & _). rewrite map_length, seq_length. reflexivity.
Qed.
Lemma table_ent (f : nat -> nat -> R) L K i j : (i < L)%nat -> (j < K)%nat ->
  rent (map (fun r => map (f r) (seq 0 K)) (seq 0 L)) i j = f i j.
Proof.
  intros Hi Hj. unfold rent. rewrite (nth_map_in _ (seq 0 L) i O) by (rewrite seq_length; exact Hi).
  rewrite seq_nth by exact Hi. rewrite (nth_map_in _ (seq 0 K) j O) by (rewrite seq_length; exact Hj).
  rewrite seq_nth by exact Hj. reflexivity.
Qed.

Lemma mapM_exists {A B} (f : A -> res B) l : (forall x, In x l -> exists y, f x = Ok y) -> exists r, mapM f l = Ok r.
Proof.
  induction l as [|x l IH]; intros H; [exists []; reflexivity|].
  destruct (H x (or_introl eq_refl)) as (y & Ey). destruct IH as (r & Er); [intros z Hz; apply H; right; exact Hz|].
  exists (y :: r). cbn. rewrite Ey. cbn. rewrite Er. reflexivity.
Qed.
Lemma mapM_nth {A B} (f : A -> res B) l r k da db : mapM f l = Ok r -> (k < length l)%nat -> f (nth k l da) = Ok (nth k r db).
Proof.
  revert r k. induction l as [|x l IH]; intros r k E Hk; [cbn in Hk; lia|].
  cbn in E. apply bind_ok in E. destruct E as (y & Ey & E). apply bind_ok in E. destruct E as (ys & Eys & E).
  injection E as <-. destruct k as [|k]; [exact Ey|]. cbn [nth]. apply IH; [exact Eys | cbn in Hk; lia].
Qed.

Lemma dummy_fins fs f w : fs <> 0 -> (0 <= w)%Z ->
  map (fun i => nsin (ndiv (nmul (nmul (nmul (nofZ 2) npi) (nofZ i)) (Fin f : XR)) (Fin fs))) (zrange 0 w) = fins (rdummy fs f (Z.to_nat w)).
Proof.
  intros Hfs Hw. unfold rdummy. apply fins_build.
  - rewrite map_length, zrange_length. f_equal. lia.
  - intros k Hk. rewrite (nth_map_in _ (zrange 0 w) k 0%Z) by (rewrite zrange_length; lia).
    rewrite nth_zrange by lia. rewrite !xofZ_fin. cbn [npi XR]. rewrite !xmul_fin, xdiv_fin by exact Hfs.
    cbn [nsin XR xlift]. do 2 f_equal. rewrite INR_IZR_INZ. do 4 f_equal.
Qed.

Lemma map_nth_seq {A} (l : list A) d : map (fun c => nth c l d) (seq 0 (length l)) = l.
Proof.
  apply (nth_ext_len _ _ d); [rewrite map_length, seq_length; reflexivity|].
  intros k Hk. rewrite map_length, seq_length in Hk. rewrite (nth_map_in _ (seq 0 (length l)) k O) by (rewrite seq_length; exact Hk).
  rewrite seq_nth by exact Hk. reflexivity.
Qed.
Lemma traj_cov x L K : matmul L (@trajectory XR (fins x) L K) (transpose K (trajectory (fins x) L K)) = finm (rtrajcov x L K).
Proof.
  rewrite trajectory_fins, transpose_finm, matmul_finm. f_equal.
  set (T := map (fun r => map (fun i => nth (i + r) x 0) (seq 0 K)) (seq 0 L)).
  assert (HT : mshape T L K) by (exact (table_shape (fun r i => nth (i + r) x 0) L K)).
  apply (mshape_ext _ _ L L).
  - apply (rmatmul_shape L K). exact HT.
  - exact (table_shape _ L L).
  - intros i j Hi Hj. rewrite (rent_matmul L K L) by (try assumption; unfold rtranspose; rewrite map_length, seq_length; reflexivity).
    etransitivity; [|symmetry; exact (table_ent (fun a b => sumn K (fun j => nth (j + a) x 0 * nth (j + b) x 0)) L L i j Hi Hj)].
    apply sumn_ext. intros m Hm. rewrite (rent_transpose L K) by assumption. unfold T.
    rewrite !(table_ent (fun r i => nth (i + r) x 0) L K) by assumption. reflexivity.
Qed.

Lemma to_nat_sorted (l : list Z) : StronglySorted Z.lt l -> (forall z, In z l -> (0 <= z)%Z) -> StronglySorted lt (map Z.to_nat l).
Proof.
  induction 1 as [|z l Hl IH Hz]; intros Hnn; cbn [map]; [constructor|]. constructor.
  - apply IH. intros y Hy. apply Hnn. right. exact Hy.
  - rewrite Forall_forall in *. intros k Hk. apply in_map_iff in Hk. destruct Hk as (y & <- & Hy).
    pose proof (Hz y Hy). pose proof (Hnn z (or_introl eq_refl)). lia.
Qed.

Lemma ssa_window_fin (fs f : R) : f <> 0 -> @ssa_window XR (Fin fs) (Fin f) = Ok (Zceil (fs / f)).
Proof.
  intros Hf. unfold ssa_window. rewrite xofZ_fin, xeqb_fin, xdiv_fin by exact Hf. cbn [nisnan nisfin nceilZ negb XR].
  rewrite Req_bool_false by exact Hf. reflexivity.
Qed.
(** General form: the selection keeps the columns whose mobility does not exceed the threshold. *)
Lemma ssa_general (eigh : @matrix XR -> res (@matrix XR)) (x : list R) (fs f : R) (E : list (list R)) (L K : nat) :
  f <> 0 -> fs <> 0 -> Zceil (fs / f) = Z.of_nat L -> (2 <= L)%nat -> (1 <= K)%nat -> length x = (L + K - 1)%nat ->
  mshape E L L -> eigh (finm (rtrajcov x L K)) = Ok (finm E) ->
  exists sel : list nat,
    ssa eigh (fins x) (Fin fs) (Fin f) =
      Ok (fins (map (fun t => round_dec 4 (rmean (antidiag (rproject E sel x L K) L K t))) (seq 0 (L + K - 1)))) /\
    StronglySorted lt sel /\ (forall i, In i sel -> (i < L)%nat) /\
    (rmob_den (rdummy fs f L) <> 0 ->
      forall i, (i < L)%nat -> rmob_den (mcol E i) <> 0 ->
        (In i sel <-> rmobility (mcol E i) <= rmobility (rdummy fs f L))).
Proof.
  intros Hf Hfs HL HL2 HK Hx HE Heig. unfold ssa. rewrite ssa_window_fin by exact Hf. cbn [bind]. rewrite HL.
  rewrite zlen_fins.
  assert (Hk : (zlen x - Z.of_nat L + 1 = Z.of_nat K)%Z) by (unfold zlen; lia). rewrite Hk.
  rewrite (proj2 (Z.ltb_ge (Z.of_nat K) 0)), (proj2 (Z.ltb_ge (Z.of_nat L) 0)) by lia. cbn [orb].
  rewrite !Nat2Z.id. rewrite traj_cov, Heig. cbn [bind].
  assert (Hcol : forall i, col (finm E) i = fins (mcol E i)) by (intros i; apply col_finm).
  assert (HcolL : forall i, length (mcol E i) = L) by (intros i; unfold mcol; rewrite map_length; apply HE).
  destruct (mapM_exists (fun i => mobility (col (finm E) i)) (seq 0 L)) as (mob & Emob).
  { intros i _. rewrite Hcol. apply mobility_ok. rewrite HcolL. exact HL2. }
  rewrite Emob. cbn [bind].
  rewrite dummy_fins by (try exact Hfs; lia). rewrite Nat2Z.id.
  assert (HdL : length (rdummy fs f L) = L) by (unfold rdummy; rewrite map_length, seq_length; reflexivity).
  destruct (mobility_ok (rdummy fs f L)) as (thresh & Eth); [lia|]. rewrite Eth. cbn [bind].
  assert (HmobL : length mob = L) by (apply mapM_length in Emob; rewrite seq_length in Emob; exact Emob).
  set (mask := map (fun m => nleb m thresh) mob).
  set (sel := map Z.to_nat (nonzero mask)).
  assert (Hin : forall i, In i sel <-> (i < L)%nat /\ nth i mask false = true).
  { intros i. unfold sel. rewrite in_map_iff. split.
    - intros (z & <- & Hz). apply in_nonzero in Hz. assert (Hml : zlen mask = Z.of_nat L) by (unfold zlen, mask; rewrite map_length; lia). rewrite Hml in Hz. split; [lia | apply Hz].
    - intros [H1 H2]. exists (Z.of_nat i). split; [lia|]. apply in_nonzero. assert (Hml : zlen mask = Z.of_nat L) by (unfold zlen, mask; rewrite map_length; lia). rewrite Hml.
      rewrite Nat2Z.id. split; [lia | exact H2]. }
  exists sel. split; [|split; [|split]].
  - fold mask. fold sel.
    assert (HselM : map (fun r => map (fun j => nth j r (nofZ 0)) sel) (finm E) =
                    finm (map (fun r => map (fun j => nth j r 0) sel) E)).
    { unfold finm. rewrite !map_map. apply map_ext. intros r. unfold fins at 2. rewrite map_map. apply map_ext.
      intros j. rewrite xofZ_fin. apply fins_nth. }
    rewrite HselM. set (S0 := map (fun r => map (fun j => nth j r 0) sel) E).
    assert (HS0 : mshape S0 L (length sel)).
    { split; [unfold S0; rewrite map_length; apply HE|]. intros r Hr. apply in_map_iff in Hr. destruct Hr as (r' & <- & _).
      apply map_length. }
    assert (HS0e : forall i c, (i < L)%nat -> (c < length sel)%nat -> rent S0 i c = rent E i (nth c sel O)).
    { intros i c Hi Hc. unfold rent, S0. rewrite (nth_map_in _ E i []) by (destruct HE; lia).
      rewrite (nth_map_in _ sel c O) by exact Hc. reflexivity. }
    rewrite transpose_finm, matmul_finm, trajectory_fins, matmul_finm.
    set (P := rmatmul L S0 (rtranspose (length sel) S0)).
    assert (HP : mshape P L L) by (apply (rmatmul_shape L (length sel)); exact HS0).
    set (T := map (fun r => map (fun i => nth (i + r) x 0) (seq 0 K)) (seq 0 L)).
    assert (HT : mshape T L K) by (exact (table_shape (fun r i => nth (i + r) x 0) L K)).
    assert (Hproj : rmatmul K P T = rproject E sel x L K).
    { apply (mshape_ext _ _ L K).
      - apply (rmatmul_shape L L). exact HP.
      - exact (table_shape _ L K).
      - intros i j Hi Hj. rewrite (rent_matmul L L K) by (try assumption; apply HT).
        etransitivity; [|symmetry; exact (table_ent (fun i j => sumn L (fun m => Rsum (map (fun c => nth c (nth i E []) 0 * nth c (nth m E []) 0) sel) * nth (j + m) x 0)) L K i j Hi Hj)].
        apply sumn_ext. intros m Hm. f_equal.
        + unfold P. rewrite (rent_matmul L (length sel) L) by (try assumption; unfold rtranspose; rewrite map_length, seq_length; reflexivity).
          assert (Hre : forall g : nat -> R, Rsum (map g sel) = sumn (length sel) (fun c => g (nth c sel O))).
          { intros g. unfold sumn. rewrite <- (map_map (fun c => nth c sel O) g). rewrite map_nth_seq. reflexivity. }
          rewrite Hre. apply sumn_ext. intros c Hc.
          rewrite (rent_transpose L (length sel)) by (try assumption; lia). rewrite !HS0e by lia. reflexivity.
        + exact (table_ent (fun r i => nth (i + r) x 0) L K m j Hm Hj). }
    rewrite Hproj. replace (zlen x) with (Z.of_nat (L + K - 1)) by (unfold zlen; lia).
    apply diagonal_average_correct; [lia|lia|exact (table_shape _ L K)].
  - unfold sel. pose proof (nonzero_sorted mask) as HSd.
    assert (Hnn : forall z, In z (nonzero mask) -> (0 <= z)%Z) by (intros z Hz; apply in_nonzero in Hz; lia).
    apply to_nat_sorted; assumption.
  - intros i Hi. apply Hin in Hi. apply Hi.
  - intros Hd i Hi Hdi. rewrite Hin.
    assert (Hm : nth i mob (Fin 0) = Fin (rmobility (mcol E i))).
    { pose proof (mapM_nth _ _ _ i O (Fin 0) Emob) as Hn. rewrite seq_length in Hn. specialize (Hn Hi).
      rewrite seq_nth in Hn by exact Hi. cbn [Nat.add] in Hn. rewrite Hcol in Hn.
      rewrite mobility_fins in Hn by (try assumption; rewrite HcolL; exact HL2). injection Hn as Hn. symmetry. exact Hn. }
    assert (Hth : thresh = Fin (rmobility (rdummy fs f L))).
    { rewrite mobility_fins in Eth by (try assumption; lia). injection Eth as Eth. symmetry. exact Eth. }
    unfold mask. rewrite (nth_map_in _ mob i (Fin 0)) by lia. rewrite Hm, Hth, xleb_fin.
    destruct (Rle_bool_spec (rmobility (mcol E i)) (rmobility (rdummy fs f L))) as [H|H].
    + split; [intros _; exact H | intros _; split; [exact Hi | reflexivity]].
    + split; [intros [_ Hc]; discriminate Hc | intros Hc; lra].
Qed.

(** All columns kept and orthonormal: the record itself, rounded. *)
Lemma ortho_project E sel x L K : mshape E L L -> orthonormal_cols E L ->
  StronglySorted lt sel -> (forall i, In i sel <-> (i < L)%nat) -> (1 <= K)%nat ->
  forall i j, (i < L)%nat -> (j < K)%nat -> rent (rproject E sel x L K) i j = nth (j + i) x 0.
Proof.
  intros HE HO HS Hsel HK i j Hi Hj.
  assert (Hs : sel = seq 0 L).
  { clear - HS Hsel. assert (Hp : Permutation sel (seq 0 L)).
    { apply NoDup_Permutation.
      - clear Hsel. induction HS as [|y l Hl IH Hy]; constructor; [|exact IH].
        intros Hc. rewrite Forall_forall in Hy. specialize (Hy y Hc). lia.
      - apply seq_NoDup.
      - intros y. rewrite Hsel, in_seq. lia. }
    assert (HS2 : StronglySorted lt (seq 0 L)).
    { generalize 0%nat. clear. induction L as [|L IH]; intros k; cbn; constructor; [apply IH|].
      apply Forall_forall. intros y Hy. apply in_seq in Hy. lia. }
    clear Hsel. revert HS2 Hp. generalize (seq 0 L) as m.
    induction HS as [|y l Hl IH Hy]; intros m Hm Hp.
    - apply Permutation_nil in Hp. congruence.
    - destruct Hm as [|z m Hm Hz]; [apply Permutation_sym, Permutation_nil in Hp; discriminate|].
      rewrite Forall_forall in Hy, Hz.
      assert (y = z).
      { assert (Iy : In y (z :: m)) by (apply (Permutation_in y Hp); left; reflexivity).
        assert (Iz : In z (y :: l)) by (apply (Permutation_in z (Permutation_sym Hp)); left; reflexivity).
        destruct Iy as [->|Iy]; [reflexivity|]. destruct Iz as [->|Iz]; [reflexivity|].
        specialize (Hy z Iz). specialize (Hz y Iy). lia. }
      subst z. f_equal. apply IH; [exact Hm|]. apply Permutation_cons_inv in Hp. exact Hp. }
  unfold rproject. rewrite (table_ent (fun i j => sumn L (fun m => Rsum (map (fun c => nth c (nth i E []) 0 * nth c (nth m E []) 0) sel) * nth (j + m) x 0)) L K i j Hi Hj).
  rewrite (sumn_ext L _ (fun m => (if Nat.eqb m i then 1 else 0) * nth (j + m) x 0)).
  - apply (sumn_delta L i (fun m => nth (j + m) x 0) Hi).
  - intros m Hm. f_equal. rewrite Hs. exact (ortho_rows (fun i c => nth c (nth i E []) 0) L HO i m Hi Hm).
Qed.
Lemma rmean_const l c : l <> [] -> (forall y, In y l -> y = c) -> rmean l = c.
Proof.
  intros Hl H. assert (c <= rmean l <= c); [|lra]. apply rmean_between; [exact Hl|]. intros y Hy. rewrite (H y Hy). lra.
Qed.
Lemma ssa_identity (eigh : @matrix XR -> res (@matrix XR)) (x : list R) (fs f : R) (E : list (list R)) (L K : nat) :
  f <> 0 -> fs <> 0 -> Zceil (fs / f) = Z.of_nat L -> (2 <= L)%nat -> (1 <= K)%nat -> length x = (L + K - 1)%nat ->
  mshape E L L -> eigh (finm (rtrajcov x L K)) = Ok (finm E) ->
  orthonormal_cols E L ->
  rmob_den (rdummy fs f L) <> 0 ->
  (forall i, (i < L)%nat -> rmob_den (mcol E i) <> 0 /\ rmobility (mcol E i) <= rmobility (rdummy fs f L)) ->
  ssa eigh (fins x) (Fin fs) (Fin f) = Ok (fins (map (round_dec 4) x)).
Proof.
  intros Hf Hfs HL HL2 HK Hx HE Heig HO Hd Hm.
  destruct (ssa_general eigh x fs f E L K Hf Hfs HL HL2 HK Hx HE Heig) as (sel & ER & HS & Hlt & Hsel).
  rewrite ER. do 2 f_equal.
  assert (Hall : forall i, In i sel <-> (i < L)%nat).
  { intros i. split; [apply Hlt|]. intros Hi. destruct (Hm i Hi) as [H1 H2]. apply (Hsel Hd i Hi H1). exact H2. }
  apply (nth_ext_len _ _ (round_dec 4 0)).
  - rewrite !map_length, seq_length. lia.
  - intros t Ht. rewrite map_length, seq_length in Ht. rewrite (map_nth (round_dec 4)).
    rewrite (nth_map_in _ (seq 0 (L + K - 1)) t O) by (rewrite seq_length; exact Ht). rewrite seq_nth by exact Ht. cbn [Nat.add].
    f_equal. apply rmean_const.
    + intros Hn. apply (f_equal (@length R)) in Hn. rewrite antidiag_length in Hn by lia. cbn [length] in Hn. lia.
    + intros y Hy. rewrite antidiag_seq in Hy by lia. apply in_map_iff in Hy. destruct Hy as (r & <- & Hr). apply in_seq in Hr.
      rewrite (ortho_project E sel x L K) by (try assumption; lia). f_equal. lia.
Qed.
Lemma ssa_too_short (N : Num) (eigh : @matrix N -> res (@matrix N)) (x : list N) (fs f : N) :
  (neqb f (nofZ 0) = true -> ssa eigh x fs f = Raise ZeroDivisionError) /\
  (neqb f (nofZ 0) = false ->
    (nisnan (ndiv fs f) = true -> ssa eigh x fs f = Raise ValueError) /\
    (nisnan (ndiv fs f) = false ->
      (nisfin (ndiv fs f) = false -> ssa eigh x fs f = Raise OverflowError) /\
      (nisfin (ndiv fs f) = true -> (nceilZ (ndiv fs f) < 0 \/ zlen x + 1 < nceilZ (ndiv fs f))%Z -> ssa eigh x fs f = Raise ValueError))).
Proof.
  unfold ssa, ssa_window. split; [intros ->; reflexivity|]. intros ->. split; [intros ->; reflexivity|]. intros ->.
  split; [intros ->; reflexivity|]. intros ->. cbn [negb bind]. intros [H|H].
  - rewrite (proj2 (Z.ltb_lt (nceilZ (ndiv fs f)) 0) H), Bool.orb_true_r. reflexivity.
  - rewrite (proj2 (Z.ltb_lt (zlen x - nceilZ (ndiv fs f) + 1) 0)) by lia. reflexivity.
Qed.
(** A window of no sample at all. *)
Lemma ssa_window_zero (N : Num) (eigh : @matrix N -> res (@matrix N)) (x : list N) (fs f : N) E :
  neqb f (nofZ 0) = false -> nisnan (ndiv fs f) = false -> nisfin (ndiv fs f) = true -> nceilZ (ndiv fs f) = 0%Z ->
  eigh [] = Ok E -> ssa eigh x fs f = Raise ValueError.
Proof.
  intros H1 H2 H3 H4 He. unfold ssa, ssa_window. rewrite H1, H2, H3, H4. cbn [negb bind]. rewrite (proj2 (Z.ltb_ge (zlen x - 0 + 1) 0)) by (unfold zlen; lia).
  change ((0 <? 0)%Z) with false. cbn [orb]. change (Z.to_nat 0) with 0%nat. cbn [seq map trajectory].
  match goal with |- bind (eigh ?c) _ = _ => replace c with (@nil (list N)) by reflexivity end. rewrite He. reflexivity.
Qed.
Lemma ssa_window_one (eigh : @matrix XR -> res (@matrix XR)) (x : list R) (fs f : R) e :
  Zceil (fs / f) = 1%Z -> f <> 0 -> x <> [] ->
  (forall c, eigh c = Ok [[e]]) -> ssa eigh (fins x) (Fin fs) (Fin f) = Raise ValueError.
Proof.
  intros HL Hf Hx He. unfold ssa. rewrite ssa_window_fin by exact Hf. cbn [bind]. rewrite HL, zlen_fins.
  assert (Hz : (0 < zlen x)%Z) by (destruct x; [congruence | unfold zlen; cbn [length]; lia]).
  rewrite (proj2 (Z.ltb_ge (zlen x - 1 + 1) 0)) by lia. cbn [orb Z.ltb Z.compare].
  rewrite He. reflexivity.
Qed.

(** A window one sample longer than the record: empty trajectory matrix, the second loop writes past the end. *)
Lemma mobility_ok_gen (N : Num) (v : list N) : (2 <= zlen v)%Z -> exists m, mobility v = Ok m.
Proof. intros H. unfold mobility. rewrite (proj2 (Z.ltb_ge (zlen v) 2)) by lia. eexists. reflexivity. Qed.
Lemma ssa_window_succ (N : Num) (eigh : @matrix N -> res (@matrix N)) (x : list N) (fs f : N) :
  neqb f (nofZ 0) = false -> nisnan (ndiv fs f) = false -> nisfin (ndiv fs f) = true -> nceilZ (ndiv fs f) = (zlen x + 1)%Z -> x <> [] ->
  (forall c, exists E, eigh c = Ok E /\ length E = S (length x)) ->
  ssa eigh x fs f = Raise IndexError.
Proof.
  intros H1 H2 H3 HL Hx He. assert (Hz : (1 <= zlen x)%Z) by (destruct x; [congruence | unfold zlen; cbn [length]; lia]).
  unfold ssa, ssa_window. rewrite H1, H2, H3, HL. cbn [negb bind]. replace (zlen x - (zlen x + 1) + 1)%Z with 0%Z by lia.
  rewrite (proj2 (Z.ltb_ge (zlen x + 1) 0)) by lia. cbn [orb Z.ltb Z.compare].
  match goal with |- bind (eigh ?c) _ = _ => destruct (He c) as (E & -> & HE) end. cbn [bind].
  destruct (mapM_exists (fun i => mobility (col E i)) (seq 0 (Z.to_nat (zlen x + 1)))) as (mob & ->).
  { intros i _. apply mobility_ok_gen. unfold col. rewrite zlen_map. unfold zlen in *. lia. }
  cbn [bind].
  match goal with |- bind (mobility ?v) _ = _ => destruct (mobility_ok_gen N v) as (th & ->) end.
  { rewrite zlen_map. unfold zlen at 1. rewrite zrange_length. lia. }
  cbn [bind]. cbv zeta.
  unfold diagonal_average. replace (zlen x - (zlen x + 1) + 1)%Z with 0%Z by lia.
  rewrite (Z.min_r (zlen x + 1) 0), (Z.max_l (zlen x + 1) 0) by lia.
  rewrite (zrange_nil 1 0) by lia. cbn [foldM bind].
  rewrite (zrange_snoc 0 (zlen x + 1)) by lia. rewrite foldM_app.
  match goal with |- bind (bind (foldM ?g ?s0 ?r) _) _ = _ =>
    assert (HF : exists s', foldM g s0 r = Ok s' /\ zlen s' = zlen x) end.
  { match goal with |- exists s', foldM ?g ?s0 _ = Ok s' /\ _ =>
      destruct (foldM_range_inv g (fun _ s => zlen s = zlen x) 0 (zlen x + 1) s0) as (s' & E' & H') end.
    - lia.
    - unfold zlen. rewrite repeat_length. lia.
    - intros i s Hi Hs. rewrite (zrange_nil 0 0) by lia. unfold diag_total. cbn [foldM bind].
      unfold setz. rewrite Hs.
      destruct (Z.eq_dec i 0) as [->|Hn].
      + rewrite pyidx_neg by lia. eexists. split; [reflexivity|]. rewrite zlen_upd. exact Hs.
      + rewrite pyidx_nonneg by lia. eexists. split; [reflexivity|]. rewrite zlen_upd. exact Hs.
    - exists s'. split; [exact E' | exact H']. }
  destruct HF as (s' & -> & Hs'). cbn [bind foldM].
  rewrite (zrange_nil 0 0) by lia. unfold diag_total. cbn [foldM bind].
  rewrite setz_out by lia. reflexivity.
Qed.

(** A concrete record meeting the hypotheses of [ssa_identity]: [0; 0; 1; 0; 0], window 3. *)
Lemma ZnearestE_near x n : Rabs (x - IZR n) < / 2 -> Round_NE.ZnearestE x = n.
Proof. intros H. apply Generic_fmt.Znearest_imp. exact H. Qed.
Lemma rnorm_unit3 a b c : a ^ 2 + b ^ 2 + c ^ 2 = 1 -> rnorm [a; b; c] = 1.
Proof. intros H. unfold rnorm. cbn [map Rsum]. replace (a ^ 2 + (b ^ 2 + (c ^ 2 + 0))) with 1 by lra. apply sqrt_1. Qed.
Lemma round4_third : round_dec 4 (1 / 3) = 3333 / 10000.
Proof.
  unfold round_dec. cbn [Z.leb Z.compare]. change (IZR (10 ^ 4)) with 10000.
  rewrite (ZnearestE_near _ 3333); [reflexivity|]. apply Rabs_def1; lra.
Qed.
Lemma ssa_example :
  let x := [0; 0; 1; 0; 0] in let E := [[1; 0; 0]; [0; 1; 0]; [0; 0; 1]] in
  Zceil (3 / 1) = Z.of_nat 3 /\ mshape E 3 3 /\ orthonormal_cols E 3 /\ length x = (3 + 3 - 1)%nat /\
  rtrajcov x 3 3 = E /\
  rmob_den (rdummy 3 1 3) <> 0 /\
  (forall i, (i < 3)%nat -> rmob_den (mcol E i) <> 0 /\ rmobility (mcol E i) <= rmobility (rdummy 3 1 3)).
Proof.
  cbn zeta.
  assert (H3 : sqrt 3 * sqrt 3 = 3) by (apply sqrt_sqrt; lra).
  assert (Hd : rdummy 3 1 3 = [0; sqrt 3 / 2; - (sqrt 3 / 2)]).
  { unfold rdummy. cbn [seq map]. f_equal; [|f_equal; [|f_equal]].
    - replace (2 * PI * INR 0 * 1 / 3) with 0 by (cbn [INR]; field). apply sin_0.
    - replace (2 * PI * INR 1 * 1 / 3) with (PI - PI / 3) by (cbn [INR]; field).
      rewrite Rtrigo_facts.sin_pi_minus. apply sin_PI3.
    - replace (2 * PI * INR 2 * 1 / 3) with (PI / 3 + PI) by (cbn [INR]; field). rewrite neg_sin, sin_PI3. reflexivity. }
  assert (Hn : rnorm [0; sqrt 3 / 2; - (sqrt 3 / 2)] = sqrt (3 / 2)).
  { unfold rnorm. cbn [map Rsum]. f_equal. nra. }
  assert (HnD : rnorm (rdiff [0; sqrt 3 / 2; - (sqrt 3 / 2)]) = sqrt (15 / 4)).
  { unfold rnorm, rdiff. cbn [length Nat.sub seq map nth Rsum]. f_equal. nra. }
  assert (Hden : rmob_den (rdummy 3 1 3) = 4082 / 10000).
  { unfold rmob_den. rewrite Hd, Hn. cbn [length]. unfold round_dec. cbn [Z.leb Z.compare]. change (IZR (10 ^ 4)) with 10000.
    rewrite (ZnearestE_near _ 4082); [reflexivity|].
    assert (A : 1.2246 < sqrt (3 / 2)).
    { apply Rsqr_incrst_0; [rewrite Rsqr_sqrt by lra; unfold Rsqr; lra | lra | apply sqrt_pos]. }
    assert (B : sqrt (3 / 2) < 1.22475).
    { apply Rsqr_incrst_0; [rewrite Rsqr_sqrt by lra; unfold Rsqr; lra | apply sqrt_pos | lra]. }
    cbn [INR]. apply Rabs_def1; lra. }
  assert (Hmd : rmobility (rdummy 3 1 3) = sqrt (15 / 4) / 2 / (4082 / 10000)).
  { unfold rmobility. rewrite Hden, Hd, HnD. cbn [length Nat.sub INR]. reflexivity. }
  assert (A15 : 1.936 < sqrt (15 / 4)).
  { apply Rsqr_incrst_0; [rewrite Rsqr_sqrt by lra; unfold Rsqr; lra | lra | apply sqrt_pos]. }
  assert (A2 : sqrt 2 < 1.4143).
  { apply Rsqr_incrst_0; [rewrite Rsqr_sqrt by lra; unfold Rsqr; lra | apply sqrt_pos | lra]. }
  assert (Hcol : forall a b c s, rnorm [a; b; c] = 1 -> rnorm (rdiff [a; b; c]) = s -> s <= sqrt 2 ->
     rmob_den [a; b; c] <> 0 /\ rmobility [a; b; c] <= rmobility (rdummy 3 1 3)).
  { intros a b c s H1 H2 Hs.
    assert (Hdc : rmob_den [a; b; c] = 3333 / 10000).
    { unfold rmob_den. rewrite H1. cbn [length]. replace (INR 3) with 3 by (cbn; lra). apply round4_third. }
    split; [rewrite Hdc; lra|]. rewrite Hmd. unfold rmobility. rewrite Hdc, H2. cbn [length Nat.sub].
    replace (INR 2) with 2 by (cbn; lra). lra. }
  split; [|split; [|split; [|split; [|split; [|split]]]]].
  - replace (3 / 1) with (IZR 3) by lra. apply Zceil_IZR.
  - split; [reflexivity|]. intros r [<-|[<-|[<-|[]]]]; reflexivity.
  - intros c d Hc Hd'. unfold sumn.
    destruct c as [|[|[|c]]]; [| | |lia]; (destruct d as [|[|[|d]]]; [| | |lia]); cbn; lra.
  - reflexivity.
  - unfold rtrajcov, sumn. cbn. repeat (f_equal; try lra).
  - rewrite Hden. lra.
  - intros i Hi. destruct i as [|[|[|i]]]; [| | |lia]; unfold mcol; cbn [map nth].
    + apply (Hcol 1 0 0 1); [apply rnorm_unit3; lra | | ].
      * unfold rnorm, rdiff. cbn [length Nat.sub seq map nth Rsum]. replace ((0 - 1) ^ 2 + ((0 - 0) ^ 2 + 0)) with 1 by lra. apply sqrt_1.
      * rewrite <- sqrt_1. apply sqrt_le_1; lra.
    + apply (Hcol 0 1 0 (sqrt 2)); [apply rnorm_unit3; lra | | lra].
      unfold rnorm, rdiff. cbn [length Nat.sub seq map nth Rsum]. f_equal. lra.
    + apply (Hcol 0 0 1 1); [apply rnorm_unit3; lra | | ].
      * unfold rnorm, rdiff. cbn [length Nat.sub seq map nth Rsum]. replace ((0 - 0) ^ 2 + ((1 - 0) ^ 2 + 0)) with 1 by lra. apply sqrt_1.
      * rewrite <- sqrt_1. apply sqrt_le_1; lra.
Qed.
