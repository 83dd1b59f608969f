(** Lemmas about pollution.py and acceleration.py. *)
From Coq Require Import Reals Lra.
From Flocq Require Import Core.Raux.
From Verif Require Export P_polyrep P_signal M_detection.
Local Open Scope Z_scope.

Lemma bcast_same {A B C} (f : A -> B -> C) a b : length a = length b -> bcast f a b = Ok (zipwith f a b).
Proof. intros H. unfold bcast. rewrite (proj2 (Nat.eqb_eq _ _) H). reflexivity. Qed.
Lemma zipwith_build {A B C} (f : A -> B -> C) a b da db : length a = length b ->
  zipwith f a b = map (fun i => f (nth i a da) (nth i b db)) (seq 0 (length a)).
Proof.
  intros HL. unfold zipwith. revert b HL. induction a as [|x a IH]; intros [|y b] HL; try discriminate; [reflexivity|].
  cbn [combine map length seq fst snd nth]. f_equal. rewrite <- seq_shift, map_map. apply IH. cbn in HL. lia.
Qed.
Lemma nonzero_from_length k m : length (nonzero_from k m) = length (filter (fun b => b) m).
Proof. revert k. induction m as [|[|] m IH]; intros k; cbn; auto. Qed.
Lemma nonzero_count n (P : nat -> bool) : length (nonzero (map P (seq 0 n))) = count_idx n P.
Proof. unfold nonzero. rewrite nonzero_from_length, filter_map_comm, map_length. reflexivity. Qed.
Lemma count_le n P : (count_idx n P <= n)%nat.
Proof.
  unfold count_idx. rewrite <- (seq_length n 0) at 2. generalize (seq 0 n) as l.
  induction l as [|x l IH]; cbn; [lia|]. destruct (P x); cbn; lia.
Qed.
Lemma count_disjoint n P Q : (forall i, (i < n)%nat -> P i = true -> Q i = true -> False) ->
  (count_idx n P + count_idx n Q <= n)%nat.
Proof.
  intros H. assert (H' : forall i, In i (seq 0 n) -> P i = true -> Q i = true -> False).
  { intros i Hi. apply H. apply in_seq in Hi. lia. }
  clear H. unfold count_idx. pose proof (seq_length n 0) as HL. revert HL H'. generalize (seq 0 n) as l. intros l <- H.
  induction l as [|x l IH]; cbn; [lia|].
  assert (IH' := IH (fun i Hi => H i (or_intror Hi))). specialize (H x (or_introl eq_refl)).
  destruct (P x) eqn:EP, (Q x) eqn:EQ; cbn; try lia.
Qed.
Lemma count_all n P : (forall i, (i < n)%nat -> P i = true) -> count_idx n P = n.
Proof.
  intros H. unfold count_idx. rewrite filter_all; [apply seq_length|]. intros i Hi. apply in_seq in Hi. apply H. lia.
Qed.

(** ** pollution_rate *)
Lemma pollution_general (N : Num) (x xfil : list N) (k s : N) d : length xfil = length x ->
  spread_std (farr x) = Ok s ->
  pollution_rate x xfil k = Ok (nmul (ndiv (nofZ (Z.of_nat
    (count_idx (length x) (fun i => nltb (nadd (nth i xfil d) (nmul k s)) (nth i x d))
     + count_idx (length x) (fun i => nltb (nth i x d) (nsub (nopp (nth i xfil d)) (nmul k s)))))) (nofZ (zlen x))) (nofZ 100)).
Proof.
  intros HL Hs. unfold pollution_rate. rewrite Hs. cbn [bind].
  rewrite !bcast_same by congruence. cbn [bind].
  rewrite !(zipwith_build _ _ _ d d) by congruence.
  unfold zlen at 1. rewrite app_length, !nonzero_count. reflexivity.
Qed.
Lemma pollution_exact (l f : list R) (k : R) : l <> [] -> length f = length l ->
  pollution_rate (fins l) (fins f) (Fin k) = Ok (Fin (100 *
    INR (count_idx (length l) (fun i => Rlt_bool (nth i f 0 + k * rstd l) (nth i l 0))
         + count_idx (length l) (fun i => Rlt_bool (nth i l 0) (- nth i f 0 - k * rstd l))) / INR (length l)))%R.
Proof.
  intros Hne HL. rewrite (pollution_general XR (fins l) (fins f) (Fin k) (Fin (rstd l)) (Fin 0)).
  - rewrite xofZ_fin, (xofZ_fin (zlen (fins l))), (xofZ_fin 100). rewrite <- INR_IZR_INZ.
    rewrite IZR_zlen, fins_length.
    rewrite xdiv_fin by (pose proof (INR_len_pos l Hne); lra). rewrite xmul_fin. do 2 f_equal.
    replace (count_idx (length l) (fun i => nltb (nadd (nth i (fins f) (Fin 0)) (nmul (Fin k) (Fin (rstd l)))) (nth i (fins l) (Fin 0))))
      with (count_idx (length l) (fun i => Rlt_bool (nth i f 0 + k * rstd l) (nth i l 0))%R).
    + replace (count_idx (length l) (fun i => nltb (nth i (fins l) (Fin 0)) (nsub (nopp (nth i (fins f) (Fin 0))) (nmul (Fin k) (Fin (rstd l))))))
        with (count_idx (length l) (fun i => Rlt_bool (nth i l 0) (- nth i f 0 - k * rstd l))%R).
      * field. pose proof (INR_len_pos l Hne). lra.
      * unfold count_idx. f_equal. apply filter_ext. intros i. rewrite !fins_nth. reflexivity.
    + unfold count_idx. f_equal. apply filter_ext. intros i. rewrite !fins_nth. reflexivity.
  - rewrite !fins_length. exact HL.
  - apply std_correct, Hne.
Qed.
Lemma pollution_bounds (l f : list R) (k : R) : l <> [] -> length f = length l ->
  exists p, pollution_rate (fins l) (fins f) (Fin k) = Ok (Fin p) /\ (0 <= p <= 200)%R /\
    ((forall i, (i < length l)%nat -> 0 <= nth i f 0 + k * rstd l)%R -> (p <= 100)%R).
Proof.
  intros Hne HL. rewrite pollution_exact by assumption. eexists. split; [reflexivity|].
  pose proof (INR_len_pos l Hne) as Hp.
  set (c1 := count_idx _ _). set (c2 := count_idx _ _).
  assert (H1 : (c1 <= length l)%nat) by apply count_le. assert (H2 : (c2 <= length l)%nat) by apply count_le.
  assert (HB : forall m, (c1 + c2 <= m * length l)%nat -> (100 * INR (c1 + c2) / INR (length l) <= 100 * INR m)%R).
  { intros m Hm. apply le_INR in Hm. rewrite (mult_INR m) in Hm.
    apply Rmult_le_reg_r with (INR (length l)); [exact Hp|]. field_simplify; [|lra]. nra. }
  split; [split|].
  - apply Rmult_le_pos; [pose proof (pos_INR (c1 + c2)); lra | left; apply Rinv_0_lt_compat, Hp].
  - specialize (HB 2%nat ltac:(lia)). cbn in HB. cbn. lra.
  - intros H. specialize (HB 1%nat). cbn [INR] in HB. rewrite Rmult_1_r in HB. apply HB.
    rewrite Nat.mul_1_l. apply count_disjoint. intros i Hi E1 E2. specialize (H i Hi).
    revert E1 E2. case Rlt_bool_spec; [|discriminate]. intros G1 _. case Rlt_bool_spec; [|discriminate]. intros G2 _. lra.
Qed.
Lemma pollution_double (l f : list R) (k : R) : l <> [] -> length f = length l ->
  (forall i, (i < length l)%nat -> nth i f 0 + k * rstd l < - Rabs (nth i l 0))%R ->
  pollution_rate (fins l) (fins f) (Fin k) = Ok (Fin 200).
Proof.
  intros Hne HL H. rewrite pollution_exact by assumption.
  assert (HA : forall i, (i < length l)%nat -> (- Rabs (nth i l 0) <= nth i l 0 <= Rabs (nth i l 0))%R).
  { intros i _. split; [pose proof (Rle_abs (- nth i l 0)%R) as Hq; rewrite Rabs_Ropp in Hq; lra | apply Rle_abs]. }
  rewrite !count_all.
  - do 2 f_equal. rewrite plus_INR. field. pose proof (INR_len_pos l Hne). lra.
  - intros i Hi. apply Rlt_bool_true. specialize (H i Hi). specialize (HA i Hi). lra.
  - intros i Hi. apply Rlt_bool_true. specialize (H i Hi). specialize (HA i Hi). lra.
Qed.
Lemma pollution_errors (N : Num) (x xfil : list N) k :
  (x = [] -> pollution_rate x xfil k = Raise ValueError) /\
  ((2 <= length x)%nat -> length xfil <> length x -> length xfil <> 1%nat -> pollution_rate x xfil k = Raise ValueError).
Proof.
  split.
  - intros ->. reflexivity.
  - intros H1 H2 H3. unfold pollution_rate.
    assert (Hne : x <> []) by (intros ->; cbn in H1; lia).
    rewrite spread_std_farr by exact Hne. cbn [bind]. unfold bcast.
    rewrite (proj2 (Nat.eqb_neq _ _)) by congruence.
    destruct x as [|x0 [|x1 x]]; cbn in H1; try lia. destruct xfil as [|f0 [|f1 f]]; cbn in H2, H3; try lia; reflexivity.
Qed.

(** ** acceleration_thresholding *)
Lemma np_diff_length (N : Num) (v : list N) : length (np_diff v) = (length v - 1)%nat.
Proof.
  induction v as [|x v IH]; [reflexivity|]. destruct v as [|y v]; [reflexivity|].
  change (np_diff (x :: y :: v)) with (nsub y x :: np_diff (y :: v)). cbn [length] in *. rewrite IH. lia.
Qed.
Lemma nth_np_diff (N : Num) (v : list N) k d : (S k < length v)%nat ->
  nth k (np_diff v) d = nsub (nth (S k) v d) (nth k v d).
Proof.
  revert k. induction v as [|x v IH]; intros k Hk; [cbn in Hk; lia|]. destruct v as [|y v]; [cbn in Hk; lia|].
  change (np_diff (x :: y :: v)) with (nsub y x :: np_diff (y :: v)). destruct k as [|k]; [reflexivity|].
  cbn [nth]. rewrite IH by (cbn [length] in *; lia). reflexivity.
Qed.
Definition accel_at {N : Num} (v : list N) (f d : N) (i : Z) : N :=
  if i =? 0 then nofZ 0 else nmul (nsub (nth (Z.to_nat i) v d) (nth (Z.to_nat (i - 1)) v d)) f.
Lemma nth_differences (N : Num) (v : list N) f d i : 0 <= i < zlen v ->
  nth (Z.to_nat i) (nofZ 0 :: map (fun x => nmul x f) (np_diff v)) d = accel_at v f d i.
Proof.
  intros Hi. unfold accel_at. destruct (Z.eqb_spec i 0) as [->|Hn]; [reflexivity|].
  replace (Z.to_nat i) with (S (Z.to_nat (i - 1))) by lia. cbn [nth].
  assert (Hk : (S (Z.to_nat (i - 1)) < length v)%nat) by (unfold zlen in Hi; lia).
  rewrite (nth_map_in _ _ _ d) by (rewrite np_diff_length; lia). rewrite nth_np_diff by exact Hk. reflexivity.
Qed.
Lemma accel_general (N : Num) (v : list N) (f g kg ks s d : N) : v <> [] -> spread_std (farr v) = Ok s ->
  (exists r, acceleration_thresholding v f 1 g kg ks = Ok r /\ StronglySorted Z.lt r /\
     forall i, In i r <-> 0 <= i < zlen v /\
       nltb (nmul kg g) (if i =? 0 then nofZ 0 else nmul (nsub (nth (Z.to_nat i) v d) (nth (Z.to_nat (i - 1)) v d)) f) = true /\
       nltb (nadd (ndiv (nsum v) (nofZ (zlen v))) (nmul ks s)) (nth (Z.to_nat i) v d) = true) /\
  (exists r, acceleration_thresholding v f 2 g kg ks = Ok r /\ StronglySorted Z.lt r /\
     forall i, In i r <-> 0 <= i < zlen v /\
       nltb (if i =? 0 then nofZ 0 else nmul (nsub (nth (Z.to_nat i) v d) (nth (Z.to_nat (i - 1)) v d)) f) (nmul (nopp kg) g) = true /\
       nltb (nth (Z.to_nat i) v d) (nsub (ndiv (nsum v) (nofZ (zlen v))) (nmul ks s)) = true).
Proof.
  intros Hne Hs.
  assert (HLd : zlen (nofZ 0 :: map (fun x => nmul x f) (np_diff v)) = zlen v).
  { unfold zlen. cbn [length]. rewrite map_length, np_diff_length. destruct v; [congruence|]. cbn [length]. lia. }
  split; unfold acceleration_thresholding; cbn [Z.eqb Pos.eqb]; rewrite Hs; cbn [bind];
    (eexists; split; [reflexivity|]; split; [apply intersect1d_sorted|]; intros i; rewrite in_intersect1d, !(in_nonzero_map _ _ i d));
    rewrite HLd.
  - split.
    + intros [[Hi H1] [_ H2]]. rewrite nth_differences in H1 by exact Hi. auto.
    + intros (Hi & H1 & H2). split; (split; [exact Hi|]); [|exact H2]. rewrite nth_differences by exact Hi. exact H1.
  - split.
    + intros [[Hi H1] [_ H2]]. rewrite nth_differences in H1 by exact Hi. auto.
    + intros (Hi & H1 & H2). split; (split; [exact Hi|]); [|exact H2]. rewrite nth_differences by exact Hi. exact H1.
Qed.
Lemma Rlt_bool_iff x y : Rlt_bool x y = true <-> (x < y)%R.
Proof. split; [case Rlt_bool_spec; [auto|discriminate] | apply Rlt_bool_true]. Qed.
Lemma accel_fin (l : list R) f i : 0 <= i < zlen l ->
  (if i =? 0 then @nofZ XR 0 else nmul (nsub (nth (Z.to_nat i) (fins l) (Fin 0)) (nth (Z.to_nat (i - 1)) (fins l) (Fin 0))) (Fin f))
  = Fin (raccel l f i).
Proof. intros Hi. unfold raccel. destruct (i =? 0); [reflexivity|]. rewrite !fins_nth. reflexivity. Qed.
Lemma accel_exact (l : list R) (f g kg ks : R) : l <> [] ->
  (exists r, acceleration_thresholding (fins l) (Fin f) 1 (Fin g) (Fin kg) (Fin ks) = Ok r /\ StronglySorted Z.lt r /\
     forall i, In i r <-> 0 <= i < zlen l /\ (kg * g < raccel l f i)%R /\ (rmean l + ks * rstd l < nth (Z.to_nat i) l 0)%R) /\
  (exists r, acceleration_thresholding (fins l) (Fin f) 2 (Fin g) (Fin kg) (Fin ks) = Ok r /\ StronglySorted Z.lt r /\
     forall i, In i r <-> 0 <= i < zlen l /\ (raccel l f i < - (kg * g))%R /\ (nth (Z.to_nat i) l 0 < rmean l - ks * rstd l)%R).
Proof.
  intros Hne.
  destruct (accel_general XR (fins l) (Fin f) (Fin g) (Fin kg) (Fin ks) (Fin (rstd l)) (Fin 0)) as [(r1 & E1 & S1 & H1) (r2 & E2 & S2 & H2)].
  - apply fins_nil, Hne.
  - apply std_correct, Hne.
  - assert (Hm : @ndiv XR (nsum (fins l)) (nofZ (zlen (fins l))) = Fin (rmean l)) by (apply np_mean_fins, Hne).
    rewrite Hm in H1, H2.
    split; [exists r1 | exists r2]; (split; [assumption|]; split; [assumption|]); intros i; rewrite ?H1, ?H2, zlen_fins.
    + split; intros (Hi & Ha & Hb); (split; [exact Hi|]).
      * rewrite accel_fin, fins_nth in * by exact Hi. split; apply Rlt_bool_iff; assumption.
      * rewrite accel_fin, fins_nth by exact Hi. split; apply Rlt_bool_iff; assumption.
    + split; intros (Hi & Ha & Hb); (split; [exact Hi|]).
      * rewrite accel_fin, fins_nth in * by exact Hi. apply Rlt_bool_iff in Ha. apply Rlt_bool_iff in Hb. split; lra.
      * rewrite accel_fin, fins_nth by exact Hi. split; apply Rlt_bool_iff; lra.
Qed.
Lemma accel_first (l : list R) (f g kg ks : R) tag r : (0 <= kg * g)%R ->
  acceleration_thresholding (fins l) (Fin f) tag (Fin g) (Fin kg) (Fin ks) = Ok r -> ~ In 0 r.
Proof.
  intros Hk E. destruct l as [|x l].
  - exfalso. unfold acceleration_thresholding in E. destruct (tag =? 1); [discriminate|]. destruct (tag =? 2); discriminate.
  - destruct (accel_exact (x :: l) f g kg ks ltac:(discriminate)) as [(r1 & E1 & _ & H1) (r2 & E2 & _ & H2)].
    assert (Ht : tag = 1 \/ tag = 2).
    { unfold acceleration_thresholding in E. destruct (Z.eqb_spec tag 1); [auto|]. destruct (Z.eqb_spec tag 2); [auto|discriminate]. }
    destruct Ht as [-> | ->].
    + rewrite E1 in E. injection E as <-. rewrite H1. unfold raccel. cbn [Z.eqb]. lra.
    + rewrite E2 in E. injection E as <-. rewrite H2. unfold raccel. cbn [Z.eqb]. lra.
Qed.
Lemma accel_mirror (l : list R) (f g kg ks : R) :
  acceleration_thresholding (fins l) (Fin f) 2 (Fin g) (Fin kg) (Fin ks) =
  acceleration_thresholding (fins (map Ropp l)) (Fin f) 1 (Fin g) (Fin kg) (Fin ks).
Proof.
  destruct (list_eq_dec Req_EM_T l []) as [->|Hne]; [reflexivity|].
  destruct (accel_exact l f g kg ks Hne) as [_ (r2 & E2 & S2 & H2)].
  assert (HA : map Ropp l = map (fun x => -1 * x + 0)%R l) by (apply map_ext; intros; ring).
  destruct (accel_exact (map Ropp l) f g kg ks) as [(r1 & E1 & S1 & H1) _]; [apply map_nil_iff, Hne|].
  rewrite E1, E2. f_equal. apply sorted_ext; [assumption|assumption|]. intros i. rewrite H1, H2, zlen_map.
  assert (Hm : rmean (map Ropp l) = (- rmean l)%R) by (rewrite HA, rmean_map_affine by exact Hne; ring).
  assert (Hs : rstd (map Ropp l) = rstd l).
  { rewrite HA, rstd_affine by exact Hne. rewrite Rabs_left by lra. ring. }
  assert (Hn : forall k, nth k (map Ropp l) 0%R = (- nth k l 0)%R).
  { intros k. rewrite <- Ropp_0 at 1. apply map_nth. }
  rewrite Hm, Hs, Hn. unfold raccel. rewrite !Hn. destruct (i =? 0); (split; intros (Hi & Ha & Hb); repeat split; try lia; lra).
Qed.
Lemma accel_tag (N : Num) (v : list N) f tag g kg ks : tag <> 1 -> tag <> 2 ->
  acceleration_thresholding v f tag g kg ks = Raise ValueError.
Proof.
  intros H1 H2. unfold acceleration_thresholding. rewrite (proj2 (Z.eqb_neq _ _) H1), (proj2 (Z.eqb_neq _ _) H2). reflexivity.
Qed.
