(** Inequalities between the statistics of one record, and what they say about acceleration detection. *)
From Coq Require Import Reals Lra Lia.
From Flocq Require Import Core.Raux.
From Verif Require Export Lib XR M_descriptive M_series M_detection Spec Spec2 LibR P_order P_moment P_series P_detect.
Local Open Scope R_scope.

Lemma rvar_sum l : l <> [] -> Rsum (map (fun x => (x - rmean l) ^ 2) l) = INR (length l) * rvar l.
Proof.
  intros H. unfold rvar, rmoment. set (f := fun x : R => (x - rmean l) ^ 2). unfold rmean. rewrite map_length. pose proof (INR_len_pos l H). field. lra.
Qed.
Lemma Rsum_filter (P : R -> bool) (f : R -> R) l c : (forall x, In x l -> 0 <= f x) -> (forall x, In x l -> P x = true -> c <= f x) ->
  INR (rcount P l) * c <= Rsum (map f l).
Proof.
  unfold rcount. induction l as [|x l IH]; intros H1 H2; [cbn; lra|].
  assert (IH' : INR (length (filter P l)) * c <= Rsum (map f l)) by (apply IH; intros y Hy; [apply H1 | apply H2]; right; exact Hy).
  pose proof (H1 x (or_introl eq_refl)) as A. change (Rsum (map f (x :: l))) with (f x + Rsum (map f l)). cbn [filter].
  destruct (P x) eqn:E; [|lra]. pose proof (H2 x (or_introl eq_refl) E). cbn [length]. rewrite S_INR. lra.
Qed.
(** Cantelli's inequality. *)
Lemma cantelli_up l t : l <> [] -> 0 <= t ->
  INR (rcount (fun x => Rle_bool (rmean l + t) x) l) * (rvar l + t ^ 2) <= INR (length l) * rvar l.
Proof.
  intros Hl Ht. set (v := rvar l). assert (Hv : 0 <= v) by (apply rvar_nonneg; exact Hl). set (m := rmean l).
  assert (S2 : Rsum (map (fun x => (t * (x - m) + v) ^ 2) l) = INR (length l) * v * (v + t ^ 2)).
  { rewrite (Rsum_ext _ (fun x => t ^ 2 * (x - m) ^ 2 + (2 * t * v * (x - m) + v ^ 2))) by (intros; ring).
    rewrite Rsum_map_add, Rsum_map_add, !Rsum_map_scal, Rsum_map_const. unfold m. rewrite rvar_sum, rmean_dev_0 by exact Hl. fold v. ring. }
  pose proof (Rsum_filter (fun x => Rle_bool (m + t) x) (fun x => (t * (x - m) + v) ^ 2) l ((v + t ^ 2) ^ 2)) as C.
  rewrite S2 in C. 
  assert (C' : INR (rcount (fun x => Rle_bool (m + t) x) l) * (v + t ^ 2) ^ 2 <= INR (length l) * v * (v + t ^ 2)).
  { apply C; [intros; apply pow2_ge_0|]. intros x _ Hx. apply Rle_bool_true in Hx || idtac. destruct (Rle_bool_spec (m + t) x) as [H|H]; [|discriminate].
    apply pow_incr. split; [nra|]. assert (0 <= t * (x - m - t)) by (apply Rmult_le_pos; lra). nra. }
  clear C S2. assert (H0 : 0 <= v + t ^ 2) by nra. destruct H0 as [H0|H0].
  - apply (Rmult_le_reg_r (v + t ^ 2)); [exact H0|]. nra.
  - rewrite <- H0. rewrite Rmult_0_r. apply Rmult_le_pos; [apply pos_INR | exact Hv].
Qed.
Lemma rmean_opp l : l <> [] -> rmean (map Ropp l) = - rmean l.
Proof. intros H. rewrite (map_ext Ropp (fun x => -1 * x + 0)) by (intros; ring). rewrite rmean_map_affine by exact H. ring. Qed.
Lemma rvar_opp l : l <> [] -> rvar (map Ropp l) = rvar l.
Proof. intros H. rewrite (map_ext Ropp (fun x => -1 * x + 0)) by (intros; ring). rewrite rvar_affine by exact H. ring. Qed.
Lemma rcount_map (P : R -> bool) (f : R -> R) l : rcount P (map f l) = rcount (fun x => P (f x)) l.
Proof. unfold rcount. induction l as [|x l IH]; [reflexivity|]. cbn [map filter]. destruct (P (f x)); cbn [length]; rewrite IH; reflexivity. Qed.
Lemma rcount_ext (P Q : R -> bool) l : (forall x, In x l -> P x = Q x) -> rcount P l = rcount Q l.
Proof. intros H. unfold rcount. f_equal. apply filter_ext_in. exact H. Qed.
Lemma cantelli_down l t : l <> [] -> 0 <= t ->
  INR (rcount (fun x => Rle_bool x (rmean l - t)) l) * (rvar l + t ^ 2) <= INR (length l) * rvar l.
Proof.
  intros Hl Ht. pose proof (cantelli_up (map Ropp l) t (map_nil_iff _ _ Hl) Ht) as C.
  rewrite rvar_opp, rmean_opp, map_length, rcount_map in C by exact Hl. 
  rewrite (rcount_ext _ (fun x => Rle_bool (- rmean l + t) (- x))); [exact C|].
  intros x _. destruct (Rle_bool_spec x (rmean l - t)), (Rle_bool_spec (- rmean l + t) (- x)); try reflexivity; lra.
Qed.

(** |mean - median| <= std. *)
Lemma mean_median l m : l <> [] -> (length l <= 2 * rcount (fun x => Rle_bool x m) l)%nat -> (length l <= 2 * rcount (fun x => Rle_bool m x) l)%nat ->
  Rabs (rmean l - m) <= rstd l.
Proof.
  intros Hl H1 H2. pose proof (INR_len_pos l Hl) as Hn. pose proof (rvar_nonneg l Hl) as Hv.
  apply le_INR in H1. apply le_INR in H2. rewrite mult_INR in H1, H2. change (INR 2) with 2 in *.
  assert (G : forall t c, 0 <= t -> INR c * (rvar l + t ^ 2) <= INR (length l) * rvar l -> INR (length l) <= 2 * INR c -> t <= rstd l).
  { intros t c Ht C Hc. unfold rstd. rewrite <- (sqrt_pow2 t Ht). apply sqrt_le_1_alt.
    assert (Q : INR (length l) * (rvar l + t ^ 2) <= 2 * (INR (length l) * rvar l)).
    { apply Rle_trans with (2 * INR c * (rvar l + t ^ 2)); [apply Rmult_le_compat_r; [nra | exact Hc] | lra]. }
    apply (Rmult_le_reg_l (INR (length l))); [exact Hn|]. lra. }
  destruct (Rle_lt_dec m (rmean l)) as [C|C].
  - rewrite Rabs_pos_eq by lra. apply (G _ (rcount (fun x => Rle_bool x m) l)); [lra | | exact H1].
    pose proof (cantelli_down l (rmean l - m) Hl ltac:(lra)) as D. replace (rmean l - (rmean l - m)) with m in D by ring. exact D.
  - rewrite Rabs_left by lra. replace (- (rmean l - m)) with (m - rmean l) by ring.
    apply (G _ (rcount (fun x => Rle_bool m x) l)); [lra | | exact H2].
    pose proof (cantelli_up l (m - rmean l) Hl ltac:(lra)) as D. replace (rmean l + (m - rmean l)) with m in D by ring. exact D.
Qed.
(** Samuelson's inequality. *)
Lemma rcount_pos (P : R -> bool) l x : In x l -> P x = true -> (1 <= rcount P l)%nat.
Proof.
  intros Hx Hp. unfold rcount. assert (H : In x (filter P l)) by (apply filter_In; auto). destruct (filter P l); [destruct H | cbn; lia].
Qed.
Lemma samuelson l x : l <> [] -> In x l -> (x - rmean l) ^ 2 <= (INR (length l) - 1) * rvar l.
Proof.
  intros Hl Hx. pose proof (rvar_nonneg l Hl) as Hv.
  assert (G : forall t c, INR c * (rvar l + t ^ 2) <= INR (length l) * rvar l -> (1 <= c)%nat -> t ^ 2 <= (INR (length l) - 1) * rvar l).
  { intros t c C Hc. apply le_INR in Hc. change (INR 1) with 1 in Hc. assert (0 <= (INR c - 1) * (rvar l + t ^ 2)) by (apply Rmult_le_pos; [lra | nra]). lra. }
  destruct (Rle_lt_dec (rmean l) x) as [C|C].
  - apply (G _ _ (cantelli_up l (x - rmean l) Hl ltac:(lra))). apply (rcount_pos _ _ x Hx). apply Rle_bool_true. lra.
  - replace ((x - rmean l) ^ 2) with ((rmean l - x) ^ 2) by ring. apply (G _ _ (cantelli_down l (rmean l - x) Hl ltac:(lra))).
    apply (rcount_pos _ _ x Hx). apply Rle_bool_true. lra.
Qed.
(** Popoviciu's inequality, from Bhatia and Davis. *)
Lemma bhatia_davis l a b : l <> [] -> (forall x, In x l -> a <= x <= b) -> rvar l <= (b - rmean l) * (rmean l - a).
Proof.
  intros Hl H. pose proof (INR_len_pos l Hl) as Hn. set (m := rmean l).
  assert (N0 : 0 <= Rsum (map (fun x => (b - x) * (x - a)) l)).
  { apply Rsum_map_nonneg. intros x Hx. destruct (H x Hx). apply Rmult_le_pos; lra. }
  rewrite (Rsum_ext _ (fun x => (b - m) * (m - a) + ((b - 2 * m + a) * (x - m) + -1 * (x - m) ^ 2))) in N0 by (intros; ring).
  rewrite Rsum_map_add, Rsum_map_add, !Rsum_map_scal, Rsum_map_const in N0. unfold m in N0. rewrite rvar_sum, rmean_dev_0 in N0 by exact Hl. fold m in N0.
  apply (Rmult_le_reg_l (INR (length l))); [exact Hn|]. lra.
Qed.
Lemma popoviciu l a b : l <> [] -> (forall x, In x l -> a <= x <= b) -> rstd l <= (b - a) / 2.
Proof.
  intros Hl H. pose proof (bhatia_davis l a b Hl H) as B.
  assert (Hab : a <= b) by (destruct l as [|x l]; [congruence|]; destruct (H x (or_introl eq_refl)); lra).
  unfold rstd. rewrite <- (sqrt_pow2 ((b - a) / 2)) by lra. apply sqrt_le_1_alt.
  pose proof (pow2_ge_0 (a + b - 2 * rmean l)). nra.
Qed.
Lemma kurt_le l : l <> [] -> rvar l <> 0 -> rkurt l <= INR (length l) - 1.
Proof.
  intros Hl Hv. pose proof (INR_len_pos l Hl) as Hn. pose proof (rvar_nonneg l Hl) as Hv0. assert (P : 0 < rvar l) by lra.
  unfold rkurt. 
  assert (E : sqrt (rvar l) ^ 4 = rvar l * rvar l). { replace 4%nat with (2 * 2)%nat by reflexivity. rewrite pow_mult, pow2_sqrt by exact Hv0. ring. }
  unfold rmoment. unfold rstd. rewrite E. 
  assert (S4 : Rsum (map (fun x => (x - rmean l) ^ 4) l) <= (INR (length l) - 1) * rvar l * (INR (length l) * rvar l)).
  { rewrite <- rvar_sum by exact Hl. rewrite <- Rsum_map_scal. apply Rsum_map_le. intros x Hx. 
    replace ((x - rmean l) ^ 4) with ((x - rmean l) ^ 2 * (x - rmean l) ^ 2) by ring. apply Rmult_le_compat_r; [apply pow2_ge_0 | apply samuelson; assumption]. }
  assert (M : rmean (map (fun x => (x - rmean l) ^ 4) l) <= (INR (length l) - 1) * (rvar l * rvar l)).
  { unfold rmean at 1. rewrite map_length. apply (Rmult_le_reg_r (INR (length l))); [exact Hn|]. unfold Rdiv. rewrite Rmult_assoc, Rinv_l by lra. lra. }
  assert (PP : 0 < rvar l * rvar l) by nra.
  apply (Rmult_le_reg_r (rvar l * rvar l)); [exact PP|]. unfold Rdiv. rewrite Rmult_assoc, Rinv_l by lra. rewrite Rmult_1_r. exact M.
Qed.

Lemma floats_denote (l : list XR) : Forall2 denotes (map PyFloat l) l.
Proof. induction l; cbn; constructor; [constructor | assumption]. Qed.
Theorem statistics_consistent (parse : string -> option XR) (l : list R) : l <> [] ->
  exists m md s, desc_mean parse (ASeq (map PyFloat (fins l))) = Ok (MVal (Fin m)) /\
    @desc_median XR (farr (fins l)) = Ok (Fin md) /\ @spread_std XR (farr (fins l)) = Ok (Fin s) /\
    Rabs (m - md) <= s /\
    (forall x, In x l -> Rabs (x - m) <= sqrt (INR (length l) - 1) * s) /\
    (forall a b, (forall x, In x l -> a <= x <= b) -> s <= (b - a) / 2).
Proof.
  intros Hl. destruct (median_halves l Hl) as (md & E & H1 & H2 & _). exists (rmean l), md, (rstd l).
  split; [apply mean_exact; [apply floats_denote | exact Hl]|]. split; [exact E|]. split; [apply std_correct; exact Hl|].
  split; [apply mean_median; assumption|]. split; [|intros a b H; apply popoviciu; assumption].
  intros x Hx. pose proof (rvar_nonneg l Hl) as Hv. assert (1 <= INR (length l)).
  { destruct l; [congruence|]. cbn [length]. rewrite S_INR. pose proof (pos_INR (length l)). lra. }
  unfold rstd. rewrite <- sqrt_mult by lra. rewrite <- sqrt_Rsqr_abs. apply sqrt_le_1_alt. unfold Rsqr.
  pose proof (samuelson l x Hl Hx). lra.
Qed.
Theorem moments_bounded (l : list R) : l <> [] -> rvar l <> 0 ->
  exists s k, @moment_skewness XR (fins l) = Ok (Fin s) /\ @moment_kurtosis XR (fins l) = Ok (Fin k) /\
    1 <= k <= INR (length l) - 1 /\ s ^ 2 <= INR (length l) - 2.
Proof.
  intros Hl Hv. exists (rskew l), (rkurt l). split; [apply skewness_correct; assumption|]. split; [apply kurtosis_correct; assumption|].
  pose proof (pearson l Hl Hv). pose proof (kurt_le l Hl Hv). pose proof (pow2_ge_0 (rskew l)). lra.
Qed.

Lemma index_count (P : R -> bool) (l : list R) (r : list Z) : StronglySorted Z.lt r ->
  (forall i, In i r -> (0 <= i < zlen l)%Z /\ P (nth (Z.to_nat i) l 0) = true) -> (length r <= rcount P l)%nat.
Proof.
  intros Hs H.
  assert (ND : NoDup (map Z.to_nat r)).
  { assert (H' : forall i, In i r -> (0 <= i)%Z) by (intros i Hi; destruct (H i Hi); lia). clear H.
    induction Hs as [|i r Hs IH Hf]; cbn; constructor.
    - intros Hin. apply in_map_iff in Hin. destruct Hin as (j & Ej & Hj). rewrite Forall_forall in Hf. specialize (Hf j Hj).
      pose proof (H' i (or_introl eq_refl)). pose proof (H' j (or_intror Hj)). lia.
    - apply IH. intros j Hj. apply H'. right. exact Hj. }
  assert (L : length (filter (fun k => P (nth k l 0)) (seq 0 (length l))) = rcount P l).
  { unfold rcount. clear. induction l as [|x l IH] using rev_ind; [reflexivity|]. rewrite app_length, Nat.add_comm. cbn [Nat.add length].
    rewrite seq_S, !filter_app, !app_length. cbn [Nat.add filter]. rewrite app_nth2, Nat.sub_diag by lia. cbn [nth].
    f_equal; [|destruct (P x); reflexivity]. rewrite <- IH. f_equal. apply filter_ext_in. intros k Hk. apply in_seq in Hk. rewrite app_nth1 by lia. reflexivity. }
  rewrite <- L, <- (map_length Z.to_nat r). apply NoDup_incl_length; [exact ND|].
  intros k Hk. apply in_map_iff in Hk. destruct Hk as (i & <- & Hi). destruct (H i Hi) as [B Q]. apply filter_In. split; [apply in_seq; unfold zlen in B; lia | exact Q].
Qed.
Theorem acceleration_rare (l : list R) (f g kg ks : R) tag r : 0 <= ks ->
  acceleration_thresholding (fins l) (Fin f) tag (Fin g) (Fin kg) (Fin ks) = Ok r ->
  (1 + ks ^ 2) * INR (length r) <= INR (length l).
Proof.
  intros Hk E.
  assert (Hl : l <> []).
  { intros ->. unfold acceleration_thresholding in E. cbn in E. repeat (destruct (_ =? _)%Z in E; try discriminate E). }
  pose proof (INR_len_pos l Hl) as Hn. pose proof (rvar_nonneg l Hl) as Hv0.
  pose proof (rstd_nonneg l) as Hs.
  assert (T : tag = 1%Z \/ tag = 2%Z).
  { destruct (Z.eq_dec tag 1); [auto|]. destruct (Z.eq_dec tag 2); [auto|]. rewrite accel_tag in E by assumption. discriminate. }
  destruct (accel_exact l f g kg ks Hl) as [(r1 & E1 & S1 & H1) (r2 & E2 & S2 & H2)].
  assert (G : forall c, INR c * (rvar l + (ks * rstd l) ^ 2) <= INR (length l) * rvar l -> (length r <= c)%nat -> (rvar l = 0 -> r = []) ->
    (1 + ks ^ 2) * INR (length r) <= INR (length l)).
  { intros c C Hc Hz. destruct (Req_dec (rvar l) 0) as [Z0|NZ]; [rewrite (Hz Z0); cbn [length INR]; nra|].
    rewrite Rpow_mult_distr, rstd_pow2 in C by exact Hl. apply le_INR in Hc. assert (P : 0 < rvar l) by lra.
    apply (Rmult_le_reg_r (rvar l)); [exact P|]. apply Rle_trans with (INR c * (rvar l + ks ^ 2 * rvar l)); [|exact C].
    replace (INR c * (rvar l + ks ^ 2 * rvar l)) with ((1 + ks ^ 2) * rvar l * INR c) by ring.
    replace ((1 + ks ^ 2) * INR (length r) * rvar l) with ((1 + ks ^ 2) * rvar l * INR (length r)) by ring.
    apply Rmult_le_compat_l; [|exact Hc]. apply Rmult_le_pos; [nra | lra]. }
  assert (K : 0 <= ks * rstd l) by (apply Rmult_le_pos; lra).
  assert (Zr : rvar l = 0 -> forall i, (0 <= i < zlen l)%Z -> nth (Z.to_nat i) l 0 = rmean l).
  { intros Z0 i Hi. apply (proj1 (rvar_zero_iff l Hl) Z0). apply nth_In. unfold zlen in Hi. lia. }
  assert (Zs : rvar l = 0 -> rstd l = 0) by (intros Z0; unfold rstd; rewrite Z0; apply sqrt_0).
  destruct T as [-> | ->].
  - rewrite E in E1. injection E1 as <-. apply (G _ (cantelli_up l _ Hl K)).
    + apply index_count; [exact S1|]. intros i Hi. apply H1 in Hi. destruct Hi as (B & _ & Q). split; [exact B|]. apply Rle_bool_true. lra.
    + intros Z0. destruct r as [|i r]; [reflexivity|]. exfalso. destruct (proj1 (H1 i) (or_introl eq_refl)) as (B & _ & Q). rewrite (Zr Z0 i B), (Zs Z0) in Q. lra.
  - rewrite E in E2. injection E2 as <-. apply (G _ (cantelli_down l _ Hl K)).
    + apply index_count; [exact S2|]. intros i Hi. apply H2 in Hi. destruct Hi as (B & _ & Q). split; [exact B|]. apply Rle_bool_true. lra.
    + intros Z0. destruct r as [|i r]; [reflexivity|]. exfalso. destruct (proj1 (H2 i) (or_introl eq_refl)) as (B & _ & Q). rewrite (Zr Z0 i B), (Zs Z0) in Q. lra.
Qed.
(** Raising a threshold never adds an index. *)
Theorem acceleration_monotone (l : list R) (f g g' kg kg' ks ks' : R) tag r r' : kg * g <= kg' * g' -> ks <= ks' ->
  @acceleration_thresholding XR (fins l) (Fin f) tag (Fin g) (Fin kg) (Fin ks) = Ok r ->
  @acceleration_thresholding XR (fins l) (Fin f) tag (Fin g') (Fin kg') (Fin ks') = Ok r' -> incl r' r.
Proof.
  intros Hg Hk E E'.
  assert (Hl : l <> []).
  { intros ->. unfold acceleration_thresholding in E. cbn in E. repeat (destruct (_ =? _)%Z in E; try discriminate E). }
  assert (T : tag = 1%Z \/ tag = 2%Z).
  { destruct (Z.eq_dec tag 1); [auto|]. destruct (Z.eq_dec tag 2); [auto|]. rewrite accel_tag in E by assumption. discriminate. }
  destruct (accel_exact l f g kg ks Hl) as [(r1 & E1 & _ & H1) (r2 & E2 & _ & H2)].
  destruct (accel_exact l f g' kg' ks' Hl) as [(r1' & E1' & _ & H1') (r2' & E2' & _ & H2')].
  pose proof (Rmult_le_compat_r _ _ _ (rstd_nonneg l) Hk) as Hs.
  destruct T as [-> | ->].
  - rewrite E in E1. injection E1 as <-. rewrite E' in E1'. injection E1' as <-. intros i Hi. apply H1' in Hi. apply H1. destruct Hi as (B & P & Q). repeat split; try apply B; lra.
  - rewrite E in E2. injection E2 as <-. rewrite E' in E2'. injection E2' as <-. intros i Hi. apply H2' in Hi. apply H2. destruct Hi as (B & P & Q). repeat split; try apply B; lra.
Qed.
(** Both bounds are attained: nine equal samples and one spike. *)
Lemma spike_var : rmean [0; 10; 0; 0; 0; 0; 0; 0; 0; 0] = 1 /\ rvar [0; 10; 0; 0; 0; 0; 0; 0; 0; 0] = 9.
Proof. 
  assert (M : rmean [0; 10; 0; 0; 0; 0; 0; 0; 0; 0] = 1) by (unfold rmean; cbn; lra). split; [exact M|]. 
  pose proof (rvar_sum [0; 10; 0; 0; 0; 0; 0; 0; 0; 0] ltac:(discriminate)) as V. rewrite M in V. cbn in V. lra.
Qed.
Lemma rare_example : @acceleration_thresholding XR (fins [0; 10; 0; 0; 0; 0; 0; 0; 0; 0]) (Fin 25) 1 (Fin 10) (Fin 1) (Fin 2) = Ok [1%Z].
Proof.
  destruct spike_var as [M V]. assert (S : rstd [0; 10; 0; 0; 0; 0; 0; 0; 0; 0] = 3).
  { unfold rstd. rewrite V. replace 9 with (3 * 3) by lra. apply sqrt_square. lra. }
  destruct (accel_exact [0; 10; 0; 0; 0; 0; 0; 0; 0; 0] 25 10 1 2 ltac:(discriminate)) as [(r & E & Sr & H) _]. rewrite E. f_equal. rewrite M, S in H.
  assert (A : forall i, In i r <-> i = 1%Z).
  { intros i. rewrite H. split.
    - intros (B & _ & Q). unfold zlen in B. cbn [length] in B.
      assert (C : (i = 0 \/ i = 1 \/ i = 2 \/ i = 3 \/ i = 4 \/ i = 5 \/ i = 6 \/ i = 7 \/ i = 8 \/ i = 9)%Z) by lia.
      destruct C as [->|[->|[->|[->|[->|[->|[->|[->|[->| ->]]]]]]]]]; try reflexivity; exfalso;
        match type of Q with context [Z.to_nat ?z] => let n := eval compute in (Z.to_nat z) in change (Z.to_nat z) with n in Q end; cbn [nth] in Q; lra.
    - intros ->. unfold raccel, zlen. change (1 =? 0)%Z with false. change (Z.to_nat 1) with 1%nat. change (Z.to_nat (1 - 1)) with 0%nat. cbn [nth length]. split; [lia|]. split; lra. }
  destruct r as [|i r]; [exfalso; apply (proj2 (A 1%Z) eq_refl)|]. 
  assert (i = 1%Z) by (apply A; left; reflexivity). subst i. f_equal. destruct r as [|j r]; [reflexivity|]. exfalso.
  assert (j = 1%Z) by (apply A; right; left; reflexivity). subst j. apply StronglySorted_inv in Sr. destruct Sr as [_ F]. inversion F. lia.
Qed.
