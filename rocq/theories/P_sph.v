(** Lemmas about spherical.py. *)
From Coq Require Import Reals Lra Psatz.
From Flocq Require Import Core.Raux.
From Verif Require Export P_kern.
Local Open Scope Z_scope.

(** ** Evaluation of the point test *)
Lemma sph_den (a b c x y z : R) : (0 < a)%R -> (0 < b)%R -> (0 < c)%R ->
  let S := ((x / a) ^ 2 + (y / b) ^ 2 + (z / c) ^ 2)%R in
  sqrt ((a * c * y) ^ 2 + b ^ 2 * (c ^ 2 * x ^ 2 + a ^ 2 * z ^ 2)) = (a * b * c * sqrt S)%R.
Proof.
  intros Ha Hb Hc S.
  replace ((a * c * y) ^ 2 + b ^ 2 * (c ^ 2 * x ^ 2 + a ^ 2 * z ^ 2))%R with ((a * b * c) ^ 2 * S)%R by (unfold S; field; lra).
  assert (0 < a * b * c)%R by (repeat apply Rmult_lt_0_compat; assumption).
  assert (0 <= S)%R by (unfold S; repeat apply Rplus_le_le_0_compat; apply pow2_ge_0).
  rewrite sqrt_mult by (first [apply pow2_ge_0 | assumption]). rewrite sqrt_pow2 by lra. reflexivity.
Qed.
Lemma xsqrt_neg x : (x < 0)%R -> @nsqrt XR (Fin x) = NaN.
Proof. intros H. cbn. rewrite Rlt_bool_true by exact H. reflexivity. Qed.
Lemma sph_flag_eval (a b c x y z : R) : (0 < a)%R -> (0 < b)%R -> (0 < c)%R ->
  let S := ((x / a) ^ 2 + (y / b) ^ 2 + (z / c) ^ 2)%R in (0 < S)%R ->
  let x2 := round_dec 4 (x / sqrt S) in let y2 := round_dec 4 (y / sqrt S) in
  let zt := round_dec 4 (c ^ 2 * (1 - (x2 / a) ^ 2 - (y2 / b) ^ 2)) in
  @sph_flag XR (Fin a) (Fin b) (Fin c) (Fin x) (Fin y) (Fin z) = true <->
  (z = 0%R /\ (x2 ^ 2 + y2 ^ 2 < x ^ 2 + y ^ 2 + z ^ 2)%R) \/
  (z <> 0%R /\ (0 <= zt)%R /\ (x2 ^ 2 + y2 ^ 2 + round_dec 4 (sqrt zt) ^ 2 < x ^ 2 + y ^ 2 + z ^ 2)%R).
Proof.
  intros Ha Hb Hc S HS x2 y2 zt.
  assert (Hs : (0 < sqrt S)%R) by (apply sqrt_lt_R0, HS).
  assert (Habc : (0 < a * b * c)%R) by (repeat apply Rmult_lt_0_compat; assumption).
  unfold sph_flag.
  rewrite !nipow_fin, !xmul_fin, ?nipow_fin, ?xmul_fin, ?xadd_fin, ?xmul_fin, ?nipow_fin, ?xadd_fin, ?xmul_fin, ?xadd_fin.
  rewrite xsqrt_fin by (pose proof (pow2_ge_0 (a * c * y)); pose proof (pow2_ge_0 b); pose proof (pow2_ge_0 c); pose proof (pow2_ge_0 x); pose proof (pow2_ge_0 a); pose proof (pow2_ge_0 z);
     repeat apply Rplus_le_le_0_compat; try assumption; apply Rmult_le_pos; try assumption; apply Rplus_le_le_0_compat; apply Rmult_le_pos; assumption).
  rewrite sph_den by assumption. fold S.
  rewrite !xdiv_fin by (apply Rgt_not_eq; apply Rmult_lt_0_compat; assumption).
  replace (a * b * c * x / (a * b * c * sqrt S))%R with (x / sqrt S)%R by (field; lra).
  replace (a * b * c * y / (a * b * c * sqrt S))%R with (y / sqrt S)%R by (field; lra).
  rewrite !around_fin. fold x2 y2.
  rewrite !xdiv_fin by lra. rewrite !nipow_fin, !xofZ_fin, !xsub_fin, !xmul_fin, around_fin. fold zt.
  rewrite !xltb_fin, !xadd_fin.
  assert (HSQ : forall w : R, @nipow XR (nopp (Fin w)) 2 = Fin (w ^ 2)) by (intros w; rewrite xopp_fin, nipow_fin; f_equal; ring).
  destruct (Rlt_le_dec z 0) as [Hz|Hz].
  { rewrite (Rlt_bool_true z 0) by exact Hz. destruct (Rlt_le_dec zt 0) as [Hzt|Hzt].
    - rewrite xsqrt_neg by exact Hzt. change (around (NaN : XR) 4) with (NaN : XR).
      split; [intros H; discriminate H | intros [[H _]|(_ & H & _)]; lra].
    - rewrite xsqrt_fin by exact Hzt. rewrite around_fin, HSQ, xadd_fin, xsub_fin, xltb_fin. rewrite Rlt_bool_iff.
      split; [intros H; right; split; [lra|]; split; [exact Hzt | lra] | intros [[H _]|(_ & _ & H)]; lra]. }
  rewrite (Rlt_bool_false z 0) by exact Hz. destruct Hz as [Hz|Hz].
  { rewrite (Rlt_bool_true 0 z) by exact Hz. destruct (Rlt_le_dec zt 0) as [Hzt|Hzt].
    - rewrite xsqrt_neg by exact Hzt. change (around (NaN : XR) 4) with (NaN : XR).
      split; [intros H; discriminate H | intros [[H _]|(_ & H & _)]; lra].
    - rewrite xsqrt_fin by exact Hzt. rewrite around_fin, nipow_fin, xadd_fin, xsub_fin, xltb_fin. rewrite Rlt_bool_iff.
      split; [intros H; right; split; [lra|]; split; [exact Hzt | lra] | intros [[H _]|(_ & _ & H)]; lra]. }
  rewrite (Rlt_bool_false 0 z) by lra. rewrite nipow_fin, xadd_fin, xsub_fin, xltb_fin, Rlt_bool_iff.
  split; [intros H; left; split; [lra|]; lra | intros [[_ H]|(H & _)]; lra].
Qed.
Lemma sph_origin (a b c : R) : (0 < a)%R -> (0 < b)%R -> (0 < c)%R ->
  @sph_flag XR (Fin a) (Fin b) (Fin c) (Fin 0) (Fin 0) (Fin 0) = false.
Proof.
  intros Ha Hb Hc. unfold sph_flag.
  rewrite !nipow_fin, !xmul_fin, ?nipow_fin, ?xmul_fin, ?xadd_fin, ?xmul_fin, ?nipow_fin, ?xadd_fin, ?xmul_fin, ?xadd_fin.
  replace ((a * c * 0) ^ 2 + b ^ 2 * (c ^ 2 * 0 ^ 2 + a ^ 2 * 0 ^ 2))%R with 0%R by ring.
  rewrite xsqrt_fin by lra. rewrite sqrt_0, !Rmult_0_r, xdiv_00. change (around (NaN : XR) 4) with (NaN : XR).
  change (@nipow XR (NaN : XR) 2) with (NaN : XR).
  assert (H1 : forall t : XR, @nadd XR (NaN : XR) t = NaN) by (intros [t|s|]; reflexivity).
  assert (H2 : forall t : XR, @nsub XR (NaN : XR) t = NaN) by (intros [t|s|]; reflexivity).
  rewrite !H1, H2. reflexivity.
Qed.

(** ** Margins *)
Lemma sq_close (u v h A : R) : (Rabs (u - v) <= h)%R -> (Rabs v <= A)%R -> (Rabs (u ^ 2 - v ^ 2) <= h * (2 * A + h))%R.
Proof.
  intros H1 H2. replace (u ^ 2 - v ^ 2)%R with ((u - v) * (2 * v + (u - v)))%R by ring.
  rewrite Rabs_mult. apply Rmult_le_compat; try apply Rabs_pos; [exact H1|].
  eapply Rle_trans; [apply Rabs_triang|]. apply Rplus_le_compat; [|exact H1]. rewrite Rabs_mult, Rabs_pos_eq by lra. lra.
Qed.
Lemma div_sq_close (u v a e : R) : (0 < a)%R -> (Rabs (u ^ 2 - v ^ 2) <= e)%R -> (Rabs ((u / a) ^ 2 - (v / a) ^ 2) <= e / a ^ 2)%R.
Proof.
  intros Ha H. replace ((u / a) ^ 2 - (v / a) ^ 2)%R with ((u ^ 2 - v ^ 2) / a ^ 2)%R by (field; lra).
  assert (0 < a ^ 2)%R by (apply pow_lt, Ha).
  unfold Rdiv. rewrite Rabs_mult, (Rabs_pos_eq (/ a ^ 2)) by (left; apply Rinv_0_lt_compat; assumption).
  apply Rmult_le_compat_r; [left; apply Rinv_0_lt_compat; assumption | exact H].
Qed.
Section Margin.
Variables (a b c x y z : R).
Hypotheses (Ha : (0 < a)%R) (Hb : (0 < b)%R) (Hc : (0 < c)%R).
Let h := (/ 20000)%R.
Let S := ((x / a) ^ 2 + (y / b) ^ 2 + (z / c) ^ 2)%R.
Hypothesis HS : (0 < S)%R.
Let X := (x / sqrt S)%R.
Let Y := (y / sqrt S)%R.
Let x2 := round_dec 4 X.
Let y2 := round_dec 4 Y.
Let zt := round_dec 4 (c ^ 2 * (1 - (x2 / a) ^ 2 - (y2 / b) ^ 2)).
Let D := sph_D h a b c.
Let E := sph_E h a b c.

Lemma rd4 t : (Rabs (round_dec 4 t - t) <= h)%R.
Proof. pose proof (round_dec_error 4 t ltac:(lia)) as H. unfold h. cbn in H |- *. lra. Qed.
Lemma m_sqrtS : (0 < sqrt S)%R. Proof. apply sqrt_lt_R0, HS. Qed.
Lemma m_sqr : (sqrt S * sqrt S = S)%R. Proof. apply sqrt_sqrt. lra. Qed.
Lemma m_sum : ((X / a) ^ 2 + (Y / b) ^ 2 + z ^ 2 / S / c ^ 2 = 1)%R.
Proof.
  pose proof m_sqrtS. pose proof m_sqr as Q.
  assert (E1 : ((X / a) ^ 2 = (x / a) ^ 2 / S)%R) by (transitivity ((x / a) ^ 2 / (sqrt S * sqrt S))%R; [unfold X; field; lra | rewrite Q; reflexivity]).
  assert (E2 : ((Y / b) ^ 2 = (y / b) ^ 2 / S)%R) by (transitivity ((y / b) ^ 2 / (sqrt S * sqrt S))%R; [unfold Y; field; lra | rewrite Q; reflexivity]).
  rewrite E1, E2. replace (z ^ 2 / S / c ^ 2)%R with ((z / c) ^ 2 / S)%R by (field; lra).
  transitivity (S / S)%R; [unfold S at 4; field; lra | field; lra].
Qed.
Lemma m_nonneg : (0 <= z ^ 2 / S / c ^ 2)%R.
Proof. apply Rmult_le_pos; [apply Rmult_le_pos; [apply pow2_ge_0 | left; apply Rinv_0_lt_compat, HS] | left; apply Rinv_0_lt_compat, pow_lt, Hc]. Qed.
Lemma abs_le_of_sq (u w : R) : (0 < w)%R -> ((u / w) ^ 2 <= 1)%R -> (Rabs u <= w)%R.
Proof.
  intros Hw H.
  apply Rabs_le. assert (u ^ 2 <= w ^ 2)%R.
  { replace (u ^ 2)%R with ((u / w) ^ 2 * w ^ 2)%R by (field; lra). assert (0 <= w ^ 2)%R by apply pow2_ge_0. nra. }
  split; nra.
Qed.
Lemma m_X : (Rabs X <= a)%R.
Proof. apply abs_le_of_sq; [exact Ha|]. pose proof m_sum. pose proof m_nonneg. pose proof (pow2_ge_0 (Y / b)). lra. Qed.
Lemma m_Y : (Rabs Y <= b)%R.
Proof. apply abs_le_of_sq; [exact Hb|]. pose proof m_sum. pose proof m_nonneg. pose proof (pow2_ge_0 (X / a)). lra. Qed.
Lemma m_x2 : (Rabs (x2 ^ 2 - X ^ 2) <= h * (2 * a + h))%R.
Proof. apply sq_close; [apply rd4 | apply m_X]. Qed.
Lemma m_y2 : (Rabs (y2 ^ 2 - Y ^ 2) <= h * (2 * b + h))%R.
Proof. apply sq_close; [apply rd4 | apply m_Y]. Qed.
Lemma m_zt : (Rabs (zt - z ^ 2 / S) <= D + h)%R.
Proof.
  pose proof (div_sq_close _ _ a _ Ha m_x2) as H1. pose proof (div_sq_close _ _ b _ Hb m_y2) as H2.
  assert (EZ : (z ^ 2 / S = c ^ 2 * (1 - (X / a) ^ 2 - (Y / b) ^ 2))%R).
  { replace (1 - (X / a) ^ 2 - (Y / b) ^ 2)%R with (z ^ 2 / S / c ^ 2)%R by (pose proof m_sum; lra). field. lra. }
  rewrite EZ. set (t := (c ^ 2 * (1 - (x2 / a) ^ 2 - (y2 / b) ^ 2))%R) in *.
  replace (zt - c ^ 2 * (1 - (X / a) ^ 2 - (Y / b) ^ 2))%R with ((zt - t) + (t - c ^ 2 * (1 - (X / a) ^ 2 - (Y / b) ^ 2)))%R by ring.
  eapply Rle_trans; [apply Rabs_triang|]. rewrite Rplus_comm. apply Rplus_le_compat; [|apply rd4].
  unfold t, D, sph_D. replace (c ^ 2 * (1 - (x2 / a) ^ 2 - (y2 / b) ^ 2) - c ^ 2 * (1 - (X / a) ^ 2 - (Y / b) ^ 2))%R
    with (c ^ 2 * (- ((x2 / a) ^ 2 - (X / a) ^ 2) - ((y2 / b) ^ 2 - (Y / b) ^ 2)))%R by ring.
  rewrite Rabs_mult, (Rabs_pos_eq (c ^ 2)) by apply pow2_ge_0. apply Rmult_le_compat_l; [apply pow2_ge_0|].
  eapply Rle_trans; [apply Rabs_triang|]. rewrite !Rabs_Ropp. apply Rplus_le_compat; assumption.
Qed.
Lemma m_h : (0 < h)%R. Proof. unfold h. lra. Qed.
Lemma m_D : (0 <= D)%R.
Proof.
  pose proof m_h. unfold D, sph_D. apply Rmult_le_pos; [apply pow2_ge_0|].
  assert (forall w, 0 < w -> 0 <= h * (2 * w + h) / w ^ 2)%R.
  { intros w Hw. apply Rmult_le_pos; [nra | left; apply Rinv_0_lt_compat, pow_lt, Hw]. }
  apply Rplus_le_le_0_compat; auto.
Qed.
Lemma m_Z : (z ^ 2 / S <= c ^ 2)%R.
Proof.
  pose proof m_sum. pose proof (pow2_ge_0 (X / a)). pose proof (pow2_ge_0 (Y / b)).
  assert (Q : (z ^ 2 / S / c ^ 2 <= 1)%R) by lra. assert (0 < c ^ 2)%R by (apply pow_lt, Hc).
  replace (z ^ 2 / S)%R with (z ^ 2 / S / c ^ 2 * c ^ 2)%R by (field; lra). nra.
Qed.
Lemma m_z2 : (0 <= zt)%R -> (Rabs (round_dec 4 (sqrt zt) ^ 2 - z ^ 2 / S) <= D + h + h * (2 * sqrt (c ^ 2 + D + h) + h))%R.
Proof.
  intros Hz. pose proof m_zt as H. pose proof m_Z as HZ.
  assert (Hq : (zt <= c ^ 2 + D + h)%R) by (apply Rabs_le_inv in H; lra).
  pose proof (sq_close (round_dec 4 (sqrt zt)) (sqrt zt) h (sqrt (c ^ 2 + D + h)) (rd4 _)) as H1.
  rewrite Rabs_pos_eq in H1 by apply sqrt_pos. specialize (H1 (sqrt_le_1_alt _ _ Hq)).
  rewrite <- (Rsqr_pow2 (sqrt zt)), Rsqr_sqrt in H1 by exact Hz.
  replace (round_dec 4 (sqrt zt) ^ 2 - z ^ 2 / S)%R with ((zt - z ^ 2 / S) + (round_dec 4 (sqrt zt) ^ 2 - zt))%R by ring.
  eapply Rle_trans; [apply Rabs_triang|]. apply Rplus_le_compat; assumption.
Qed.
Lemma m_ideal : (X ^ 2 + Y ^ 2 + z ^ 2 / S = (x ^ 2 + y ^ 2 + z ^ 2) / S)%R.
Proof. pose proof m_sqrtS. pose proof m_sqr as Q. 
  transitivity (x ^ 2 / (sqrt S * sqrt S) + y ^ 2 / (sqrt S * sqrt S) + z ^ 2 / S)%R; [unfold X, Y; field; lra | rewrite Q; field; lra]. Qed.
Lemma m_inside : (E <= (x ^ 2 + y ^ 2 + z ^ 2) * (1 / S - 1))%R ->
  @sph_flag XR (Fin a) (Fin b) (Fin c) (Fin x) (Fin y) (Fin z) = false.
Proof.
  intros HE. destruct (sph_flag _ _ _ _ _ _) eqn:EF; [exfalso|reflexivity].
  apply sph_flag_eval in EF; try assumption. fold S X Y in EF. fold x2 y2 in EF. fold zt in EF.
  pose proof m_x2 as H1. pose proof m_y2 as H2. pose proof m_ideal as HI. apply Rabs_le_inv in H1, H2.
  replace ((x ^ 2 + y ^ 2 + z ^ 2) * (1 / S - 1))%R with ((x ^ 2 + y ^ 2 + z ^ 2) / S - (x ^ 2 + y ^ 2 + z ^ 2))%R in HE by (field; lra).
  pose proof m_D. pose proof m_h. pose proof (sqrt_pos (c ^ 2 + D + h)).
  assert (0 <= h * (2 * sqrt (c ^ 2 + D + h) + h))%R by nra.
  unfold E, sph_E in HE. fold D in HE. destruct EF as [[Hz EF]|(Hz & Hzt & EF)].
  - assert (HZ0 : (z ^ 2 / S = 0)%R) by (rewrite Hz; field; lra). lra.
  - pose proof (m_z2 Hzt) as HZ3. apply Rabs_le_inv in HZ3. lra.
Qed.
Lemma m_outside : (E < (x ^ 2 + y ^ 2 + z ^ 2) * (1 - 1 / S))%R -> (z = 0 \/ D + h <= z ^ 2 / S)%R ->
  @sph_flag XR (Fin a) (Fin b) (Fin c) (Fin x) (Fin y) (Fin z) = true.
Proof.
  intros HE Hz. apply sph_flag_eval; try assumption. fold S X Y. fold x2 y2. fold zt.
  pose proof m_x2 as H1. pose proof m_y2 as H2. pose proof m_ideal as HI. apply Rabs_le_inv in H1, H2.
  replace ((x ^ 2 + y ^ 2 + z ^ 2) * (1 - 1 / S))%R with ((x ^ 2 + y ^ 2 + z ^ 2) - (x ^ 2 + y ^ 2 + z ^ 2) / S)%R in HE by (field; lra).
  pose proof m_D. pose proof m_h. pose proof (sqrt_pos (c ^ 2 + D + h)).
  assert (0 <= h * (2 * sqrt (c ^ 2 + D + h) + h))%R by nra.
  unfold E, sph_E in HE. fold D in HE. destruct (Req_dec z 0) as [Z0|Z0].
  - left. split; [exact Z0|]. assert (HZ0 : (z ^ 2 / S = 0)%R) by (rewrite Z0; field; lra). lra.
  - destruct Hz as [Hz|Hz]; [contradiction|]. right. split; [exact Z0|].
    pose proof m_zt as HZ4. apply Rabs_le_inv in HZ4. assert (Hzt : (0 <= zt)%R) by lra. split; [exact Hzt|].
    pose proof (m_z2 Hzt) as HZ3. apply Rabs_le_inv in HZ3. lra.
Qed.
End Margin.
Lemma sph_margin (a b c x y z : R) : (0 < a)%R -> (0 < b)%R -> (0 < c)%R ->
  let h := (/ 20000)%R in let S := ((x / a) ^ 2 + (y / b) ^ 2 + (z / c) ^ 2)%R in let r2 := (x ^ 2 + y ^ 2 + z ^ 2)%R in
  (0 < S)%R ->
  ((sph_E h a b c <= r2 * (1 / S - 1))%R -> @sph_flag XR (Fin a) (Fin b) (Fin c) (Fin x) (Fin y) (Fin z) = false) /\
  ((sph_E h a b c < r2 * (1 - 1 / S))%R -> (z = 0 \/ sph_D h a b c + h <= z ^ 2 / S)%R ->
   @sph_flag XR (Fin a) (Fin b) (Fin c) (Fin x) (Fin y) (Fin z) = true).
Proof.
  intros Ha Hb Hc h S r2 HS. split; [apply m_inside | apply m_outside]; assumption.
Qed.

(** ** A far point that is not flagged *)
Lemma round4_at v k : (Rabs (v * 10000 - IZR k) < / 2)%R -> round_dec 4 v = (IZR k / 10000)%R.
Proof. intros H. unfold round_dec. cbn [Z.leb Z.compare]. change (10 ^ 4) with 10000. rewrite (Generic_fmt.Znearest_imp _ _ k H). reflexivity. Qed.
Lemma sph_missed : exists x y z : R, (1000000 < (x / 1) ^ 2 + (y / 1) ^ 2 + (z / 1) ^ 2)%R /\
  @sph_flag XR (Fin 1) (Fin 1) (Fin 1) (Fin x) (Fin y) (Fin z) = false.
Proof.
  exists (60006 / 100)%R, (79996 / 100)%R, 1%R. split; [lra|].
  destruct (sph_flag _ _ _ _ _ _) eqn:EF; [exfalso|reflexivity].
  apply sph_flag_eval in EF; try lra.
  set (S := ((60006 / 100 / 1) ^ 2 + (79996 / 100 / 1) ^ 2 + (1 / 1) ^ 2)%R) in EF.
  assert (HS : (S = 10000090052 / 10000)%R) by (unfold S; lra).
  assert (L1 : (1000.0045 < sqrt S)%R).
  { rewrite <- (sqrt_pow2 1000.0045) by lra. apply sqrt_lt_1_alt. rewrite HS. lra. }
  assert (L2 : (sqrt S < 1000.0046)%R).
  { rewrite <- (sqrt_pow2 1000.0046) by lra. apply sqrt_lt_1_alt. rewrite HS. lra. }
  assert (HB : forall t lo hi : R, (lo * sqrt S < t)%R -> (t < hi * sqrt S)%R -> (lo < t / sqrt S < hi)%R).
  { intros t lo hi H1 H2. assert (0 < sqrt S)%R by lra. assert (0 < / sqrt S)%R by (apply Rinv_0_lt_compat; assumption).
    split; [replace lo with (lo * sqrt S * / sqrt S)%R by (field; lra) | replace hi with (hi * sqrt S * / sqrt S)%R by (field; lra)];
      unfold Rdiv; apply Rmult_lt_compat_r; assumption. }
  assert (HX := HB (60006 / 100)%R 0.60005%R 0.60006%R ltac:(lra) ltac:(lra)).
  assert (HY := HB (79996 / 100)%R 0.79995%R 0.79996%R ltac:(lra) ltac:(lra)).
  rewrite (round4_at (60006 / 100 / sqrt S) 6001) in EF by (apply Rabs_def1; lra).
  rewrite (round4_at (79996 / 100 / sqrt S) 8000) in EF by (apply Rabs_def1; lra).
  rewrite (round4_at (1 ^ 2 * (1 - (6001 / 10000 / 1) ^ 2 - (8000 / 10000 / 1) ^ 2)) (-1)) in EF by (apply Rabs_def1; lra).
  destruct EF as [[H _]|(_ & H & _)]; lra.
Qed.

(** ** The whole function, every arithmetic *)
Lemma sph_indices_gen (N : Num) (x y z : list N) (a b c d : N) : length y = length x -> length z = length x ->
  exists r, sph_spike_indices x y z a b c = Ok r /\ StronglySorted Z.lt r /\
    forall i, In i r <-> 0 <= i < zlen x /\
      sph_flag a b c (nth (Z.to_nat i) x d) (nth (Z.to_nat i) y d) (nth (Z.to_nat i) z d) = true.
Proof.
  intros Ly Lz. unfold sph_spike_indices.
  set (fl := fun i => sph_flag a b c (nth (Z.to_nat i) x d) (nth (Z.to_nat i) y d) (nth (Z.to_nat i) z d)).
  assert (HF : forall n, 0 <= n <= zlen x ->
    foldM (fun ip i => let* x1 := getz x i in let* y1 := getz y i in let* z1 := getz z i in
       Ok (if sph_flag a b c x1 y1 z1 then ip ++ [i] else ip)) [] (zrange 0 n) = Ok (filter fl (zrange 0 n))).
  { intros n Hn. destruct (foldM_range_inv (fun ip i => let* x1 := getz x i in let* y1 := getz y i in let* z1 := getz z i in
           Ok (if sph_flag a b c x1 y1 z1 then ip ++ [i] else ip)) (fun i (s : list Z) => s = filter fl (zrange 0 i)) 0 n []) as (s & E & H).
    - lia.
    - reflexivity.
    - intros i s Hi ->. rewrite (getz_ok x i d), (getz_ok y i d), (getz_ok z i d) by (unfold zlen in *; lia). cbn [bind].
      eexists. split; [reflexivity|]. rewrite zrange_snoc by lia. rewrite filter_app. cbn [filter]. fold (fl i).
      destruct (fl i); [reflexivity | rewrite app_nil_r; reflexivity].
    - rewrite E, H. reflexivity. }
  rewrite HF by (unfold zlen; lia). eexists. split; [reflexivity|]. split.
  - assert (HZ : forall p q, StronglySorted Z.lt (filter fl (zrange p q))).
    { intros p q. remember (Z.to_nat (q - p)) as k eqn:Ek. revert p Ek. induction k as [|k IH]; intros p Ek.
      - rewrite zrange_nil by lia. constructor.
      - rewrite zrange_cons by lia. cbn [filter]. destruct (fl p); [|apply IH; lia]. constructor; [apply IH; lia|].
        apply Forall_forall. intros j Hj. apply filter_In in Hj. destruct Hj as [Hj _]. apply in_zrange in Hj. lia. }
    apply HZ.
  - intros i. rewrite filter_In, in_zrange. reflexivity.
Qed.
Lemma np_gradient_gen (N : Num) (f : list N) d : 2 <= zlen f ->
  exists g, np_gradient f = Ok g /\ length g = length f /\
    forall i, 0 <= i < zlen f -> nth (Z.to_nat i) g d =
      if i =? 0 then ndiv (nsub (nth 1 f d) (nth 0 f d)) (nofZ 1)
      else if i =? zlen f - 1 then ndiv (nsub (nth (length f - 1) f d) (nth (length f - 2) f d)) (nofZ 1)
      else ndiv (nsub (nth (Z.to_nat (i + 1)) f d) (nth (Z.to_nat (i - 1)) f d)) (nofZ 2).
Proof.
  intros Hn. unfold np_gradient. destruct (Z.ltb_spec (zlen f) 2); [lia|].
  set (h := fun i => if i =? 0 then ndiv (nsub (nth 1 f d) (nth 0 f d)) (nofZ 1)
      else if i =? zlen f - 1 then ndiv (nsub (nth (length f - 1) f d) (nth (length f - 2) f d)) (nofZ 1)
      else ndiv (nsub (nth (Z.to_nat (i + 1)) f d) (nth (Z.to_nat (i - 1)) f d)) (nofZ 2)).
  rewrite (mapM_all_ok _ h).
  - eexists. split; [reflexivity|]. split; [rewrite map_length, zrange_length; unfold zlen in *; lia|].
    intros i Hi. rewrite (nth_map_in _ _ _ 0) by (rewrite zrange_length; lia). fold (h i). f_equal.
    assert (HZ : forall k a b, a + Z.of_nat k < b -> nth k (zrange a b) 0 = a + Z.of_nat k).
    { induction k as [|k IH]; intros p q Hpq; rewrite zrange_cons by lia; cbn [nth]; [lia|]. rewrite IH by lia. lia. }
    rewrite HZ by lia. lia.
  - intros i Hi. apply in_zrange in Hi. unfold h. destruct (Z.eqb_spec i 0).
    + rewrite (getz_ok f 1 d), (getz_ok f 0 d) by lia. reflexivity.
    + destruct (Z.eqb_spec i (zlen f - 1)).
      * rewrite (getz_ok f (zlen f - 1) d), (getz_ok f (zlen f - 2) d) by lia. cbn [bind].
        replace (Z.to_nat (zlen f - 1)) with (length f - 1)%nat by (unfold zlen; lia).
        replace (Z.to_nat (zlen f - 2)) with (length f - 2)%nat by (unfold zlen; lia). reflexivity.
      * rewrite (getz_ok f (i + 1) d), (getz_ok f (i - 1) d) by lia. reflexivity.
Qed.
Lemma sph_row_gen (N : Num) (c dc dc2 : list N) (r0 r1 r2 : N) : length dc = length c -> length dc2 = length c ->
  exists x, sph_row c dc dc2 r0 r1 r2 = Ok x /\ length x = length c /\
    forall i d, (i < length c)%nat ->
      nth i x d = around (nadd (nadd (nmul (nth i c d) r0) (nmul (nth i dc d) r1)) (nmul (nth i dc2 d) r2)) 4.
Proof.
  intros L1 L2. unfold sph_row. rewrite bcast_same by (rewrite !map_length; congruence). cbn [bind].
  rewrite bcast_same by (rewrite zipwith_length, !map_length; lia). cbn [bind]. eexists. split; [reflexivity|].
  split; [rewrite map_length, !zipwith_length, !map_length; lia|]. intros i d Hi.
  rewrite (nth_map_in _ _ _ d) by (rewrite !zipwith_length, !map_length; lia).
  rewrite (nth_zipwith _ _ _ _ d d) by (rewrite ?zipwith_length, !map_length; lia).
  rewrite (nth_zipwith _ _ _ _ d d) by (rewrite !map_length; lia).
  rewrite !(nth_map_in _ _ _ d) by lia. reflexivity.
Qed.
Lemma spherical_general (N : Num) (data : list N) (iteration : Z) (c_mean d : N) : 2 <= zlen data ->
  let m := np_nanmean data in
  exists dc dc2 theta x y z r,
    let c := map (fun v => around (nsub v m) 4) data in
    np_gradient c = Ok dc /\ np_gradient dc = Ok dc2 /\
    theta = around (natan2 (nsum (zipwith nmul c dc)) (nsum (map sq dc2))) 4 /\
    length x = length data /\ length y = length data /\ length z = length data /\
    (forall i, (i < length data)%nat ->
       (neqb theta (nofZ 0) = true -> nth i x d = nth i c d /\ nth i y d = nth i dc d /\ nth i z d = nth i dc2 d) /\
       (neqb theta (nofZ 0) = false ->
          let row r0 r1 r2 := around (nadd (nadd (nmul (nth i c d) (around r0 4)) (nmul (nth i dc d) (around r1 4))) (nmul (nth i dc2 d) (around r2 4))) 4 in
          nth i x d = row (ncos theta) (nofZ 0) (nsin theta) /\ nth i y d = row (nofZ 0) (nofZ 1) (nofZ 0) /\
          nth i z d = row (nopp (nsin theta)) (nofZ 0) (ncos theta))) /\
    spherical_phasespace_thresholding data iteration c_mean = Ok r /\ StronglySorted Z.lt r /\
    let lam := around (nsqrt (nmul (nofZ 2) (nlog (nofZ (zlen data))))) 4 in
    let axis v := around (nmul lam (np_nanstd v)) 4 in
    forall i, In i r <-> 0 <= i < zlen data /\
      sph_flag (axis x) (axis y) (axis z) (nth (Z.to_nat i) x d) (nth (Z.to_nat i) y d) (nth (Z.to_nat i) z d) = true.
Proof.
  intros Hn m. set (c := map (fun v => around (nsub v m) 4) data).
  assert (Lc : length c = length data) by apply map_length.
  destruct (np_gradient_gen N c d) as (dc & E1 & L1 & _); [unfold zlen in *; lia|].
  destruct (np_gradient_gen N dc d) as (dc2 & E2 & L2 & _); [unfold zlen in *; lia|].
  set (theta := around (natan2 (nsum (zipwith nmul c dc)) (nsum (map sq dc2))) 4).
  assert (HR : exists x y z, sph_rotation c dc dc2 theta = Ok (x, y, z) /\ length x = length data /\ length y = length data /\ length z = length data /\
    (forall i, (i < length data)%nat ->
       (neqb theta (nofZ 0) = true -> nth i x d = nth i c d /\ nth i y d = nth i dc d /\ nth i z d = nth i dc2 d) /\
       (neqb theta (nofZ 0) = false ->
          let row r0 r1 r2 := around (nadd (nadd (nmul (nth i c d) (around r0 4)) (nmul (nth i dc d) (around r1 4))) (nmul (nth i dc2 d) (around r2 4))) 4 in
          nth i x d = row (ncos theta) (nofZ 0) (nsin theta) /\ nth i y d = row (nofZ 0) (nofZ 1) (nofZ 0) /\
          nth i z d = row (nopp (nsin theta)) (nofZ 0) (ncos theta)))).
  { unfold sph_rotation. destruct (neqb theta (nofZ 0)) eqn:Et.
    - exists c, dc, dc2. split; [reflexivity|]. split; [exact Lc|]. split; [congruence|]. split; [congruence|].
      intros i Hi. split; [auto | discriminate].
    - destruct (sph_row_gen N c dc dc2 (around (ncos theta) 4) (around (nofZ 0) 4) (around (nsin theta) 4)) as (x & Ex & Lx & Hx); [congruence | congruence |].
      destruct (sph_row_gen N c dc dc2 (around (nofZ 0) 4) (around (nofZ 1) 4) (around (nofZ 0) 4)) as (y & Ey & Ly & Hy); [congruence | congruence |].
      destruct (sph_row_gen N c dc dc2 (around (nopp (nsin theta)) 4) (around (nofZ 0) 4) (around (ncos theta) 4)) as (z & Ez & Lz & Hz); [congruence | congruence |].
      exists x, y, z. cbv zeta. rewrite Ex. cbn [bind]. rewrite Ey. cbn [bind]. rewrite Ez. cbn [bind].
      split; [reflexivity|]. split; [congruence|]. split; [congruence|]. split; [congruence|].
      intros i Hi. split; [discriminate|]. intros _. rewrite Hx, Hy, Hz by (rewrite Lc; exact Hi). auto. }
  destruct HR as (x & y & z & ER & Lx & Ly & Lz & HR).
  destruct (sph_indices_gen N x y z (around (nmul (around (nsqrt (nmul (nofZ 2) (nlog (nofZ (zlen x))))) 4) (np_nanstd x)) 4)
     (around (nmul (around (nsqrt (nmul (nofZ 2) (nlog (nofZ (zlen x))))) 4) (np_nanstd y)) 4)
     (around (nmul (around (nsqrt (nmul (nofZ 2) (nlog (nofZ (zlen x))))) 4) (np_nanstd z)) 4) d) as (r & Er & HS & HI); [congruence | congruence |].
  assert (Zx : zlen x = zlen data) by (unfold zlen; congruence). rewrite Zx in Er, HI.
  exists dc, dc2, theta, x, y, z, r. cbv zeta.
  split; [exact E1|]. split; [exact E2|]. split; [reflexivity|]. split; [exact Lx|]. split; [exact Ly|]. split; [exact Lz|].
  split; [exact HR|]. split; [|split; [exact HS | exact HI]].
  unfold spherical_phasespace_thresholding, sph_descript. fold m. fold c. rewrite E1. cbn [bind]. rewrite E2. cbn [bind].
  rewrite bcast_same by congruence. cbn [bind]. fold theta. rewrite ER. cbn [bind]. unfold sph_parameters. rewrite Zx. exact Er.
Qed.
Lemma spherical_short (N : Num) (data : list N) iteration c_mean : zlen data < 2 ->
  spherical_phasespace_thresholding data iteration c_mean = Raise ValueError.
Proof.
  intros H. unfold spherical_phasespace_thresholding, sph_descript, np_gradient.
  assert (HL : zlen (map (fun x => around (nsub x (np_nanmean data)) 4) data) = zlen data) by (unfold zlen; rewrite map_length; reflexivity).
  rewrite HL. destruct (Z.ltb_spec (zlen data) 2); [reflexivity | lia].
Qed.

(** ** Examples used beside the property theorems *)
Lemma round4_int k : round_dec 4 (IZR k) = IZR k.
Proof.
  rewrite (round4_at (IZR k) (k * 10000)); [rewrite mult_IZR; field|]. rewrite mult_IZR, Rminus_diag_eq, Rabs_R0 by reflexivity. lra.
Qed.
Lemma phasespace_example :
  let l := [4; 0; 4; 8]%R in let dc := rcentral (round_dec 4) l in let dc2 := rcentral (round_dec 4) dc in
  let theta := atan (rdot l dc2 / rdot l l) in let a1 := (runiv 4 * rstd l)%R in let b2 := (runiv 4 * rstd dc2)%R in
  (2 <= length l)%nat /\ rvar l <> 0%R /\ rvar dc <> 0%R /\ rvar dc2 <> 0%R /\
  (0 < a1 ^ 2 * cos theta ^ 2 - b2 ^ 2 * sin theta ^ 2)%R /\ (0 < b2 ^ 2 * cos theta ^ 2 - a1 ^ 2 * sin theta ^ 2)%R /\
  (cos theta ^ 4 - sin theta ^ 4 <> 0)%R.
Proof.
  intros l dc dc2.
  assert (E1 : dc = [0; 0; 4; 0]%R).
  { unfold dc, l. generalize (round4_int 0) (round4_int 4). generalize (round_dec 4). intros rd H0 H4. unfold rcentral. cbn.
    replace ((4 - 4) / 2)%R with 0%R by lra. replace ((8 - 0) / 2)%R with 4%R by lra. rewrite H0, H4. reflexivity. }
  assert (E2 : dc2 = [0; 2; 0; 0]%R).
  { unfold dc2. rewrite E1. generalize (round4_int 0) (round4_int 2). generalize (round_dec 4). intros rd H0 H2. unfold rcentral. cbn.
    replace ((4 - 0) / 2)%R with 2%R by lra. replace ((0 - 0) / 2)%R with 0%R by lra. rewrite H0, H2. reflexivity. }
  assert (E3 : rdot l dc2 = 0%R) by (rewrite E2; unfold l, rdot; cbn; lra).
  rewrite E1, E2 in *. clear E1 E2 dc dc2. rewrite E3. unfold Rdiv at 1. rewrite Rmult_0_l, atan_0. cbv zeta. rewrite cos_0, sin_0.
  assert (Hl : rvar l <> 0%R) by (unfold l, rvar, rmoment, rmean; cbn; lra).
  assert (Hd : rvar [0; 2; 0; 0]%R <> 0%R) by (unfold rvar, rmoment, rmean; cbn; lra).
  assert (Hu : (0 < runiv 4)%R) by (apply runiv_pos; lia).
  assert (P1 : (0 < (runiv 4 * rstd l) ^ 2)%R) by (apply pow_lt, Rmult_lt_0_compat; [exact Hu | apply rstd_pos; [discriminate | exact Hl]]).
  assert (P2 : (0 < (runiv 4 * rstd [0; 2; 0; 0]) ^ 2)%R) by (apply pow_lt, Rmult_lt_0_compat; [exact Hu | apply rstd_pos; [discriminate | exact Hd]]).
  split; [cbn; lia|]. split; [exact Hl|]. split; [unfold rvar, rmoment, rmean; cbn; lra|]. split; [exact Hd|].
  split; [nra|]. split; [nra|]. lra.
Qed.
Lemma ps_axes_refuted (l dc dc2 : list R) : length dc = length l -> length dc2 = length l ->
  rvar l <> 0%R -> rdot l l <> 0%R -> rdot l dc2 <> 0%R -> (2 <= length l)%nat ->
  let lam := runiv (length l) in let theta := atan (rdot l dc2 / rdot l l) in
  let a1 := (lam * rstd l)%R in let b2 := (lam * rstd dc2)%R in
  let fact := (cos theta ^ 4 - sin theta ^ 4)%R in
  (0 <= a1 ^ 2 * cos theta ^ 2 - b2 ^ 2 * sin theta ^ 2)%R -> (0 <= b2 ^ 2 * cos theta ^ 2 - a1 ^ 2 * sin theta ^ 2)%R -> fact <> 0%R ->
  exists p a3 b3, ps_parameters (fins l) (fins dc) (fins dc2) = Ok p /\ p_a3 p = Fin a3 /\ p_b3 p = Fin b3 /\
    (a3 ^ 2 * cos theta ^ 2 + b3 ^ 2 * sin theta ^ 2 <> a1 ^ 2)%R.
Proof.
  intros L1 L2 Hv Hd Hx Hn lam theta a1 b2 fact HA HB Hf.
  destruct (ps_axes_wrong l dc dc2 L1 L2 Hd HA HB Hf) as (p & a3 & b3 & E & E1 & E2 & E3 & _).
  exists p, a3, b3. split; [exact E|]. split; [exact E1|]. split; [exact E2|]. fold lam a1 theta fact in E3. rewrite E3. intros HC.
  assert (Hne : l <> []) by (intros ->; cbn in Hn; lia).
  assert (P1 : (0 < a1 ^ 2)%R) by (apply pow_lt, Rmult_lt_0_compat; [apply runiv_pos, Hn | apply rstd_pos; assumption]).
  assert (F1 : fact = 1%R).
  { assert (a1 ^ 2 = a1 ^ 2 * fact)%R by (rewrite <- HC at 2; field; exact Hf). nra. }
  unfold fact, theta in F1. rewrite fact_atan in F1. set (t := (rdot l dc2 / rdot l l)%R) in *.
  assert (T0 : t <> 0%R) by (apply Rmult_integral_contrapositive; split; [exact Hx | apply Rinv_neq_0_compat, Hd]).
  assert (T2 : (0 < t ^ 2)%R) by (rewrite <- Rsqr_pow2; apply Rsqr_pos_lt, T0).
  assert (1 - t ^ 2 = 1 + t ^ 2)%R by (apply (Rmult_eq_reg_r (/ (1 + t ^ 2))); [rewrite Rinv_r by lra; exact F1 | apply Rinv_neq_0_compat; lra]). lra.
Qed.
Lemma ps_axes_example : let l := [2; -2]%R in let dc2 := [-1; 1]%R in
  rdot l l <> 0%R /\ rvar l <> 0%R /\ rdot l dc2 <> 0%R /\
  (let t := atan (rdot l dc2 / rdot l l) in let a1 := (runiv 2 * rstd l)%R in let b2 := (runiv 2 * rstd dc2)%R in
   0 <= a1 ^ 2 * cos t ^ 2 - b2 ^ 2 * sin t ^ 2 /\ 0 <= b2 ^ 2 * cos t ^ 2 - a1 ^ 2 * sin t ^ 2 /\ cos t ^ 4 - sin t ^ 4 <> 0)%R.
Proof.
  intros l dc2. assert (D1 : rdot l l = 8%R) by (unfold rdot, l; cbn; lra). assert (D2 : rdot l dc2 = (-4)%R) by (unfold rdot, l, dc2; cbn; lra).
  assert (V1 : rvar l = 4%R) by (unfold l, rvar, rmoment, rmean; cbn; lra). assert (V2 : rvar dc2 = 1%R) by (unfold dc2, rvar, rmoment, rmean; cbn; lra).
  rewrite D1, D2. split; [lra|]. split; [lra|]. split; [lra|]. cbv zeta.
  rewrite fact_atan, !cos_atan2, !sin_atan2, !Rpow_mult_distr, !rstd_pow2 by discriminate. rewrite V1, V2.
  pose proof (pow2_ge_0 (runiv 2)) as Hp. set (q := (runiv 2 ^ 2)%R) in *. replace ((-4 / 8) ^ 2)%R with (/ 4)%R by field.
  replace (/ (1 + / 4))%R with (4 / 5)%R by field. repeat split; lra.
Qed.
Lemma premod_example : is_sorting [1; 2; 30]%R [2; 30; 1]%R /\ rmiddle [1; 2; 30]%R = 2%R /\
  is_sorting [0; 1; 28]%R (map (fun x => Rabs (x - rmiddle [1; 2; 30]))%R [2; 30; 1]%R).
Proof.
  assert (Hm : rmiddle [1; 2; 30]%R = 2%R) by reflexivity. split; [|split; [exact Hm|]].
  - split; [|repeat (constructor; try lra)]. change [2; 30; 1]%R with ([2; 30] ++ [1])%R. apply Permutation_sym, (Permutation_cons_append [2; 30]%R 1%R).
  - rewrite Hm. cbn. replace (Rabs (2 - 2)) with 0%R by (rewrite Rminus_diag_eq, Rabs_R0 by reflexivity; reflexivity).
    replace (Rabs (30 - 2)) with 28%R by (rewrite Rabs_pos_eq; lra). replace (Rabs (1 - 2)) with 1%R by (rewrite Rabs_left; lra).
    split; [constructor; constructor|]. repeat (constructor; try lra).
Qed.
Lemma sph_example : (sph_E (/ 20000) 1 1 1 < (4 ^ 2 + 4 ^ 2 + 4 ^ 2) * (1 - 1 / ((4 / 1) ^ 2 + (4 / 1) ^ 2 + (4 / 1) ^ 2)) /\
  sph_D (/ 20000) 1 1 1 + / 20000 <= 4 ^ 2 / ((4 / 1) ^ 2 + (4 / 1) ^ 2 + (4 / 1) ^ 2))%R /\
  (sph_E (/ 20000) 1 1 1 <= ((1 / 4) ^ 2 + (1 / 4) ^ 2 + (1 / 4) ^ 2) * (1 / ((1 / 4 / 1) ^ 2 + (1 / 4 / 1) ^ 2 + (1 / 4 / 1) ^ 2) - 1))%R.
Proof.
  assert (HD : (0 <= sph_D (/ 20000) 1 1 1 <= / 1000)%R) by (unfold sph_D; lra).
  assert (HE : (sph_E (/ 20000) 1 1 1 <= / 100)%R).
  { unfold sph_E. assert (sqrt (1 ^ 2 + sph_D (/ 20000) 1 1 1 + / 20000) <= 2)%R; [|lra].
    rewrite <- (sqrt_pow2 2) by lra. apply sqrt_le_1_alt. lra. }
  split; [split|]; lra.
Qed.
