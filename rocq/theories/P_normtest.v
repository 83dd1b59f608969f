(** Proofs about the models of skewtest and kurtotest. *)
From Coq Require Import Reals Lra Lia Psatz.
From Flocq Require Import Core.Raux.
From Verif Require Import NpBase Lib XR M_descriptive M_series M_normal Spec2 P_moment P_brent P_normal.
Local Open Scope R_scope.

Lemma cdf_scal {N : Num} (x : N) : cdf DFloat (Scal x) = Raise TypeError.
Proof. apply (cdf_errors N DFloat (Scal x)). eauto. Qed.
Lemma p_value_raises {N : Num} alt (z : N) :
  p_value alt z = Raise (if known_alternative alt then TypeError else ValueError).
Proof.
  unfold p_value, known_alternative. rewrite !cdf_scal. destruct (String.eqb alt "two-sided"); [reflexivity|].
  destruct (String.eqb alt "greater"); [reflexivity|]. destruct (String.eqb alt "less"); reflexivity.
Qed.
Lemma zlen_nil_lt {A} (l : list A) k : (0 < k)%Z -> (zlen l <? k)%Z = false -> l <> [].
Proof. intros Hk H ->. unfold zlen in H. cbn in H. lia. Qed.

(** Both tests raise for every data set, number type and alternative. *)
Theorem tests_never : forall (N : Num) (data : list N) alt,
  skewtest data alt =
    Raise (if (zlen data <? 8)%Z then ValueError else if known_alternative alt then TypeError else ValueError) /\
  kurtotest data alt =
    Raise (if (zlen data <? 5)%Z then ValueError else if known_alternative alt then TypeError else ValueError).
Proof.
  intros N data alt. split.
  - unfold skewtest. destruct data as [|x data].
    + reflexivity.
    + unfold moment_skewness. rewrite mean_of_ne by discriminate. cbn [bind].
      rewrite spread_std_farr by discriminate. cbn [bind as_num].
      destruct (zlen (x :: data) <? 8)%Z; [reflexivity|]. rewrite p_value_raises. reflexivity.
  - unfold kurtotest. destruct (zlen data <? 5)%Z eqn:E; [reflexivity|].
    assert (H : data <> []) by (apply (zlen_nil_lt data 5); [lia | exact E]).
    unfold moment_kurtosis. rewrite mean_of_ne by exact H. cbn [bind].
    rewrite spread_std_farr by exact H. cbn [bind as_num].
    rewrite mean_of_ne by (apply map_nil_iff, H). cbn [bind as_num]. rewrite p_value_raises. reflexivity.
Qed.

(** ** Constants of the skewness test *)
Definition rbeta2 (n : R) : R := 3 * (n * n + 27 * n - 70) * (n + 1) * (n + 3) / ((n - 2) * (n + 5) * (n + 7) * (n + 9)).
Lemma rbeta2_3 n : 2 < n -> rbeta2 n - 3 = 36 * (n - 7) * (n * n + 2 * n - 5) / ((n - 2) * (n + 5) * (n + 7) * (n + 9)).
Proof. intros H. unfold rbeta2. field. repeat split; lra. Qed.
Lemma den_pos n : 2 < n -> 0 < (n - 2) * (n + 5) * (n + 7) * (n + 9).
Proof. intros H. repeat apply Rmult_lt_0_compat; lra. Qed.
Lemma beta2_fin n : (3 <= n)%Z -> @skew_beta2 XR n = Fin (rbeta2 (IZR n)).
Proof.
  intros H. apply IZR_le in H. unfold skew_beta2. rewrite !xofZ_fin, !xsub_fin, !xmul_fin.
  rewrite !plus_IZR, minus_IZR, plus_IZR, !mult_IZR.
  apply xdiv_fin. apply Rgt_not_eq. apply den_pos. lra.
Qed.
Lemma beta2_ge1 n : 3 <= n -> 0 <= rbeta2 n - 1 \/ n < 7.
Proof.
  intros H. destruct (Rlt_dec n 7) as [L|L]; [right; exact L|]. left.
  enough (0 <= rbeta2 n - 3) by lra. rewrite rbeta2_3 by lra.
  apply Rmult_le_pos; [|left; apply Rinv_0_lt_compat, den_pos; lra]. nra.
Qed.
Lemma w2_value n : (3 <= n)%Z -> 0 <= rbeta2 (IZR n) - 1 -> @skew_w2 XR n = Fin (-1 + sqrt (2 * (rbeta2 (IZR n) - 1))).
Proof.
  intros H Hb. unfold skew_w2. rewrite beta2_fin by exact H. rewrite !xofZ_fin, xsub_fin, xmul_fin, xsqrt_fin by lra.
  apply xadd_fin.
Qed.
Lemma w2_gt1 b : 0 <= b - 1 -> (1 < -1 + sqrt (2 * (b - 1)) <-> 3 < b).
Proof.
  intros H. assert (S : sqrt (2 * 2) = 2) by (apply sqrt_square; lra). split; intros A.
  - destruct (Rlt_dec 3 b) as [L|L]; [exact L|]. exfalso.
    pose proof (sqrt_le_1_alt (2 * (b - 1)) (2 * 2)). lra.
  - pose proof (sqrt_lt_1_alt (2 * 2) (2 * (b - 1))). lra.
Qed.
Lemma beta2_gt3 n : 2 < n -> (3 < rbeta2 n <-> 0 < (n - 7) * (n * n + 2 * n - 5)).
Proof.
  intros H. pose proof (rbeta2_3 n H) as E. pose proof (den_pos n H) as D.
  set (d := (n - 2) * (n + 5) * (n + 7) * (n + 9)) in *.
  assert (E' : (rbeta2 n - 3) * d = 36 * ((n - 7) * (n * n + 2 * n - 5))) by (rewrite E; field; lra).
  split; intros A; nra.
Qed.
Definition rw2 (n : Z) : R := -1 + sqrt (2 * (rbeta2 (IZR n) - 1)).
Lemma w2_from8 n : (8 <= n)%Z -> @skew_w2 XR n = Fin (rw2 n) /\ 1 < rw2 n.
Proof.
  intros H. assert (Hr : 8 <= IZR n) by (apply (IZR_le 8), H).
  assert (B : 3 < rbeta2 (IZR n)) by (apply beta2_gt3; [lra|]; nra).
  split; [apply w2_value; [lia | lra]|]. apply w2_gt1; lra.
Qed.
Definition rdelta (n : Z) : R := 1 / sqrt (1 / 2 * ln (rw2 n)).
Definition ralpha (n : Z) : R := sqrt (2 / (rw2 n - 1)).
Lemma delta_from8 n : (8 <= n)%Z -> @skew_delta XR n = Fin (rdelta n) /\ 0 < rdelta n.
Proof.
  intros H. destruct (w2_from8 n H) as [E L]. unfold skew_delta, rdelta. rewrite E, lit51, xofZ_fin, xlog_fin by lra.
  assert (P : 0 < ln (rw2 n)) by (rewrite <- ln_1; apply ln_increasing; lra).
  assert (Q : 0 < sqrt (1 / 2 * ln (rw2 n))) by (apply sqrt_lt_R0; lra).
  rewrite xmul_fin, xsqrt_fin by lra. rewrite xdiv_fin by lra. split; [reflexivity|]. apply Rdiv_lt_0_compat; lra.
Qed.
Lemma alpha_from8 n : (8 <= n)%Z -> @skew_alpha XR n = Fin (ralpha n) /\ 0 < ralpha n.
Proof.
  intros H. destruct (w2_from8 n H) as [E L]. unfold skew_alpha, ralpha. rewrite E, !xofZ_fin, xsub_fin, xdiv_fin by lra.
  assert (P : 0 < 2 / (rw2 n - 1)) by (apply Rdiv_lt_0_compat; lra).
  rewrite xsqrt_fin by lra. split; [reflexivity|]. apply sqrt_lt_R0, P.
Qed.
Theorem skew_constants : forall n, (8 <= n)%Z ->
  exists w d a, @skew_w2 XR n = Fin w /\ 1 < w /\ @skew_delta XR n = Fin d /\ 0 < d /\ d * d * ln w = 2 /\
    @skew_alpha XR n = Fin a /\ 0 < a /\ a * a * (w - 1) = 2.
Proof.
  intros n H. destruct (w2_from8 n H) as [E1 L1], (delta_from8 n H) as [E2 L2], (alpha_from8 n H) as [E3 L3].
  exists (rw2 n), (rdelta n), (ralpha n). do 4 (split; [assumption|]). split; [|do 2 (split; [assumption|])].
  - assert (P : 0 < ln (rw2 n)) by (rewrite <- ln_1; apply ln_increasing; lra).
    unfold rdelta. assert (Q : 0 < sqrt (1 / 2 * ln (rw2 n))) by (apply sqrt_lt_R0; lra).
    assert (S : sqrt (1 / 2 * ln (rw2 n)) * sqrt (1 / 2 * ln (rw2 n)) = 1 / 2 * ln (rw2 n)) by (apply sqrt_sqrt; lra).
    replace (1 / sqrt (1 / 2 * ln (rw2 n)) * (1 / sqrt (1 / 2 * ln (rw2 n))) * ln (rw2 n))
      with (ln (rw2 n) / (sqrt (1 / 2 * ln (rw2 n)) * sqrt (1 / 2 * ln (rw2 n)))) by (field; lra).
    rewrite S. field. lra.
  - unfold ralpha. rewrite sqrt_sqrt by (apply Rlt_le, Rdiv_lt_0_compat; lra). field. lra.
Qed.
(** From 3 samples on, w2 > 1 exactly from 8 samples on; at 7 the constants are infinite. *)
Theorem skew_w2_exactly : forall n, (3 <= n)%Z ->
  ((exists w, @skew_w2 XR n = Fin w /\ 1 < w) <-> (8 <= n)%Z) /\
  @skew_w2 XR 7 = Fin 1 /\ @skew_delta XR 7 = Inf false /\ @skew_alpha XR 7 = Inf false.
Proof.
  intros n H.
  assert (B7 : rbeta2 (IZR 7) = 3) by (unfold rbeta2; lra).
  assert (W7 : @skew_w2 XR 7 = Fin 1).
  { rewrite w2_value by (lia || lra). rewrite B7. f_equal.
    replace (2 * (3 - 1)) with (2 * 2) by lra. rewrite sqrt_square by lra. lra. }
  split; [split|].
  - intros (w & E & L). assert (Hr : 3 <= IZR n) by (apply (IZR_le 3), H).
    destruct (Z_lt_le_dec n 8) as [Ln|Ln]; [exfalso|exact Ln].
    assert (Hr' : IZR n <= 7) by (apply (IZR_le n 7); lia).
    assert (B : rbeta2 (IZR n) <= 3).
    { apply Rnot_lt_le. intros C. apply beta2_gt3 in C; [|lra]. nra. }
    destruct (Rle_dec 0 (rbeta2 (IZR n) - 1)) as [P|P].
    + rewrite w2_value in E by assumption. injection E as <-. apply w2_gt1 in L; lra.
    + unfold skew_w2 in E. rewrite beta2_fin in E by exact H. rewrite !xofZ_fin, xsub_fin, xmul_fin in E.
      cbn [nsqrt XR xsqrt] in E. rewrite Rlt_bool_true in E by lra. discriminate.
  - intros L. destruct (w2_from8 n L) as [E P]. eauto.
  - split; [exact W7|]. split.
    + unfold skew_delta. rewrite W7, lit51, xlog_fin, ln_1, xmul_fin, Rmult_0_r, xsqrt_fin, sqrt_0, xofZ_fin, xdiv_x0 by lra.
      unfold xneg. rewrite Rlt_bool_false by lra. reflexivity.
    + unfold skew_alpha. rewrite W7, !xofZ_fin, xsub_fin. replace (1 - 1) with 0 by ring. rewrite xdiv_x0 by lra.
      unfold xneg. rewrite Rlt_bool_false by lra. reflexivity.
Qed.

(** ** Constants of the kurtosis test *)
Theorem kurt_constants : forall n, (5 <= n)%Z ->
  exists v b a, @kurt_variance XR n = Fin v /\ 0 < v /\ @kurt_sqrt_beta1 XR n = Fin b /\ 0 < b /\
    @kurt_a XR n = Fin a /\ 6 < a.
Proof.
  intros n H. assert (Hr : 5 <= IZR n) by (apply (IZR_le 5), H).
  set (x := IZR n) in *.
  set (v := 24 * x * (x - 2) * (x - 3) / ((x + 1) * (x + 1) * (x + 3) * (x + 5))).
  assert (D1 : 0 < (x + 1) * (x + 1) * (x + 3) * (x + 5)) by (repeat apply Rmult_lt_0_compat; lra).
  assert (D2 : 0 < (x + 7) * (x + 9)) by (apply Rmult_lt_0_compat; lra).
  assert (D3 : 0 < x * (x - 2) * (x - 3)) by (repeat apply Rmult_lt_0_compat; lra).
  assert (Ev : @kurt_variance XR n = Fin v).
  { unfold kurt_variance. rewrite !xofZ_fin, !mult_IZR, !minus_IZR, !plus_IZR, !xmul_fin. fold x.
    rewrite xdiv_fin by lra. reflexivity. }
  set (q := 6 * (x + 3) * (x + 5) / (x * (x - 2) * (x - 3))).
  assert (Q : 0 < q) by (apply Rdiv_lt_0_compat; [repeat apply Rmult_lt_0_compat; lra | exact D3]).
  set (b := 6 * (x * x - 5 * x + 2) / ((x + 7) * (x + 9)) * sqrt q).
  assert (Eb : @kurt_sqrt_beta1 XR n = Fin b).
  { unfold kurt_sqrt_beta1. rewrite !xofZ_fin. rewrite !mult_IZR, !plus_IZR, !minus_IZR, !mult_IZR, !xmul_fin. fold x.
    rewrite (xdiv_fin (6 * (x + 3) * (x + 5))) by lra. fold q. rewrite xsqrt_fin by lra.
    rewrite xdiv_fin by lra. rewrite xmul_fin. reflexivity. }
  assert (B : 0 < b).
  { apply Rmult_lt_0_compat; [|apply sqrt_lt_R0, Q]. apply Rdiv_lt_0_compat; [nra | exact D2]. }
  exists v, b, (6 + 8 / b * (2 / b + sqrt (1 + 4 / (b * b)))).
  split; [exact Ev|]. split; [apply Rdiv_lt_0_compat; [repeat apply Rmult_lt_0_compat; lra | exact D1]|].
  split; [exact Eb|]. split; [exact B|].
  assert (BB : 0 < b * b) by (apply Rmult_lt_0_compat; exact B).
  assert (P4 : 0 < 4 / (b * b)) by (apply Rdiv_lt_0_compat; lra).
  split.
  - unfold kurt_a, sq. rewrite Eb, !xofZ_fin, xmul_fin, !xdiv_fin by lra.
    rewrite (xadd_fin 1), xsqrt_fin by lra. rewrite xadd_fin, xmul_fin, xadd_fin. reflexivity.
  - assert (0 < 8 / b) by (apply Rdiv_lt_0_compat; lra). assert (0 < 2 / b) by (apply Rdiv_lt_0_compat; lra).
    pose proof (sqrt_pos (1 + 4 / (b * b))). pose proof (Rmult_lt_0_compat (8 / b) (2 / b + sqrt (1 + 4 / (b * b)))). lra.
Qed.

(** ** The statistic of the skewness test as a function of the skewness *)
Lemma arcsinh_increasing x y : x < y -> arcsinh x < arcsinh y.
Proof. apply arcsinh_lt. Qed.
Lemma arcsinh_odd x : arcsinh (- x) = - arcsinh x.
Proof.
  rewrite <- (arcsinh_sinh (- arcsinh x)). f_equal.
  unfold sinh. rewrite Ropp_involutive. pose proof (sinh_arcsinh x) as H. unfold sinh in H. lra.
Qed.
Theorem skew_statistic : forall n, (8 <= n)%Z ->
  exists d a c, 0 < d /\ 0 < a /\ 0 < c /\
    (forall k, k <> 0 -> @skew_z XR n (Fin k) = Fin (d * arcsinh (k * c / a))) /\
    @skew_z XR n (Fin 0) = Fin (d * arcsinh (1 / a)) /\ 0 < d * arcsinh (1 / a).
Proof.
  intros n H. destruct (delta_from8 n H) as [E2 L2], (alpha_from8 n H) as [E3 L3].
  assert (Hr : 8 <= IZR n) by (apply (IZR_le 8), H). set (x := IZR n) in *.
  set (c := sqrt ((x + 1) * (x + 3) / (6 * (x - 2)))).
  assert (P : 0 < (x + 1) * (x + 3) / (6 * (x - 2))).
  { apply Rdiv_lt_0_compat; [apply Rmult_lt_0_compat|]; lra. }
  assert (Ec : @skew_adjustment XR n = Fin c).
  { unfold skew_adjustment. rewrite !xofZ_fin, mult_IZR, !plus_IZR, minus_IZR, xmul_fin. fold x.
    rewrite xdiv_fin by lra. rewrite xsqrt_fin by lra. reflexivity. }
  assert (Hc : 0 < c) by (apply sqrt_lt_R0, P).
  exists (rdelta n), (ralpha n), c. do 3 (split; [assumption|]).
  assert (Z : forall q, @nmul XR (Fin (rdelta n)) (@nlog XR (@nadd XR (Fin q) (@nsqrt XR (@nadd XR (@sq XR (Fin q)) (@nofZ XR 1))))) =
                        Fin (rdelta n * arcsinh q)).
  { intros q. unfold sq. rewrite xmul_fin, xofZ_fin, xadd_fin. pose proof (Rle_0_sqr q) as Q. unfold Rsqr in Q.
    rewrite xsqrt_fin by lra. rewrite xadd_fin, xlog_fin.
    - rewrite xmul_fin. do 2 f_equal. unfold arcsinh. do 3 f_equal. ring.
    - pose proof (sqrt_lt_1_alt (q * q) (q * q + 1)) as S. rewrite <- (Rabs_pos_eq (sqrt (q * q))) in S by apply sqrt_pos.
      assert (sqrt (q * q) = Rabs q) by apply sqrt_Rsqr_abs. rewrite Rabs_pos_eq in S by apply sqrt_pos.
      pose proof (Rle_abs (- q)). rewrite Rabs_Ropp in H1. lra. }
  split; [|split].
  - intros k Hk. unfold skew_z. rewrite Ec, E2, E3, xmul_fin, xofZ_fin, xeqb_fin.
    rewrite Req_bool_false by (apply Rmult_integral_contrapositive_currified; lra).
    rewrite xdiv_fin by lra. apply (Z (k * c / ralpha n)).
  - unfold skew_z. rewrite Ec, E2, E3, xmul_fin, !xofZ_fin, xeqb_fin. rewrite Req_bool_true by ring.
    rewrite xdiv_fin by lra. apply (Z (1 / ralpha n)).
  - apply Rmult_lt_0_compat; [exact L2|]. rewrite <- arcsinh_0. apply arcsinh_lt. apply Rdiv_lt_0_compat; lra.
Qed.
(** Odd and increasing away from 0; at 0 positive. *)
Theorem skew_statistic_shape : forall n, (8 <= n)%Z ->
  exists z : R -> R, (forall k, @skew_z XR n (Fin k) = Fin (z k)) /\
    (forall k, k <> 0 -> z (- k) = - z k) /\
    (forall j k, j <> 0 -> k <> 0 -> j < k -> z j < z k) /\ 0 < z 0 /\
    (exists k, 0 < k /\ z k < z 0).
Proof.
  intros n H. destruct (skew_statistic n H) as (d & a & c & Hd & Ha & Hc & E & E0 & P0).
  exists (fun k => if Req_bool k 0 then d * arcsinh (1 / a) else d * arcsinh (k * c / a)).
  split; [|split; [|split; [|split]]].
  - intros k. destruct (Req_bool_spec k 0) as [->|Hk]; [exact E0 | apply E, Hk].
  - intros k Hk. rewrite !Req_bool_false by lra. replace (- k * c / a) with (- (k * c / a)) by (field; lra).
    rewrite arcsinh_odd. ring.
  - intros j k Hj Hk L. rewrite !Req_bool_false by lra. apply Rmult_lt_compat_l; [exact Hd|]. apply arcsinh_lt.
    apply Rmult_lt_compat_r; [apply Rinv_0_lt_compat, Ha|]. apply Rmult_lt_compat_r; assumption.
  - rewrite Req_bool_true by reflexivity. exact P0.
  - exists (/ (2 * c)). assert (Q : 0 < / (2 * c)) by (apply Rinv_0_lt_compat; lra). split; [exact Q|].
    rewrite Req_bool_false, Req_bool_true by lra. apply Rmult_lt_compat_l; [exact Hd|]. apply arcsinh_lt.
    replace (/ (2 * c) * c / a) with (1 / 2 * / a) by (field; lra).
    unfold Rdiv at 2. apply Rmult_lt_compat_r; [apply Rinv_0_lt_compat, Ha | lra].
Qed.
