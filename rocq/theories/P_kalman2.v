(** Lemmas: series.kalman_filter as a least-squares estimate, its stationary form and its limits. *)
From Coq Require Import Reals Lra.
From Flocq Require Import Core.Raux.
From Verif Require Export P_kalman Spec20.
Local Open Scope R_scope.

(** ** The step for any noises *)
Lemma kalman_step_gen Q R0 x p z : p + Q + R0 <> 0 ->
  let g := (p + Q) / (p + Q + R0) in
  @kalman_step XR (Fin Q) (Fin R0) (Fin x) (Fin p) (Fin z) = Ok (Fin (x + g * (z - x)), Fin ((1 - g) * (p + Q))).
Proof.
  intros H g. unfold kalman_step.
  rewrite !xofZ_fin, !xmul_fin, !xadd_fin, !xmul_fin, !xadd_fin, xeqb_fin.
  assert (H' : 1 * (1 * p * 1 + Q) * 1 + R0 = p + Q + R0) by ring.
  rewrite Req_bool_false by (rewrite H'; exact H). rewrite xdiv_fin by (rewrite H'; exact H).
  rewrite !xmul_fin, !xsub_fin, !xmul_fin, !xadd_fin. rewrite H'.
  do 2 f_equal; f_equal; unfold g; field; exact H.
Qed.

Lemma kalman_cons Q R0 x p z l : p + Q + R0 <> 0 ->
  @kalman_filter XR (fins (z :: l)) (Fin x) (Fin p) (Fin Q) (Fin R0) =
  (let* r := @kalman_filter XR (fins l) (Fin (x + (p + Q) / (p + Q + R0) * (z - x)))
               (Fin ((1 - (p + Q) / (p + Q + R0)) * (p + Q))) (Fin Q) (Fin R0) in
   Ok ((Fin (x + (p + Q) / (p + Q + R0) * (z - x)) : XR) :: r)).
Proof.
  intros H. unfold kalman_filter. cbn [fins map kalman_loop]. rewrite kalman_step_gen by exact H. reflexivity.
Qed.

(** ** Least squares *)
Lemma merge_steps y0 x0 y1 p Q : 0 < p -> 0 < Q ->
  (y1 - x0) ^ 2 / (p + Q) <= (y0 - x0) ^ 2 / p + (y1 - y0) ^ 2 / Q.
Proof.
  intros Hp HQ.
  assert (E : (y0 - x0) ^ 2 / p + (y1 - y0) ^ 2 / Q - (y1 - x0) ^ 2 / (p + Q)
              = (Q * (y0 - x0) - p * (y1 - y0)) ^ 2 / (p * Q * (p + Q))) by (field; lra).
  assert (0 <= (Q * (y0 - x0) - p * (y1 - y0)) ^ 2 / (p * Q * (p + Q))).
  { apply Rmult_le_pos; [apply pow2_ge_0|]. left. apply Rinv_0_lt_compat.
    apply Rmult_lt_0_compat; [apply Rmult_lt_0_compat|]; lra. }
  lra.
Qed.
Lemma merge_step_eq x0 y1 p Q : 0 < p -> 0 < Q ->
  let y0 := x0 + p / (p + Q) * (y1 - x0) in
  (y0 - x0) ^ 2 / p + (y1 - y0) ^ 2 / Q = (y1 - x0) ^ 2 / (p + Q).
Proof. intros Hp HQ y0. unfold y0. field. lra. Qed.
Lemma merge_measurement x0 y z s R0 : 0 < s -> 0 < R0 ->
  (y - x0) ^ 2 / s + (z - y) ^ 2 / R0 =
  (z - x0) ^ 2 / (s + R0) + (y - (x0 + s / (s + R0) * (z - x0))) ^ 2 / ((1 - s / (s + R0)) * s).
Proof. intros Hs HR. field. repeat split; try lra. Qed.

Lemma last_cons2 (A : Type) (a b : A) l d : last (a :: b :: l) d = last (b :: l) d.
Proof. reflexivity. Qed.

Lemma kalman_ls_at Q R0 : 0 < Q -> 0 < R0 -> forall k (l : list R) x0 p0, 0 < p0 -> (k <= length l)%nat ->
  forall est, @kalman_filter XR (fins l) (Fin x0) (Fin p0) (Fin Q) (Fin R0) = Ok (fins est) ->
  exists m P, 0 < P /\
    (forall start y, length y = k ->
      m + (last (start :: y) 0 - nth k (x0 :: est) 0) ^ 2 / P <= prior_cost Q R0 x0 p0 (firstn k l) start y) /\
    exists start y, length y = k /\ last (start :: y) 0 = nth k (x0 :: est) 0 /\
      prior_cost Q R0 x0 p0 (firstn k l) start y = m.
Proof.
  intros HQ HR k. induction k as [|k IH]; intros l x0 p0 Hp Hk est E.
  - exists 0, p0. split; [exact Hp|]. split.
    + intros start [|] Hy; [|discriminate Hy]. unfold prior_cost. cbn [firstn walk_cost last nth]. lra.
    + exists x0, []. split; [reflexivity|]. split; [reflexivity|]. unfold prior_cost. cbn [firstn walk_cost].
      replace (x0 - x0) with 0 by ring. unfold Rdiv. ring.
  - destruct l as [|z l]; [cbn in Hk; lia|]. rewrite kalman_cons in E by lra.
    set (g := (p0 + Q) / (p0 + Q + R0)) in *. set (x1 := x0 + g * (z - x0)) in *. set (p1 := (1 - g) * (p0 + Q)) in *.
    assert (Hg : 0 < g < 1).
    { apply (rgain_range Q R0 p0 O); lra. }
    assert (Hp1 : 0 < p1) by (apply Rmult_lt_0_compat; lra).
    destruct (kalman_exact Q R0 HQ HR l x1 p1) as (est' & E' & _); [lra|].
    rewrite E' in E. cbn [bind] in E. injection E as E.
    destruct est as [|e0 est]; [discriminate E|]. cbn [map fins] in E. injection E as E0 E1. subst e0.
    assert (Hest : est = est').
    { clear -E1. revert est E1. induction est' as [|a est' IHe]; intros [|b est] H; cbn in H; try discriminate H; [reflexivity|].
      injection H as H0 H1. subst. f_equal. apply IHe. exact H1. }
    subst est'. destruct (IH l x1 p1 Hp1 ltac:(cbn in Hk; lia) est E') as (m & P & HP & Hmin & start & y & HL & HLast & Hm).
    exists (m + (z - x0) ^ 2 / (p0 + Q + R0)), P. split; [exact HP|].
    assert (Hmeas : forall y0, (y0 - x0) ^ 2 / (p0 + Q) + (z - y0) ^ 2 / R0 = (z - x0) ^ 2 / (p0 + Q + R0) + (y0 - x1) ^ 2 / p1).
    { intros y0. apply (merge_measurement x0 y0 z (p0 + Q) R0); lra. }
    split.
    + intros st y' Hy'. destruct y' as [|y0 y']; [discriminate Hy'|]. injection Hy' as Hy'.
      rewrite last_cons2. change (nth (S k) (x0 :: x1 :: est) 0) with (nth k (x1 :: est) 0).
      specialize (Hmin y0 y' Hy'). unfold prior_cost in *. cbn [firstn walk_cost].
      pose proof (merge_steps st x0 y0 p0 Q Hp HQ). specialize (Hmeas y0). lra.
    + exists (x0 + p0 / (p0 + Q) * (start - x0)), (start :: y). split; [cbn; lia|].
      rewrite last_cons2. split; [exact HLast|].
      unfold prior_cost in *. cbn [firstn walk_cost]. specialize (Hmeas start).
      pose proof (merge_step_eq x0 start p0 Q Hp HQ) as Hs. cbn zeta in Hs. lra.
Qed.

Lemma kalman_least_squares (l : list R) x0 p0 Q R0 : 0 < Q -> 0 < R0 -> 0 < p0 ->
  exists est, @kalman_filter XR (fins l) (Fin x0) (Fin p0) (Fin Q) (Fin R0) = Ok (fins est) /\ length est = length l /\
    forall k, (k < length l)%nat ->
      (exists start y, length y = S k /\ last y 0 = nth k est 0 /\
         forall start' y', length y' = S k ->
           prior_cost Q R0 x0 p0 (firstn (S k) l) start y <= prior_cost Q R0 x0 p0 (firstn (S k) l) start' y') /\
      (forall start y, length y = S k ->
         (forall start' y', length y' = S k ->
           prior_cost Q R0 x0 p0 (firstn (S k) l) start y <= prior_cost Q R0 x0 p0 (firstn (S k) l) start' y') ->
         last y 0 = nth k est 0).
Proof.
  intros HQ HR Hp. destruct (kalman_exact Q R0 HQ HR l x0 p0) as (est & E & HL & _); [lra|].
  exists est. split; [exact E|]. split; [exact HL|]. intros k Hk.
  destruct (kalman_ls_at Q R0 HQ HR (S k) l x0 p0 Hp Hk est E) as (m & P & HP & Hmin & start & y & HLy & HLast & Hm).
  assert (HL1 : forall s (y : list R), length y = S k -> last (s :: y) 0 = last y 0) by (intros s [|? ?] H; [discriminate H | reflexivity]).
  assert (Hsq : forall t, 0 <= t ^ 2 / P).
  { intros t. apply Rmult_le_pos; [apply pow2_ge_0|]. left. apply Rinv_0_lt_compat. exact HP. }
  change (nth (S k) (x0 :: est) 0) with (nth k est 0) in *. split.
  - exists start, y. split; [exact HLy|]. split; [rewrite <- HLast, HL1 by exact HLy; reflexivity|].
    intros s' y' Hy'. rewrite Hm. specialize (Hmin s' y' Hy'). pose proof (Hsq (last (s' :: y') 0 - nth k est 0)). lra.
  - intros s' y' Hy' Hbest. specialize (Hbest start y HLy). rewrite Hm in Hbest. specialize (Hmin s' y' Hy').
    rewrite HL1 in Hmin by exact Hy'. set (t := last y' 0 - nth k est 0) in *.
    assert (Ht : t ^ 2 / P = 0) by (pose proof (Hsq t); lra).
    assert (Ht2 : t ^ 2 = 0).
    { replace (t ^ 2) with (t ^ 2 / P * P) by (field; lra). rewrite Ht. ring. }
    assert (Ht0 : t = 0) by (cbn [pow] in Ht2; rewrite Rmult_1_r in Ht2; apply Rsqr_0_uniq; exact Ht2).
    unfold t in Ht0. lra.
Qed.

(** ** The stationary filter *)
Lemma steady_gain_spec Q R0 : 0 < Q -> 0 < R0 ->
  0 < steady_gain Q R0 < 1 /\ R0 * steady_gain Q R0 ^ 2 + Q * steady_gain Q R0 = Q.
Proof.
  intros HQ HR. unfold steady_gain. set (D := Q ^ 2 + 4 * Q * R0). assert (HD : 0 < D) by (unfold D; nra).
  set (s := sqrt D). assert (Hs : s * s = D) by (apply sqrt_sqrt; lra).
  assert (Hs0 : 0 < s) by (apply sqrt_lt_R0; exact HD).
  assert (HsQ : Q < s) by (unfold D in Hs; nra).
  set (g := (s - Q) / (2 * R0)).
  assert (Hg2 : 2 * R0 * g = s - Q) by (unfold g; field; lra).
  assert (Hg0 : 0 < g) by (apply Rdiv_lt_0_compat; lra).
  assert (Heq : R0 * g ^ 2 + Q * g = Q).
  { apply Rmult_eq_reg_l with (4 * R0); [|lra].
    replace (4 * R0 * (R0 * g ^ 2 + Q * g)) with ((2 * R0 * g) * (2 * R0 * g) + 2 * Q * (2 * R0 * g)) by ring.
    rewrite Hg2. unfold D in Hs. nra. }
  split; [|exact Heq]. split; [exact Hg0 | nra].
Qed.
Lemma rgain_close Q R0 p0 i : 0 < Q -> 0 < R0 -> 0 <= p0 ->
  Rabs (rgain Q R0 p0 i - steady_gain Q R0) <= (R0 / (Q + R0)) ^ i.
Proof.
  intros HQ HR Hp. destruct (steady_gain_spec Q R0 HQ HR) as (Hg & Heq).
  assert (Hr : 0 <= R0 / (Q + R0)) by (apply Rlt_le, Rdiv_lt_0_compat; lra).
  induction i as [|i IH].
  - pose proof (rgain_range Q R0 p0 O HQ HR Hp). cbn [pow]. apply Rabs_le. lra.
  - eapply Rle_trans; [apply rgain_contract; try assumption; apply Hg|]. cbn [pow]. apply Rmult_le_compat_l; assumption.
Qed.
Lemma one_minus_gain Q R0 p0 i : 0 < Q -> 0 < R0 -> 0 <= p0 -> 0 <= 1 - rgain Q R0 p0 i <= R0 / (Q + R0).
Proof.
  intros HQ HR Hp.
  assert (H : forall p, 0 <= p -> 0 <= 1 - (p + Q) / (p + Q + R0) <= R0 / (Q + R0)).
  { intros p H. replace (1 - (p + Q) / (p + Q + R0)) with (R0 / (p + Q + R0)) by (field; lra). split.
    - apply Rlt_le, Rdiv_lt_0_compat; lra.
    - apply Rmult_le_compat_l; [lra|]. apply Rinv_le_contravar; lra. }
  destruct i as [|i]; cbn [rgain]; apply H; [exact Hp|].
  apply Rmult_le_pos; [lra|]. apply Rlt_le, rgain_range; assumption.
Qed.

Lemma kalman_to_ema (l : list R) x0 p0 Q R0 lo hi : 0 < Q -> 0 < R0 -> 0 <= p0 -> l <> [] ->
  lo <= x0 <= hi -> (forall j, (j < length l)%nat -> lo <= nth j l 0 <= hi) ->
  exists est ema, @kalman_filter XR (fins l) (Fin x0) (Fin p0) (Fin Q) (Fin R0) = Ok (fins est) /\
    @exponential_moving_average XR DFloat (fins l) (Fin (steady_gain Q R0)) = Ok (fins ema) /\
    0 < steady_gain Q R0 < 1 /\
    length est = length l /\ length ema = length l /\
    forall i, (i < length l)%nat -> Rabs (nth i est 0 - nth i ema 0) <= INR (S i) * (R0 / (Q + R0)) ^ i * (hi - lo).
Proof.
  intros HQ HR Hp Hl Hx Hd. destruct (kalman_exact Q R0 HQ HR l x0 p0 Hp) as (est & E & HL & H).
  destruct (steady_gain_spec Q R0 HQ HR) as (Hg & _). set (g := steady_gain Q R0) in *.
  assert (Hema := ema_exact l g ltac:(lra) Hl).
  exists est, (map (rema g l) (seq 0 (length l))). split; [exact E|]. split; [exact Hema|]. split; [exact Hg|].
  split; [exact HL|]. split; [rewrite map_length, seq_length; reflexivity|].
  assert (Hnth : forall i, (i < length l)%nat -> nth i (map (rema g l) (seq 0 (length l))) 0 = rema g l i).
  { intros i Hi. rewrite (nth_indep _ 0 (rema g l O)) by (rewrite map_length, seq_length; exact Hi).
    rewrite map_nth, seq_nth by exact Hi. reflexivity. }
  set (rho := R0 / (Q + R0)). assert (Hr : 0 <= rho) by (apply Rlt_le, Rdiv_lt_0_compat; lra).
  assert (Hw : 0 <= hi - lo) by lra.
  induction i as [|i IH]; intros Hi.
  - rewrite Hnth by exact Hi. rewrite (H O Hi). cbn [nth rema pow INR].
    pose proof (rgain_range Q R0 p0 O HQ HR Hp). pose proof (Hd O Hi). set (a := rgain Q R0 p0 0) in *.
    set (z := nth 0 l 0) in *. replace (x0 + a * (z - x0) - z) with ((1 - a) * (x0 - z)) by ring.
    rewrite Rabs_mult, (Rabs_pos_eq (1 - a)) by lra.
    assert (Rabs (x0 - z) <= hi - lo) by (apply Rabs_le; lra). pose proof (Rabs_pos (x0 - z)). nra.
  - specialize (IH ltac:(lia)). rewrite Hnth in IH |- * by lia. rewrite (H (S i) Hi).
    change (nth (S i) (x0 :: est) 0) with (nth i est 0).
    change (rema g l (S i)) with (g * nth (S i) l 0 + (1 - g) * rema g l i).
    set (x := nth i est 0) in *. set (y := rema g l i) in *. set (z := nth (S i) l 0) in *.
    pose proof (rgain_close Q R0 p0 (S i) HQ HR Hp) as Hc. pose proof (one_minus_gain Q R0 p0 (S i) HQ HR Hp) as Ho.
    fold g rho in Hc. fold rho in Ho. set (a := rgain Q R0 p0 (S i)) in *.
    assert (Hy : lo <= y <= hi) by (apply rema_between; [lra | intros j Hj; apply Hd; lia]).
    assert (Hz : lo <= z <= hi) by (apply Hd; exact Hi).
    replace (x + a * (z - x) - (g * z + (1 - g) * y)) with ((1 - a) * (x - y) + (a - g) * (z - y)) by ring.
    eapply Rle_trans; [apply Rabs_triang|]. rewrite !Rabs_mult. rewrite (Rabs_pos_eq (1 - a)) by lra.
    assert (Hzy : Rabs (z - y) <= hi - lo) by (apply Rabs_le; lra).
    rewrite (S_INR (S i)). set (n := INR (S i)) in *. cbn [pow] in *.
    assert (T1 : (1 - a) * Rabs (x - y) <= rho * (n * rho ^ i * (hi - lo))).
    { apply Rmult_le_compat; [lra | apply Rabs_pos | lra | exact IH]. }
    assert (T2 : Rabs (a - g) * Rabs (z - y) <= rho * rho ^ i * (hi - lo)).
    { apply Rmult_le_compat; [apply Rabs_pos | apply Rabs_pos | exact Hc | exact Hzy]. }
    replace ((n + 1) * (rho * rho ^ i) * (hi - lo)) with (rho * (n * rho ^ i * (hi - lo)) + rho * rho ^ i * (hi - lo)) by ring.
    lra.
Qed.

Lemma kalman_forgets (l : list R) x0 p0 x0' p0' Q R0 lo hi : 0 < Q -> 0 < R0 -> 0 <= p0 -> 0 <= p0' ->
  lo <= x0 <= hi -> lo <= x0' <= hi -> (forall j, (j < length l)%nat -> lo <= nth j l 0 <= hi) ->
  exists est est', @kalman_filter XR (fins l) (Fin x0) (Fin p0) (Fin Q) (Fin R0) = Ok (fins est) /\
    @kalman_filter XR (fins l) (Fin x0') (Fin p0') (Fin Q) (Fin R0) = Ok (fins est') /\
    length est = length l /\ length est' = length l /\
    forall i, (i < length l)%nat ->
      Rabs (nth i est 0 - nth i est' 0) <= 2 * INR (S i) * (R0 / (Q + R0)) ^ i * (hi - lo).
Proof.
  intros HQ HR Hp Hp' Hx Hx' Hd. destruct l as [|z l].
  - exists [], []. repeat split. intros i Hi. cbn in Hi. lia.
  - destruct (kalman_to_ema (z :: l) x0 p0 Q R0 lo hi HQ HR Hp ltac:(discriminate) Hx Hd) as (e & m & E & M & _ & L1 & L2 & B).
    destruct (kalman_to_ema (z :: l) x0' p0' Q R0 lo hi HQ HR Hp' ltac:(discriminate) Hx' Hd) as (e' & m' & E' & M' & _ & L1' & L2' & B').
    exists e, e'. split; [exact E|]. split; [exact E'|]. split; [exact L1|]. split; [exact L1'|]. intros i Hi.
    assert (Hm : m = m').
    { rewrite M in M'. injection M' as M'. clear -M'. revert m' M'. induction m as [|a m IHm]; intros [|b m'] H; cbn in H; try discriminate H; [reflexivity|].
      injection H as H0 H1. subst. f_equal. apply IHm. exact H1. }
    subst m'. specialize (B i Hi). specialize (B' i Hi).
    replace (nth i e 0 - nth i e' 0) with ((nth i e 0 - nth i m 0) - (nth i e' 0 - nth i m 0)) by ring.
    eapply Rle_trans; [apply Rabs_triang|]. rewrite Rabs_Ropp. lra.
Qed.

(** ** The limits of the noises *)
Lemma kalman_no_process_noise R0 : 0 < R0 -> forall (l : list R) x0 p0, 0 <= p0 ->
  exists est, @kalman_filter XR (fins l) (Fin x0) (Fin p0) (Fin 0) (Fin R0) = Ok (fins est) /\ length est = length l /\
    forall k, (k < length l)%nat ->
      nth k est 0 = (R0 * x0 + p0 * Rsum (firstn (S k) l)) / (R0 + INR (S k) * p0).
Proof.
  intros HR l. induction l as [|z l IH]; intros x0 p0 Hp.
  - exists []. repeat split. intros k Hk. cbn in Hk. lia.
  - rewrite kalman_cons by lra. set (x1 := x0 + (p0 + 0) / (p0 + 0 + R0) * (z - x0)).
    replace ((1 - (p0 + 0) / (p0 + 0 + R0)) * (p0 + 0)) with (R0 * p0 / (R0 + p0)) by (field; lra).
    set (p1 := R0 * p0 / (R0 + p0)).
    assert (Hp1 : 0 <= p1).
    { apply Rmult_le_pos; [nra|]. left. apply Rinv_0_lt_compat. lra. }
    destruct (IH x1 p1 Hp1) as (est & E & HL & H). rewrite E. cbn [bind].
    exists (x1 :: est). split; [reflexivity|]. split; [cbn; lia|].
    intros [|k] Hk.
    + cbn [nth firstn Rsum INR]. unfold x1. field. lra.
    + change (nth (S k) (x1 :: est) 0) with (nth k est 0). rewrite H by (cbn in Hk; lia).
      change (firstn (S (S k)) (z :: l)) with (z :: firstn (S k) l). cbn [Rsum]. rewrite (S_INR (S k)).
      set (S0 := Rsum (firstn (S k) l)). assert (Hn : 0 <= INR (S k)) by apply pos_INR. set (n := INR (S k)) in *.
      assert (0 <= n * p0) by (apply Rmult_le_pos; assumption).
      unfold x1, p1. field. repeat split; try lra.
      assert (0 < R0 * (R0 + p0)) by (apply Rmult_lt_0_compat; lra).
      assert (0 <= n * p0 * R0) by (apply Rmult_le_pos; lra). nra.
Qed.
Lemma kalman_no_measurement_noise Q : 0 < Q -> forall (l : list R) x0 p0, 0 <= p0 ->
  @kalman_filter XR (fins l) (Fin x0) (Fin p0) (Fin Q) (Fin 0) = Ok (fins l).
Proof.
  intros HQ l. induction l as [|z l IH]; intros x0 p0 Hp; [reflexivity|].
  rewrite kalman_cons by lra. replace ((p0 + Q) / (p0 + Q + 0)) with 1 by (field; lra).
  replace ((1 - 1) * (p0 + Q)) with 0 by ring. rewrite IH by lra. cbn [bind].
  replace (x0 + 1 * (z - x0)) with z by ring. reflexivity.
Qed.
Lemma kalman_no_noise (l : list R) x0 p0 : 0 < p0 ->
  @kalman_filter XR (fins l) (Fin x0) (Fin p0) (Fin 0) (Fin 0) =
  (if (length l <=? 1)%nat then Ok (fins l) else Raise LinAlgError).
Proof.
  intros Hp. destruct l as [|z [|z' l]]; [reflexivity| |].
  - rewrite kalman_cons by lra. replace ((p0 + 0) / (p0 + 0 + 0)) with 1 by (field; lra).
    replace (x0 + 1 * (z - x0)) with z by ring. reflexivity.
  - rewrite kalman_cons by lra. replace ((1 - (p0 + 0) / (p0 + 0 + 0)) * (p0 + 0)) with 0 by (field; lra).
    rewrite kalman_singular by lra. reflexivity.
Qed.
Lemma kalman_limits (l : list R) x0 p0 : 0 <= p0 ->
  (forall R0, 0 < R0 ->
     exists est, @kalman_filter XR (fins l) (Fin x0) (Fin p0) (Fin 0) (Fin R0) = Ok (fins est) /\ length est = length l /\
       forall k, (k < length l)%nat ->
         nth k est 0 = (R0 * x0 + p0 * Rsum (firstn (S k) l)) / (R0 + INR (S k) * p0)) /\
  (forall Q, 0 < Q -> @kalman_filter XR (fins l) (Fin x0) (Fin p0) (Fin Q) (Fin 0) = Ok (fins l)) /\
  (0 < p0 -> @kalman_filter XR (fins l) (Fin x0) (Fin p0) (Fin 0) (Fin 0) =
     (if (length l <=? 1)%nat then Ok (fins l) else Raise LinAlgError)) /\
  (p0 = 0 -> @kalman_filter XR (fins l) (Fin x0) (Fin p0) (Fin 0) (Fin 0) =
     (if (length l <=? 0)%nat then Ok (fins l) else Raise LinAlgError)).
Proof.
  intros Hp. split; [intros R0 HR; apply kalman_no_process_noise; assumption|].
  split; [intros Q HQ; apply kalman_no_measurement_noise; assumption|].
  split; [apply kalman_no_noise|]. intros ->. destruct l as [|z l]; [reflexivity|]. apply kalman_singular. lra.
Qed.
