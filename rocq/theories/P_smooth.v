(** The smoothers are weighted averages with weights that do not depend on the data (C153). *)
From Coq Require Import Reals Lra Psatz.
From Flocq Require Import Core.Raux.
From Verif Require Import Num NpBase Lib XR LibR Spec Spec28 M_descriptive M_series P_series P_kalman.
Local Open Scope R_scope.

Lemma nth_rep_in (c d : R) n : forall j, (j < n)%nat -> nth j (repeat c n) d = c.
Proof. induction n as [|n IH]; intros [|j] H; cbn; try lia; [reflexivity | apply IH; lia]. Qed.
Lemma nth_first_in (d : R) m : forall l k, (k < m)%nat -> nth k (firstn m l) d = nth k l d.
Proof. induction m as [|m IH]; intros [|x l] [|k] H; cbn; try lia; try reflexivity. apply IH. lia. Qed.
Lemma nth_weighted m W l i : (i < m)%nat -> nth i (weighted m W l) 0 = Rsum (map (fun j => W i j * nth j l 0) (seq 0 (length l))).
Proof.
  intros H. unfold weighted. rewrite (nth_indep _ 0 (Rsum (map (fun j => W 0%nat j * nth j l 0) (seq 0 (length l))))) by (rewrite map_length, seq_length; exact H).
  rewrite (map_nth (fun i => Rsum (map (fun j => W i j * nth j l 0) (seq 0 (length l))))), seq_nth by exact H. reflexivity.
Qed.
Lemma weighted_good m n W : convex_rows m n W -> good_smoother m n (weighted m W).
Proof.
  intros HW. split; [intros; unfold weighted; rewrite map_length, seq_length; reflexivity|].
  assert (L : forall u v w a b, length u = n -> length v = n -> length w = n -> (forall j, (j < n)%nat -> nth j w 0 = a * nth j u 0 + b * nth j v 0) ->
     forall i, (i < m)%nat -> nth i (weighted m W w) 0 = a * nth i (weighted m W u) 0 + b * nth i (weighted m W v) 0).
  { intros u v w a b Hu Hv Hw H i Hi. rewrite !nth_weighted by exact Hi. rewrite Hu, Hv, Hw, <- !Rsum_map_scal, <- Rsum_map_add. apply Rsum_ext.
    intros j Hj. apply in_seq in Hj. rewrite H by lia. ring. }
  assert (M : forall u v, length u = n -> length v = n -> (forall j, (j < n)%nat -> nth j u 0 <= nth j v 0) ->
     forall i, (i < m)%nat -> nth i (weighted m W u) 0 <= nth i (weighted m W v) 0).
  { intros u v Hu Hv H i Hi. rewrite !nth_weighted by exact Hi. rewrite Hu, Hv. apply Rsum_map_le. intros j Hj. apply in_seq in Hj.
    apply Rmult_le_compat_l; [apply (HW i Hi) | apply H; lia]. }
  assert (K : forall c i, (i < m)%nat -> nth i (weighted m W (repeat c n)) 0 = c).
  { intros c i Hi. rewrite nth_weighted by exact Hi. rewrite repeat_length. rewrite (Rsum_ext _ (fun j => W i j * c)).
    - rewrite Rsum_map_scal_r. destruct (HW i Hi) as [_ ->]. ring.
    - intros j Hj. apply in_seq in Hj. rewrite nth_rep_in by lia. reflexivity. }
  split; [exact L|]. split; [exact M|]. split; [exact K|].
  intros u v d Hu Hv H i Hi.
  set (t := map (fun j => nth j v 0 + d) (seq 0 n)). set (s := map (fun j => nth j v 0 - d) (seq 0 n)).
  assert (NT : forall (f : nat -> R) j, (j < n)%nat -> nth j (map f (seq 0 n)) 0 = f j).
  { intros f j Hj. rewrite (nth_indep _ 0 (f 0%nat)) by (rewrite map_length, seq_length; exact Hj). rewrite map_nth, seq_nth by exact Hj. reflexivity. }
  assert (Lt : length t = n) by (unfold t; rewrite map_length, seq_length; reflexivity). assert (Ls : length s = n) by (unfold s; rewrite map_length, seq_length; reflexivity).
  pose proof (L v (repeat d n) t 1 1 Hv (repeat_length _ _) Lt) as A. pose proof (L v (repeat d n) s 1 (-1) Hv (repeat_length _ _) Ls) as B.
  specialize (A ltac:(intros j Hj; unfold t; rewrite NT, nth_rep_in by exact Hj; ring) i Hi). specialize (B ltac:(intros j Hj; unfold s; rewrite NT, nth_rep_in by exact Hj; ring) i Hi).
  rewrite K in A, B by exact Hi.
  pose proof (M u t Hu Lt ltac:(intros j Hj; unfold t; rewrite NT by exact Hj; specialize (H j Hj); apply Rabs_le_inv in H; lra) i Hi).
  pose proof (M s u Ls Hu ltac:(intros j Hj; unfold s; rewrite NT by exact Hj; specialize (H j Hj); apply Rabs_le_inv in H; lra) i Hi).
  apply Rabs_le. lra.
Qed.

(** Weights [c] on the window of [m] samples that starts at [s]. *)
Definition winw (c : nat -> R) (s m j : nat) : R := if ((s <=? j) && (j <? s + m))%nat then c (j - s)%nat else 0.
Lemma winw_sum c s m n (f : nat -> R) : (s + m <= n)%nat ->
  Rsum (map (fun j => winw c s m j * f j) (seq 0 n)) = Rsum (map (fun k => c k * f (s + k)%nat) (seq 0 m)).
Proof.
  intros H. replace n with (s + (m + (n - s - m)))%nat by lia. rewrite seq_app, seq_app, !map_app, !Rsum_app. cbn [plus].
  assert (Z : forall l, (forall j, In j l -> winw c s m j = 0) -> Rsum (map (fun j => winw c s m j * f j) l) = 0).
  { intros l Hl. rewrite (Rsum_ext _ (fun _ => 0)); [rewrite Rsum_map_const; ring|]. intros j Hj. rewrite Hl by exact Hj. ring. }
  rewrite (Z (seq 0 s)), (Z (seq (s + m) (n - s - m))).
  - assert (SS : seq s m = map (fun k => (s + k)%nat) (seq 0 m)).
    { clear. revert s. induction m as [|m IH]; intros s; cbn; [reflexivity|]. rewrite Nat.add_0_r. f_equal. rewrite (IH (S s)), <- seq_shift, map_map. apply map_ext. intros; lia. }
    rewrite SS, map_map, Rplus_0_l, Rplus_0_r. apply Rsum_ext. intros k Hk. apply in_seq in Hk. unfold winw.
    destruct (Nat.leb_spec s (s + k)); [|lia]. destruct (Nat.ltb_spec (s + k) (s + m)); [|lia]. cbn. do 2 f_equal. lia.
  - intros j Hj. apply in_seq in Hj. unfold winw. destruct (Nat.ltb_spec j (s + m)); [lia|]. rewrite andb_false_r. reflexivity.
  - intros j Hj. apply in_seq in Hj. unfold winw. destruct (Nat.leb_spec s j); [lia|]. reflexivity.
Qed.
Lemma winw_one c s m n : (s + m <= n)%nat -> Rsum (map (winw c s m) (seq 0 n)) = Rsum (map c (seq 0 m)).
Proof.
  intros H. rewrite (Rsum_ext (winw c s m) (fun j => winw c s m j * 1)) by (intros; ring). rewrite (winw_sum c s m n (fun _ => 1) H).
  apply Rsum_ext. intros; ring.
Qed.
Lemma winw_nonneg c s m j : (forall k, 0 <= c k) -> 0 <= winw c s m j.
Proof. intros H. unfold winw. destruct (_ && _); [apply H | lra]. Qed.
Lemma nth_win (l : list R) s m k : (k < m)%nat -> nth k (firstn m (skipn s l)) 0 = nth (s + k) l 0.
Proof.
  intros H. rewrite nth_first_in by exact H. clear H. revert l. induction s as [|s IH]; intros l; [reflexivity|]. destruct l as [|x l]; [destruct k; reflexivity|]. apply IH.
Qed.

Definition sma_w (w i : nat) : nat -> R := let m := Nat.min (S i) w in winw (fun _ => / INR m) (S i - w) m.
Lemma sma_weights n w : (0 < w <= Z.of_nat n)%Z -> exists W, convex_rows n n W /\ good_smoother n n (weighted n W) /\
  forall l, length l = n -> @moving_average XR 1 (fins l) w = Ok (fins (weighted n W l)).
Proof.
  intros Hw. exists (sma_w (Z.to_nat w)).
  assert (P : forall i, 0 < INR (Nat.min (S i) (Z.to_nat w))) by (intros i; apply lt_0_INR; lia).
  assert (C : convex_rows n n (sma_w (Z.to_nat w))).
  { intros i Hi. split.
    - intros j. apply winw_nonneg. intros _. apply Rlt_le, Rinv_0_lt_compat, P.
    - unfold sma_w. rewrite winw_one by lia. rewrite Rsum_map_const, seq_length. apply Rinv_r. specialize (P i). lra. }
  split; [exact C|]. split; [apply weighted_good, C|]. intros l Hl.
  rewrite moving_average_correct by (unfold zlen; rewrite Hl; exact Hw). do 2 f_equal. unfold weighted. rewrite Hl. apply map_ext_in. intros i Hi. apply in_seq in Hi.
  unfold sma_w. rewrite winw_sum by lia. unfold rmean, rwindow. set (m := Nat.min (S i) (Z.to_nat w)).
  assert (LW : length (firstn m (skipn (S i - Z.to_nat w) l)) = m) by (rewrite firstn_length, skipn_length; unfold m; lia).
  rewrite LW. rewrite (Rsum_map_scal (/ INR m) (fun k => nth (S i - Z.to_nat w + k) l 0)). unfold Rdiv. rewrite Rmult_comm. f_equal.
  set (win := firstn m (skipn (S i - Z.to_nat w) l)) in *. transitivity (Rsum (map (fun k => nth k win 0) (seq 0 m))).
  - f_equal. rewrite <- LW at 1. clear. induction win as [|x win IH]; [reflexivity|]. cbn [length seq map nth]. f_equal. rewrite <- seq_shift, map_map. exact IH.
  - apply Rsum_ext. intros k Hk. apply in_seq in Hk. apply nth_win. lia.
Qed.

Definition wma_w (p i : nat) : nat -> R := winw (fun k => INR (S k) / Rsum (map (fun j => INR (S j)) (seq 0 p))) i p.
Lemma wma_weights n p : (0 < p)%Z -> (p <= Z.of_nat n)%Z -> exists W, convex_rows (n - Z.to_nat p) n W /\ good_smoother (n - Z.to_nat p) n (weighted (n - Z.to_nat p) W) /\
  forall l, length l = n -> @weighted_moving_average XR (fins l) p = Ok ((p <? Z.of_nat n)%Z, fins (weighted (n - Z.to_nat p) W l)).
Proof.
  intros Hp Hn. exists (wma_w (Z.to_nat p)). pose proof (Rsum_weights_pos (Z.to_nat p) ltac:(lia)) as TP.
  assert (C : convex_rows (n - Z.to_nat p) n (wma_w (Z.to_nat p))).
  { intros i Hi. split.
    - intros j. apply winw_nonneg. intros k. apply Rlt_le, Rdiv_lt_0_compat; [apply lt_0_INR; lia | exact TP].
    - unfold wma_w. rewrite winw_one by lia. unfold Rdiv. rewrite Rsum_map_scal_r. apply Rinv_r. lra. }
  split; [exact C|]. split; [apply weighted_good, C|]. intros l Hl.
  destruct (wma_summary l p Hp ltac:(unfold zlen; lia)) as (r & E & L & H). rewrite E. unfold zlen. rewrite Hl. do 3 f_equal.
  rewrite Hl in L, H. apply (nth_ext _ _ 0 0); [unfold weighted; rewrite map_length, seq_length; exact L|]. intros i Hi. rewrite L in Hi.
  rewrite nth_weighted by exact Hi. destruct (H i Hi) as [-> _]. rewrite Hl. unfold wma_w. rewrite winw_sum by lia. unfold rwmean.
  set (win := firstn (Z.to_nat p) (skipn i l)). assert (LW : length win = Z.to_nat p) by (unfold win; rewrite firstn_length, skipn_length; lia). rewrite LW.
  unfold Rdiv. rewrite <- Rsum_map_scal_r. apply Rsum_ext. intros k Hk. apply in_seq in Hk. unfold win. rewrite nth_win by lia. ring.
Qed.

Definition ema_w (a : R) (i : nat) : nat -> R := winw (ema_weight a i) 0 (S i).
Lemma ema_weights n a : 0 < a <= 1 -> (0 < n)%nat -> exists W, convex_rows n n W /\ good_smoother n n (weighted n W) /\
  forall l, length l = n -> @exponential_moving_average XR DFloat (fins l) (Fin a) = Ok (fins (weighted n W l)).
Proof.
  intros Ha Hn. exists (ema_w a).
  assert (C : convex_rows n n (ema_w a)).
  { intros i Hi. split.
    - intros j. apply winw_nonneg. intros k. unfold ema_weight. destruct k; [apply pow_le; lra | apply Rmult_le_pos; [lra | apply pow_le; lra]].
    - unfold ema_w. rewrite winw_one by lia. apply ema_weight_sum. }
  split; [exact C|]. split; [apply weighted_good, C|]. intros l Hl.
  destruct (ema_summary l a Ha ltac:(intros ->; cbn in Hl; lia)) as (r & E & L & H). rewrite E. do 2 f_equal. rewrite Hl in L, H.
  apply (nth_ext _ _ 0 0); [unfold weighted; rewrite map_length, seq_length; exact L|]. intros i Hi. rewrite L in Hi. rewrite nth_weighted by exact Hi.
  destruct (H i Hi) as [-> _]. rewrite Hl. unfold ema_w. rewrite winw_sum by lia. reflexivity.
Qed.

Fixpoint kal_w (Q R0 p0 : R) (i : nat) (j : nat) : R :=
  match i with
  | O => if Nat.eqb j 0 then 1 else 0
  | S i' => (1 - rgain Q R0 p0 i') * kal_w Q R0 p0 i' j + (if Nat.eqb j i then rgain Q R0 p0 i' else 0)
  end.
Lemma delta_sum k n c (f : nat -> R) : (k < n)%nat -> Rsum (map (fun j => (if Nat.eqb j k then c else 0) * f j) (seq 0 n)) = c * f k.
Proof.
  intros H. transitivity (Rsum (map (fun j => winw (fun _ => c) k 1 j * f j) (seq 0 n))).
  - apply Rsum_ext. intros j _. f_equal. unfold winw. destruct (Nat.eqb_spec j k); destruct (Nat.leb_spec k j); destruct (Nat.ltb_spec j (k + 1)); cbn; try reflexivity; lia.
  - rewrite winw_sum by lia. cbn. rewrite Nat.add_0_r. ring.
Qed.
Lemma kalman_weights n p0 Q R0 : 0 < Q -> 0 < R0 -> 0 <= p0 -> exists W, convex_rows n (S n) W /\ good_smoother n (S n) (weighted n W) /\
  forall l x0, length l = n -> @kalman_filter XR (fins l) (Fin x0) (Fin p0) (Fin Q) (Fin R0) = Ok (fins (weighted n W (x0 :: l))).
Proof.
  intros HQ HR Hp. exists (fun i => kal_w Q R0 p0 (S i)).
  assert (C1 : forall i, (forall j, 0 <= kal_w Q R0 p0 i j)).
  { induction i as [|i IH]; intros j; cbn [kal_w]; [destruct (Nat.eqb j 0); lra|]. pose proof (rgain_range Q R0 p0 i HQ HR Hp). pose proof (IH j).
    destruct (Nat.eqb j (S i)); nra. }
  assert (C2 : forall i, (i <= n)%nat -> Rsum (map (kal_w Q R0 p0 i) (seq 0 (S n))) = 1).
  { induction i as [|i IH]; intros Hi.
    - rewrite (Rsum_ext _ (fun j => (if Nat.eqb j 0 then 1 else 0) * 1)) by (intros; cbn [kal_w]; ring). rewrite (delta_sum 0 (S n) 1 (fun _ => 1)) by lia. ring.
    - rewrite (Rsum_ext _ (fun j => (1 - rgain Q R0 p0 i) * kal_w Q R0 p0 i j + (if Nat.eqb j (S i) then rgain Q R0 p0 i else 0) * 1)) by (intros; cbn [kal_w]; ring).
      rewrite Rsum_map_add, Rsum_map_scal, IH by lia. rewrite (delta_sum (S i) (S n) _ (fun _ => 1)) by lia. ring. }
  assert (C : convex_rows n (S n) (fun i => kal_w Q R0 p0 (S i))) by (intros i Hi; split; [apply C1 | apply C2; lia]).
  split; [exact C|]. split; [apply weighted_good, C|]. intros l x0 Hl.
  destruct (kalman_exact Q R0 HQ HR l x0 p0 Hp) as (est & E & L & H). rewrite E. do 2 f_equal. rewrite Hl in L, H.
  assert (G : forall i, (i <= n)%nat -> nth i (x0 :: est) 0 = Rsum (map (fun j => kal_w Q R0 p0 i j * nth j (x0 :: l) 0) (seq 0 (S n)))).
  { induction i as [|i IH]; intros Hi.
    - cbn [kal_w]. rewrite (delta_sum 0 (S n) 1 (fun j => nth j (x0 :: l) 0)) by lia. cbn [nth]. ring.
    - change (nth (S i) (x0 :: est) 0) with (nth i est 0). rewrite (H i ltac:(lia)). cbv zeta. rewrite (IH ltac:(lia)).
      rewrite (Rsum_ext (fun j => kal_w Q R0 p0 (S i) j * nth j (x0 :: l) 0) (fun j => (1 - rgain Q R0 p0 i) * (kal_w Q R0 p0 i j * nth j (x0 :: l) 0) + (if Nat.eqb j (S i) then rgain Q R0 p0 i else 0) * nth j (x0 :: l) 0)) by (intros; cbn [kal_w]; ring).
      rewrite Rsum_map_add, Rsum_map_scal, (delta_sum (S i) (S n) _ (fun j => nth j (x0 :: l) 0)) by lia. change (nth (S i) (x0 :: l) 0) with (nth i l 0). ring. }
  apply (nth_ext _ _ 0 0); [unfold weighted; rewrite map_length, seq_length; exact L|]. intros i Hi. rewrite L in Hi. rewrite nth_weighted by exact Hi.
  change (length (x0 :: l)) with (S (length l)). rewrite Hl. apply (G (S i)). lia.
Qed.
