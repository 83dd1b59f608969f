(** Lemmas about series.py: running averages. *)
From Coq Require Import Reals Lra.
From Flocq Require Import Core.Raux IEEE754.BinarySingleNaN.
From Verif Require Export P_moment F64 M_series.
Local Open Scope Z_scope.
Local Existing Instance prec_gt_0_53.
Local Existing Instance prec_lt_emax_53.

(** ** Loops that fill an array *)
Lemma foldM_fill {A} (f : list A -> Z -> res (list A)) (v : Z -> A) a b (s : list A) d :
  0 <= a <= b -> b <= zlen s ->
  (forall i s', a <= i < b -> length s' = length s ->
     (forall j, a <= j < i -> nth (Z.to_nat j) s' d = v j) ->
     (forall j, (0 <= j < a \/ i <= j) -> nth (Z.to_nat j) s' d = nth (Z.to_nat j) s d) ->
     f s' i = setz s' i (v i)) ->
  exists s', foldM f s (zrange a b) = Ok s' /\ length s' = length s /\
     (forall j, a <= j < b -> nth (Z.to_nat j) s' d = v j) /\
     (forall j, (0 <= j < a \/ b <= j) -> nth (Z.to_nat j) s' d = nth (Z.to_nat j) s d).
Proof.
  intros Hab Hb Hf.
  apply (foldM_range_inv f (fun i s' => length s' = length s /\
     (forall j, a <= j < i -> nth (Z.to_nat j) s' d = v j) /\
     (forall j, (0 <= j < a \/ i <= j) -> nth (Z.to_nat j) s' d = nth (Z.to_nat j) s d))).
  - lia.
  - split; [reflexivity|]. split; [lia|]. intros j _. reflexivity.
  - intros i s' Hi (HL & H1 & H2). rewrite (Hf i s' Hi HL H1 H2).
    assert (Hz : zlen s' = zlen s) by (unfold zlen; lia).
    rewrite setz_ok by lia. eexists. split; [reflexivity|].
    split; [rewrite upd_length; exact HL|]. unfold zlen in *. split.
    + intros j Hj. destruct (Z.eq_dec j i) as [->|Hne].
      * apply nth_upd_same. lia.
      * rewrite nth_upd_other by lia. apply H1. lia.
    + intros j Hj. rewrite nth_upd_other by lia. apply H2. lia.
Qed.

Lemma fins_nth (l : list R) k : nth k (fins l) (Fin 0) = Fin (nth k l 0%R).
Proof. unfold fins. exact (map_nth Fin l 0%R k). Qed.
Lemma zlen_fins (l : list R) : zlen (fins l) = zlen l.
Proof. apply zlen_map. Qed.
Lemma fins_build (s : list XR) (g : nat -> R) n : length s = n ->
  (forall k, (k < n)%nat -> nth k s (Fin 0) = Fin (g k)) -> s = fins (map g (seq 0 n)).
Proof.
  intros HL H. apply (nth_ext_len s _ (Fin 0)).
  - unfold fins. rewrite !map_length, seq_length. exact HL.
  - intros k Hk. rewrite H by lia. rewrite fins_nth. f_equal.
    rewrite (nth_map_in g (seq 0 n) k O) by (rewrite seq_length; lia). rewrite seq_nth by lia. reflexivity.
Qed.

(** ** moving_average *)
Lemma rwindow_ne {A} (l : list A) w i : (0 < w)%nat -> (i < length l)%nat -> rwindow l w i <> [].
Proof.
  intros Hw Hi E. apply (f_equal (@length A)) in E. unfold rwindow in E.
  rewrite firstn_length, skipn_length in E. cbn [length] in E. lia.
Qed.
Lemma rwindow_length {A} (l : list A) w i : (i < length l)%nat -> length (rwindow l w i) = Nat.min (S i) w.
Proof. intros Hi. unfold rwindow. rewrite firstn_length, skipn_length. lia. Qed.
Lemma rwindow_head {A} (l : list A) w i : (i < w)%nat -> (i < length l)%nat -> rwindow l w i = firstn (S i) l.
Proof. intros Hi Hl. unfold rwindow. replace (S i - w)%nat with O by lia. cbn [skipn]. f_equal. lia. Qed.
Lemma firstn_snoc {A} (l : list A) k d : (k < length l)%nat -> firstn (S k) l = firstn k l ++ [nth k l d].
Proof.
  revert k. induction l as [|x l IH]; intros k Hk; [cbn in Hk; lia|].
  destruct k as [|k]; [reflexivity|]. cbn [firstn nth app]. f_equal. apply IH. cbn in Hk. lia.
Qed.
(** Sliding by one: drop [l[i-w]], append [l[i]]. *)
Lemma rwindow_slide (l : list R) w i : (0 < w)%nat -> (w <= i)%nat -> (i < length l)%nat ->
  (Rsum (rwindow l w i) = Rsum (rwindow l w (i - 1)) + (nth i l 0 - nth (i - w) l 0))%R.
Proof.
  intros Hw Hwi Hi. unfold rwindow.
  replace (Nat.min (S i) w) with w by lia. replace (Nat.min (S (i - 1)) w) with w by lia.
  replace (S (i - 1) - w)%nat with (i - w)%nat by lia. replace (S i - w)%nat with (S (i - w)) by lia.
  rewrite (skipn_nth_cons l (i - w) 0%R) by lia.
  destruct w as [|w']; [lia|]. rewrite firstn_cons. cbn [Rsum].
  rewrite (firstn_snoc (skipn (S (i - S w')) l) w' 0%R) by (rewrite skipn_length; lia).
  rewrite Rsum_app. cbn [Rsum]. rewrite nth_skipn. replace (S (i - S w') + w')%nat with i by lia. lra.
Qed.

Lemma pyslice_to {A} (l : list A) k : (k <= length l)%nat -> pyslice l 0 (Z.of_nat k) = firstn k l.
Proof. intros Hk. rewrite pyslice_nonneg by (unfold zlen; lia). f_equal. lia. Qed.

Lemma nth_repeat' {A} (x : A) n k : nth k (repeat x n) x = x.
Proof. revert k; induction n as [|n IH]; intros [|k]; cbn; auto. Qed.

Lemma moving_average_correct (l : list R) (w : Z) : 0 < w <= zlen l ->
  @moving_average XR 1 (fins l) w =
  Ok (fins (map (fun i => rmean (rwindow l (Z.to_nat w) i)) (seq 0 (length l)))).
Proof.
  intros Hw. unfold moving_average. rewrite zlen_fins.
  rewrite (proj2 (Z.leb_gt w 0)) by lia. rewrite (proj2 (Z.eqb_neq (zlen l) 0)) by lia.
  cbn [negb Z.eqb Pos.eqb]. rewrite (proj2 (Z.ltb_ge (zlen l) w)) by lia.
  set (W := Z.to_nat w). set (s0 := repeat (@nofZ XR 0) (length (fins l))).
  assert (HL0 : length s0 = length l) by (unfold s0; rewrite repeat_length; apply fins_length).
  set (v := fun i : Z => Fin (rmean (rwindow l W (Z.to_nat i))) : XR).
  destruct (foldM_fill (ma_head (fins l)) v 0 w s0 (Fin 0)) as (s1 & E1 & HL1 & H1 & _).
  - lia.
  - unfold zlen in *. lia.
  - intros i s' Hi HL' _ _. unfold ma_head.
    replace (i + 1) with (Z.of_nat (S (Z.to_nat i))) by lia.
    rewrite pyslice_to by (rewrite fins_length; unfold zlen in *; lia).
    unfold fins at 1. rewrite firstn_map. fold (fins (firstn (S (Z.to_nat i)) l)).
    rewrite mean_num_fins.
    + cbn [bind]. unfold v. rewrite rwindow_head by (unfold zlen, W in *; lia). reflexivity.
    + intros E. apply (f_equal (@length R)) in E. rewrite firstn_length in E. cbn [length] in E. unfold zlen in *. lia.
  - rewrite E1. cbn [bind].
    destruct (foldM_fill (ma_tail (fins l) w) v w (zlen l) s1 (Fin 0)) as (s2 & E2 & HL2 & H2 & H3).
    + lia.
    + unfold zlen in *. lia.
    + intros i s' Hi HL' Hv Hs. unfold ma_tail.
      assert (Hprev : nth (Z.to_nat (i - 1)) s' (Fin 0) = v (i - 1)).
      { destruct (Z_lt_le_dec (i - 1) w) as [Hlt|Hge].
        - rewrite Hs by lia. apply H1. lia.
        - apply Hv. lia. }
      rewrite (getz_ok s' (i - 1) (Fin 0)) by (unfold zlen in *; lia). cbn [bind].
      rewrite (getz_ok (fins l) i (Fin 0)) by (rewrite zlen_fins; lia). cbn [bind].
      rewrite (getz_ok (fins l) (i - w) (Fin 0)) by (rewrite zlen_fins; lia). cbn [bind].
      f_equal. rewrite Hprev, !fins_nth. unfold v. rewrite xofZ_fin, xsub_fin.
      assert (HwR : IZR w <> 0%R) by (apply not_0_IZR; lia).
      rewrite xdiv_fin by exact HwR. rewrite xadd_fin. f_equal.
      unfold rmean. rewrite (rwindow_slide l W (Z.to_nat i)) by (unfold zlen, W in *; lia).
      replace (Z.to_nat (i - 1)) with (Z.to_nat i - 1)%nat by lia.
      rewrite !rwindow_length by (unfold zlen in *; lia).
      replace (Nat.min (S (Z.to_nat i - 1)) W) with W by (unfold W; lia).
      replace (Nat.min (S (Z.to_nat i)) W) with W by (unfold W; lia).
      replace (Z.to_nat (i - w)) with (Z.to_nat i - W)%nat by (unfold W; lia).
      replace (IZR w) with (INR W) by (unfold W; rewrite INR_IZR_INZ; f_equal; lia).
      assert (INR W <> 0%R) by (apply not_0_INR; unfold W; lia).
      field. assumption.
    + rewrite E2. f_equal. apply fins_build; [unfold zlen in *; lia|].
      intros k Hk. rewrite <- (Nat2Z.id k) at 1.
      destruct (Z_lt_le_dec (Z.of_nat k) w) as [Hlt|Hge].
      * rewrite H3 by lia. rewrite H1 by lia. unfold v. rewrite Nat2Z.id. reflexivity.
      * rewrite H2 by (unfold zlen; lia). unfold v. rewrite Nat2Z.id. reflexivity.
Qed.

Lemma moving_average_errors (N : Num) (ndim : Z) (data : list N) (w : Z) :
  (w <= 0 -> moving_average ndim data w = Raise ValueError) /\
  (0 < w -> data = [] -> moving_average ndim data w = Ok []) /\
  (0 < w -> data <> [] -> ndim <> 1 \/ zlen data < w -> moving_average ndim data w = Raise ValueError).
Proof.
  unfold moving_average. split; [|split].
  - intros H. rewrite (proj2 (Z.leb_le w 0)) by lia. reflexivity.
  - intros H ->. rewrite (proj2 (Z.leb_gt w 0)) by lia. reflexivity.
  - intros H Hne Hc. rewrite (proj2 (Z.leb_gt w 0)) by lia.
    rewrite (proj2 (Z.eqb_neq (zlen data) 0)) by (destruct data; [congruence | unfold zlen; cbn [length]; lia]).
    destruct (Z.eqb_spec ndim 1) as [->|]; [|reflexivity]. cbn [negb].
    rewrite (proj2 (Z.ltb_lt (zlen data) w)) by lia. reflexivity.
Qed.

(** A NaN in the data makes every later average NaN. *)
Lemma moving_average_nan (N : Num) (HN : nan_laws N) (data : list N) (w : Z) (j : nat) r :
  (j < length data)%nat -> nisnan (nth j data nnan) = true ->
  moving_average 1 data w = Ok r ->
  length r = length data /\ forall i, (j <= i < length data)%nat -> nisnan (nth i r nnan) = true.
Proof.
  intros Hj Hnan. destruct (Z_le_gt_dec w 0) as [H0|H0].
  { rewrite (proj1 (moving_average_errors N 1 data w)) by lia. discriminate. }
  assert (Hne : data <> []) by (intros ->; cbn in Hj; lia).
  destruct (Z_lt_le_dec (zlen data) w) as [H1|H1].
  { rewrite (proj2 (proj2 (moving_average_errors N 1 data w))) by (auto; lia). discriminate. }
  unfold moving_average. rewrite (proj2 (Z.leb_gt w 0)) by lia.
  rewrite (proj2 (Z.eqb_neq (zlen data) 0)) by (unfold zlen in *; lia). cbn [negb Z.eqb Pos.eqb].
  rewrite (proj2 (Z.ltb_ge (zlen data) w)) by lia.
  set (s0 := repeat (@nofZ N 0) (length data)).
  assert (HL0 : length s0 = length data) by apply repeat_length.
  set (v := fun i : Z => np_mean (firstn (S (Z.to_nat i)) data)).
  destruct (foldM_fill (ma_head data) v 0 w s0 nnan) as (s1 & E1 & HL1 & Hs1 & _).
  - lia.
  - unfold zlen in *. lia.
  - intros i s' Hi HL' _ _. unfold ma_head.
    replace (i + 1) with (Z.of_nat (S (Z.to_nat i))) by lia.
    rewrite pyslice_to by (unfold zlen in *; lia). rewrite mean_num_ne.
    + reflexivity.
    + intros E. apply (f_equal (@length N)) in E. rewrite firstn_length in E. cbn [length] in E. unfold zlen in *. lia.
  - rewrite E1. cbn [bind]. intros E2.
    assert (Hhead : forall i, Z.of_nat j <= i < w -> nisnan (nth (Z.to_nat i) s1 nnan) = true).
    { intros i Hi. rewrite Hs1 by lia. unfold v, np_mean. apply (nan_div N HN). left.
      apply (nan_sum N HN). exists (nth j data nnan). split; [|exact Hnan].
      rewrite <- (nth_firstn data (S (Z.to_nat i)) j) by lia. apply nth_In. rewrite firstn_length. lia. }
    destruct (foldM_range_inv (ma_tail data w) (fun i s => length s = length data /\
       forall k, Z.of_nat j <= k < i -> nisnan (nth (Z.to_nat k) s nnan) = true) w (zlen data) s1) as (s2 & E3 & HL2 & H2).
    + lia.
    + split; [lia | exact Hhead].
    + intros i s Hi (HL & Hk). unfold ma_tail.
      rewrite (getz_ok s (i - 1) nnan) by (unfold zlen in *; lia). cbn [bind].
      rewrite (getz_ok data i nnan) by lia. cbn [bind].
      rewrite (getz_ok data (i - w) nnan) by lia. cbn [bind].
      rewrite setz_ok by (unfold zlen in *; lia). eexists. split; [reflexivity|].
      split; [rewrite upd_length; exact HL|]. intros k Hk'.
      destruct (Z.eq_dec k i) as [->|Hne'].
      * rewrite nth_upd_same by (unfold zlen in *; lia). apply (nan_add N HN).
        destruct (Z.eq_dec (Z.of_nat j) i) as [<-|Hji].
        -- right. apply (nan_div N HN). left. apply (nan_sub N HN). left. rewrite Nat2Z.id. exact Hnan.
        -- left. apply Hk. lia.
      * rewrite nth_upd_other by lia. apply Hk. lia.
    + rewrite E3 in E2. injection E2 as <-. split; [exact HL2|].
      intros i Hi. rewrite <- (Nat2Z.id i). apply H2. unfold zlen. lia.
Qed.

Lemma XR_nan : nan_laws XR.
Proof.
  assert (A : forall x y : XR, nisnan x = true \/ nisnan y = true -> @nadd XR x y = NaN).
  { intros [x|s|] [y|t|] [H|H]; try discriminate H; reflexivity. }
  constructor.
  - intros x y H. rewrite A by exact H. reflexivity.
  - intros [x|s|] [y|t|] [H|H]; try discriminate H; reflexivity.
  - intros [x|s|] [y|t|] [H|H]; try discriminate H; reflexivity.
  - intros [x|s|] [y|t|] [H|H]; try discriminate H; reflexivity.
  - intros l (x & Hx & Hn). cbn [nsum XR]. induction l as [|y l IH]; [destruct Hx|].
    cbn [xsum fold_right]. fold (xsum l). change (nisnan (@nadd XR y (xsum l)) = true). rewrite A; [reflexivity|].
    destruct Hx as [->|Hx]; [left; exact Hn | right; exact (IH Hx)].
Qed.
Lemma F64_nan (L : Libm) :
  (forall l : list f64, (exists x, In x l /\ is_nan x = true) -> is_nan (l_sum L l) = true) -> nan_laws (F64 L).
Proof.
  intros HS. constructor; [| | | | exact HS].
  all: cbn [car nisnan nadd nsub nmul ndiv F64]; intros x y [H|H];
    destruct x as [sx|sx| |sx mx ex Bx], y as [sy|sy| |sy my ey By]; cbn in H; try discriminate H; reflexivity.
Qed.
Lemma libm_basic_nan_sum : forall l : list f64, (exists x, In x l /\ is_nan x = true) -> is_nan (l_sum libm_basic l) = true.
Proof.
  intros l Hl. cbn [l_sum libm_basic].
  assert (H : forall a, is_nan a = true \/ (exists x, In x l /\ is_nan x = true) -> is_nan (fold_left (Bplus mode_NE) l a) = true).
  { clear Hl. induction l as [|y l IH]; intros a [H|(x & Hx & H)].
    - exact H. - destruct Hx.
    - cbn [fold_left]. apply IH. left. destruct a, y; try discriminate H; reflexivity.
    - cbn [fold_left]. apply IH. destruct Hx as [->|Hx]; [left | right; exists x; auto].
      destruct a, x; try discriminate H; reflexivity. }
  apply H. right. exact Hl.
Qed.

(** ** exponential_moving_average *)
Lemma ema_recurrence (N : Num) (dt : dtype) (data : list N) (alpha : N) :
  nleb alpha (nofZ 0) || nltb (nofZ 1) alpha = false -> data <> [] ->
  exists r, exponential_moving_average dt data alpha = Ok r /\ length r = length data /\
    nth 0 r nnan = store dt (nth 0 data nnan) /\
    forall i, (0 < i < length data)%nat ->
      nth i r nnan = store dt (nadd (nmul alpha (nth i data nnan)) (nmul (nsub (nofZ 1) alpha) (nth (i - 1) r nnan))).
Proof.
  intros Ha Hne. unfold exponential_moving_average. rewrite Ha.
  assert (Hlen : (0 < length data)%nat) by (destruct data; [congruence | cbn; lia]).
  rewrite (getz_ok data 0 nnan) by (unfold zlen; lia). cbn [bind].
  set (s0 := repeat (@nofZ N 0) (length data)).
  rewrite setz_ok by (unfold zlen, s0; rewrite repeat_length; lia). cbn [bind].
  set (s1 := upd s0 (Z.to_nat 0) (store dt (nth (Z.to_nat 0) data nnan))).
  assert (HL1 : length s1 = length data) by (unfold s1; rewrite upd_length; apply repeat_length).
  destruct (foldM_range_inv (ema_step dt data alpha) (fun k s => length s = length data /\
     nth 0 s nnan = store dt (nth 0 data nnan) /\
     forall i, (0 < i)%nat -> Z.of_nat i < k ->
       nth i s nnan = store dt (nadd (nmul alpha (nth i data nnan)) (nmul (nsub (nofZ 1) alpha) (nth (i - 1) s nnan))))
     1 (zlen data) s1) as (r & E & HL & H0 & H).
  - unfold zlen. lia.
  - split; [exact HL1|]. split; [|lia]. unfold s1. apply nth_upd_same. unfold s0. rewrite repeat_length. exact Hlen.
  - intros i s Hi (HL & H0 & Hk). unfold ema_step.
    rewrite (getz_ok data i nnan) by lia. cbn [bind].
    rewrite (getz_ok s (i - 1) nnan) by (unfold zlen in *; lia). cbn [bind].
    rewrite setz_ok by (unfold zlen in *; lia). eexists. split; [reflexivity|].
    split; [rewrite upd_length; exact HL|].
    split; [rewrite nth_upd_other by lia; exact H0|].
    intros k Hk0 Hk1. destruct (Z.eq_dec (Z.of_nat k) i) as [<-|Hd].
    + rewrite Nat2Z.id. rewrite nth_upd_same by (unfold zlen in *; lia).
      replace (Z.to_nat (Z.of_nat k - 1)) with (k - 1)%nat by lia. rewrite nth_upd_other by lia. reflexivity.
    + rewrite (nth_upd_other s (Z.to_nat i) k) by lia. rewrite (nth_upd_other s (Z.to_nat i) (k - 1)) by lia.
      apply Hk; lia.
  - exists r. split; [exact E|]. split; [exact HL|]. split; [exact H0|].
    intros i Hi. apply H; unfold zlen; lia.
Qed.

Lemma nth_indep_fins (l : list R) k d : (k < length l)%nat -> nth k (fins l) d = Fin (nth k l 0%R).
Proof. intros H. rewrite <- fins_nth. apply nth_indep. rewrite fins_length. exact H. Qed.

Lemma ema_alpha_ok (a : R) : (0 < a <= 1)%R -> @nleb XR (Fin a) (nofZ 0) || @nltb XR (nofZ 1) (Fin a) = false.
Proof.
  intros H. rewrite !xofZ_fin, xleb_fin, xltb_fin. rewrite Rle_bool_false by lra. rewrite Rlt_bool_false by lra. reflexivity.
Qed.
Lemma ema_alpha_bad (dt : dtype) (l : list XR) (a : R) : ~ (0 < a <= 1)%R ->
  @exponential_moving_average XR dt l (Fin a) = Raise ValueError.
Proof.
  intros H. unfold exponential_moving_average. rewrite !xofZ_fin, xleb_fin, xltb_fin.
  destruct (Rle_bool_spec a 0), (Rlt_bool_spec 1 a); try reflexivity. lra.
Qed.
Lemma ema_empty (N : Num) (dt : dtype) (alpha : N) :
  nleb alpha (nofZ 0) || nltb (nofZ 1) alpha = false ->
  exponential_moving_average dt (@nil N) alpha = Raise IndexError.
Proof. intros H. unfold exponential_moving_average. rewrite H. reflexivity. Qed.
Lemma ema_alpha_gen (N : Num) (dt : dtype) (data : list N) (alpha : N) :
  nleb alpha (nofZ 0) = true \/ nltb (nofZ 1) alpha = true ->
  exponential_moving_average dt data alpha = Raise ValueError.
Proof. intros [H|H]; unfold exponential_moving_average; rewrite H; rewrite ?orb_true_r; reflexivity. Qed.

Lemma ema_exact (l : list R) (a : R) : (0 < a <= 1)%R -> l <> [] ->
  @exponential_moving_average XR DFloat (fins l) (Fin a) = Ok (fins (map (rema a l) (seq 0 (length l)))).
Proof.
  intros Ha Hl. assert (Hlf : fins l <> []) by (apply fins_nil; exact Hl).
  destruct (ema_recurrence XR DFloat (fins l) (Fin a) (ema_alpha_ok a Ha) Hlf) as (r & E & HL & H0 & H).
  rewrite E. f_equal. rewrite fins_length in *. apply fins_build; [exact HL|].
  intros k. induction k as [|k IH]; intros Hk.
  - rewrite (nth_indep r (Fin 0) nnan) by lia. rewrite H0. cbn [store rema]. apply nth_indep_fins. exact Hk.
  - rewrite (nth_indep r (Fin 0) nnan) by lia. rewrite H by lia. cbn [store].
    replace (S k - 1)%nat with k by lia. rewrite (nth_indep r nnan (Fin 0)) by lia. rewrite IH by lia.
    rewrite nth_indep_fins by exact Hk. rewrite xofZ_fin. cbn [rema]. reflexivity.
Qed.

Local Open Scope R_scope.
Lemma rema_closed (a : R) (l : list R) i : rema a l i = Rsum (map (fun j => ema_weight a i j * nth j l 0) (seq 0 (S i))).
Proof.
  induction i as [|i IH]; [cbn; lra|].
  rewrite seq_S, map_app, Rsum_app. cbn [map Rsum Nat.add].
  rewrite (Rsum_ext _ (fun j => (1 - a) * (ema_weight a i j * nth j l 0))).
  - rewrite Rsum_map_scal, <- IH. cbn [rema ema_weight]. rewrite Nat.sub_diag. cbn [pow]. ring.
  - intros j Hj. apply in_seq in Hj. unfold ema_weight. destruct j as [|j]; [cbn [pow]; ring|].
    replace (S i - S j)%nat with (S (i - S j)) by lia. cbn [pow]. ring.
Qed.
Lemma ema_weight_sum (a : R) i : Rsum (map (ema_weight a i) (seq 0 (S i))) = 1.
Proof.
  induction i as [|i IH]; [cbn; lra|].
  rewrite seq_S, map_app, Rsum_app. cbn [map Rsum Nat.add].
  rewrite (Rsum_ext _ (fun j => (1 - a) * ema_weight a i j)).
  - rewrite Rsum_map_scal, IH. cbn [ema_weight]. rewrite Nat.sub_diag. cbn [pow]. ring.
  - intros j Hj. apply in_seq in Hj. unfold ema_weight. destruct j as [|j]; [cbn [pow]; ring|].
    replace (S i - S j)%nat with (S (i - S j)) by lia. cbn [pow]. ring.
Qed.
Lemma ema_weight_nonneg (a : R) i j : 0 < a <= 1 -> 0 <= ema_weight a i j.
Proof.
  intros Ha. assert (H : forall k, 0 <= (1 - a) ^ k) by (intros k; apply pow_le; lra).
  destruct j; cbn [ema_weight]; [apply H|]. apply Rmult_le_pos; [lra | apply H].
Qed.
Lemma rema_between (a : R) (l : list R) i lo hi : 0 < a <= 1 ->
  (forall j, (j <= i)%nat -> lo <= nth j l 0 <= hi) -> lo <= rema a l i <= hi.
Proof.
  intros Ha. induction i as [|i IH]; intros H; [cbn; apply (H O); lia|].
  cbn [rema]. assert (H1 : lo <= rema a l i <= hi) by (apply IH; intros j Hj; apply H; lia).
  pose proof (H (S i) (le_n _)) as H2.
  set (x := rema a l i) in *. set (y := nth (S i) l 0) in *. split; nra.
Qed.

Lemma ema_summary (l : list R) (a : R) : 0 < a <= 1 -> l <> [] ->
  exists r, @exponential_moving_average XR DFloat (fins l) (Fin a) = Ok (fins r) /\ length r = length l /\
    (forall i, (i < length l)%nat ->
       nth i r 0 = Rsum (map (fun j => ema_weight a i j * nth j l 0) (seq 0 (S i))) /\
       Rsum (map (ema_weight a i) (seq 0 (S i))) = 1 /\
       (forall j, 0 <= ema_weight a i j) /\
       forall lo hi, (forall j, (j <= i)%nat -> lo <= nth j l 0 <= hi) -> lo <= nth i r 0 <= hi).
Proof.
  intros Ha Hl. eexists. split; [apply ema_exact; assumption|]. rewrite map_length, seq_length. split; [reflexivity|].
  intros i Hi. rewrite (nth_map_in (rema a l) (seq 0 (length l)) i O) by (rewrite seq_length; exact Hi).
  rewrite seq_nth by exact Hi. cbn [Nat.add].
  split; [apply rema_closed|]. split; [apply ema_weight_sum|]. split; [intros j; apply ema_weight_nonneg, Ha|].
  intros lo hi H. apply rema_between; assumption.
Qed.

(** Integer records: the running value is truncated at each step. *)
Lemma Ztrunc_half_01 : Ztrunc (/ 2) = 0%Z.
Proof. rewrite Ztrunc_floor by lra. apply Zfloor_imp. cbn. lra. Qed.
Lemma ema_int_stuck (n : nat) : exists r rf,
  @exponential_moving_average XR DInt (fins (0 :: repeat 1 (S n))) (Fin (/ 2)) = Ok (fins r) /\
  @exponential_moving_average XR DFloat (fins (0 :: repeat 1 (S n))) (Fin (/ 2)) = Ok (fins rf) /\
  forall i, (i <= S n)%nat -> nth i r 0 = 0 /\ nth i rf 0 = 1 - (/ 2) ^ i.
Proof.
  set (l := 0 :: repeat 1 (S n)).
  assert (Hl : l <> []) by discriminate. assert (Ha : 0 < / 2 <= 1) by lra.
  assert (HLl : length l = S (S n)) by (unfold l; cbn; rewrite repeat_length; reflexivity).
  destruct (ema_recurrence XR DInt (fins l) (Fin (/ 2)) (ema_alpha_ok _ Ha)) as (r & E & HL & H0 & H).
  { apply fins_nil, Hl. }
  rewrite fins_length, HLl in *.
  assert (Hnth : forall i, (0 < i < S (S n))%nat -> nth i l 0 = 1).
  { intros i Hi. destruct i as [|i]; [lia|]. unfold l. cbn [nth].
    apply (repeat_spec (S n)). apply nth_In. rewrite repeat_length. lia. }
  exists (map (fun _ => 0) (seq 0 (S (S n)))). exists (map (rema (/ 2) l) (seq 0 (length l))).
  split; [|split].
  - rewrite E. f_equal. apply fins_build; [exact HL|].
    intros k. induction k as [|k IH]; intros Hk.
    + rewrite (nth_indep r (Fin 0) nnan) by lia. rewrite H0. rewrite nth_indep_fins by lia.
      unfold l. cbn [nth store ntrunc XR]. f_equal. replace 0 with (IZR 0) at 1 by reflexivity. rewrite Ztrunc_IZR. reflexivity.
    + rewrite (nth_indep r (Fin 0) nnan) by lia. rewrite H by lia. replace (S k - 1)%nat with k by lia.
      rewrite (nth_indep r nnan (Fin 0)) by lia. rewrite IH by lia. rewrite nth_indep_fins by lia.
      rewrite Hnth by lia. rewrite xofZ_fin, xsub_fin, !xmul_fin, xadd_fin. cbn [store ntrunc XR].
      replace (/ 2 * 1 + (1 - / 2) * 0) with (/ 2) by lra. rewrite Ztrunc_half_01. reflexivity.
  - apply ema_exact; assumption.
  - intros i Hi. rewrite HLl. split.
    + rewrite (nth_map_in (fun _ : nat => 0) (seq 0 (S (S n))) i O) by (rewrite seq_length; lia). reflexivity.
    + rewrite (nth_map_in (rema (/ 2) l) (seq 0 (S (S n))) i O) by (rewrite seq_length; lia).
      rewrite seq_nth by lia. cbn [Nat.add]. induction i as [|i IH]; [cbn; lra|].
      cbn [rema pow]. rewrite IH by lia. rewrite Hnth by lia. lra.
Qed.

(** ** weighted_moving_average *)
Lemma wma_step_ok (N : Num) (data : list N) (p : Z) wma i : (0 < p <= i)%Z -> (i <= zlen data)%Z ->
  let seg := firstn (Z.to_nat p) (skipn (Z.to_nat (i - p)) data) in
  let ws := map (fun k => @nofZ N k) (zrange 1 (p + 1)) in
  wma_step data p wma i = Ok (wma ++ [ndiv (nsum (zipwith nmul ws seg)) (nsum ws)]).
Proof.
  intros Hp Hi. cbn zeta. unfold wma_step. rewrite pyslice_nonneg by lia.
  replace (i - (i - p))%Z with p by lia.
  unfold bcast. rewrite map_length, zrange_length, firstn_length, skipn_length.
  rewrite (proj2 (Nat.eqb_eq _ _)) by (unfold zlen in *; lia). reflexivity.
Qed.
Lemma wma_loop (N : Num) (data : list N) (p : Z) : (0 < p)%Z -> (p <= zlen data)%Z ->
  let ws := map (fun k => @nofZ N k) (zrange 1 (p + 1)) in
  weighted_moving_average data p = Ok ((p <? zlen data)%Z,
    map (fun k => ndiv (nsum (zipwith nmul ws (firstn (Z.to_nat p) (skipn k data)))) (nsum ws))
        (seq 0 (length data - Z.to_nat p))).
Proof.
  intros Hp Hlen. cbn zeta. unfold weighted_moving_average.
  rewrite (proj2 (Z.leb_gt p 0)) by lia. rewrite (proj2 (Z.ltb_ge (zlen data) p)) by lia.
  set (g := fun k => ndiv _ _).
  destruct (foldM_range_inv (wma_step data p) (fun i s => s = map g (seq 0 (Z.to_nat (i - p)))) p (zlen data) []) as (s & E & Hs).
  - exact Hlen.
  - rewrite Z.sub_diag. reflexivity.
  - intros i s Hi ->. rewrite wma_step_ok by lia. eexists. split; [reflexivity|].
    replace (Z.to_nat (i + 1 - p)) with (S (Z.to_nat (i - p))) by lia.
    rewrite seq_S, map_app. reflexivity.
  - rewrite E. cbn [bind]. do 2 f_equal. rewrite Hs. f_equal. f_equal. unfold zlen. lia.
Qed.
Lemma wma_errors (N : Num) (data : list N) (p : Z) : (p <= 0 \/ zlen data < p)%Z ->
  weighted_moving_average data p = Raise ValueError.
Proof.
  intros H. unfold weighted_moving_average. destruct (Z.leb_spec p 0); [reflexivity|].
  rewrite (proj2 (Z.ltb_lt (zlen data) p)) by lia. reflexivity.
Qed.

Lemma weights_fins p : (0 <= p)%Z -> map (fun k => @nofZ XR k) (zrange 1 (p + 1)) = fins (map (fun j => INR (S j)) (seq 0 (Z.to_nat p))).
Proof.
  intros Hp. apply fins_build.
  - rewrite map_length, zrange_length. lia.
  - intros k Hk. rewrite (nth_indep _ (Fin 0) (@nofZ XR 0)) by (rewrite map_length, zrange_length; lia).
    rewrite (map_nth (fun k => @nofZ XR k)). rewrite nth_zrange by lia. rewrite xofZ_fin. f_equal.
    rewrite INR_IZR_INZ. f_equal. lia.
Qed.
Lemma zipwith_fins (f : R -> R -> R) (g : XR -> XR -> XR) u v :
  (forall x y, g (Fin x) (Fin y) = Fin (f x y)) -> zipwith g (fins u) (fins v) = fins (zipwith f u v).
Proof.
  intros H. unfold zipwith, fins. revert v. induction u as [|x u IH]; intros [|y v]; cbn; try reflexivity.
  rewrite H. f_equal. apply IH.
Qed.
Lemma zipwith_seq (f : R -> R -> R) (g : nat -> R) l : zipwith f (map g (seq 0 (length l))) l =
  map (fun j => f (g j) (nth j l 0)) (seq 0 (length l)).
Proof.
  apply (nth_ext_len _ _ 0).
  - rewrite zipwith_length, !map_length, seq_length. lia.
  - intros k Hk. rewrite zipwith_length, map_length, seq_length in Hk.
    rewrite (nth_zipwith f _ l k 0 0 0) by (rewrite ?map_length, ?seq_length; lia).
    rewrite (nth_map_in g (seq 0 (length l)) k O) by (rewrite seq_length; lia).
    rewrite (nth_map_in (fun j => f (g j) (nth j l 0)) (seq 0 (length l)) k O) by (rewrite seq_length; lia).
    rewrite seq_nth by lia. reflexivity.
Qed.
Lemma Rsum_weights_pos p : (0 < p)%nat -> 0 < Rsum (map (fun j => INR (S j)) (seq 0 p)).
Proof.
  intros Hp. destruct p as [|p]; [lia|]. cbn [seq map Rsum]. 
  assert (0 <= Rsum (map (fun j => INR (S j)) (seq 1 p))).
  { apply Rsum_map_nonneg. intros j _. apply pos_INR. }
  change (INR 1) with 1. lra.
Qed.
Lemma wma_exact (l : list R) (p : Z) : (0 < p)%Z -> (p <= zlen l)%Z ->
  @weighted_moving_average XR (fins l) p = Ok ((p <? zlen l)%Z,
    fins (map (fun k => rwmean (firstn (Z.to_nat p) (skipn k l))) (seq 0 (length l - Z.to_nat p)))).
Proof.
  intros Hp Hl. rewrite wma_loop by (rewrite ?zlen_fins; lia). rewrite zlen_fins, fins_length.
  do 2 f_equal. apply fins_build; [rewrite map_length, seq_length; reflexivity|].
  intros k Hk.
  rewrite (nth_map_in _ (seq 0 (length l - Z.to_nat p)) k O) by (rewrite seq_length; lia).
  rewrite seq_nth by lia. cbn [Nat.add].
  unfold fins at 1. rewrite skipn_map, firstn_map. fold (fins (firstn (Z.to_nat p) (skipn k l))).
  rewrite weights_fins by lia. set (seg := firstn (Z.to_nat p) (skipn k l)).
  assert (Hseg : length seg = Z.to_nat p) by (unfold seg; rewrite firstn_length, skipn_length; lia).
  rewrite (zipwith_fins Rmult) by (intros; reflexivity).
  rewrite <- Hseg, zipwith_seq. rewrite !xsum_fins. rewrite xdiv_fin.
  - reflexivity.
  - apply Rgt_not_eq. apply Rsum_weights_pos. lia.
Qed.
Lemma rwmean_between l lo hi : l <> [] -> (forall x, In x l -> lo <= x <= hi) -> lo <= rwmean l <= hi.
Proof.
  intros Hl H. unfold rwmean.
  assert (HW : 0 < Rsum (map (fun j => INR (S j)) (seq 0 (length l)))).
  { apply Rsum_weights_pos. destruct l; [congruence | cbn; lia]. }
  assert (Hj : forall j, In j (seq 0 (length l)) -> lo <= nth j l 0 <= hi).
  { intros j Hj. apply in_seq in Hj. apply H, nth_In. lia. }
  split.
  - apply Rmult_le_reg_r with (1 := HW). unfold Rdiv. rewrite Rmult_assoc, Rinv_l, Rmult_1_r by lra.
    rewrite <- Rsum_map_scal. apply Rsum_map_le. intros j Hin. pose proof (Hj j Hin). pose proof (pos_INR (S j)). nra.
  - apply Rmult_le_reg_r with (1 := HW). unfold Rdiv. rewrite Rmult_assoc, Rinv_l, Rmult_1_r by lra.
    rewrite <- Rsum_map_scal. apply Rsum_map_le. intros j Hin. pose proof (Hj j Hin). pose proof (pos_INR (S j)). nra.
Qed.
Lemma wma_summary (l : list R) (p : Z) : (0 < p)%Z -> (p <= zlen l)%Z ->
  exists r, @weighted_moving_average XR (fins l) p = Ok ((p <? zlen l)%Z, fins r) /\
    length r = (length l - Z.to_nat p)%nat /\
    forall k, (k < length l - Z.to_nat p)%nat ->
      nth k r 0 = rwmean (firstn (Z.to_nat p) (skipn k l)) /\
      forall lo hi, (forall j, (k <= j < k + Z.to_nat p)%nat -> lo <= nth j l 0 <= hi) -> lo <= nth k r 0 <= hi.
Proof.
  intros Hp Hl. eexists. split; [apply wma_exact; assumption|]. rewrite map_length, seq_length. split; [reflexivity|].
  intros k Hk. rewrite (nth_map_in _ (seq 0 (length l - Z.to_nat p)) k O) by (rewrite seq_length; lia).
  rewrite seq_nth by lia. cbn [Nat.add]. split; [reflexivity|].
  intros lo hi H. apply rwmean_between.
  - intros E. apply (f_equal (@length R)) in E. rewrite firstn_length, skipn_length in E. cbn [length] in E. lia.
  - intros x Hx. apply (In_nth _ _ 0) in Hx. destruct Hx as (j & Hj & <-).
    rewrite firstn_length, skipn_length in Hj. rewrite nth_firstn by lia. rewrite nth_skipn. apply H. lia.
Qed.
Lemma skipn_app_lt {A} (l m : list A) k : (k <= length l)%nat -> skipn k (l ++ m) = skipn k l ++ m.
Proof. intros H. rewrite skipn_app. replace (k - length l)%nat with O by lia. reflexivity. Qed.
Lemma wma_last_irrelevant (N : Num) (l : list N) (x y : N) (p : Z) :
  weighted_moving_average (l ++ [x]) p = weighted_moving_average (l ++ [y]) p.
Proof.
  assert (HZ : forall z : N, zlen (l ++ [z]) = (zlen l + 1)%Z) by (intros z; unfold zlen; rewrite app_length; cbn; lia).
  destruct (Z_le_gt_dec p 0) as [H|H]; [rewrite !wma_errors by lia; reflexivity|].
  destruct (Z_lt_le_dec (zlen l + 1) p) as [H1|H1].
  { rewrite !wma_errors by (rewrite HZ; lia). reflexivity. }
  rewrite !wma_loop by (rewrite ?HZ; lia). rewrite !HZ, !app_length. cbn [length]. do 2 f_equal.
  apply map_ext_in. intros k Hk. apply in_seq in Hk. unfold zlen in *. do 3 f_equal.
  rewrite !skipn_app_lt by lia. rewrite !firstn_app.
  replace (Z.to_nat p - length (skipn k l))%nat with O by (rewrite skipn_length; lia). reflexivity.
Qed.

(** Witnesses. *)
Lemma moving_average_drift : exists (data : list (F64 libm_basic)) (w : Z) r,
  (0 < w <= zlen data)%Z /\ moving_average 1 data w = Ok r /\
  forallb (fun x => neqb x (nofZ 0)) (rwindow data (Z.to_nat w) 3) = true /\
  neqb (nth 3 r nnan) (lit (-5) 1) = true.
Proof.
  set (data := [nofZ (10 ^ 17); nofZ 1; nofZ 0; nofZ 0] : list (F64 libm_basic)).
  exists data, 2%Z.
  destruct (moving_average 1 data 2) as [r|e] eqn:E.
  - exists r. split; [unfold zlen; cbn; lia|]. split; [reflexivity|]. split; [vm_compute; reflexivity|].
    assert (H : match moving_average 1 data 2 with Ok r => neqb (nth 3 r nnan) (lit (-5) 1) | _ => false end = true)
      by (vm_compute; reflexivity).
    rewrite E in H. exact H.
  - exfalso. assert (H : is_ok (moving_average 1 data 2) = true) by (vm_compute; reflexivity). rewrite E in H. discriminate.
Qed.
Lemma moving_average_nan_witness : exists (data : list XR) (w : Z) r i,
  moving_average 1 data w = Ok r /\ (i < length data)%nat /\
  existsb nisnan (rwindow data (Z.to_nat w) i) = false /\ nisnan (nth i r nnan) = true.
Proof.
  set (data := [Fin 1; NaN; Fin 2; Fin 3] : list XR).
  assert (H : exists r, moving_average 1 data 2 = Ok r) by (eexists; reflexivity).
  destruct H as (r & E). exists data, 2%Z, r, 3%nat. split; [exact E|]. split; [cbn; lia|]. split; [reflexivity|].
  apply (moving_average_nan XR XR_nan data 2 1 r); [cbn; lia | reflexivity | exact E | cbn; lia].
Qed.
