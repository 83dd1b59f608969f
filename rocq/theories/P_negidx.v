(** Negative indices in the replacement functions. *)
From Coq Require Import Reals Lra Lia List Bool ZArith.
From Flocq Require Import Core.Raux.
From Verif Require Import Num XR Lib Spec Spec25 M_replacement P_series P_replacement P_interp P_cubic P_fseries.
Import ListNotations.
Local Open Scope Z_scope.


Lemma pyidx_wrap n i : in_range n i -> pyidx n i = pyidx n (from_start n i).
Proof.
  unfold in_range, from_start. intros H. destruct (Z.ltb_spec i 0) as [K|K]; [|reflexivity]. unfold pyidx.
  rewrite (proj2 (Z.leb_gt 0 i)) by lia. cbn [andb]. rewrite (proj2 (Z.leb_le (- n) i)), (proj2 (Z.ltb_lt i 0)) by lia. cbn [andb].
  rewrite (proj2 (Z.leb_le 0 (i + n))), (proj2 (Z.ltb_lt (i + n) n)) by lia. reflexivity.
Qed.
Lemma getz_wrap {A} (l : list A) i : in_range (zlen l) i -> getz l i = getz l (from_start (zlen l) i).
Proof. intros H. unfold getz. rewrite <- pyidx_wrap by exact H. reflexivity. Qed.
Lemma setz_wrap {A} (l : list A) i v : in_range (zlen l) i -> setz l i v = setz l (from_start (zlen l) i) v.
Proof. intros H. unfold setz. rewrite <- pyidx_wrap by exact H. reflexivity. Qed.
Lemma setz_zlen {A} (l l' : list A) i v : setz l i v = Ok l' -> zlen l' = zlen l.
Proof. intros H. apply setz_length in H. unfold zlen. rewrite H. reflexivity. Qed.

Lemma fancy_set_wrap {A} (v : A) n idx : forall l, zlen l = n -> Forall (in_range n) idx ->
  fancy_set l idx v = fancy_set l (map (from_start n) idx) v.
Proof.
  unfold fancy_set. induction idx as [|i idx IH]; intros l Hl HF; [reflexivity|]. inversion_clear HF. cbn [map foldM].
  rewrite (setz_wrap l i v) by (rewrite Hl; assumption). rewrite Hl. destruct (setz l (from_start n i) v) as [l'|e] eqn:E; [|reflexivity].
  apply setz_zlen in E. apply IH; [congruence | assumption].
Qed.
Lemma fancy_get_wrap {A} (l : list A) n idx : zlen l = n -> Forall (in_range n) idx -> fancy_get l idx = fancy_get l (map (from_start n) idx).
Proof.
  intros Hl. unfold fancy_get. induction idx as [|i idx IH]; intros HF; [reflexivity|]. inversion_clear HF. cbn [map mapM].
  rewrite (getz_wrap l i) by (rewrite Hl; assumption). rewrite Hl, IH by assumption. reflexivity.
Qed.
Lemma fancy_many_wrap {A} n idx : forall (vs l : list A), zlen l = n -> Forall (in_range n) idx ->
  fancy_set_many l idx vs = fancy_set_many l (map (from_start n) idx) vs.
Proof.
  unfold fancy_set_many. induction idx as [|i idx IH]; intros vs l Hl HF; [reflexivity|]. inversion_clear HF. destruct vs as [|v vs]; [reflexivity|].
  cbn [map combine foldM fst snd].
  rewrite (setz_wrap l i v) by (rewrite Hl; assumption). rewrite Hl. destruct (setz l (from_start n i) v) as [l'|e] eqn:E; [|reflexivity].
  apply setz_zlen in E. apply IH; [congruence | assumption].
Qed.
Lemma take_wrap (N : Num) dt (v a : list N) n idx : zlen v = n -> zlen a = n -> Forall (in_range n) idx ->
  take_from dt v a idx = take_from dt v a (map (from_start n) idx).
Proof.
  intros Hv Ha HF. unfold take_from. rewrite (fancy_get_wrap a n idx Ha HF). destruct (fancy_get a (map (from_start n) idx)); [|reflexivity].
  cbn [bind]. apply fancy_many_wrap; assumption.
Qed.

Lemma mean_neg (N : Num) dt (v : list N) idx : Forall (in_range (zlen v)) idx -> mean_value dt v idx = mean_value dt v (map (from_start (zlen v)) idx).
Proof.
  intros H. unfold mean_value. destruct (mean_of v) as [m|]; [|reflexivity]. cbn [bind]. destruct (storable dt m); [|reflexivity]. cbn [bind].
  apply fancy_set_wrap; [reflexivity | exact H].
Qed.
Lemma median_neg (N : Num) dt (v : list N) idx : Forall (in_range (zlen v)) idx -> median_value dt v idx = median_value dt v (map (from_start (zlen v)) idx).
Proof.
  intros H. unfold median_value. destruct (desc_median (farr v)) as [m|]; [|reflexivity]. cbn [bind]. destruct (storable dt (MVal m)); [|reflexivity]. cbn [bind].
  apply fancy_set_wrap; [reflexivity | exact H].
Qed.
Lemma last_valid_neg (N : Num) (v : list N) idx : Forall (fun i => - zlen v < i < zlen v) idx ->
  last_valid_data v idx = last_valid_data v (map (from_start (zlen v)) idx).
Proof.
  unfold last_valid_data. remember (zlen v) as n eqn:Hn. symmetry in Hn. revert v Hn. induction idx as [|i idx IH]; intros l Hl HF; [reflexivity|].
  inversion_clear HF. cbn [map foldM].
  assert (E : getz l (i - 1) = getz l (from_start n i - 1)).
  { unfold from_start. destruct (Z.ltb_spec i 0) as [K|K]; [|reflexivity].
    rewrite (getz_wrap l (i - 1)) by (unfold in_range; lia). unfold from_start. rewrite (proj2 (Z.ltb_lt (i - 1) 0)) by lia. f_equal. lia. }
  rewrite E. destruct (getz l (from_start n i - 1)) as [v|e]; [|reflexivity]. cbn [bind].
  rewrite (setz_wrap l i v) by (rewrite Hl; unfold in_range; lia). rewrite Hl. destruct (setz l (from_start n i) v) as [l'|e] eqn:E'; [|reflexivity].
  apply setz_zlen in E'. apply IH; [congruence | assumption].
Qed.
Lemma last_valid_first (N : Num) (v : list N) : v <> [] -> last_valid_data v [- zlen v] = Raise IndexError /\
  exists r, last_valid_data v [0] = Ok r.
Proof.
  intros Hne. assert (0 < zlen v) by (destruct v; [congruence | unfold zlen; cbn [length]; lia]). split.
  - unfold last_valid_data. cbn [foldM]. rewrite getz_out by lia. reflexivity.
  - unfold last_valid_data. cbn [foldM]. rewrite (getz_neg v (0 - 1) nnan) by lia. cbn [bind]. rewrite setz_ok by lia. cbn [bind]. eexists. reflexivity.
Qed.
(** ** Averages *)
Lemma sma_neg (N : Num) dt (v : list N) idx w : 0 < w <= zlen v -> Forall (in_range (zlen v)) idx ->
  repl_sma dt v idx w = repl_sma dt v (map (from_start (zlen v)) idx) w.
Proof.
  intros Hw H. unfold repl_sma. destruct (ma_recurrence N v w Hw) as (r & E & HL & _). rewrite E. cbn [bind].
  apply take_wrap; [reflexivity | unfold zlen; rewrite HL; reflexivity | exact H].
Qed.
Lemma ema_neg (N : Num) dt (v : list N) idx a : Forall (in_range (zlen v)) idx ->
  repl_ema dt v idx a = repl_ema dt v (map (from_start (zlen v)) idx) a.
Proof.
  intros H. unfold repl_ema. destruct (nleb a (nofZ 0) || nltb (nofZ 1) a) eqn:Ha.
  - unfold exponential_moving_average. rewrite Ha. reflexivity.
  - destruct v as [|x v]; [unfold exponential_moving_average; rewrite Ha; reflexivity|].
    destruct (ema_recurrence N dt (x :: v) a Ha ltac:(discriminate)) as (r & E & HL & _). rewrite E. cbn [bind].
    apply take_wrap; [reflexivity | unfold zlen; rewrite HL; reflexivity | exact H].
Qed.
Lemma setz_neg {A} (l : list A) i v : - zlen l <= i < 0 -> setz l i v = Ok (upd l (Z.to_nat (i + zlen l)) v).
Proof.
  intros H. rewrite setz_wrap by (unfold in_range; lia). unfold from_start. rewrite (proj2 (Z.ltb_lt i 0)) by lia. apply setz_ok. lia.
Qed.
Lemma wma_neg (l : list R) (p k : Z) : 0 < p -> 1 <= k <= zlen l - p ->
  exists r, @repl_wma XR DFloat (fins l) [- k] p = Ok r /\
    nth_error r (Z.to_nat (zlen l - k)) = Some (Fin (rwmean (firstn (Z.to_nat p) (skipn (Z.to_nat (zlen l - k - p)) l)))) /\
    (k <= p -> @repl_wma XR DFloat (fins l) [zlen l - k] p = Raise IndexError).
Proof.
  intros Hp Hk. unfold repl_wma. rewrite wma_exact by lia. cbn [bind].
  rewrite (proj2 (Z.ltb_lt p (zlen l))) by lia. cbn [negb].
  set (f := fun k => rwmean (firstn (Z.to_nat p) (skipn k l))). set (w := fins (map f (seq 0 (length l - Z.to_nat p)))).
  assert (Hw : zlen w = zlen l - p) by (unfold w; rewrite zlen_fins; unfold zlen; rewrite map_length, seq_length; unfold zlen in *; lia).
  unfold take_from, fancy_get. cbn [mapM].
  rewrite (getz_neg w _ (Fin 0 : XR)) by lia. cbn [bind map store]. unfold fancy_set_many. cbn [combine foldM fst snd].
  rewrite setz_neg by (rewrite zlen_fins; lia). cbn [bind]. eexists. split; [reflexivity|]. rewrite zlen_fins. split.
  - replace (- k + zlen l) with (zlen l - k) by lia.
    rewrite nth_error_upd_same by (rewrite fins_length; unfold zlen in *; lia). f_equal. rewrite Hw. unfold w.
    rewrite fins_nth. f_equal. rewrite (nth_map_in _ _ _ O) by (rewrite seq_length; unfold zlen in *; lia).
    rewrite seq_nth by (unfold zlen in *; lia). unfold f. do 3 f_equal. lia.
  - intros Hkp. rewrite getz_out by lia. reflexivity.
Qed.
(** ** Linear interpolation *)
Lemma slice_set_empty (N : Num) (l : list N) x : l <> [] -> slice_set l (-1) 0 x = l.
Proof.
  intros Hne. unfold slice_set, slice_bound. cbn [Z.ltb Z.compare].
  assert (H : Z.to_nat (Z.min 0 (zlen l)) = O) by (unfold zlen; lia). rewrite H.
  set (a := Z.to_nat _). clearbody a. clear. generalize 0%nat at 2 as s. induction l as [|y l IH]; intros s; [reflexivity|].
  cbn [length seq combine map]. rewrite IH. cbn [fst snd Nat.ltb Nat.leb]. rewrite andb_false_r. reflexivity.
Qed.
Lemma nth_slice_neg (N : Num) (l : list N) k x d : 2 <= k <= zlen l ->
  nth (Z.to_nat (zlen l - k)) (slice_set l (- k) (- k + 1) x) d = x.
Proof.
  intros Hk. unfold slice_set. unfold zlen in *.
  rewrite (nth_map_in _ _ _ (O, d)) by (rewrite combine_length, seq_length; lia).
  rewrite combine_nth by (rewrite seq_length; reflexivity). rewrite seq_nth by lia. cbn [fst snd Nat.add].
  unfold slice_bound. destruct (Z.ltb_spec (- k) 0); [|lia]. destruct (Z.ltb_spec (- k + 1) 0); [|lia].
  rewrite (proj2 (Nat.leb_le _ _)) by lia. rewrite (proj2 (Nat.ltb_lt _ _)) by lia. reflexivity.
Qed.
Lemma li_neg (l : list R) (k : Z) dec : 1 <= k <= zlen l -> 2 <= zlen l ->
  exists r, @linear_interpolation XR DFloat (fins l) [- k] dec = Ok r /\
    nth_error r (Z.to_nat (zlen l - k)) = Some (if k =? 1 then NaN else Fin (round_dec dec (nth (Z.to_nat (zlen l - k + 1)) l 0%R))).
Proof.
  intros Hk Hn. unfold linear_interpolation, fancy_set. cbn [foldM]. rewrite setz_neg by (rewrite zlen_fins; lia). cbn [bind].
  rewrite zlen_fins. replace (- k + zlen l) with (zlen l - k) by lia.
  set (m := upd (fins l) (Z.to_nat (zlen l - k)) (nnan : XR)). cbn [zdiff map mask_get length Nat.eqb combine filter snd fst bind foldM app].
  assert (Lm : zlen m = zlen l) by (unfold m; rewrite zlen_upd; apply zlen_fins).
  unfold mask_get. cbn [length Nat.eqb combine filter snd fst map bind foldM].
  unfold li_run. rewrite Z.gtb_ltb, (proj2 (Z.ltb_ge 0 (- k))) by lia. cbn [bind]. rewrite zlen_fins, (proj2 (Z.ltb_lt (- k) (zlen l - 1))) by lia.
  assert (E : getz m (- k + 1) = Ok (Fin (nth (Z.to_nat (if k =? 1 then 0 else zlen l - k + 1)) l 0%R) : XR)).
  { destruct (Z.eqb_spec k 1) as [->|K].
    - change (- (1) + 1) with 0. rewrite (getz_ok m 0 (Fin 0 : XR)) by lia. unfold m. rewrite nth_upd_other by lia. rewrite fins_nth. reflexivity.
    - rewrite (getz_neg m _ (Fin 0 : XR)) by lia. rewrite Lm. unfold m. rewrite nth_upd_other by lia. rewrite fins_nth. do 4 f_equal. lia. }
  rewrite E. cbn [bind nisnan XR negb andb]. eexists. split; [reflexivity|].
  assert (Lf : length m = length l) by (unfold zlen in Lm; lia).
  destruct (Z.eqb_spec k 1) as [->|K].
  - change (- (1) + 1) with 0. rewrite slice_set_empty by (intros C; rewrite C in Lf; unfold zlen in Hn; cbn [length] in Lf; lia).
    rewrite (nth_error_nth' _ (NaN : XR)) by (rewrite map_length; unfold zlen in *; lia). f_equal.
    rewrite (nth_map_in _ _ _ (NaN : XR)) by (unfold zlen in *; lia). unfold m. rewrite nth_upd_same by (rewrite fins_length; unfold zlen in *; lia). unfold around. destruct (0 <=? dec); cbn [nmul ndiv nrint nnan XR xmul xdiv]; rewrite ?xofZ_fin; reflexivity.
  - rewrite (nth_error_nth' _ (NaN : XR)) by (rewrite map_length, slice_set_length; unfold zlen in *; lia). f_equal.
    rewrite (nth_map_in _ _ _ (NaN : XR)) by (rewrite slice_set_length; unfold zlen in *; lia). rewrite <- Lm at 1. rewrite nth_slice_neg by lia.
    change (@nnan XR) with (NaN : XR). unfold np_nanmean, valid_only. cbn [map filter nisnan XR negb nsum xsum fold_right]. rewrite !xofZ_fin. cbn [xadd].
    change (zlen [Fin (nth (Z.to_nat (zlen l - k + 1)) l 0%R)]) with 1. cbn [ndiv XR xdiv].
    rewrite Req_bool_false by lra. rewrite around_fin. do 2 f_equal. field.
Qed.
(** ** Cubic interpolation *)
Lemma pyslice_from_neg {A} (l : list A) i : - zlen l <= i < 0 -> pyslice_from l i = pyslice_from l (i + zlen l).
Proof.
  intros H. unfold pyslice_from, pyslice, slice_bound. rewrite (proj2 (Z.ltb_lt i 0)), (proj2 (Z.ltb_ge (i + zlen l) 0)) by lia.
  replace (Z.max 0 (i + zlen l)) with (Z.min (i + zlen l) (zlen l)) by lia. reflexivity.
Qed.
Lemma setz_wrap_any {A} (m : list A) k v : 1 <= k < zlen m -> setz m (- k) v = setz m (zlen m - k) v.
Proof. intros H. rewrite setz_neg, setz_ok by lia. do 2 f_equal. lia. Qed.
Lemma skipn_nth_cons {A} (l : list A) a d : (a < length l)%nat -> skipn a l = nth a l d :: skipn (S a) l.
Proof.
  revert a. induction l as [|x l IH]; intros a H; [cbn [length] in H; lia|]. destruct a as [|a]; [reflexivity|]. cbn [length] in H.
  cbn [nth]. change (skipn (S a) (x :: l)) with (skipn a l). change (skipn (S (S a)) (x :: l)) with (skipn (S a) l). apply IH. lia.
Qed.
Lemma cubic_neg (N : Num) spline (v : list N) k dec : 1 <= k < zlen v -> k <= 30 \/ zlen v - k <= 30 ->
  cubic_12points_polynomial spline DFloat v [- k] dec = cubic_12points_polynomial spline DFloat v [zlen v - k] dec.
Proof.
  intros Hk Hb. unfold cubic_12points_polynomial, fancy_set. cbn [foldM]. rewrite setz_neg, setz_ok by lia. cbn [bind].
  replace (- k + zlen v) with (zlen v - k) by lia. set (m := upd v (Z.to_nat (zlen v - k)) nnan).
  assert (Lm : zlen m = zlen v) by apply zlen_upd.
  assert (E : cubic_step spline v m (- k) = cubic_step spline v m (zlen v - k)).
  { unfold cubic_step. rewrite (proj2 (Z.leb_le (- k) 30)) by lia. cbn [orb].
    assert (C : (zlen v - k <=? 30) || (zlen v - k >=? zlen v - 30) = true)
      by (apply orb_true_intro; rewrite Z.geb_leb; destruct Hb; [right; apply Z.leb_le; lia | left; apply Z.leb_le; lia]).
    rewrite C. rewrite (getz_wrap v (- k - 1)) by (unfold in_range; lia). unfold from_start. rewrite (proj2 (Z.ltb_lt (- k - 1) 0)) by lia.
    replace (- k - 1 + zlen v) with (zlen v - k - 1) by lia. rewrite (pyslice_from_neg m (- k)) by lia. rewrite Lm.
    replace (- k + zlen v) with (zlen v - k) by lia. destruct (getz v (zlen v - k - 1)) as [x|]; [|reflexivity]. cbn [bind].
    destruct (getz (valid_only (pyslice_from m (zlen v - k))) 0) as [y|]; [|reflexivity]. cbn [bind]. rewrite <- Lm. apply setz_wrap_any. lia. }
  rewrite E. reflexivity.
Qed.
Lemma cubic_neg_middle (N : Num) spline (v : list N) k dec d : @nisnan N nnan = true -> 2 <= k < zlen v ->
  nisnan (nth (Z.to_nat (zlen v - k + 1)) v d) = false ->
  exists r, cubic_12points_polynomial spline DFloat v [- k] dec = Ok r /\
    nth_error r (Z.to_nat (zlen v - k)) = Some (around (around (ndiv (nadd (nth (Z.to_nat (zlen v - k - 1)) v d) (nth (Z.to_nat (zlen v - k + 1)) v d)) (nofZ 2)) 4) dec).
Proof.
  intros Hnan Hk Hv. unfold cubic_12points_polynomial, fancy_set. cbn [foldM]. rewrite setz_neg by lia. cbn [bind].
  replace (- k + zlen v) with (zlen v - k) by lia. set (m := upd v (Z.to_nat (zlen v - k)) nnan).
  assert (Lm : zlen m = zlen v) by apply zlen_upd.
  unfold cubic_step. rewrite (proj2 (Z.leb_le (- k) 30)) by lia. cbn [orb].
  rewrite (getz_neg v (- k - 1) d) by lia. cbn [bind]. replace (- k - 1 + zlen v) with (zlen v - k - 1) by lia.
  rewrite (pyslice_from_neg m (- k)) by lia. rewrite Lm. replace (- k + zlen v) with (zlen v - k) by lia.
  assert (E : pyslice_from m (zlen v - k) = nnan :: nth (Z.to_nat (zlen v - k + 1)) v d :: skipn (Z.to_nat (zlen v - k + 2)) m).
  { unfold pyslice_from. rewrite pyslice_nonneg by lia. rewrite firstn_all2 by (rewrite skipn_length; unfold zlen in *; lia).
    replace (Z.to_nat (zlen v - k + 2)) with (S (S (Z.to_nat (zlen v - k)))) by lia. replace (Z.to_nat (zlen v - k + 1)) with (S (Z.to_nat (zlen v - k))) by lia.
    set (a := Z.to_nat (zlen v - k)) in *. assert (La : (S a < length m)%nat) by (unfold a, zlen in *; lia).
    rewrite (skipn_nth_cons m a d) by lia. rewrite (skipn_nth_cons m (S a) d) by lia. unfold m at 1 2. fold a.
    rewrite nth_upd_same by (unfold a, zlen in *; lia). rewrite nth_upd_other by lia. reflexivity. }
  rewrite E. unfold valid_only at 1. cbn [filter]. rewrite Hnan, Hv. cbn [negb].
  rewrite (getz_ok _ 0 d) by (unfold zlen; cbn [length]; lia). cbn [bind Z.to_nat nth].
  rewrite setz_neg by lia. cbn [bind]. eexists. split; [reflexivity|].
  rewrite (nth_error_nth' _ d) by (rewrite map_length, upd_length; unfold zlen in *; lia). f_equal.
  rewrite (nth_map_in _ _ _ d) by (rewrite upd_length; unfold zlen in *; lia). rewrite Lm. replace (- k + zlen v) with (zlen v - k) by lia.
  rewrite nth_upd_same by (unfold zlen in *; lia). reflexivity.
Qed.
(** ** Polynomial *)
Lemma poly_neg (N : Num) regress dt (v : list N) k j rest window degree dec : 1 <= k <= zlen v -> zlen v - k < window ->
  polynomial_replacement regress dt v (- k :: j :: rest) window degree dec = Raise ValueError.
Proof.
  intros Hk Hw. unfold polynomial_replacement. cbn [foldM]. unfold poly_step at 1.
  rewrite (proj2 (Z.eqb_neq (- k) 0)), (proj2 (Z.leb_gt 1 (- k))), (proj2 (Z.leb_gt 11 (- k))) by lia. cbn [andb].
  unfold create_model.
  assert (E : zlen (pyslice v (- k - window) (- k)) <= zlen v - k).
  { unfold pyslice, slice_bound. rewrite (proj2 (Z.ltb_lt (- k - window) 0)), (proj2 (Z.ltb_lt (- k) 0)) by lia.
    unfold zlen at 1. rewrite firstn_length, skipn_length. lia. }
  assert (E2 : zlen (zrange (- k - window) (- k)) = window) by (unfold zlen; rewrite zrange_length; lia).
  rewrite E2. rewrite (proj2 (Z.eqb_neq window (zlen (pyslice v (- k - window) (- k))))) by lia. cbn [negb]. rewrite orb_true_r. reflexivity.
Qed.
Lemma same_neg (N : Num) dt (v : list N) idx : Forall (in_range (zlen v)) idx ->
  mean_value dt v idx = mean_value dt v (map (from_start (zlen v)) idx) /\
  median_value dt v idx = median_value dt v (map (from_start (zlen v)) idx) /\
  (forall w, 0 < w <= zlen v -> repl_sma dt v idx w = repl_sma dt v (map (from_start (zlen v)) idx) w) /\
  (forall a, repl_ema dt v idx a = repl_ema dt v (map (from_start (zlen v)) idx) a) /\
  (Forall (fun i => i <> - zlen v) idx -> last_valid_data v idx = last_valid_data v (map (from_start (zlen v)) idx)).
Proof.
  intros H. split; [apply mean_neg, H|]. split; [apply median_neg, H|]. split; [intros w Hw; apply sma_neg; assumption|]. split; [intros a; apply ema_neg, H|].
  intros H2. apply last_valid_neg. rewrite Forall_forall in *. intros i Hi. specialize (H i Hi). specialize (H2 i Hi). unfold in_range in H. lia.
Qed.
