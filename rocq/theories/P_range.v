(** Repaired records and the range of the record (C157). *)
From Coq Require Import Reals Lra Psatz.
From Flocq Require Import Core.Raux.
From Verif Require Import Num NpBase Lib XR LibR Spec Spec5 Spec28 Spec30 M_descriptive M_series M_replacement M_detection M_pipeline P_series P_replacement P_interp P_order P_hist P_smooth P_pipeline P_polyrep P_sph.
Local Open Scope R_scope.

Definition rng (lo hi : R) (x : XR) : Prop := exists y, x = Fin y /\ lo <= y <= hi.

Lemma setz_in {A} (l r : list A) i v x : setz l i v = Ok r -> In x r -> x = v \/ In x l.
Proof. unfold setz. destruct (pyidx _ _); [|discriminate]. intros [= <-]. apply in_upd. Qed.
Lemma getz_in {A} (l : list A) i v : getz l i = Ok v -> In v l.
Proof. unfold getz. destruct (pyidx _ _) as [k|]; [|discriminate]. destruct (nth_error l k) eqn:E; [|discriminate]. intros [= <-]. eapply nth_error_In, E. Qed.
Lemma foldM_in {A B} (f : list A -> B -> res (list A)) (P : A -> Prop) bs :
  (forall l b r, In b bs -> (forall x, In x l -> P x) -> f l b = Ok r -> forall x, In x r -> P x) ->
  forall l r, (forall x, In x l -> P x) -> foldM f l bs = Ok r -> forall x, In x r -> P x.
Proof.
  induction bs as [|b bs IH]; intros H l r Hl E; cbn [foldM] in E.
  - injection E as <-. exact Hl.
  - apply bind_ok in E. destruct E as (m & E1 & E2). apply (IH (fun l b r Hb => H l b r (or_intror Hb)) m r); [|exact E2].
    apply (H l b m (or_introl eq_refl) Hl E1).
Qed.

Lemma lvd_copies (N : Num) (v r : list N) idx : last_valid_data v idx = Ok r -> forall x, In x r -> In x v.
Proof.
  intros E. refine (foldM_in _ (fun x => In x v) idx _ v r (fun x H => H) E).
  intros l i r' _ Hl E'. cbv beta in E'. apply bind_ok in E'. destruct E' as (y & E1 & E2). intros x Hx.
  destruct (setz_in _ _ _ _ _ E2 Hx) as [->|Hx']; [apply Hl, (getz_in _ _ _ E1) | apply Hl, Hx'].
Qed.
Lemma fancy_set_in {A} (v r : list A) idx y : fancy_set v idx y = Ok r -> forall x, In x r -> x = y \/ In x v.
Proof.
  intros E. refine (foldM_in _ (fun x => x = y \/ In x v) idx _ v r (fun x H => or_intror H) E).
  intros l i r' _ Hl E' x Hx. cbv beta in E'. destruct (setz_in _ _ _ _ _ E' Hx) as [->|Hx']; [left; reflexivity | apply Hl, Hx'].
Qed.
Lemma take_from_in (N : Num) (v a r : list N) idx : take_from DFloat v a idx = Ok r -> forall x, In x r -> In x a \/ In x v.
Proof.
  unfold take_from. intros E. apply bind_ok in E. destruct E as (vs & E1 & E2).
  assert (Hvs : forall y, In y vs -> In y a).
  { intros y Hy. unfold fancy_get in E1. apply mapM_ok in E1. clear E2. induction E1 as [|i z is zs Hz _ IH]; [destruct Hy|].
    destruct Hy as [<-|Hy]; [apply (getz_in _ _ _ Hz) | apply IH, Hy]. }
  unfold fancy_set_many in E2. refine (foldM_in _ (fun x => In x a \/ In x v) _ _ v r (fun x H => or_intror H) E2).
  intros l [i y] r' Hb Hl E' x Hx. cbn [fst snd] in E'. destruct (setz_in _ _ _ _ _ E' Hx) as [->|Hx']; [left | apply Hl, Hx'].
  apply in_combine_r in Hb. apply in_map_iff in Hb. destruct Hb as (z & <- & Hz). apply Hvs, Hz.
Qed.

Lemma some_range (l : list R) : exists lo hi, within lo hi l.
Proof.
  induction l as [|y l (lo & hi & IH)]; [exists 0, 0; intros x []|]. exists (Rmin y lo), (Rmax y hi).
  intros x [->|Hx]; [split; [apply Rmin_l | apply Rmax_l]|]. specialize (IH x Hx). pose proof (Rmin_r y lo). pose proof (Rmax_r y hi). lra.
Qed.
Lemma rng_in lo hi l x : within lo hi l -> In x (fins l) -> rng lo hi x.
Proof. intros H Hx. unfold fins in Hx. apply in_map_iff in Hx. destruct Hx as (y & <- & Hy). exists y. split; [reflexivity | apply H, Hy]. Qed.
(** From bounds on the elements to a record of reals. *)
Lemma by_rng (repair : list XR -> list Z -> res (list XR)) :
  (forall l idx r, repair (fins l) idx = Ok r -> length r = length (fins l)) ->
  (forall l idx r lo hi, repair (fins l) idx = Ok r -> within lo hi l -> forall x, In x r -> rng lo hi x) ->
  keeps_range repair.
Proof.
  intros HL HR l idx r E. set (val := fun x : XR => match x with Fin r => r | _ => 0 end).
  destruct (some_range l) as (lo0 & hi0 & H0).
  assert (Er : r = fins (map val r)).
  { unfold fins. rewrite map_map. symmetry. rewrite <- (map_id r) at 2. apply map_ext_in. intros x Hx.
    destruct (HR l idx r lo0 hi0 E H0 x Hx) as (y & -> & _). reflexivity. }
  exists (map val r). split; [exact Er|]. split; [rewrite map_length, (HL l idx r E), fins_length; reflexivity|].
  intros lo hi Hw x Hx. apply in_map_iff in Hx. destruct Hx as (z & <- & Hz). destruct (HR l idx r lo hi E Hw z Hz) as (y & -> & Hy). exact Hy.
Qed.

Lemma last_valid_range : keeps_range (@last_valid_data XR).
Proof.
  apply by_rng.
  - intros l idx r E. apply (proj1 (last_valid_keeps XR _ _ _ E)).
  - intros l idx r lo hi E Hw x Hx. apply (rng_in lo hi l); [exact Hw|]. apply (lvd_copies XR _ _ _ E x Hx).
Qed.
Lemma in_range_of_keeps (l : list R) idx r lo hi y : keeps_unflagged (fins l) idx r -> within lo hi l -> lo <= y <= hi ->
  (forall k, (k < length l)%nat -> flagged (zlen l) idx k -> nth_error r k = Some (Fin y)) -> forall x, In x r -> rng lo hi x.
Proof.
  intros [HL HK] Hw Hy Hf x Hx. apply In_nth_error in Hx. destruct Hx as (k & Ek).
  assert (Hk : (k < length l)%nat) by (rewrite <- (fins_length l), <- HL; apply nth_error_Some; rewrite Ek; discriminate).
  destruct (flagged_dec (zlen l) idx k) as [F|F].
  - rewrite (Hf k Hk F) in Ek. injection Ek as <-. exists y. split; [reflexivity | exact Hy].
  - rewrite HK in Ek by (rewrite ?zlen_fins, ?fins_length; assumption). apply (rng_in lo hi l); [exact Hw|]. eapply nth_error_In, Ek.
Qed.
Lemma mean_range : keeps_range (@mean_value XR DFloat).
Proof.
  apply by_rng.
  - intros l idx r E. apply (proj1 (mean_value_keeps XR _ _ _ _ E)).
  - intros l idx r lo hi E Hw. pose proof (mean_value_errors XR DFloat (fins l) idx) as [H1 H2].
    assert (Hl : l <> []) by (intros ->; rewrite H1 in E by reflexivity; discriminate E).
    assert (Hb : in_bounds (zlen l) idx).
    { destruct (in_bounds_dec (zlen l) idx) as [Hb|(i & Hi & Hn)]; [exact Hb|]. rewrite H2 in E; [discriminate E | apply map_nil_iff, Hl | | reflexivity].
      rewrite zlen_fins. intros Hc. apply Hn, Hc, Hi. }
    destruct (mean_value_exact l idx Hl Hb) as (r' & E' & _ & Hf). rewrite E' in E. injection E as <-.
    apply (in_range_of_keeps l idx r' lo hi (rmean l)); [apply (mean_value_keeps XR _ _ _ _ E') | exact Hw | apply rmean_between; [exact Hl | exact Hw] | exact Hf].
Qed.
Lemma rmiddle_between s lo hi : s <> [] -> within lo hi s -> lo <= rmiddle s <= hi.
Proof.
  intros Hs Hw. assert (L : (0 < length s)%nat) by (destruct s; [congruence | cbn; lia]).
  assert (HN : forall k, (k < length s)%nat -> lo <= nth k s 0 <= hi) by (intros k Hk; apply Hw, nth_In, Hk).
  assert (L2 : (length s / 2 < length s)%nat) by (apply Nat.div_lt; lia).
  pose proof (HN _ L2). assert (L3 : (length s / 2 - 1 < length s)%nat) by lia. pose proof (HN _ L3).
  unfold rmiddle. repeat (match goal with |- context [if ?b then _ else _] => destruct b end); lra.
Qed.
Lemma median_range : keeps_range (@median_value XR DFloat).
Proof.
  apply by_rng.
  - intros l idx r E. apply (proj1 (median_value_keeps XR _ _ _ _ E)).
  - intros l idx r lo hi E Hw. pose proof (median_value_errors XR DFloat (fins l) idx) as [H1 H2].
    assert (Hl : l <> []) by (intros ->; rewrite H1 in E by reflexivity; discriminate E).
    assert (Hb : in_bounds (zlen l) idx).
    { destruct (in_bounds_dec (zlen l) idx) as [Hb|(i & Hi & Hn)]; [exact Hb|]. rewrite H2 in E; [discriminate E | apply map_nil_iff, Hl | | reflexivity].
      rewrite zlen_fins. intros Hc. apply Hn, Hc, Hi. }
    pose proof (rsort_is_sorting l) as HS.
    destruct (median_value_exact l (rsort l) idx Hl HS Hb) as (r' & E' & _ & Hf). rewrite E' in E. injection E as <-.
    apply (in_range_of_keeps l idx r' lo hi (rmiddle (rsort l))); [apply (median_value_keeps XR _ _ _ _ E') | exact Hw | | exact Hf].
    destruct HS as [HP _]. apply rmiddle_between.
    + intros E0. rewrite E0 in HP. destruct l; [congruence|]. first [apply Permutation_nil in HP | apply Permutation_sym, Permutation_nil in HP]; discriminate HP.
    + intros x Hx. apply Hw. first [apply (Permutation_in _ HP), Hx | apply (Permutation_in _ (Permutation_sym HP)), Hx].
Qed.
Lemma weighted_within m n W l lo hi : good_smoother m n (weighted m W) -> length l = n -> within lo hi l -> within lo hi (weighted m W l).
Proof.
  intros (HL & _ & HM & HC & _) Hn Hw x Hx. apply (In_nth _ _ 0) in Hx. destruct Hx as (i & Hi & <-). rewrite (HL l Hn) in Hi.
  rewrite <- (HC lo i Hi) at 1. rewrite <- (HC hi i Hi) at 1.
  assert (HV : forall j, (j < n)%nat -> lo <= nth j l 0 <= hi) by (intros j Hj; apply Hw, nth_In; lia).
  split; apply HM; try assumption; try apply repeat_length; intros j Hj; rewrite nth_rep_in by exact Hj; apply HV, Hj.
Qed.
Lemma take_range (l a : list R) idx r lo hi : within lo hi l -> within lo hi a -> take_from DFloat (fins l : list XR) (fins a) idx = Ok r ->
  forall x, In x r -> rng lo hi x.
Proof. intros H1 H2 E x Hx. destruct (take_from_in XR _ _ _ _ E x Hx) as [H|H]; [apply (rng_in lo hi a) | apply (rng_in lo hi l)]; assumption. Qed.
Lemma sma_range w : keeps_range (fun v idx => @repl_sma XR DFloat v idx w).
Proof.
  apply by_rng.
  - intros l idx r E. apply (proj1 (sma_keeps XR _ _ _ _ _ E)).
  - intros l idx r lo hi E Hw. unfold repl_sma in E. apply bind_ok in E. destruct E as (a & Ea & E).
    destruct (moving_average_errors XR 1 (fins l) w) as (H1 & H2 & H3).
    destruct (Z_le_gt_dec w 0) as [Hn|Hn]; [rewrite H1 in Ea by exact Hn; discriminate Ea|].
    destruct l as [|x0 l0]; [rewrite H2 in Ea by (first [lia | reflexivity]); injection Ea as <-; apply (take_range [] [] idx r); [exact Hw | intros ? [] | exact E]|].
    set (l := x0 :: l0) in *.
    destruct (Z_lt_le_dec (zlen l) w) as [Hz|Hz]; [rewrite H3 in Ea; [discriminate Ea | lia | discriminate | right; rewrite zlen_fins; exact Hz]|].
    destruct (sma_weights (length l) w) as (W & _ & HG & HE); [unfold zlen in Hz; lia|].
    assert (Ea' : a = fins (weighted (length l) W l)) by (rewrite HE in Ea by reflexivity; congruence). subst a.
    refine (take_range l (weighted (length l) W l) idx r lo hi Hw _ E).
    apply (weighted_within _ (length l)); [exact HG | reflexivity | exact Hw].
Qed.
Lemma ema_range a : keeps_range (fun v idx => @repl_ema XR DFloat v idx (Fin a)).
Proof.
  apply by_rng.
  - intros l idx r E. apply (proj1 (ema_keeps XR _ _ _ _ _ E)).
  - intros l idx r lo hi E Hw. unfold repl_ema in E. apply bind_ok in E. destruct E as (b & Eb & E).
    assert (Ha : 0 < a <= 1).
    { destruct (Rlt_le_dec 0 a), (Rle_lt_dec a 1); try lra; rewrite ema_alpha_bad in Eb by lra; discriminate Eb. }
    destruct l as [|x0 l0].
    { exfalso. change (fins []) with (@nil XR) in Eb. rewrite (ema_empty XR DFloat (Fin a)) in Eb; [discriminate Eb|]. rewrite !xofZ_fin, xleb_fin, xltb_fin.
      rewrite Rle_bool_false, Rlt_bool_false by (cbn; lra). reflexivity. }
    set (l := x0 :: l0) in *.
    destruct (ema_weights (length l) a Ha) as (W & _ & HG & HE); [cbn; lia|].
    assert (Eb' : b = fins (weighted (length l) W l)) by (rewrite HE in Eb by reflexivity; congruence). subst b.
    refine (take_range l (weighted (length l) W l) idx r lo hi Hw _ E).
    apply (weighted_within _ (length l)); [exact HG | reflexivity | exact Hw].
Qed.
Lemma wma_range p : keeps_range (fun v idx => @repl_wma XR DFloat v idx p).
Proof.
  apply by_rng.
  - intros l idx r E. apply (proj1 (wma_keeps XR _ _ _ _ _ E)).
  - intros l idx r lo hi E Hw. unfold repl_wma in E. apply bind_ok in E. destruct E as ([ar b] & Eb & E).
    destruct ar; cbn [negb] in E; [|discriminate E].
    assert (Hp : (0 < p <= zlen l)%Z).
    { destruct (Z_lt_le_dec 0 p), (Z_le_gt_dec p (zlen l)); try lia; rewrite wma_errors in Eb by (rewrite zlen_fins; lia); discriminate Eb. }
    destruct (wma_weights (length l) p) as (W & _ & HG & HE); [lia | unfold zlen in Hp; lia|].
    assert (Eb' : b = fins (weighted (length l - Z.to_nat p) W l)) by (rewrite HE in Eb by reflexivity; congruence). subst b.
    refine (take_range l (weighted (length l - Z.to_nat p) W l) idx r lo hi Hw _ E).
    apply (weighted_within _ (length l)); [exact HG | reflexivity | exact Hw].
Qed.
Lemma simple_ranges : keeps_range (@last_valid_data XR) /\ keeps_range (@mean_value XR DFloat) /\ keeps_range (@median_value XR DFloat) /\
  (forall w, keeps_range (fun v idx => @repl_sma XR DFloat v idx w)) /\
  (forall a, keeps_range (fun v idx => @repl_ema XR DFloat v idx (Fin a))) /\
  (forall p, keeps_range (fun v idx => @repl_wma XR DFloat v idx p)).
Proof. exact (conj last_valid_range (conj mean_range (conj median_range (conj sma_range (conj ema_range wma_range))))). Qed.

Lemma li_range (l : list R) idx dec : idx <> [] -> StronglySorted Z.lt idx -> (forall i, In i idx -> (0 <= i < zlen l)%Z) ->
  exists m, @linear_interpolation XR DFloat (fins l) idx dec = Ok (fins m) /\ length m = length l /\
    forall lo hi, within lo hi l -> within (round_dec dec lo) (round_dec dec hi) m.
Proof. intros H1 H2 H3. destruct (li_fins l idx dec H1 H2 H3) as (m & E & L & _ & H). exists m. split; [exact E|]. split; [exact L | exact H]. Qed.

Lemma corr_range (x y z : list R) r : corr_script (fins x, fins y, fins z) = Ok r ->
  exists x' y' z', r = (fins x', fins y', fins z') /\ length x' = length x /\ length y' = length y /\ length z' = length z /\
    forall lo hi, (within lo hi x -> within lo hi x') /\ (within lo hi y -> within lo hi y') /\ (within lo hi z -> within lo hi z').
Proof.
  intros E. apply corr_history in E. destruct E as (hist & Hp & _).
  refine (passes_inv (fun _ (s s' : rec3 XR) => forall x y z, s = (fins x, fins y, fins z) ->
    exists x' y' z', s' = (fins x', fins y', fins z') /\ length x' = length x /\ length y' = length y /\ length z' = length z /\
    forall lo hi, (within lo hi x -> within lo hi x') /\ (within lo hi y -> within lo hi y') /\ (within lo hi z -> within lo hi z')) _ _ _ _ _ _ _ _ Hp x y z eq_refl).
  - intros s a b c ->. exists a, b, c. repeat split; try assumption; try reflexivity; intros; apply H; assumption.
  - intros s idx t h s' Er IH a b c ->. unfold replace3 in Er. apply bind_ok in Er. destruct Er as (a1 & Ea & Er). apply bind_ok in Er. destruct Er as (b1 & Eb & Er).
    apply bind_ok in Er. destruct Er as (c1 & Ec & Er). injection Er as <-.
    apply mean_range in Ea, Eb, Ec. destruct Ea as (a2 & -> & La & Ra), Eb as (b2 & -> & Lb & Rb), Ec as (c2 & -> & Lc & Rc).
    destruct (IH a2 b2 c2 eq_refl) as (x' & y' & z' & -> & L1 & L2 & L3 & H). exists x', y', z'. split; [reflexivity|].
    split; [congruence|]. split; [congruence|]. split; [congruence|]. intros lo hi. destruct (H lo hi) as (H1 & H2 & H3).
    split; [|split]; intros Hw; auto.
Qed.

Lemma zrange_nodup a b : NoDup (zrange a b).
Proof. unfold zrange. apply FinFun.Injective_map_NoDup; [intros x y H; lia | apply seq_NoDup]. Qed.
(** Twelve samples on a straight line and two spikes: the regression goes on beyond the range. *)
Definition ramp : list R := map IZR (zrange 0 12) ++ [0; 0].
Lemma poly_leaves (regress : list XR -> list Z -> Z -> Z -> res XR) : fits_lines regress ->
  within 0 11 ramp /\ exists r, polynomial_replacement regress DFloat (fins ramp) [12; 13]%Z 12 2 4 = Ok r /\
    nth_error r 12 = Some (Fin 12) /\ nth_error r 13 = Some (Fin 13).
Proof.
  intros H. split.
  { intros x Hx. unfold ramp in Hx. apply in_app_iff in Hx. destruct Hx as [Hx|[<-|[<-|[]]]]; try lra.
    apply in_map_iff in Hx. destruct Hx as (k & <- & Hk). apply in_zrange in Hk. split; apply IZR_le; lia. }
  assert (S1 : poly_step regress DFloat [12; 13]%Z 12 2 4 (fins ramp, 0%Z) 12 = Ok (fins (map IZR (zrange 0 13) ++ [0]), 0%Z)).
  { unfold poly_step. change ((12 =? 0)%Z) with false. change (((1 <=? 12) && (12 <=? 10))%Z) with false. change (((11 <=? 12) && (12 <=? 12 - 1))%Z) with false. cbv iota.
    unfold create_model.
    assert (ES : pyslice (fins ramp : list XR) (12 - 12) 12 = fins (map (fun k => 0 + 1 * IZR k) (zrange (12 - 12) 12))).
    { rewrite (map_ext (fun k => 0 + 1 * IZR k) IZR) by (intros; ring). reflexivity. }
    rewrite ES, H; [| rewrite zrange_length; lia | apply zrange_nodup].
    change ((zlen (zrange (12 - 12) 12) =? 0)%Z || negb (zlen (zrange (12 - 12) 12) =? zlen (fins (map (fun k => (0 + 1 * IZR k)%R) (zrange (12 - 12) 12))))%Z) with false. cbv iota.
    cbn [bind storable]. replace (0 + 1 * IZR 12) with 12 by ring. reflexivity. }
  assert (S2 : poly_step regress DFloat [12; 13]%Z 12 2 4 (fins (map IZR (zrange 0 13) ++ [0]), 0%Z) 13 = Ok (fins (map IZR (zrange 0 14)), 0%Z)).
  { unfold poly_step. change ((13 =? 0)%Z) with false. change (((1 <=? 13) && (13 <=? 10))%Z) with false. change (((11 <=? 13) && (13 <=? 12 - 1))%Z) with false. cbv iota.
    unfold create_model.
    assert (ES : pyslice (fins (map IZR (zrange 0 13) ++ [0]) : list XR) (13 - 12) 13 = fins (map (fun k => 0 + 1 * IZR k) (zrange (13 - 12) 13))).
    { rewrite (map_ext (fun k => 0 + 1 * IZR k) IZR) by (intros; ring). reflexivity. }
    rewrite ES, H; [| rewrite zrange_length; lia | apply zrange_nodup].
    change ((zlen (zrange (13 - 12) 13) =? 0)%Z || negb (zlen (zrange (13 - 12) 13) =? zlen (fins (map (fun k => (0 + 1 * IZR k)%R) (zrange (13 - 12) 13))))%Z) with false. cbv iota.
    cbn [bind storable]. replace (0 + 1 * IZR 13) with 13 by ring. reflexivity. }
  eexists. split.
  { unfold polynomial_replacement. cbn [foldM]. rewrite S1. cbn [bind]. rewrite S2. cbn [bind fst]. reflexivity. }
  split; [transitivity (Some (@around XR (Fin (IZR 12)) 4)) | transitivity (Some (@around XR (Fin (IZR 13)) 4))];
    first [reflexivity | rewrite around_fin, round4_int; reflexivity].
Qed.
(** An exact fit of straight lines through the first two points is such a regression. *)
Definition two_points (y : list XR) (xs : list Z) (t degree : Z) : res XR :=
  match y, xs with
  | Fin a :: Fin b :: _, i :: j :: _ => Ok (Fin (a + (b - a) / IZR (j - i) * IZR (t - i)))
  | _, _ => Raise ValueError
  end.
Lemma two_points_fit : fits_lines two_points.
Proof.
  intros alpha beta [|i [|j xs]] t degree Hd HN; cbn [length] in Hd; try lia. cbn [map fins two_points].
  assert (Hij : IZR (j - i) <> 0) by (apply IZR_neq; inversion HN as [|? ? Hn ?]; subst; intros E; apply Hn; left; lia).
  unfold two_points. cbn [map fins]. do 2 f_equal. rewrite minus_IZR in *. rewrite minus_IZR. field. exact Hij.
Qed.
