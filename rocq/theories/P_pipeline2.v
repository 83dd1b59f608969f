(** Proofs about the kernel-density scripts and the time axis. *)
From Coq Require Import Reals Lra Lia.
From Flocq Require Import Core IEEE754.BinarySingleNaN.
From Verif Require Import LibR F64 P_float Spec2 Spec3 Spec4 Spec5 M_pipeline P_series P_moment P_replacement P_detect P_phase P_interp P_kernel P_kern P_trikde P_pipeline.
Import ListNotations.
Local Open Scope R_scope.
Local Existing Instance F64.prec_gt_0_53.
Local Existing Instance F64.prec_lt_emax_53.

(** ** The ellipse test of the bivariate script *)
Lemma sqr_div x a : a <> 0 -> (x / a) ^ 2 = x ^ 2 / a ^ 2.
Proof. intros. field. assumption. Qed.
Lemma biv_flag_beyond (a b u w : R) : 0 < a -> 0 < b ->
  (@biv_flag XR (Fin a) (Fin (- a)) (Fin a) (Fin b) (Fin u) (Fin w) = true <-> beyond a b u w).
Proof.
  intros Ha Hb. unfold biv_flag, beyond. rewrite !xltb_fin, !xipow_fin.
  assert (Ha2 : 0 < a ^ 2) by (apply pow_lt; lra). assert (Hb2 : 0 < b ^ 2) by (apply pow_lt; lra).
  destruct (Rlt_bool_spec a u) as [H1|H1]; cbn [orb].
  { split; [intros _ | reflexivity]. rewrite !sqr_div by lra. assert (1 < u ^ 2 / a ^ 2).
    { apply Rmult_lt_reg_r with (a ^ 2); [lra|]. unfold Rdiv. rewrite Rmult_assoc, Rinv_l by lra. nra. }
    assert (0 <= w ^ 2 / b ^ 2) by (apply Rmult_le_pos; [nra | left; apply Rinv_0_lt_compat; lra]). lra. }
  destruct (Rlt_bool_spec u (- a)) as [H2|H2].
  { split; [intros _ | reflexivity]. rewrite !sqr_div by lra. assert (1 < u ^ 2 / a ^ 2).
    { apply Rmult_lt_reg_r with (a ^ 2); [lra|]. unfold Rdiv. rewrite Rmult_assoc, Rinv_l by lra. nra. }
    assert (0 <= w ^ 2 / b ^ 2) by (apply Rmult_le_pos; [nra | left; apply Rinv_0_lt_compat; lra]). lra. }
  rewrite xdiv_fin by lra. rewrite xofZ_fin, xsub_fin, xmul_fin.
  assert (He : 0 <= b ^ 2 * (1 - u ^ 2 / a ^ 2)).
  { apply Rmult_le_pos; [lra|]. assert (u ^ 2 / a ^ 2 <= 1); [|lra].
    apply Rmult_le_reg_r with (a ^ 2); [lra|]. unfold Rdiv. rewrite Rmult_assoc, Rinv_l by lra. nra. }
  rewrite xsqrt_fin by exact He. rewrite xopp_fin, !xltb_fin. set (e := b ^ 2 * (1 - u ^ 2 / a ^ 2)) in *.
  rewrite !sqr_div by lra.
  assert (HW : e < w ^ 2 <-> 1 < u ^ 2 / a ^ 2 + w ^ 2 / b ^ 2).
  { unfold e. split; intros H.
    - assert (1 - u ^ 2 / a ^ 2 < w ^ 2 / b ^ 2); [|lra]. apply Rmult_lt_reg_l with (b ^ 2); [lra|].
      replace (b ^ 2 * (w ^ 2 / b ^ 2)) with (w ^ 2) by (field; lra). exact H.
    - replace (w ^ 2) with (b ^ 2 * (w ^ 2 / b ^ 2)) by (field; lra). apply Rmult_lt_compat_l; lra. }
  rewrite <- HW. pose proof (sqrt_pos e) as Hs. pose proof (sqrt_sqrt e He) as Hss.
  rewrite orb_true_iff, !Rlt_bool_iff. split.
  - intros [H|H]; nra.
  - intros H. destruct (Rlt_le_dec (sqrt e) w); [left; assumption|]. destruct (Rlt_le_dec w (- sqrt e)); [right; assumption|]. exfalso. nra.
Qed.
(** No extent in the first direction: every sample off the centre. *)
Lemma biv_flag_flat (b u w : R) :
  @biv_flag XR (Fin 0) (Fin 0) (Fin 0) (Fin b) (Fin u) (Fin w) = true <-> u <> 0.
Proof.
  unfold biv_flag. rewrite !xltb_fin. destruct (Rlt_bool_spec 0 u) as [H1|H1]; cbn [orb]; [split; [lra|reflexivity]|].
  destruct (Rlt_bool_spec u 0) as [H2|H2]; [split; [lra|reflexivity]|]. assert (u = 0) as -> by lra.
  rewrite !xipow_fin. replace (0 ^ 2) with 0 by ring. cbn [ndiv XR xdiv]. rewrite Req_bool_true by reflexivity.
  split; [|lra]. cbn. rewrite ?Req_bool_true by reflexivity. intros H. exfalso. revert H. cbn. discriminate.
Qed.

Lemma half_fin : @lit XR 5 1 = Fin (1 / 2).
Proof. rewrite lit_fin by lia. f_equal. cbn. lra. Qed.
Lemma biv_indices_xs (T : list (R * R)) (ul uu wl wu : R) :
  @biv_indices XR (xs fst T) (xs snd T) (Fin ul) (Fin uu) (Fin wl) (Fin wu) =
  nonzero (map (fun p => @biv_flag XR (Fin ((uu - ul) / 2)) (Fin (- ((uu - ul) / 2))) (Fin ((uu - ul) / 2)) (Fin ((wu - wl) / 2))
                                   (Fin (fst p - (uu + ul) / 2)) (Fin (snd p - (wu + wl) / 2))) T).
Proof.
  unfold biv_indices. cbv zeta. rewrite half_fin. rewrite !xadd_fin, !xmul_fin, !xsub_fin, !xmul_fin. unfold xs. rewrite zip_map2.
  f_equal. apply map_ext. intros p. rewrite !xsub_fin. f_equal; f_equal; field.
Qed.
Lemma rotation_same (N : Num) (x y : list N) : length x = length y -> tri_rotation x y = Ok (k_rotation x y).
Proof. intros H. unfold tri_rotation. rewrite bcast_same by exact H. reflexivity. Qed.
Lemma zipwith_map_map {A B C D E} (f : C -> D -> E) (g : A -> C) (h : B -> D) a b :
  zipwith f (map g a) (map h b) = zipwith (fun x y => f (g x) (h y)) a b.
Proof. revert b. induction a as [|x a IH]; intros [|y b]; try reflexivity. cbn. f_equal. apply IH. Qed.
(** The script's own lines are the rotation and the transform of the detector. *)
Lemma biv_detect_eq (N : Num) kde (data d : list N) : biv_derivative data = Ok d -> length d = length data ->
  biv_detect kde data =
  (let* theta := tri_rotation data d in
   let* (ut, wt) := tri_transform data d theta in
   let* xmin := arr_min ut in
   let* xmax := arr_max ut in
   let* ymin := arr_min wt in
   let* ymax := arr_max wt in
   let* uf := mgrid_axis xmin xmax 256 in
   let* wf := mgrid_axis ymin ymax 256 in
   let* density := kde ut wt uf wf in
   let* (dp, up, wp, fu, fw) := tri_peak density in
   let* (ul, uu) := cutoff [dp] uf (lit 4 1) (lit 4 1) fu up (nofZ 256) in
   let* (wl, wu) := cutoff [dp] wf (lit 4 1) (lit 4 1) fw wp (nofZ 256) in
   Ok (biv_indices ut wt ul uu wl wu)).
Proof.
  intros E L. unfold biv_detect. rewrite E. cbn [bind]. rewrite rotation_same by congruence. cbn [bind].
  rewrite tri_transform_gen by congruence. cbn [bind]. rewrite !zipwith_map_map. reflexivity.
Qed.
Lemma nth_seq_map {A} (f : nat -> A) n i d : (i < n)%nat -> nth i (map f (seq 0 n)) d = f i.
Proof. intros H. rewrite (nth_map_in _ _ _ O) by (rewrite seq_length; exact H). rewrite seq_nth by exact H. reflexivity. Qed.
Lemma biv_derivative_exact (l : list R) : biv_derivative (fins l) = Ok (fins (rsmaller l)).
Proof.
  destruct (biv_general XR (fins l) (Fin 0)) as (r & E & HL & H). rewrite E. f_equal.
  apply (nth_ext_len _ _ (Fin 0 : XR)).
  - rewrite HL. unfold fins, rsmaller. rewrite !map_length, seq_length. reflexivity.
  - intros k Hk. assert (Hk' : (k < length l)%nat) by (rewrite HL in Hk; rewrite fins_length in Hk; exact Hk).
    specialize (H (Z.of_nat k)). rewrite zlen_fins, Nat2Z.id in H. rewrite H by (unfold zlen; lia). rewrite (fins_nth (rsmaller l)).
    unfold rsmaller. rewrite nth_seq_map by exact Hk'.
    replace ((0 <? Z.of_nat k)%Z && (Z.of_nat k <? zlen l - 1)%Z)%bool with (Nat.ltb 0 k && Nat.ltb (S k) (length l))%bool.
    2:{ unfold zlen. destruct (Nat.ltb_spec 0 k), (Z.ltb_spec 0 (Z.of_nat k)), (Nat.ltb_spec (S k) (length l)), (Z.ltb_spec (Z.of_nat k) (Z.of_nat (length l) - 1)); cbn; try reflexivity; lia. }
    destruct (Nat.ltb 0 k && Nat.ltb (S k) (length l))%bool eqn:Eb; [|rewrite xofZ_fin; reflexivity].
    replace (Z.to_nat (Z.of_nat k - 1)) with (k - 1)%nat by lia. replace (Z.to_nat (Z.of_nat k + 1)) with (S k) by lia.
    rewrite !fins_nth. cbv zeta. rewrite !xsub_fin, !xabs_fin, xltb_fin.
    destruct (Rlt_dec (Rabs (nth (S k) l 0 - nth k l 0)) (Rabs (nth k l 0 - nth (k - 1) l 0))) as [Hlt|Hlt];
      [rewrite Rlt_bool_true by exact Hlt | rewrite Rlt_bool_false by lra]; reflexivity.
Qed.
Lemma rsmaller_length l : length (rsmaller l) = length l.
Proof. unfold rsmaller. rewrite map_length, seq_length. reflexivity. Qed.

(** Points of the grid. *)
Lemma nth_axis a b grid i : (i < Z.abs_nat grid)%nat -> nth i (axis a b grid) 0 = gridpt a b (Z.abs_nat grid) i.
Proof. intros H. unfold axis. apply nth_seq_map. exact H. Qed.
Lemma gridpt_lt a b g i j : a < b -> (2 <= g)%nat -> (i < j)%nat -> gridpt a b g i < gridpt a b g j.
Proof.
  intros Hab Hg Hij. unfold gridpt. assert (1 < INR g) by (apply (lt_INR 1); lia). apply lt_INR in Hij.
  assert (0 < (b - a) / (INR g - 1)) by (apply Rdiv_lt_0_compat; lra). apply Rplus_lt_compat_l. apply Rmult_lt_compat_r; assumption.
Qed.
Lemma gridpt_0 a b g : gridpt a b g 0 = a.
Proof. unfold gridpt. cbn [INR]. ring. Qed.
Lemma extent_lt (f : R * R -> R) (T : list (R * R)) a b (v1 v2 : R) : (v1 <> 0 \/ v2 <> 0) ->
  (forall p, f p = v1 * fst p + v2 * snd p) -> ~ collinear T -> is_min (map f T) a -> is_max (map f T) b -> a < b.
Proof.
  intros Hv Hf HC [Ha HA] [Hb HB]. destruct (Rlt_le_dec a b) as [|Hba]; [assumption|]. exfalso. apply HC.
  exists v1, v2, a. split; [exact Hv|]. intros p Hp. rewrite <- Hf. pose proof (HA _ (in_map f T p Hp)). pose proof (HB _ (in_map f T p Hp)). lra.
Qed.
Lemma extent_fst T a b : ~ collinear T -> is_min (map fst T) a -> is_max (map fst T) b -> a < b.
Proof. apply (extent_lt fst T a b 1 0); [left; lra | intros; ring]. Qed.
Lemma extent_snd T a b : ~ collinear T -> is_min (map snd T) a -> is_max (map snd T) b -> a < b.
Proof. apply (extent_lt snd T a b 0 1); [right; lra | intros; ring]. Qed.

(** What the cut-off search returns on a grid axis: never the first grid point. *)
Lemma cutoff_axis a b grid (peak : XR) (c1 c2 g : XR) (force : list XR) p : a < b -> (2 <= Z.abs grid)%Z ->
  zlen force = Z.abs grid -> (0 <= p < Z.abs grid)%Z ->
  exists lo up, cutoff [peak] (fins (axis a b grid)) c1 c2 force p g = Ok (Fin lo, Fin up) /\
    In lo (axis a b grid) /\ In up (axis a b grid) /\ a < lo <= up /\ ((0 < p)%Z -> (3 <= Z.abs grid)%Z -> lo < up).
Proof.
  intros Hab Hg Hf Hp.
  assert (LA : zlen (fins (axis a b grid)) = Z.abs grid) by (rewrite zlen_fins; unfold zlen; rewrite axis_length; lia).
  destruct (cutoff_general XR [peak] (fins (axis a b grid)) force c1 c2 g p (Fin 0)) as (lo & up & E & H1 & H2);
    [lia | rewrite LA; lia | right; reflexivity | lia|].
  assert (B : (1 <= lo <= up)%Z /\ (up < Z.abs grid)%Z /\ ((0 < p)%Z -> (3 <= Z.abs grid)%Z -> (lo < up)%Z)).
  { clear E. destruct H1 as [(H1 & _)|(H1 & _)], H2 as [(H2 & _)|(H2 & _)]; lia. }
  destruct B as (B1 & B2 & B3). rewrite !fins_nth in E.
  assert (Hlo : (Z.to_nat lo < Z.abs_nat grid)%nat) by lia. assert (Hup : (Z.to_nat up < Z.abs_nat grid)%nat) by lia.
  exists (nth (Z.to_nat lo) (axis a b grid) 0), (nth (Z.to_nat up) (axis a b grid) 0). split; [exact E|].
  split; [apply nth_In; rewrite axis_length; exact Hlo|]. split; [apply nth_In; rewrite axis_length; exact Hup|].
  rewrite !nth_axis by assumption. split; [split|].
  - rewrite <- (gridpt_0 a b (Z.abs_nat grid)) at 1. apply gridpt_lt; [assumption | lia | lia].
  - destruct (Z.eq_dec lo up) as [->|]; [lra|]. left. apply gridpt_lt; [assumption | lia | lia].
  - intros H0 H3. apply gridpt_lt; [assumption | lia | lia].
Qed.

(** ** Peak of the density and its axes *)
Lemma finm_grid (F : R -> R -> R) us ws : finm (on_grid F us ws) = map (fun x => map (fun y => Fin (F x y)) ws) us.
Proof. unfold finm, on_grid. rewrite map_map. apply map_ext. intros x. unfold fins. rewrite map_map. reflexivity. Qed.
Lemma axis_hd a b grid : grid <> 0%Z -> nth_error (axis a b grid) 0 = Some a.
Proof.
  intros H. unfold axis. destruct (Z.abs_nat grid) as [|g] eqn:E; [lia|]. cbn [seq map nth_error]. rewrite gridpt_0. reflexivity.
Qed.
Lemma peak_corner (F : R -> R -> R) a b c d grid : grid <> 0%Z -> exists peak up wp fu fw,
  @tri_peak XR (finm (on_grid F (axis a b grid) (axis c d grid))) = Ok (peak, up, wp, fu, fw) /\
  (0 <= up < Z.abs grid)%Z /\ (0 <= wp < Z.abs grid)%Z /\ zlen fu = Z.abs grid /\ zlen fw = Z.abs grid /\
  ((exists x y, In x (axis a b grid) /\ In y (axis c d grid) /\ F a c < F x y) -> (0 < up)%Z \/ (0 < wp)%Z).
Proof.
  intros Hg. rewrite finm_grid.
  destruct (tri_peak_total F (axis a b grid) (axis c d grid) (axis_nil _ _ _ Hg) (axis_nil _ _ _ Hg)) as (peak & up & wp & fu & fw & E & H1 & H2 & H3 & H4).
  exists peak, up, wp, fu, fw. split; [exact E|]. unfold zlen in H1, H2. rewrite axis_length in H1, H2, H3, H4.
  split; [lia|]. split; [lia|]. split; [unfold zlen; lia|]. split; [unfold zlen; lia|].
  intros (x & y & Hx & Hy & Hlt). destruct (Z.eq_dec up 0) as [Eu|]; [|lia]. destruct (Z.eq_dec wp 0) as [Ew|]; [|lia]. exfalso. subst up wp.
  apply (tri_peak_spec XR XR_ord) in E. 2:{ intros row v Hr Hv. apply in_map_iff in Hr. destruct Hr as (x' & <- & _). apply in_map_iff in Hv. destruct Hv as (y' & <- & _). reflexivity. }
  destruct E as (M & F1 & _ & _ & (v & F2 & F3) & _). change (Z.to_nat 0) with O in F1, F2.
  assert (A1 : nth_error (map (fun x => map (fun y => Fin (F x y) : XR) (axis c d grid)) (axis a b grid)) 0 = Some (map (fun y => Fin (F a y) : XR) (axis c d grid)))
    by (rewrite (map_nth_error _ _ _ (axis_hd a b grid Hg)); reflexivity).
  pose proof (eq_trans (eq_sym A1) F1) as G1. injection G1 as <-.
  assert (A2 : nth_error (map (fun y => Fin (F a y) : XR) (axis c d grid)) 0 = Some (Fin (F a c)))
    by (rewrite (map_nth_error _ _ _ (axis_hd c d grid Hg)); reflexivity).
  pose proof (eq_trans (eq_sym A2) F2) as G2. injection G2 as <-.
  specialize (M (map (fun y => Fin (F x y) : XR) (axis c d grid)) (Fin (F x y)) (in_map _ _ _ Hx) (in_map (fun y => Fin (F x y) : XR) _ _ Hy)).
  destruct peak as [p|s|]; cbn in M, F3; try discriminate. apply Req_bool_true_iff in F3 || (revert F3; case Req_bool_spec; [intros F3 _ | discriminate]).
  revert M. case Rle_bool_spec; [lra|discriminate].
Qed.

(** ** The three-dimensional kernel: one plane *)
Lemma rho_flag (u w a b : R) : 0 < a -> 0 < b ->
  (@nltb XR (nofZ 1) (nadd (@sq XR (ndiv (Fin u) (Fin a))) (@sq XR (ndiv (Fin w) (Fin b)))) = true <-> beyond a b u w).
Proof.
  intros Ha Hb. rewrite !xdiv_fin by lra. unfold sq. rewrite !xmul_fin, xadd_fin, xofZ_fin, xltb_fin. unfold beyond.
  replace ((u / a) ^ 2 + (w / b) ^ 2) with (u / a * (u / a) + w / b * (w / b)) by ring. change (IZR 1) with 1. split.
  - intros H. destruct (Rlt_bool_spec 1 (u / a * (u / a) + w / b * (w / b))); [assumption|discriminate].
  - intros H. apply Rlt_bool_true. exact H.
Qed.
Lemma rho_flag_out (u w a b : R) : 0 <= a -> 0 <= b -> u < - a -> (0 < b \/ w <> 0) ->
  @nltb XR (nofZ 1) (nadd (@sq XR (ndiv (Fin u) (Fin a))) (@sq XR (ndiv (Fin w) (Fin b)))) = true.
Proof.
  intros Ha Hb Hu Hw.
  assert (Q : forall x y, 0 < y \/ x <> 0 -> 0 <= y -> (exists z, @sq XR (ndiv (Fin x) (Fin y)) = Fin z /\ 0 <= z /\ 0 < y /\ z = (x / y) * (x / y)) \/ @sq XR (ndiv (Fin x) (Fin y)) = Inf false).
  { intros x y H Hy. destruct (Rle_lt_or_eq_dec 0 y Hy) as [Hy'|Hy'].
    - left. exists (x / y * (x / y)). rewrite xdiv_fin by lra. unfold sq. rewrite xmul_fin. split; [reflexivity|]. split; [apply Rle_0_sqr|]. split; [exact Hy' | reflexivity].
    - right. subst y. destruct H as [H|H]; [lra|]. unfold sq. cbn [ndiv nmul XR car xdiv]. rewrite Req_bool_true by reflexivity. rewrite Req_bool_false by exact H. cbn. destruct (xneg x); reflexivity. }
  destruct (Q u a) as [(z & -> & Hz & Ha' & Ez)| ->]; [destruct (Req_dec a 0); [right; lra | left; lra] | exact Ha | |].
  - destruct (Q w b Hw Hb) as [(z2 & -> & Hz2 & _)| ->].
    + rewrite xadd_fin, xofZ_fin, xltb_fin. apply Rlt_bool_true. change (IZR 1) with 1. assert (1 < z); [|lra].
      rewrite Ez. assert (E : u / a < -1). { apply (Rmult_lt_reg_r a); [exact Ha'|]. unfold Rdiv. rewrite Rmult_assoc, Rinv_l by lra. lra. }
      nra.
    + reflexivity.
  - destruct (Q w b Hw Hb) as [(z2 & -> & Hz2 & _)| ->]; reflexivity.
Qed.
Lemma nadd_comm_xr (x y : XR) : nadd x y = nadd y x.
Proof. destruct x as [x|[]|], y as [y|[]|]; cbn; try reflexivity. f_equal. apply Rplus_comm. Qed.
Lemma rho_flag_out2 (u w a b : R) : 0 <= a -> 0 <= b -> w < - b -> (0 < a \/ u <> 0) ->
  @nltb XR (nofZ 1) (nadd (@sq XR (ndiv (Fin u) (Fin a))) (@sq XR (ndiv (Fin w) (Fin b)))) = true.
Proof. intros. rewrite nadd_comm_xr. apply rho_flag_out; assumption. Qed.
Lemma in_flags (T : list (R * R)) (f : R * R -> bool) i :
  In i (nonzero (map f T)) <-> (0 <= i < zlen T)%Z /\ f (nth (Z.to_nat i) T (0, 0)) = true.
Proof.
  rewrite in_nonzero. unfold zlen. rewrite map_length. split; intros [H1 H2]; (split; [exact H1|]).
  - rewrite (nth_map_in _ _ _ (0, 0)) in H2 by lia. exact H2.
  - rewrite (nth_map_in _ _ _ (0, 0)) by lia. exact H2.
Qed.
Lemma flagged_ex (T : list (R * R)) (f : R * R -> bool) p : In p T -> f p = true -> nonzero (map f T) <> [].
Proof.
  intros Hp Hf. destruct (In_nth _ _ (0, 0) Hp) as (k & Hk & E). assert (H : In (Z.of_nat k) (nonzero (map f T))).
  { apply in_flags. rewrite Nat2Z.id, E. split; [unfold zlen; lia | exact Hf]. }
  intros E0. rewrite E0 in H. exact H.
Qed.
Lemma tri_kernel_ellipse kde F P grid a b c d : ~ collinear P -> (3 <= Z.abs grid)%Z ->
  is_min (map fst (turned P)) a -> is_max (map fst (turned P)) b -> is_min (map snd (turned P)) c -> is_max (map snd (turned P)) d ->
  kde_gives kde (turned P) F (axis a b grid) (axis c d grid) ->
  exists r ul uu wl wu, @tri_kernel XR kde (xs fst P) (xs snd P) grid = Ok r /\ bounded_sorted (zlen P) r /\
    In ul (axis a b grid) /\ In uu (axis a b grid) /\ In wl (axis c d grid) /\ In wu (axis c d grid) /\
    a < ul <= uu /\ c < wl <= wu /\
    (ul < uu -> wl < wu -> forall i, In i r <-> (0 <= i < zlen P)%Z /\
       beyond ((uu - ul) / 2) ((wu - wl) / 2) (fst (nth (Z.to_nat i) (turned P) (0, 0)) - (uu + ul) / 2) (snd (nth (Z.to_nat i) (turned P) (0, 0)) - (wu + wl) / 2)) /\
    ((exists x y, In x (axis a b grid) /\ In y (axis c d grid) /\ F a c < F x y) -> (ul < uu \/ wl < wu) /\ r <> []).
Proof.
  intros HC Hg Ha Hb Hc Hd HK. pose proof (noncol_len P HC) as Hn. destruct (sdet_pos P Hn HC) as [_ HV].
  assert (HC' : ~ collinear (turned P)) by (unfold turned; rewrite collinear_rotate; exact HC).
  assert (Hne : P <> []) by (intros ->; cbn in Hn; lia). assert (Hg0 : grid <> 0%Z) by lia.
  pose proof (extent_fst _ _ _ HC' Ha Hb) as Hab. pose proof (extent_snd _ _ _ HC' Hc Hd) as Hcd.
  unfold tri_kernel. rewrite tri_rotation_xs by (try assumption; lra). cbn [bind]. rewrite tri_transform_xs. cbn [bind]. fold (turned P).
  rewrite (min_xs fst _ a Ha), (max_xs fst _ b Hb), (min_xs snd _ c Hc), (max_xs snd _ d Hd). cbn [bind]. rewrite !mgrid_axis_fins by exact Hg0. cbn [bind].
  unfold kde_gives in HK. rewrite <- !xs_fins in HK. rewrite HK. cbn [bind].
  destruct (peak_corner F a b c d grid Hg0) as (peak & up & wp & fu & fw & -> & H1 & H2 & H3 & H4 & H5). cbn [bind].
  rewrite !spread_std_farr by (intros E; apply map_eq_nil in E; contradiction). cbn [bind].
  match goal with |- context [cutoff [peak] (fins (axis a b grid)) ?c1 ?c2 fu up ?g] =>
    destruct (cutoff_axis a b grid peak c1 c2 g fu up) as (ul & uu & -> & A1 & A2 & A3 & A4); [assumption | lia | lia | lia |] end. cbn [bind].
  match goal with |- context [cutoff [peak] (fins (axis c d grid)) ?c1 ?c2 fw wp ?g] =>
    destruct (cutoff_axis c d grid peak c1 c2 g fw wp) as (wl & wu & -> & B1 & B2 & B3 & B4); [assumption | lia | lia | lia |] end. cbn [bind].
  rewrite half_fin, !xadd_fin, !xmul_fin, !xsub_fin. cbv zeta.
  rewrite bcast_same by (unfold xs; rewrite !map_length; reflexivity). cbn [bind].
  set (cu := 1 / 2 * (uu + ul)). set (cw := 1 / 2 * (wu + wl)).
  unfold xs. rewrite !map_map. rewrite zip_map2, map_map.
  set (f := fun p : R * R => _). exists (nonzero (map f (turned P))), ul, uu, wl, wu.
  split; [reflexivity|]. split.
  { split; [apply nonzero_sorted|]. intros i Hi. apply in_flags in Hi. unfold zlen, turned in Hi. rewrite map_length in Hi. apply Hi. }
  split; [exact A1|]. split; [exact A2|]. split; [exact B1|]. split; [exact B2|]. split; [exact A3|]. split; [exact B3|].
  assert (Ecu : cu = (uu + ul) / 2) by (unfold cu; field). assert (Ecw : cw = (wu + wl) / 2) by (unfold cw; field).
  assert (Ef : forall p, f p = @nltb XR (nofZ 1) (nadd (@sq XR (ndiv (Fin (fst p - cu)) (Fin (uu - cu)))) (@sq XR (ndiv (Fin (snd p - cw)) (Fin (wu - cw)))))) by reflexivity.
  split.
  - intros Hu Hw i. rewrite in_flags. unfold zlen, turned at 1. rewrite map_length. fold (zlen P). rewrite Ef, rho_flag by lra.
    rewrite <- Ecu, <- Ecw. replace (uu - cu) with ((uu - ul) / 2) by lra. replace (wu - cw) with ((wu - wl) / 2) by lra. tauto.
  - intros HF. assert (HH : ul < uu \/ wl < wu) by (destruct (H5 HF) as [H|H]; [left; apply A4; lia | right; apply B4; lia]). split; [exact HH|].
    destruct (Rlt_le_dec wl wu) as [Hw|Hw].
    + destruct Ha as [Ha _]. apply in_map_iff in Ha. destruct Ha as (p & Ep & Hp). apply (flagged_ex _ _ p Hp). rewrite Ef. apply rho_flag_out; try lra. 
    + destruct HH as [Hu|Hu]; [|lra]. destruct Hc as [Hc _]. apply in_map_iff in Hc. destruct Hc as (p & Ep & Hp). apply (flagged_ex _ _ p Hp). rewrite Ef. apply rho_flag_out2; lra.
Qed.

Lemma tri_kernel_points kde F (P : list (R * R)) grid a b c d : let T := turned P in ~ collinear P -> (3 <= Z.abs grid)%Z ->
  is_min (map fst T) a -> is_max (map fst T) b -> is_min (map snd T) c -> is_max (map snd T) d ->
  kde_gives kde T F (axis a b grid) (axis c d grid) ->
  exists r ul uu wl wu, @tri_kernel XR kde (fins (map fst P)) (fins (map snd P)) grid = Ok r /\ bounded_sorted (zlen P) r /\
    In ul (axis a b grid) /\ In uu (axis a b grid) /\ In wl (axis c d grid) /\ In wu (axis c d grid) /\
    a < ul <= uu /\ c < wl <= wu /\
    (ul < uu -> wl < wu -> forall i, In i r <-> (0 <= i < zlen P)%Z /\
       beyond ((uu - ul) / 2) ((wu - wl) / 2) (fst (nth (Z.to_nat i) T (0, 0)) - (uu + ul) / 2) (snd (nth (Z.to_nat i) T (0, 0)) - (wu + wl) / 2)) /\
    ((exists x y, In x (axis a b grid) /\ In y (axis c d grid) /\ F a c < F x y) -> (ul < uu \/ wl < wu) /\ r <> []).
Proof. cbv zeta. rewrite <- !(xs_fins _ P). apply tri_kernel_ellipse. Qed.

(** ** The bivariate script *)
Lemma cloud_xs l : xs fst (cloud l) = fins l /\ xs snd (cloud l) = fins (rsmaller l).
Proof. apply xs_combine. symmetry. apply rsmaller_length. Qed.
Lemma cloud_length l : length (cloud l) = length l.
Proof. unfold cloud. rewrite combine_length, rsmaller_length. lia. Qed.
Lemma turned_length P : length (turned P) = length P.
Proof. apply map_length. Qed.
Lemma biv_detect_ellipse kde F (l : list R) a b c d : let T := turned (cloud l) in ~ collinear (cloud l) ->
  is_min (map fst T) a -> is_max (map fst T) b -> is_min (map snd T) c -> is_max (map snd T) d ->
  kde_gives kde T F (axis a b 256) (axis c d 256) ->
  exists r ul uu wl wu, biv_detect kde (fins l) = Ok r /\ bounded_sorted (zlen l) r /\
    In ul (axis a b 256) /\ In uu (axis a b 256) /\ In wl (axis c d 256) /\ In wu (axis c d 256) /\
    a < ul <= uu /\ c < wl <= wu /\
    (ul < uu -> wl < wu -> forall i, In i r <-> (0 <= i < zlen l)%Z /\
       beyond ((uu - ul) / 2) ((wu - wl) / 2) (fst (nth (Z.to_nat i) T (0, 0)) - (uu + ul) / 2) (snd (nth (Z.to_nat i) T (0, 0)) - (wu + wl) / 2)) /\
    (forall i, (0 <= i < zlen l)%Z -> fst (nth (Z.to_nat i) T (0, 0)) < ul \/ uu < fst (nth (Z.to_nat i) T (0, 0)) -> In i r) /\
    r <> [].
Proof.
  intros T HC Ha Hb Hc Hd HK. pose proof (noncol_len _ HC) as Hn. destruct (sdet_pos _ Hn HC) as [_ HV].
  assert (HC' : ~ collinear T) by (unfold T, turned; rewrite collinear_rotate; exact HC).
  pose proof (extent_fst _ _ _ HC' Ha Hb) as Hab. pose proof (extent_snd _ _ _ HC' Hc Hd) as Hcd.
  assert (LT : zlen T = zlen l) by (unfold zlen, T; rewrite turned_length, cloud_length; reflexivity).
  destruct (cloud_xs l) as [X1 X2].
  rewrite (biv_detect_eq XR kde (fins l) (fins (rsmaller l))).
  2: apply biv_derivative_exact. 2: rewrite !fins_length; apply rsmaller_length.
  rewrite <- X1, <- X2. rewrite tri_rotation_xs by (try assumption; lra). cbn [bind]. rewrite tri_transform_xs. cbn [bind]. fold (turned (cloud l)). fold T.
  rewrite (min_xs fst _ a Ha), (max_xs fst _ b Hb), (min_xs snd _ c Hc), (max_xs snd _ d Hd). cbn [bind]. rewrite !mgrid_axis_fins by lia. cbn [bind].
  unfold kde_gives in HK. rewrite <- !xs_fins in HK. rewrite HK. cbn [bind].
  destruct (peak_corner F a b c d 256) as (peak & up & wp & fu & fw & -> & H1 & H2 & H3 & H4 & _); [lia|]. cbn [bind].
  match goal with |- context [cutoff [peak] (fins (axis a b 256)) ?c1 ?c2 fu up ?g] =>
    destruct (cutoff_axis a b 256 peak c1 c2 g fu up) as (ul & uu & -> & A1 & A2 & A3 & _); [assumption | lia | lia | lia |] end. cbn [bind].
  match goal with |- context [cutoff [peak] (fins (axis c d 256)) ?c1 ?c2 fw wp ?g] =>
    destruct (cutoff_axis c d 256 peak c1 c2 g fw wp) as (wl & wu & -> & B1 & B2 & B3 & _); [assumption | lia | lia | lia |] end. cbn [bind].
  rewrite biv_indices_xs. set (f := fun p : R * R => _).
  assert (Hout : forall p, fst p < ul \/ uu < fst p -> f p = true).
  { intros p Hp. unfold f, biv_flag. rewrite !xltb_fin. replace (_ || _)%bool with true; [reflexivity|]. symmetry. apply orb_true_iff.
    destruct Hp as [Hp|Hp]; [right | left]; apply Rlt_bool_true; lra. }
  exists (nonzero (map f T)), ul, uu, wl, wu. split; [reflexivity|]. split.
  { split; [apply nonzero_sorted|]. intros i Hi. apply in_flags in Hi. rewrite LT in Hi. apply Hi. }
  split; [exact A1|]. split; [exact A2|]. split; [exact B1|]. split; [exact B2|]. split; [exact A3|]. split; [exact B3|].
  split; [|split].
  - intros Hu Hw i. rewrite in_flags, LT. unfold f. rewrite biv_flag_beyond by lra. tauto.
  - intros i Hi Hp. apply in_flags. rewrite LT. split; [exact Hi | apply Hout; exact Hp].
  - destruct Ha as [Ha _]. apply in_map_iff in Ha. destruct Ha as (p & Ep & Hp). apply (flagged_ex _ _ p Hp). apply Hout. left. lra.
Qed.
Lemma scott_gives (T : list (R * R)) us ws : ~ collinear T -> kde_gives (@scott_kde XR) T (kde2 (scott (length T)) T T) us ws.
Proof.
  intros HC. unfold kde_gives. destruct (scott_kde_xs T us ws) as (_ & _ & H). rewrite !xs_fins in H. rewrite (H HC), finm_grid. reflexivity.
Qed.
Lemma collinear_turned P : collinear (turned P) <-> collinear P.
Proof. unfold turned. apply collinear_rotate. Qed.
Lemma noncol_extents P : ~ collinear P -> exists a b c d, is_min (map fst (turned P)) a /\ is_max (map fst (turned P)) b /\
  is_min (map snd (turned P)) c /\ is_max (map snd (turned P)) d.
Proof.
  intros HC. assert (H : turned P <> []). { intros E. apply map_eq_nil in E. subst P. apply HC, collinear_short. cbn. lia. }
  destruct (min_max_xs fst _ H) as (a & b & Ha & Hb). destruct (min_max_xs snd _ H) as (c & d & Hc & Hd). eauto 10.
Qed.
(** With scipy's estimate: the script never leaves a record alone. *)
Lemma biv_scott (l : list R) :
  (~ collinear (cloud l) -> exists idx m, biv_detect scott_kde (fins l) = Ok idx /\ idx <> [] /\ bounded_sorted (zlen l) idx /\
     (forall i a, is_min (map fst (turned (cloud l))) a -> (i < length l)%nat -> fst (nth i (turned (cloud l)) (0, 0)) = a -> In (Z.of_nat i) idx) /\
     biv_script scott_kde (fins l) = Ok (fins m) /\ length m = length l /\
     (forall i, (i < length l)%nat -> ~ In (Z.of_nat i) idx -> nth i m 0 = round_dec 4 (nth i l 0)) /\
     (forall lo hi, (forall x, In x l -> lo <= x <= hi) -> forall x, In x m -> round_dec 4 lo <= x <= round_dec 4 hi)) /\
  ((2 <= length l)%nat -> collinear (cloud l) -> biv_script scott_kde (fins l) = Raise LinAlgError) /\
  ((length l <= 1)%nat -> biv_script scott_kde (fins l) = Raise ValueError).
Proof.
  split.
  - intros HC. destruct (noncol_extents _ HC) as (a & b & c & d & Ha & Hb & Hc & Hd).
    assert (HC' : ~ collinear (turned (cloud l))) by (rewrite collinear_turned; exact HC).
    destruct (biv_detect_ellipse scott_kde _ l a b c d HC Ha Hb Hc Hd (scott_gives _ _ _ HC')) as (r & ul & uu & wl & wu & E & HB & _ & _ & _ & _ & A & _ & _ & Hout & Hne).
    destruct (li_fins l r 4 Hne (proj1 HB) (proj2 HB)) as (m & Em & Hm1 & Hm2 & Hm3).
    exists r, m. split; [exact E|]. split; [exact Hne|]. split; [exact HB|]. split.
    { intros i a' Ha' Hi Ei. apply Hout; [unfold zlen; lia|]. rewrite Nat2Z.id, Ei. left.
      assert (a' <= a) by (apply Ha'; apply Ha). lra. }
    split; [unfold biv_script; rewrite E; exact Em|]. auto.
  - destruct (cloud_xs l) as [X1 X2].
    assert (K : (length l = 0%nat -> biv_detect scott_kde (fins l) = Raise ValueError) /\ (length l = 1%nat -> biv_detect scott_kde (fins l) = Raise ValueError) /\
      ((2 <= length l)%nat -> collinear (cloud l) -> biv_detect scott_kde (fins l) = Raise LinAlgError)).
    { rewrite (biv_detect_eq XR scott_kde (fins l) (fins (rsmaller l))).
      2: apply biv_derivative_exact. 2: rewrite !fins_length; apply rsmaller_length.
      rewrite <- X1, <- X2. destruct (tri_rotation_fin (cloud l)) as (t & ->). cbn [bind]. rewrite tri_transform_xs. cbn [bind].
      split; [intros E; destruct l; [reflexivity|discriminate]|].
      assert (HX : (1 <= length l)%nat -> exists a b c d, is_min (map fst (map (rotate t) (cloud l))) a /\ is_max (map fst (map (rotate t) (cloud l))) b /\
              is_min (map snd (map (rotate t) (cloud l))) c /\ is_max (map snd (map (rotate t) (cloud l))) d).
      { intros Hne. assert (H : map (rotate t) (cloud l) <> []). { intros E. apply (f_equal (@length _)) in E. rewrite map_length, cloud_length in E. cbn in E. lia. }
        destruct (min_max_xs fst _ H) as (a & b & Ha & Hb). destruct (min_max_xs snd _ H) as (c & d & Hc & Hd). eauto 10. }
      split.
      - intros HL. destruct HX as (a & b & c & d & Ha & Hb & Hc & Hd); [lia|].
        rewrite (min_xs fst _ a Ha), (max_xs fst _ b Hb), (min_xs snd _ c Hc), (max_xs snd _ d Hd). cbn [bind]. rewrite !mgrid_axis_fins by lia. cbn [bind].
        destruct (scott_kde_xs (map (rotate t) (cloud l)) (axis a b 256) (axis c d 256)) as (-> & _); [reflexivity|]. rewrite map_length, cloud_length. lia.
      - intros HL HC. destruct HX as (a & b & c & d & Ha & Hb & Hc & Hd); [lia|].
        rewrite (min_xs fst _ a Ha), (max_xs fst _ b Hb), (min_xs snd _ c Hc), (max_xs snd _ d Hd). cbn [bind]. rewrite !mgrid_axis_fins by lia. cbn [bind].
        destruct (scott_kde_xs (map (rotate t) (cloud l)) (axis a b 256) (axis c d 256)) as (_ & -> & _); [reflexivity | |].
        + rewrite map_length, cloud_length. lia.
        + rewrite collinear_rotate. exact HC. }
    destruct K as (K0 & K1 & K2). unfold biv_script. split.
    + intros H1 H2. rewrite (K2 H1 H2). reflexivity.
    + intros H. destruct (length l) as [|[|n]] eqn:E; [rewrite K0 by reflexivity; reflexivity | rewrite K1 by reflexivity; reflexivity | lia].
Qed.

(** ** One pass with nothing to replace *)
Lemma one_pass_empty (N : Num) kde : (forall data : list N, biv_detect kde data = Ok [] -> biv_script kde data = Raise IndexError) /\
  (forall x y z : list N, three_dimensional_kernel_full kde DFloat x 64 = Ok [] -> three_dimensional_kernel_full kde DFloat y 64 = Ok [] ->
     three_dimensional_kernel_full kde DFloat z 64 = Ok [] -> tri_script kde (x, y, z) = Raise IndexError).
Proof.
  split.
  - intros data E. unfold biv_script. rewrite E. cbn [bind]. apply li_empty.
  - intros x y z Ex Ey Ez. unfold tri_script. rewrite Ex, Ey, Ez. cbn [bind app]. unfold replace3, li3. change (zunique []) with (@nil Z). rewrite li_empty. reflexivity.
Qed.

(** The three-dimensional kernel with any estimator that returns numbers for points not on one line: it returns, and
    it flags something as soon as the density of the first plane is higher elsewhere than at the corner of the grid
    with the smallest coordinates. *)
Lemma tri_full_any kde P grid : estimator kde -> (3 <= Z.abs grid)%Z -> ~ collinear P ->
  exists r e, @tri_kernel_full XR kde (xs fst P) (xs snd P) grid = Ok (r, e) /\ @tri_kernel XR kde (xs fst P) (xs snd P) grid = Ok r /\ bounded_sorted (zlen P) r.
Proof.
  intros HK Hg HC. destruct (noncol_extents _ HC) as (a & b & c & d & Ha & Hb & Hc & Hd). unfold tri_kernel_full.
  rewrite (tri_estimation_ok P grid a b c d) by (try assumption; lia). cbn [bind].
  destruct (HK (turned P) (axis a b grid) (axis c d grid)) as (F & HF); [rewrite collinear_turned; exact HC|].
  destruct (tri_kernel_ellipse kde F P grid a b c d HC Hg Ha Hb Hc Hd HF) as (r & _ & _ & _ & _ & E & HB & _). rewrite E. cbn [bind]. eexists _, _. split; [reflexivity|]. split; [reflexivity | exact HB].
Qed.
Lemma three_full_any kde (l : list R) grid : estimator kde -> (3 <= Z.abs grid)%Z -> in_general_position l ->
  exists r x1, @three_dimensional_kernel_full XR kde DFloat (fins l) grid = Ok r /\ bounded_sorted (zlen l) r /\
    @tri_kernel XR kde (xs fst (combine l (rdc l))) (xs snd (combine l (rdc l))) grid = Ok x1 /\ forall i, In i x1 -> In i r.
Proof.
  intros HK Hg (C1 & C2 & C3).
  assert (L1 : length l = length (rdc l)) by (unfold rdc; rewrite rcentral_length; reflexivity).
  assert (L2 : length (rdc l) = length (rdc (rdc l))) by (unfold rdc; rewrite !rcentral_length; reflexivity).
  destruct (tri_full_any kde _ grid HK Hg C1) as (x1 & e1 & E1 & K1 & B1).
  destruct (tri_full_any kde _ grid HK Hg C2) as (x2 & e2 & E2 & _ & B2). destruct (tri_full_any kde _ grid HK Hg C3) as (x3 & e3 & E3 & _ & B3).
  destruct (xs_combine l (rdc l) L1) as [A1 A1']. destruct (xs_combine l (rdc (rdc l)) (eq_trans L1 L2)) as [A2 A2']. destruct (xs_combine (rdc l) (rdc (rdc l)) L2) as [A3 A3'].
  rewrite A1, A1' in E1. rewrite A2, A2' in E2. rewrite A3, A3' in E3.
  assert (Z1 : zlen (combine l (rdc l)) = zlen l) by (unfold zlen; rewrite combine_length; lia).
  assert (Z2 : zlen (combine l (rdc (rdc l))) = zlen l) by (unfold zlen; rewrite combine_length; lia).
  assert (Z3 : zlen (combine (rdc l) (rdc (rdc l))) = zlen l) by (unfold zlen; rewrite combine_length; lia).
  rewrite Z1 in B1. rewrite Z2 in B2. rewrite Z3 in B3.
  exists (zunique (x1 ++ x2 ++ x3)), x1. split.
  { unfold three_dimensional_kernel_full. rewrite tri_derivatives_exact. fold (rdc l). fold (rdc (rdc l)). cbn [bind]. rewrite E1. cbn [bind]. rewrite E2. cbn [bind]. rewrite E3. reflexivity. }
  split; [apply union_bounded; assumption|]. split; [exact K1|]. intros i Hi. apply in_union3. left. exact Hi.
Qed.
Lemma three_full_flags kde F (l : list R) grid a b c d : let T := turned (combine l (rdc l)) in
  estimator kde -> (3 <= Z.abs grid)%Z -> in_general_position l ->
  is_min (map fst T) a -> is_max (map fst T) b -> is_min (map snd T) c -> is_max (map snd T) d ->
  kde_gives kde T F (axis a b grid) (axis c d grid) ->
  (exists x y, In x (axis a b grid) /\ In y (axis c d grid) /\ F a c < F x y) ->
  exists r, @three_dimensional_kernel_full XR kde DFloat (fins l) grid = Ok r /\ r <> [] /\ bounded_sorted (zlen l) r.
Proof.
  intros T HK Hg HP Ha Hb Hc Hd HG HF. destruct (three_full_any kde l grid HK Hg HP) as (r & x1 & E & HB & E1 & Hin).
  exists r. split; [exact E|]. split; [|exact HB].
  destruct (tri_kernel_ellipse kde F (combine l (rdc l)) grid a b c d (proj1 HP) Hg Ha Hb Hc Hd HG) as (r1 & ul & uu & wl & wu & Er & _ & _ & _ & _ & _ & _ & _ & _ & Hne).
  rewrite E1 in Er. injection Er as ->. destruct (Hne HF) as [_ Hr]. destruct r1 as [|i r1]; [congruence|]. intros ->. exact (Hin i (or_introl eq_refl)).
Qed.
(** The trivariate script replaces something in every such record. *)
Lemma tri_script_flags kde F (x y z : list R) a b c d : let T := turned (combine x (rdc x)) in
  estimator kde -> length y = length x -> length z = length x -> in_general_position x -> in_general_position y -> in_general_position z ->
  is_min (map fst T) a -> is_max (map fst T) b -> is_min (map snd T) c -> is_max (map snd T) d ->
  kde_gives kde T F (axis a b 64) (axis c d 64) ->
  (exists u w, In u (axis a b 64) /\ In w (axis c d 64) /\ F a c < F u w) ->
  exists idx x' y' z', idx <> [] /\ bounded_sorted (zlen x) idx /\ tri_script kde (fins x, fins y, fins z) = Ok (fins x', fins y', fins z') /\
    filtered_from [idx] x x' /\ filtered_from [idx] y y' /\ filtered_from [idx] z z'.
Proof.
  intros T HK Ly Lz Px Py Pz Ha Hb Hc Hd HG HF.
  destruct (three_full_flags kde F x 64 a b c d HK ltac:(lia) Px Ha Hb Hc Hd HG HF) as (rx & Ex & Hne & Bx).
  destruct (three_full_any kde y 64 HK ltac:(lia) Py) as (ry & _ & Ey & By & _). destruct (three_full_any kde z 64 HK ltac:(lia) Pz) as (rz & _ & Ez & Bz & _).
  unfold zlen in By, Bz. rewrite Ly in By. rewrite Lz in Bz. fold (zlen x) in By, Bz.
  set (idx := zunique (rx ++ ry ++ rz)). assert (HB : bounded_sorted (zlen x) idx) by (apply union_bounded; assumption).
  assert (Hi : idx <> []). { destruct rx as [|i rx]; [congruence|]. intros E. assert (H : In i idx) by (apply in_union3; left; left; reflexivity). rewrite E in H. exact H. }
  assert (K : forall v : list R, length v = length x -> exists m, @linear_interpolation XR DFloat (fins v) idx 3 = Ok (fins m) /\ filtered_from [idx] v m).
  { intros v Hv. destruct (li_fins v idx 3 Hi (proj1 HB)) as (m & E & H1 & H2 & H3).
    { intros i H. unfold zlen. rewrite Hv. apply HB. exact H. }
    exists m. split; [exact E|]. split; [exact H1|]. split; [intros i H H'; apply H2; [exact H | apply H'; left; reflexivity]|].
    intros lo hi H u Hu. specialize (H3 lo hi H u Hu). pose proof (Rmin_r lo (round_dec 3 lo)). pose proof (Rmax_r hi (round_dec 3 hi)). lra. }
  destruct (K x eq_refl) as (x' & Ex' & Fx). destruct (K y Ly) as (y' & Ey' & Fy). destruct (K z Lz) as (z' & Ez' & Fz).
  exists idx, x', y', z'. split; [exact Hi|]. split; [exact HB|]. split; [|auto].
  unfold tri_script. rewrite Ex. cbn [bind]. rewrite Ey. cbn [bind]. rewrite Ez. cbn [bind]. fold idx. unfold replace3, li3. rewrite Ex'. cbn [bind]. rewrite Ey'. cbn [bind]. rewrite Ez'. reflexivity.
Qed.
Lemma scott_estimator : estimator (@scott_kde XR).
Proof. intros T us ws H. eexists. apply scott_gives. exact H. Qed.

(** ** Time axis *)
Lemma time_len_exact (n : Z) : (0 <= n)%Z -> @time_len XR n = n.
Proof.
  intros Hn. unfold time_len, arange_len. cbv zeta. rewrite !xofZ_fin. rewrite xdiv_fin by (change 0 with (IZR 0); intros E; apply eq_IZR in E; lia).
  rewrite xmul_fin, xsub_fin, xdiv_fin by lra.
  replace ((IZR n * (IZR 1 / IZR 100) - IZR 0) / (IZR 1 / IZR 100)) with (IZR n) by (field; lra).
  cbn. rewrite Zceil_IZR. lia.
Qed.
Lemma time_len_float (L : Libm) : @time_len (F64 L) 7 = 8%Z /\ @time_len (F64 L) 18000 = 18000%Z.
Proof. split; vm_compute; reflexivity. Qed.
Lemma time_len_near (L : Libm) (n : Z) : (0 <= n <= 2 ^ 50)%Z -> @time_len (F64 L) n = n \/ @time_len (F64 L) n = (n + 1)%Z.
Proof.
  intros Hn. unfold time_len, arange_len. cbn [nofZ ndiv nmul nsub nceilZ F64 car].
  destruct (ofZ_fl 0) as [Z1 Z2]; [lia|]. destruct (ofZ_fl 1) as [O1 O2]; [lia|]. destruct (ofZ_fl 100) as [H1 H2]; [lia|]. destruct (ofZ_fl n) as [N1 N2]; [lia|].
  pose proof pow2_53 as PE. assert (P20 : pow2 (-20) <= 9 / 1000) by (cbn; lra).
  assert (Hq : Rabs (1 / 100) = 1 / 100) by (apply Rabs_pos_eq; lra).
  destruct (div_fl (f64_ofZ 1) (f64_ofZ 100)) as [D1 D2]; [exact O1 | rewrite H2; lra | rewrite O2, H2; apply (rnd_lt_max _ 0); [lia | rewrite Hq; cbn; lra]|].
  rewrite O2, H2 in D2. set (d := Bdiv mode_NE (f64_ofZ 1) (f64_ofZ 100)) in *.
  assert (Dd : Rabs (B2R d - 1 / 100) <= pow2 (-53) * (1 / 100)) by (rewrite D2, <- Hq; rewrite Hq; rewrite <- Hq at 3; apply rnd_rel_big; rewrite Hq; cbn; lra).
  apply Rabs_le_inv in Dd. assert (Dp : 9 / 1000 < B2R d < 11 / 1000) by lra.
  assert (Hn' : 0 <= IZR n <= 1125899906842624) by (split; apply IZR_le; [lia | change 1125899906842624%Z with (2 ^ 50)%Z; lia]).
  assert (Bx : Rabs (IZR n * B2R d) <= pow2 50). { rewrite Rabs_pos_eq by nra. change (pow2 50) with 1125899906842624. nra. }
  destruct (mul_fl (f64_ofZ n) d N1 D1) as [X1 X2]; [rewrite N2; apply (rnd_lt_max _ 50); [lia | exact Bx]|].
  rewrite N2 in X2. set (x := Bmult mode_NE (f64_ofZ n) d) in *.
  assert (Hx : Rabs (B2R x - IZR n * B2R d) <= pow2 (-53) * (IZR n * B2R d)).
  { rewrite X2. destruct (Z.eq_dec n 0) as [->|Hn0].
    - rewrite Rmult_0_l, round_0 by typeclasses eauto. rewrite Rminus_0_r, Rabs_R0. lra.
    - assert (1 <= IZR n) by (apply IZR_le; lia). rewrite <- (Rabs_pos_eq (IZR n * B2R d)) at 3 by nra. apply rnd_rel_big. rewrite Rabs_pos_eq by nra. nra. }
  assert (Hxa : Rabs (B2R x) <= pow2 50) by (rewrite X2; apply rnd_abs_le; [lia | exact Bx]).
  destruct (sub_fl x (f64_ofZ 0) X1 Z1) as [S1 S2]. { rewrite Z2, Rminus_0_r. apply (rnd_lt_max _ 50); [lia | exact Hxa]. }
  rewrite Z2, Rminus_0_r, (rnd_gen (B2R x)) in S2 by apply B2R_gen. set (y := Bminus mode_NE x (f64_ofZ 0)) in *.
  apply Rabs_le_inv in Hx.
  assert (Q : IZR n * (1 - pow2 (-53)) <= B2R y / B2R d <= IZR n * (1 + pow2 (-53))).
  { rewrite S2. split.
    - apply (Rmult_le_reg_r (B2R d)); [lra|]. unfold Rdiv. rewrite (Rmult_assoc (B2R x)), Rinv_l by lra. nra.
    - apply (Rmult_le_reg_r (B2R d)); [lra|]. unfold Rdiv. rewrite (Rmult_assoc (B2R x)), Rinv_l by lra. nra. }
  assert (Bq : Rabs (B2R y / B2R d) <= pow2 51). { rewrite Rabs_pos_eq by nra. change (pow2 51) with 2251799813685248. nra. }
  destruct (div_fl y d S1) as [Q1 Q2]; [lra | apply (rnd_lt_max _ 51); [lia | exact Bq]|].
  rewrite ceil_fl by exact Q1. rewrite Q2. set (q := B2R y / B2R d) in *.
  assert (R : IZR n - 1 < rnd q < IZR n + 1).
  { destruct (Z.eq_dec n 0) as [->|Hn0].
    - assert (q = 0) by lra. rewrite H, round_0 by typeclasses eauto. lra.
    - assert (1 <= IZR n) by (apply IZR_le; lia). pose proof (rnd_rel_big q) as E. rewrite Rabs_pos_eq in E by nra.
      assert (pow2 (-20) <= q) by nra. apply E in H0. apply Rabs_le_inv in H0. 
      assert (IZR n * pow2 (-53) <= / 7). { apply Rle_trans with (1125899906842624 * / 9000000000000000); [|lra]. apply Rmult_le_compat; lra. }
      assert (pow2 (-53) * q <= / 7 + / 7). { apply Rle_trans with (pow2 (-53) * (IZR n * (1 + pow2 (-53)))); [apply Rmult_le_compat_l; lra|]. nra. }
      nra. }
  assert (C : (n <= Zceil (rnd q) <= n + 1)%Z).
  { split.
    - apply Z.lt_pred_le. apply lt_IZR. apply Rlt_le_trans with (rnd q); [|apply Zceil_ub]. unfold Z.pred. rewrite plus_IZR. lra.
    - apply Zceil_glb. rewrite plus_IZR. lra. }
  rewrite Z.max_r by lia. lia.
Qed.

(** ** Examples *)
Lemma noncol3 (P : list (R * R)) p q r : In p P -> In q P -> In r P ->
  (fst q - fst p) * (snd r - snd p) - (snd q - snd p) * (fst r - fst p) <> 0 -> ~ collinear P.
Proof.
  intros Hp Hq Hr HD (u & v & c & Huv & HL). pose proof (HL _ Hp) as E1. pose proof (HL _ Hq) as E2. pose proof (HL _ Hr) as E3.
  destruct p as [p1 p2], q as [q1 q2], r as [r1 r2]. cbn [fst snd] in *.
  assert (F1 : u * (q1 - p1) + v * (q2 - p2) = 0) by lra. assert (F2 : u * (r1 - p1) + v * (r2 - p2) = 0) by lra.
  assert (G1 : u * ((q1 - p1) * (r2 - p2) - (q2 - p2) * (r1 - p1)) = 0).
  { transitivity ((u * (q1 - p1) + v * (q2 - p2)) * (r2 - p2) - (u * (r1 - p1) + v * (r2 - p2)) * (q2 - p2)); [ring | rewrite F1, F2; ring]. }
  assert (G2 : v * ((q1 - p1) * (r2 - p2) - (q2 - p2) * (r1 - p1)) = 0).
  { transitivity ((u * (r1 - p1) + v * (r2 - p2)) * (q1 - p1) - (u * (q1 - p1) + v * (q2 - p2)) * (r1 - p1)); [ring | rewrite F1, F2; ring]. }
  apply Rmult_integral in G1. apply Rmult_integral in G2. destruct Huv, G1, G2; contradiction.
Qed.
Definition ex_rec : list R := [0; 1; 3; 0; 2].
Lemma ex_rec_position : in_general_position ex_rec.
Proof.
  assert (E1 : rdc ex_rec = [0; (3 - 0) / 2; (0 - 1) / 2; (2 - 3) / 2; 0]) by reflexivity.
  assert (E2 : rdc (rdc ex_rec) = [0; ((0 - 1) / 2 - 0) / 2; ((2 - 3) / 2 - (3 - 0) / 2) / 2; (0 - (0 - 1) / 2) / 2; 0]) by reflexivity.
  unfold in_general_position. cbv zeta. rewrite E2, E1. unfold ex_rec. cbn [combine]. split; [|split].
  - apply (noncol3 _ (0, 0) (1, (3 - 0) / 2) (2, 0)); cbn; [tauto | tauto | tauto | lra].
  - apply (noncol3 _ (0, 0) (1, ((0 - 1) / 2 - 0) / 2) (2, 0)); cbn; [tauto | tauto | tauto | lra].
  - apply (noncol3 _ (0, 0) ((3 - 0) / 2, ((0 - 1) / 2 - 0) / 2) ((0 - 1) / 2, ((2 - 3) / 2 - (3 - 0) / 2) / 2)); cbn; [tauto | tauto | tauto | lra].
Qed.
(** An estimator that grows with the first coordinate. *)
Definition slope_kde (_ _ us ws : list XR) : res (@matrix XR) := Ok (map (fun x => map (fun _ => x) ws) us).
Lemma slope_gives T us ws : kde_gives slope_kde T (fun x _ => x) us ws.
Proof.
  unfold kde_gives, slope_kde. rewrite finm_grid. unfold fins. rewrite map_map. f_equal. apply map_ext. intros x. rewrite map_map. reflexivity.
Qed.
Lemma slope_higher a b c d : a < b -> exists x y, In x (axis a b 64) /\ In y (axis c d 64) /\ (fun x _ : R => x) a c < (fun x _ : R => x) x y.
Proof.
  intros H. exists (gridpt a b 64 1), c. split; [|split].
  - unfold axis. apply in_map_iff. exists 1%nat. split; [reflexivity|]. apply in_seq. change (Z.abs_nat 64) with 64%nat. lia.
  - apply (nth_error_In _ 0). apply axis_hd. lia.
  - rewrite <- (gridpt_0 a b 64) at 1. apply gridpt_lt; [exact H | lia | lia].
Qed.
Lemma flags_hypotheses : exists kde F (l : list R) a b c d, let T := turned (combine l (rdc l)) in
  estimator kde /\ in_general_position l /\ is_min (map fst T) a /\ is_max (map fst T) b /\ is_min (map snd T) c /\ is_max (map snd T) d /\
  kde_gives kde T F (axis a b 64) (axis c d 64) /\ (exists x y, In x (axis a b 64) /\ In y (axis c d 64) /\ F a c < F x y).
Proof.
  destruct (noncol_extents _ (proj1 ex_rec_position)) as (a & b & c & d & Ha & Hb & Hc & Hd).
  exists slope_kde, (fun x _ => x), ex_rec, a, b, c, d. cbv zeta.
  split; [intros T us ws _; eexists; apply slope_gives|]. split; [exact ex_rec_position|].
  split; [exact Ha|]. split; [exact Hb|]. split; [exact Hc|]. split; [exact Hd|]. split; [apply slope_gives|].
  apply slope_higher. eapply extent_fst; [|exact Ha | exact Hb]. rewrite collinear_turned. apply ex_rec_position.
Qed.
Lemma biv_hypotheses : exists l : list R, ~ collinear (cloud l) /\ (exists l' : list R, (2 <= length l')%nat /\ collinear (cloud l')).
Proof.
  exists [0; 3; 1; 0]. split.
  - assert (E : cloud [0; 3; 1; 0] = [(0, 0); (3, -2); (1, -1); (0, 0)]).
    { unfold cloud, rsmaller. cbn [length seq map Nat.ltb Nat.leb andb nth Nat.sub combine]. 
      destruct (Rlt_dec (Rabs (1 - 3)) (Rabs (3 - 0))) as [_|H]; [|exfalso; apply H; unfold Rabs; destruct (Rcase_abs (1 - 3)), (Rcase_abs (3 - 0)); lra].
      destruct (Rlt_dec (Rabs (0 - 1)) (Rabs (1 - 3))) as [_|H]; [|exfalso; apply H; unfold Rabs; destruct (Rcase_abs (0 - 1)), (Rcase_abs (1 - 3)); lra].
      repeat (f_equal; try lra). }
    rewrite E. apply (noncol3 _ (0, 0) (3, -2) (1, -1)); cbn; [tauto | tauto | tauto | lra].
  - exists [5; 5]. split; [cbn; lia|]. exists 1, 0, 5. split; [left; lra|]. intros p [<-|[<-|[]]]; cbn; lra.
Qed.
