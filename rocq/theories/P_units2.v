(** The kernel detectors and the unit of velocity, exact arithmetic. *)
From Coq Require Import Reals Lra Lia Sorted.
From Flocq Require Import Core.
From Verif Require Export Num Lib XR Spec Spec2 Spec4 Spec5 Spec16 Spec17 M_detection M_kernel M_trikde M_pipeline P_descriptive LibR P_moment P_detect P_symm P_kern P_kernel P_trikde P_pipeline P_pipeline2 P_units P_pdf2.
Import ListNotations.
Local Open Scope R_scope.
Local Notation msc c := (@map (car XR) (car XR) (xsc c)).

(** ** The estimate *)
Definition sclp (c : R) (p : R * R) : R * R := (c * fst p, c * snd p).
Lemma scov_scl c (f g : R * R -> R) P : scov (fun p => c * f p) (fun p => c * g p) P = c * c * scov f g P.
Proof.
  rewrite (scov_ext _ (fun p => c * g p) (fun p => c * f p + 0 * f p) (fun p => c * g p)) by (intros; ring). rewrite scov_lin.
  rewrite (scov_sym f), (scov_ext _ f (fun p => c * g p + 0 * g p) f) by (intros; ring). rewrite scov_lin, !(scov_sym g f). ring.
Qed.
Lemma scov_sclp c P : scov fst fst (map (sclp c) P) = c * c * scov fst fst P /\ scov fst snd (map (sclp c) P) = c * c * scov fst snd P /\
  scov snd snd (map (sclp c) P) = c * c * scov snd snd P.
Proof. rewrite !scov_map. unfold sclp. cbn [fst snd]. rewrite !scov_scl. auto. Qed.
Lemma normal2_scl c p q r x y : 0 < c -> normal2 (c * c * p) (c * c * q) (c * c * r) (c * x) (c * y) = / (c * c) * normal2 p q r x y.
Proof.
  intros H. unfold normal2. replace (c * c * p * (c * c * r) - (c * c * q) ^ 2) with ((c * c) * (c * c) * (p * r - q ^ 2)) by ring.
  rewrite sqrt_mult_alt by (apply Rmult_le_pos; apply Rlt_le, Rmult_lt_0_compat; exact H). rewrite sqrt_square by (apply Rlt_le, Rmult_lt_0_compat; exact H).
  replace (- (c * c * r * (c * x) ^ 2 - 2 * (c * c * q) * (c * x) * (c * y) + c * c * p * (c * y) ^ 2) / (2 * (c * c * (c * c) * (p * r - q ^ 2))))
    with (- (r * x ^ 2 - 2 * q * x * y + p * y ^ 2) / (2 * (p * r - q ^ 2))).
  - unfold Rdiv. rewrite !Rinv_mult. ring.
  - unfold Rdiv. rewrite !Rinv_mult. set (D := / (p * r - q ^ 2)). clearbody D. field. lra.
Qed.
Lemma kde2_scl c h S C x y : 0 < c -> kde2 h (map (sclp c) S) (map (sclp c) C) (c * x) (c * y) = / (c * c) * kde2 h S C x y.
Proof.
  intros H. unfold kde2. destruct (scov_sclp c S) as (-> & -> & ->). rewrite map_map. unfold rmean. rewrite !map_length.
  rewrite (map_ext _ (fun p => / (c * c) * normal2 (h ^ 2 * scov fst fst S) (h ^ 2 * scov fst snd S) (h ^ 2 * scov snd snd S) (x - fst p) (y - snd p))).
  - rewrite Rsum_map_scal. unfold Rdiv. ring.
  - intros p. rewrite <- normal2_scl by exact H. unfold sclp. cbn [fst snd]. f_equal; ring.
Qed.
Lemma collinear_sclp c P : 0 < c -> (collinear (map (sclp c) P) <-> collinear P).
Proof.
  intros H. split; intros (a & b & k & Hab & HP).
  - exists a, b, (k / c). split; [exact Hab|]. intros p Hp. specialize (HP (sclp c p) (in_map _ _ _ Hp)). unfold sclp in HP. cbn [fst snd] in HP.
    apply (Rmult_eq_reg_l c); [|lra]. replace (c * (k / c)) with k by (field; lra). rewrite <- HP. ring.
  - exists a, b, (c * k). split; [exact Hab|]. intros p Hp. apply in_map_iff in Hp. destruct Hp as (q & <- & Hq). rewrite <- (HP q Hq). unfold sclp. cbn [fst snd]. ring.
Qed.
Lemma combine_sclp c (u w : list R) : combine (map (Rmult c) u) (map (Rmult c) w) = map (sclp c) (combine u w).
Proof. revert w. induction u as [|x u IH]; intros [|y w]; try reflexivity. cbn [map combine]. f_equal. apply IH. Qed.
Lemma scott_units : density_units scott_kde.
Proof.
  intros c u w us ws H L.
  destruct (xs_combine u w L) as [A B]. assert (L' : length (map (Rmult c) u) = length (map (Rmult c) w)) by (rewrite !map_length; exact L).
  destruct (xs_combine _ _ L') as [A' B']. rewrite <- A, <- B, <- A', <- B'. rewrite combine_sclp. set (P := combine u w).
  destruct (scott_kde_xs P us ws) as (F1 & F2 & F3).
  destruct (scott_kde_xs (map (sclp c) P) (map (Rmult c) us) (map (Rmult c) ws)) as (G1 & G2 & G3). rewrite map_length in G1, G2, G3.
  destruct (le_lt_dec 2 (length P)) as [Hn|Hn]; [|rewrite F1, G1 by exact Hn; reflexivity].
  destruct (Req_dec (sdet P) 0) as [E|E]; rewrite (sdet_zero_iff P Hn) in E.
  - rewrite (F2 Hn E), (G2 Hn (proj2 (collinear_sclp c P H) E)). reflexivity.
  - rewrite (F3 E), G3 by (rewrite collinear_sclp by exact H; exact E). cbv iota. refine (f_equal (@Ok _) _). rewrite !map_map. apply map_ext. intros x. rewrite !map_map. apply map_ext. intros y.
    rewrite kde2_scl by exact H. reflexivity.
Qed.

(** ** The grid *)
Section Grid.
Variable c : R.
Hypothesis Hc : 0 < c.
Lemma sc_nan (a : xr) : @nisnan XR (xsc c a) = @nisnan XR a. Proof. destruct a; reflexivity. Qed.
Lemma nan_list_sc (l : list XR) : existsb nisnan (msc c l) = existsb nisnan l.
Proof. induction l as [|a l IH]; [reflexivity|]. cbn [map existsb]. f_equal; [apply sc_nan | exact IH]. Qed.
Lemma np_min_sc (x : XR) l : np_min (xsc c x : XR) (msc c l) = xsc c (np_min x l).
Proof.
  unfold np_min. revert x. induction l as [|y l IH]; intros x; [reflexivity|]. cbn [map fold_left]. rewrite <- IH. f_equal. cbn [nltb XR]. rewrite sc_ltb by exact Hc.
  destruct (xltb y x); reflexivity.
Qed.
Lemma np_max_sc (x : XR) l : np_max (xsc c x : XR) (msc c l) = xsc c (np_max x l).
Proof.
  unfold np_max. revert x. induction l as [|y l IH]; intros x; [reflexivity|]. cbn [map fold_left]. rewrite <- IH. f_equal. cbn [nltb XR]. rewrite sc_ltb by exact Hc.
  destruct (xltb x y); reflexivity.
Qed.
Lemma arr_min_sc (l : list XR) : arr_min (msc c l) = (let* m := arr_min l in Ok (xsc c m : XR)).
Proof.
  destruct l as [|x l]; [reflexivity|]. unfold arr_min. change (msc c (x :: l)) with ((xsc c x : XR) :: msc c l). cbv iota beta. change ((xsc c x : XR) :: msc c l) with (msc c (x :: l)).
  rewrite nan_list_sc, np_min_sc. destruct (existsb nisnan (x :: l)); reflexivity.
Qed.
Lemma arr_max_sc (l : list XR) : arr_max (msc c l) = (let* m := arr_max l in Ok (xsc c m : XR)).
Proof.
  destruct l as [|x l]; [reflexivity|]. unfold arr_max. change (msc c (x :: l)) with ((xsc c x : XR) :: msc c l). cbv iota beta. change ((xsc c x : XR) :: msc c l) with (msc c (x :: l)).
  rewrite nan_list_sc, np_max_sc. destruct (existsb nisnan (x :: l)); reflexivity.
Qed.
End Grid.
Lemma find_index_sc e (b : XR) l : 0 < e -> forall k, find_index (fun x : XR => neqb x (xsc e b : XR)) (msc e l) k = find_index (fun x => neqb x b) l k.
Proof.
  intros He. induction l as [|a l IH]; intros k; [reflexivity|]. cbn [map find_index]. rewrite IH. replace (@neqb XR (xsc e a) (xsc e b)) with (@neqb XR a b); [reflexivity|].
  destruct a as [x|s|], b as [y|t|]; cbn; try reflexivity. destruct (Req_bool_spec x y) as [->|D]; [symmetry; apply Req_bool_true; reflexivity|].
  symmetry. apply Req_bool_false. intros E. apply D. apply Rmult_eq_reg_l in E; lra.
Qed.
Lemma find_pos_sc e (b : XR) (m : list (list XR)) : 0 < e -> forall k, find_pos (fun x : XR => neqb x (xsc e b : XR)) (map (msc e) m) k = find_pos (fun x => neqb x b) m k.
Proof.
  intros He. induction m as [|r m IH]; intros k; [reflexivity|]. cbn [map find_pos]. rewrite IH, find_index_sc by exact He. reflexivity.
Qed.
Lemma getz_map {A B} (f : A -> B) l i : getz (map f l) i = (let* x := getz l i in Ok (f x)).
Proof. unfold getz, zlen. rewrite map_length. destruct (pyidx _ i) as [k|]; [|reflexivity]. rewrite nth_error_map. destruct (nth_error l _); reflexivity. Qed.
Lemma mapM_map {A B C} (f : A -> B) (g : B -> res C) l : mapM g (map f l) = mapM (fun x => g (f x)) l.
Proof. induction l as [|a l IH]; [reflexivity|]. cbn [map mapM]. rewrite IH. reflexivity. Qed.
Lemma mapM_post {A B C} (f : A -> res B) (h : B -> C) l : mapM (fun x => let* y := f x in Ok (h y)) l = (let* r := mapM f l in Ok (map h r)).
Proof.
  induction l as [|a l IH]; [reflexivity|]. cbn [mapM]. destruct (f a) as [b|]; [|reflexivity]. cbn [bind]. rewrite IH. destruct (mapM f l); reflexivity.
Qed.
Lemma mapM_ext' {A B} (f g : A -> res B) l : (forall x, f x = g x) -> mapM f l = mapM g l.
Proof. intros H. induction l as [|a l IH]; [reflexivity|]. cbn [mapM]. rewrite H, IH. reflexivity. Qed.
Lemma first_such_ext {A} (f g : A -> res bool) l d : (forall x, f x = g x) -> first_such f l d = first_such g l d.
Proof. intros H. induction l as [|a l IH]; [reflexivity|]. cbn [first_such]. rewrite H, IH. reflexivity. Qed.
Lemma tri_peak_sc e (m : list (list XR)) : 0 < e ->
  tri_peak (map (msc e) m) = (let* (peak, up, wp, fu, fw) := tri_peak m in Ok (xsc e peak : XR, up, wp, msc e fu, msc e fw)).
Proof.
  intros He. unfold tri_peak. rewrite <- concat_map, arr_max_sc by exact He. destruct (arr_max (concat m)) as [pk|]; [|reflexivity]. cbn [bind].
  rewrite find_pos_sc by exact He. destruct (find_pos _ m 0) as [[up wp]|]; [|reflexivity].
  assert (G : mapM (fun row : list XR => getz row wp) (map (msc e) m) = (let* r := mapM (fun row : list XR => getz row wp) m in Ok (msc e r)))
    by (rewrite mapM_map, <- mapM_post; apply mapM_ext'; intros row; apply getz_map).
  rewrite getz_map, G.
  destruct (mapM (fun row => getz row wp) m) as [fu|]; [|reflexivity]. cbn [bind]. destruct (getz m up) as [fw|]; reflexivity.
Qed.
Lemma cutoff_sc c e (peak : XR) (velocity force : list XR) (c1 c2 g : XR) p : 0 < c -> 0 < e ->
  cutoff [xsc e peak : XR] (msc c velocity) c1 c2 (msc e force) p g = (let* (a, b) := cutoff [peak] velocity c1 c2 force p g in Ok (xsc c a : XR, xsc c b : XR)).
Proof.
  intros Hc He. unfold cutoff. rewrite diff_sc by exact He.
  assert (D : bcast ndiv (map (fun d : XR => nmul d g) (nofZ 0 :: msc e (np_diff force))) [xsc e peak : XR] = bcast ndiv (map (fun d : XR => nmul d g) (nofZ 0 :: np_diff force)) [peak]).
  { replace (@cons XR (nofZ 0) (msc e (np_diff force))) with (msc e (nofZ 0 :: np_diff force)) by (cbn [map]; f_equal; cbn; f_equal; ring).
    change [xsc e peak : XR] with (msc e [peak]). rewrite map_map, !bcast_map_l, bcast_map_r. apply bcast_ext. intros x y. cbn [ndiv nmul XR]. rewrite sc_mul_l, sc_div by exact He. reflexivity. }
  rewrite D. unfold zlen. rewrite map_length. destruct (bcast ndiv _ [peak]) as [dl|]; [|reflexivity]. cbn [bind].
  assert (T : forall i, cutoff_test c1 c2 (msc e force) dl p i = cutoff_test c1 c2 force dl p i).
  { intros i. unfold cutoff_test. rewrite !getz_map. destruct (getz force i) as [f|]; [|reflexivity]. cbn [bind]. destruct (getz force p) as [q|]; [|reflexivity]. cbn [bind].
    cbn [ndiv XR]. rewrite sc_div by exact He. reflexivity. }
  rewrite !(first_such_ext _ _ _ _ T). destruct (first_such _ (rev _) _) as [lo|]; [|reflexivity]. cbn [bind]. destruct (first_such _ (zrange _ _) _) as [up|]; [|reflexivity]. cbn [bind].
  rewrite !getz_map. destruct (getz velocity lo); [|reflexivity]. cbn [bind]. destruct (getz velocity up); reflexivity.
Qed.

(** ** The part common to both detectors *)
Definition windows (kde : list XR -> list XR -> list XR -> list XR -> res (list (list XR))) (u w : list XR) (grid : Z) (cu cw : XR) : res (list XR * list XR * XR * XR * XR * XR) :=
  let* theta := tri_rotation u w in
  let* (ut, wt) := tri_transform u w theta in
  let* umin := arr_min ut in
  let* umax := arr_max ut in
  let* wmin := arr_min wt in
  let* wmax := arr_max wt in
  let* uf := mgrid_axis umin umax grid in
  let* wf := mgrid_axis wmin wmax grid in
  let* density := kde ut wt uf wf in
  let* (peak, up, wp, fu, fw) := tri_peak density in
  let* (ul, uu) := cutoff [peak] uf cu cu fu up (nofZ grid) in
  let* (wl, wu) := cutoff [peak] wf cw cw fw wp (nofZ grid) in
  Ok (ut, wt, ul, uu, wl, wu).
Lemma xs_sclp_fst c P : xs fst (map (sclp c) P) = msc c (xs fst P).
Proof. unfold xs. rewrite !map_map. reflexivity. Qed.
Lemma xs_sclp_snd c P : xs snd (map (sclp c) P) = msc c (xs snd P).
Proof. unfold xs. rewrite !map_map. reflexivity. Qed.
Lemma atan2_sc c y x : 0 < c -> atan2R (c * y) (c * x) = atan2R y x.
Proof.
  intros H. assert (Q : c * y / (c * x) = y / x) by (unfold Rdiv; rewrite Rinv_mult; generalize (/ x); intros z; field; lra).
  assert (P0 : forall t, Rlt_bool 0 (c * t) = Rlt_bool 0 t).
  { intros t. destruct (Rlt_bool_spec 0 t) as [A|A]; [apply Rlt_bool_true, Rmult_lt_0_compat; assumption|]. apply Rlt_bool_false. pose proof (Rmult_le_compat_l c t 0 ltac:(lra) A). lra. }
  assert (N0 : forall t, Rlt_bool (c * t) 0 = Rlt_bool t 0) by (intros t; apply (xneg_sc c H)).
  unfold atan2R. rewrite !P0, !N0, Q.
  replace (Rle_bool 0 (c * y)) with (Rle_bool 0 y); [reflexivity|]. destruct (Rle_bool_spec 0 y) as [A|A]; symmetry.
  - apply Rle_bool_true. apply Rmult_le_pos; lra.
  - apply Rle_bool_false. pose proof (Rmult_lt_compat_l c y 0 H A). lra.
Qed.
Lemma tri_rotation_scl c P : 0 < c -> @tri_rotation XR (xs fst (map (sclp c) P)) (xs snd (map (sclp c) P)) = tri_rotation (xs fst P) (xs snd P).
Proof.
  intros H. unfold tri_rotation. rewrite !bcast_same by (unfold xs; rewrite !map_length; reflexivity). cbn [bind].
  rewrite !xs_mul, !xs_sq, !xs_sum. unfold zlen. replace (length (xs fst (map (sclp c) P))) with (length (xs fst P)) by (unfold xs; rewrite !map_length; reflexivity).
  rewrite !xofZ_fin, !xmul_fin, !xsub_fin. cbn [natan2 XR xatan2]. refine (f_equal (@Ok _) (f_equal Fin _)). etransitivity; [|apply (atan2_sc (c * c)); apply Rmult_lt_0_compat; exact H].
  rewrite !map_map. unfold sclp. cbn [fst snd].
  rewrite (Rsum_ext (fun p => c * fst p * (c * snd p)) (fun p => (c * c) * (fst p * snd p))) by (intros; ring).
  rewrite (Rsum_ext (fun p => c * fst p * (c * fst p)) (fun p => (c * c) * (fst p * fst p))) by (intros; ring).
  rewrite !Rsum_map_scal. f_equal; ring.
Qed.
Lemma rotate_scl c t P : map (rotate t) (map (sclp c) P) = map (sclp c) (map (rotate t) P).
Proof. rewrite !map_map. apply map_ext. intros p. unfold rotate, sclp. cbn [fst snd]. f_equal; ring. Qed.
Lemma is_min_scl c l a : 0 < c -> is_min l a -> is_min (map (Rmult c) l) (c * a).
Proof. intros H [A B]. split; [apply in_map, A|]. intros x Hx. apply in_map_iff in Hx. destruct Hx as (y & <- & Hy). apply Rmult_le_compat_l; [lra | apply B, Hy]. Qed.
Lemma is_max_scl c l a : 0 < c -> is_max l a -> is_max (map (Rmult c) l) (c * a).
Proof. intros H [A B]. split; [apply in_map, A|]. intros x Hx. apply in_map_iff in Hx. destruct Hx as (y & <- & Hy). apply Rmult_le_compat_l; [lra | apply B, Hy]. Qed.
Lemma map_sclp_fst c P : map fst (map (sclp c) P) = map (Rmult c) (map fst P). Proof. rewrite !map_map. reflexivity. Qed.
Lemma map_sclp_snd c P : map snd (map (sclp c) P) = map (Rmult c) (map snd P). Proof. rewrite !map_map. reflexivity. Qed.
Lemma axis_scl c a b grid : axis (c * a) (c * b) grid = map (Rmult c) (axis a b grid).
Proof. unfold axis. rewrite map_map. apply map_ext. intros i. unfold gridpt, Rdiv. ring. Qed.
Lemma mscale_sc e (m : list (list XR)) : 0 < e -> map (map (nmul (Fin e : XR))) m = map (msc e) m.
Proof. intros H. apply map_ext. intros r. apply scale_list. exact H. Qed.
Lemma windows_sc kde c P grid (cu cw : XR) : density_units kde -> 0 < c -> P <> [] -> grid <> 0%Z ->
  windows kde (xs fst (map (sclp c) P)) (xs snd (map (sclp c) P)) grid cu cw =
  (let* (ut, wt, ul, uu, wl, wu) := windows kde (xs fst P) (xs snd P) grid cu cw in
   Ok (msc c ut, msc c wt, xsc c ul : XR, xsc c uu : XR, xsc c wl : XR, xsc c wu : XR)).
Proof.
  intros HK H Hne Hg. unfold windows. rewrite tri_rotation_scl by exact H. destruct (tri_rotation_fin P) as (t & ->). cbn [bind].
  rewrite !tri_transform_xs. cbn [bind]. rewrite rotate_scl. set (T := map (rotate t) P). assert (HT : T <> []) by (intros E; apply map_eq_nil in E; contradiction).
  destruct (min_max_xs fst T HT) as (a & b & Ha & Hb). destruct (min_max_xs snd T HT) as (c0 & d & Hc & Hd).
  rewrite (min_xs fst T a Ha), (max_xs fst T b Hb), (min_xs snd T c0 Hc), (max_xs snd T d Hd).
  rewrite (min_xs fst (map (sclp c) T) (c * a)), (max_xs fst (map (sclp c) T) (c * b)), (min_xs snd (map (sclp c) T) (c * c0)), (max_xs snd (map (sclp c) T) (c * d))
    by (rewrite ?map_sclp_fst, ?map_sclp_snd; (apply is_min_scl || apply is_max_scl); assumption).
  cbn [bind]. rewrite !mgrid_axis_fins by exact Hg. cbn [bind]. rewrite !axis_scl.
  assert (K := HK c (map fst T) (map snd T) (axis a b grid) (axis c0 d grid) H ltac:(rewrite !map_length; reflexivity)).
  rewrite <- map_sclp_fst, <- map_sclp_snd, <- !xs_fins in K. rewrite K. clear K.
  destruct (kde (xs fst T) (xs snd T) (fins (axis a b grid)) (fins (axis c0 d grid))) as [m|]; [|reflexivity]. cbn [bind].
  assert (He : 0 < / (c * c)) by (apply Rinv_0_lt_compat, Rmult_lt_0_compat; exact H).
  rewrite mscale_sc by exact He. rewrite tri_peak_sc by exact He. destruct (tri_peak m) as [[[[[pk up] wp] fu] fw]|]; [|reflexivity]. cbn [bind].
  assert (F : forall l, fins (map (Rmult c) l) = msc c (fins l)) by (intros l; unfold fins; rewrite !map_map; reflexivity). rewrite !F.
  rewrite cutoff_sc by assumption. destruct (cutoff [pk] (fins (axis a b grid)) cu cu fu up (nofZ grid)) as [[ul uu]|]; [|reflexivity]. cbn [bind].
  rewrite cutoff_sc by assumption. destruct (cutoff [pk] (fins (axis c0 d grid)) cw cw fw wp (nofZ grid)) as [[wl wu]|]; [|reflexivity]. cbn [bind].
  rewrite xs_sclp_fst, xs_sclp_snd. reflexivity.
Qed.

(** ** The bivariate script *)
Lemma biv_flag_sc c (uu1 ul1 at_ bt u w : XR) : 0 < c ->
  biv_flag (xsc c uu1 : XR) (xsc c ul1 : XR) (xsc c at_ : XR) (xsc c bt : XR) (xsc c u : XR) (xsc c w : XR) = biv_flag uu1 ul1 at_ bt u w.
Proof.
  intros H. unfold biv_flag. cbn [nltb XR]. rewrite !sc_ltb by exact H. destruct (xltb uu1 u || xltb u ul1)%bool; [reflexivity|].
  cbn [nsqrt nmul nsub ndiv nipow nopp XR]. rewrite !sc_ipow2 by exact H. rewrite sc_div, sc_mul_l, sc_sqrt, sc_opp, !sc_ltb by (try exact H; apply Rmult_lt_0_compat; exact H). reflexivity.
Qed.
Lemma biv_indices_sc c (ut wt : list XR) (ul uu wl wu : XR) : 0 < c ->
  biv_indices (msc c ut) (msc c wt) (xsc c ul : XR) (xsc c uu : XR) (xsc c wl : XR) (xsc c wu : XR) = biv_indices ut wt ul uu wl wu.
Proof.
  intros H. unfold biv_indices. cbv zeta. rewrite zipwith_map. f_equal. unfold zipwith. apply map_ext. intros [u w]. cbn [fst snd].
  cbn [nsub nadd nmul XR]. rewrite !(sc_add c), !(sc_mul_r c), !(sc_sub c), !(sc_mul_r c) by exact H. apply biv_flag_sc. exact H.
Qed.
Lemma rsmaller_scl c l : 0 < c -> rsmaller (map (Rmult c) l) = map (Rmult c) (rsmaller l).
Proof.
  intros H. unfold rsmaller. rewrite map_length, map_map. apply map_ext. intros i. destruct (_ && _)%bool; [|ring].
  assert (N0 : forall k, nth k (map (Rmult c) l) 0 = c * nth k l 0) by (intros k; rewrite <- (map_nth (Rmult c)); f_equal; ring). cbv zeta. rewrite !N0.
  rewrite <- !Rmult_minus_distr_l, !Rabs_mult, (Rabs_pos_eq c) by lra.
  destruct (Rlt_dec (Rabs (nth (S i) l 0 - nth i l 0)) (Rabs (nth i l 0 - nth (i - 1) l 0))) as [A|A];
    destruct (Rlt_dec (c * Rabs (nth (S i) l 0 - nth i l 0)) (c * Rabs (nth i l 0 - nth (i - 1) l 0))) as [B|B]; try reflexivity; exfalso.
  - apply B, Rmult_lt_compat_l; assumption.
  - apply Rmult_lt_reg_l in B; lra.
Qed.
Lemma biv_windows kde l : biv_detect kde (fins l) =
  (let* (ut, wt, ul, uu, wl, wu) := windows kde (xs fst (cloud l)) (xs snd (cloud l)) 256 (lit 4 1) (lit 4 1) in Ok (biv_indices ut wt ul uu wl wu)).
Proof.
  rewrite (biv_detect_eq XR kde (fins l) (fins (rsmaller l)) (biv_derivative_exact l)) by (rewrite !fins_length, rsmaller_length; reflexivity).
  destruct (cloud_xs l) as [-> ->]. unfold windows. 
  repeat (match goal with |- context [bind ?m _] => destruct m as [?|]; [cbn [bind]|reflexivity] end || match goal with x : (_ * _)%type |- _ => destruct x end). reflexivity.
Qed.
Lemma biv_unit kde c l : density_units kde -> 0 < c -> biv_detect kde (fins (map (Rmult c) l)) = biv_detect kde (fins l).
Proof.
  intros HK H. destruct l as [|x l]; [reflexivity|]. rewrite !biv_windows.
  assert (E : cloud (map (Rmult c) (x :: l)) = map (sclp c) (cloud (x :: l))) by (unfold cloud; rewrite rsmaller_scl by exact H; apply combine_sclp).
  rewrite E, windows_sc; [|exact HK|exact H| |discriminate].
  - destruct (windows kde _ _ 256 _ _) as [[[[[[ut wt] ul] uu] wl] wu]|]; [|reflexivity]. cbn [bind]. f_equal. apply biv_indices_sc. exact H.
  - intros E0. apply (f_equal (@length _)) in E0. rewrite cloud_length in E0. discriminate.
Qed.

(** ** The trivariate detector *)
Definition kernel_at kde (u w : list XR) (grid : Z) (cu cw : XR) : res (list Z) :=
  let* (ut, wt, ul, uu, wl, wu) := windows kde u w grid cu cw in
  let half := lit 5 1 in
  let uu1 := nsub uu (nmul half (nadd uu ul)) in
  let wu1 := nsub wu (nmul half (nadd wu wl)) in
  let* rho := bcast nadd (map (fun v => sq (ndiv (nsub v (nmul half (nadd uu ul))) uu1)) ut)
                         (map (fun v => sq (ndiv (nsub v (nmul half (nadd wu wl))) wu1)) wt) in
  Ok (nonzero (map (fun r : XR => nltb (nofZ 1) r) rho)).
Definition thr (n : Z) (s : XR) : XR := ndiv (nmul (nsqrt (nmul (nofZ 2) (nlog (nofZ n)))) s) (nsqrt (nofZ n)).
Lemma tri_kernel_at kde (u w : list XR) grid : u <> [] -> w <> [] ->
  tri_kernel kde u w grid = kernel_at kde u w grid (thr (zlen u) (np_std u)) (thr (zlen u) (np_std w)).
Proof.
  intros Hu Hw. unfold tri_kernel, kernel_at, windows. rewrite !spread_std_farr by assumption. cbn [bind].
  repeat (match goal with |- (let* _ := ?m in _) = _ => destruct m as [?|]; [cbn [bind]|reflexivity] end || match goal with x : (_ * _)%type |- _ => destruct x end).
  cbv zeta. unfold thr. destruct (cutoff _ _ _ _ _ _ _) as [[ul uu]|]; [|reflexivity]. cbn [bind].
  destruct (cutoff _ _ _ _ _ _ _) as [[wl wu]|]; reflexivity.
Qed.
Lemma kernel_at_sc kde c P grid (cu cw : XR) : density_units kde -> 0 < c -> P <> [] -> grid <> 0%Z ->
  kernel_at kde (xs fst (map (sclp c) P)) (xs snd (map (sclp c) P)) grid cu cw = kernel_at kde (xs fst P) (xs snd P) grid cu cw.
Proof.
  intros HK H Hne Hg. unfold kernel_at. rewrite windows_sc by assumption.
  destruct (windows kde (xs fst P) (xs snd P) grid cu cw) as [[[[[[ut wt] ul] uu] wl] wu]|]; [|reflexivity]. cbn [bind].
  cbv zeta. cbn [nadd nsub nmul ndiv XR]. rewrite !(sc_add c), !(sc_mul_r c), !(sc_sub c), !map_map by exact H.
  erewrite (map_ext (fun x : xr => sq _)); [|intros x; cbn [nsub ndiv XR]; rewrite (sc_sub c), (sc_div c) by exact H; reflexivity].
  erewrite (map_ext (fun x : xr => sq (xdiv (xsub (xsc c x) _) (xsc c (xsub wu _))))); [|intros x; rewrite (sc_sub c), (sc_div c) by exact H; reflexivity].
  reflexivity.
Qed.

(** Peak of a positive function on a grid. *)
Lemma nth_error_nth0 {A} (l : list A) i d : (i < length l)%nat -> nth_error l i = Some (nth i l d).
Proof. revert i. induction l as [|a l IH]; intros [|i] H; cbn in *; try lia; [reflexivity|]. apply IH. lia. Qed.
Lemma peak_real (F : R -> R -> R) us ws : us <> [] -> ws <> [] -> exists p q, first_peak F us ws p q /\
  @tri_peak XR (finm (on_grid F us ws)) = Ok (Fin (F (nth p us 0) (nth q ws 0)) : XR, Z.of_nat p, Z.of_nat q, fins (map (fun x => F x (nth q ws 0)) us), fins (map (F (nth p us 0)) ws)).
Proof.
  intros Hu Hw. rewrite finm_grid. destruct (tri_peak_total F us ws Hu Hw) as (peak & up & wp & fu & fw & E & H1 & H2 & H3 & H4).
  pose proof E as E'. apply (tri_peak_spec XR XR_ord) in E'.
  2:{ intros row v Hr Hv. apply in_map_iff in Hr. destruct Hr as (x' & <- & _). apply in_map_iff in Hv. destruct Hv as (y' & <- & _). reflexivity. }
  destruct E' as (M & F1 & P1 & P2 & (v & F2 & F3) & L1 & C & B1 & B2). unfold zlen in H1, H2.
  set (p := Z.to_nat up). set (q := Z.to_nat wp). fold p in F1, B1. fold q in F2, C, B2. assert (Hp : (p < length us)%nat) by lia. assert (Hq : (q < length ws)%nat) by lia.
  assert (Row : forall i, (i < length us)%nat -> nth_error (map (fun x => map (fun y => Fin (F x y) : XR) ws) us) i = Some (map (fun y => Fin (F (nth i us 0) y) : XR) ws)).
  { intros i Hi. rewrite nth_error_map, (nth_error_nth0 us i 0) by exact Hi. reflexivity. }
  assert (Ent : forall i j, (j < length ws)%nat -> nth_error (map (fun y => Fin (F (nth i us 0) y) : XR) ws) j = Some (Fin (F (nth i us 0) (nth j ws 0)) : XR)).
  { intros i j Hj. rewrite nth_error_map, (nth_error_nth0 ws j 0) by exact Hj. reflexivity. }
  pose proof (eq_trans (eq_sym F1) (Row p Hp)) as F1'. injection F1' as ->. pose proof (eq_trans (eq_sym F2) (Ent p q Hq)) as F2'. injection F2' as ->.
  assert (Ep : peak = Fin (F (nth p us 0) (nth q ws 0))).
  { destruct peak as [z|[]|]; try discriminate. cbn in F3. destruct (Req_bool_spec (F (nth p us 0) (nth q ws 0)) z) as [->|]; [reflexivity|discriminate]. }
  subst peak. exists p, q. split.
  - split; [exact Hp|]. split; [exact Hq|]. intros i j Hi Hj.
    assert (Hle : F (nth i us 0) (nth j ws 0) <= F (nth p us 0) (nth q ws 0)).
    { specialize (M _ (Fin (F (nth i us 0) (nth j ws 0)) : XR) (nth_error_In _ _ (Row i Hi)) (nth_error_In _ _ (Ent i j Hj))). rewrite xleb_fin in M. destruct (Rle_bool_spec (F (nth i us 0) (nth j ws 0)) (F (nth p us 0) (nth q ws 0))); [assumption|discriminate]. }
    split; [exact Hle|]. intros Hb. assert (D : F (nth i us 0) (nth j ws 0) <> F (nth p us 0) (nth q ws 0)); [|lra]. intros EE.
    assert (X : @neqb XR (Fin (F (nth i us 0) (nth j ws 0))) (Fin (F (nth p us 0) (nth q ws 0))) = false).
    { destruct Hb as [Hb|[-> Hb]]; [exact (B1 i _ _ Hb (Row i Hi) (nth_error_In _ _ (Ent i j Hj))) | exact (B2 j _ Hb (Ent p j Hj))]. }
    cbn in X. rewrite Req_bool_true in X by exact EE. discriminate.
  - rewrite E. unfold p, q. rewrite !Z2Nat.id by lia. fold p q. do 3 f_equal.
    + refine (nth_ext_len _ _ (Fin 0 : XR) _ _); [rewrite fins_length, map_length; exact H3|]. intros i Hi. rewrite H3 in Hi.
      destruct (C i _ (Row i Hi)) as (y & Y1 & Y2). pose proof (eq_trans (eq_sym Y1) (Ent i q Hq)) as Y1'. injection Y1' as ->. rewrite (nth_error_nth _ _ _ Y2).
      rewrite fins_nth. f_equal. rewrite (nth_map_in _ _ _ 0) by exact Hi. reflexivity.
    + unfold fins. rewrite map_map. reflexivity.
Qed.
Lemma first_peak_unique F us ws p q p' q' : first_peak F us ws p q -> first_peak F us ws p' q' -> p = p' /\ q = q'.
Proof.
  intros (A1 & A2 & A3) (B1 & B2 & B3). destruct (A3 p' q' B1 B2) as [C1 C2]. destruct (B3 p q A1 A2) as [D1 D2].
  assert (~ (p' < p)%nat) by (intros H; specialize (C2 (or_introl H)); lra). assert (~ (p < p')%nat) by (intros H'; specialize (D2 (or_introl H')); lra).
  assert (p = p') by lia. subst p'. split; [reflexivity|].
  assert (~ (q' < q)%nat) by (intros H'; specialize (C2 (or_intror (conj eq_refl H'))); lra). assert (~ (q < q')%nat) by (intros H'; specialize (D2 (or_intror (conj eq_refl H'))); lra). lia.
Qed.

(** The cutoff for thresholds near zero and for large thresholds. *)
Lemma below_all (l : list R) : (forall x, In x l -> 0 < x) -> exists e, 0 < e /\ forall x, In x l -> e < x.
Proof.
  induction l as [|a l IH]; intros H; [exists 1; split; [lra | intros x []]|]. destruct IH as (e & He & Hl); [intros x Hx; apply H; right; exact Hx|].
  pose proof (H a (or_introl eq_refl)) as Ha. exists (Rmin e (a / 2)). split; [apply Rmin_glb_lt; lra|]. intros x [<-|Hx].
  - pose proof (Rmin_r e (a / 2)). lra.
  - pose proof (Rmin_l e (a / 2)). specialize (Hl x Hx). lra.
Qed.
Lemma above_all (l : list R) : exists e, 0 < e /\ forall x, In x l -> x <= e.
Proof.
  induction l as [|a l IH]; [exists 1; split; [lra | intros x []]|]. destruct IH as (e & He & Hl). exists (Rmax e a). pose proof (Rmax_l e a). split; [lra|].
  intros x [<-|Hx]; [apply Rmax_r|]. specialize (Hl x Hx). lra.
Qed.
Section Cut.
Variables (a b : R) (g : nat) (f : list R) (p : nat) (pk gr : R).
Hypothesis Hg : (3 <= g)%nat.
Hypothesis Lf : length f = g.
Hypothesis Hp : (p < g)%nat.
Hypothesis Hpk : 0 < pk.
Hypothesis Hf : forall x, In x f -> 0 < x.
Lemma cut_facts (s : R) : exists lo up, (lo < g)%nat /\ (up < g)%nat /\
  cutoff [Fin pk : XR] (fins (axis a b (Z.of_nat g))) (Fin s) (Fin s) (fins f) (Z.of_nat p) (Fin gr) = Ok (Fin (gridpt a b g lo) : XR, Fin (gridpt a b g up) : XR) /\
  let meets i := nth i f 0 / nth p f 0 <= s /\ Rabs ((nth i f 0 - nth (i - 1) f 0) * gr / pk) <= s in
  ((1 <= lo < p)%nat /\ meets lo /\ (forall j, (lo < j < p)%nat -> ~ meets j) \/ lo = 1%nat /\ forall j, (1 <= j < p)%nat -> ~ meets j) /\
  ((p < up < g - 1)%nat /\ meets up /\ (forall j, (p < j < up)%nat -> ~ meets j) \/ up = (g - 1)%nat /\ forall j, (p < j < g - 1)%nat -> ~ meets j).
Proof.
  assert (LF : zlen (fins f) = Z.of_nat g) by (rewrite zlen_fins; unfold zlen; lia).
  assert (LA : zlen (fins (axis a b (Z.of_nat g))) = Z.of_nat g) by (rewrite zlen_fins; unfold zlen; rewrite axis_length; lia).
  assert (Fp : 0 < nth p f 0) by (apply Hf, nth_In; lia).
  destruct (cutoff_general XR [Fin pk : XR] (fins (axis a b (Z.of_nat g))) (fins f) (Fin s) (Fin s) (Fin gr) (Z.of_nat p) (Fin 0)) as (lo & up & E & H1 & H2);
    [lia | rewrite LA; lia | right; reflexivity | lia|]. cbv zeta in H1, H2. change (zlen [Fin pk : XR] =? 1)%Z with true in H1, H2. cbn iota in H1, H2.
  assert (MM : forall i, (1 <= i)%Z -> 
    ((nleb (ndiv (nth (Z.to_nat i) (fins f) (Fin 0 : XR)) (nth (Z.to_nat (Z.of_nat p)) (fins f) (Fin 0 : XR))) (Fin s) = true /\
     nleb (nabs (ndiv (nmul (nsub (nth (Z.to_nat i) (fins f) (Fin 0 : XR)) (nth (Z.to_nat (i - 1)) (fins f) (Fin 0 : XR))) (Fin gr)) (nth 0 [Fin pk : XR] (Fin 0 : XR)))) (Fin s) = true) <->
     nth (Z.to_nat i) f 0 / nth p f 0 <= s /\ Rabs ((nth (Z.to_nat i) f 0 - nth (Z.to_nat i - 1) f 0) * gr / pk) <= s)).
  { intros i Hi. cbn [nth]. rewrite Nat2Z.id, !fins_nth. rewrite xsub_fin, xmul_fin, !xdiv_fin by lra. rewrite xabs_fin, !xleb_fin.
    replace (Z.to_nat (i - 1)) with (Z.to_nat i - 1)%nat by lia.
    split; intros [A B]; split; try (apply Rle_bool_true; assumption).
    - destruct (Rle_bool_spec (nth (Z.to_nat i) f 0 / nth p f 0) s); [assumption|discriminate].
    - match type of B with Rle_bool ?x ?y = true => destruct (Rle_bool_spec x y); [assumption|discriminate] end. }
  rewrite LF in H2.
  exists (Z.to_nat lo), (Z.to_nat up).
  assert (Blo : (1 <= lo < Z.of_nat g)%Z) by (destruct H1 as [(H1 & _)|(H1 & _)]; lia). assert (Bup : (1 <= up < Z.of_nat g)%Z) by (destruct H2 as [(H2 & _)|(H2 & _)]; lia).
  split; [lia|]. split; [lia|]. split.
  { rewrite E, !fins_nth, !nth_axis by lia. rewrite Zabs2Nat.id. reflexivity. }
  cbv zeta. split.
  - destruct H1 as [(H1 & A & B)|(H1 & B)]; [left|right].
    + split; [lia|]. split; [apply MM; [lia | exact A]|]. intros j Hj Hm. apply (B (Z.of_nat j)); [lia|]. apply MM; [lia|]. rewrite Nat2Z.id. exact Hm.
    + split; [lia|]. intros j Hj Hm. apply (B (Z.of_nat j)); [lia|]. apply MM; [lia|]. rewrite Nat2Z.id. exact Hm.
  - destruct H2 as [(H2 & A & B)|(H2 & B)]; [left|right].
    + split; [lia|]. split; [apply MM; [lia | exact A]|]. intros j Hj Hm. apply (B (Z.of_nat j)); [lia|]. apply MM; [lia|]. rewrite Nat2Z.id. exact Hm.
    + split; [lia|]. intros j Hj Hm. apply (B (Z.of_nat j)); [lia|]. apply MM; [lia|]. rewrite Nat2Z.id. exact Hm.
Qed.
Lemma cut_small : exists e, 0 < e /\ forall s, s <= e ->
  cutoff [Fin pk : XR] (fins (axis a b (Z.of_nat g))) (Fin s) (Fin s) (fins f) (Z.of_nat p) (Fin gr) = Ok (Fin (gridpt a b g 1) : XR, Fin (gridpt a b g (g - 1)) : XR).
Proof.
  assert (Fp : 0 < nth p f 0) by (apply Hf, nth_In; lia).
  destruct (below_all (map (fun x => x / nth p f 0) f)) as (e & He & Hall).
  { intros x Hx. apply in_map_iff in Hx. destruct Hx as (y & <- & Hy). apply Rdiv_lt_0_compat; [apply Hf, Hy | exact Fp]. }
  exists e. split; [exact He|]. intros s Hs. destruct (cut_facts s) as (lo & up & B1 & B2 & E & H1 & H2). cbv zeta in H1, H2.
  assert (NM : forall i, (i < g)%nat -> ~ (nth i f 0 / nth p f 0 <= s)).
  { intros i Hi Hc. assert (e < nth i f 0 / nth p f 0) by (apply Hall, in_map_iff; exists (nth i f 0); split; [reflexivity | apply nth_In; lia]). lra. }
  assert (lo = 1%nat) by (destruct H1 as [(H1 & [A _] & _)|(H1 & _)]; [exfalso; exact (NM lo B1 A) | exact H1]).
  assert (up = (g - 1)%nat) by (destruct H2 as [(H2 & [A _] & _)|(H2 & _)]; [exfalso; exact (NM up B2 A) | exact H2]). subst. exact E.
Qed.
Lemma cut_large : exists e, 0 < e /\ forall s, e <= s ->
  cutoff [Fin pk : XR] (fins (axis a b (Z.of_nat g))) (Fin s) (Fin s) (fins f) (Z.of_nat p) (Fin gr) =
  Ok (Fin (gridpt a b g (Nat.max 1 (p - 1))) : XR, Fin (gridpt a b g (Nat.min (g - 1) (p + 1))) : XR).
Proof.
  destruct (above_all (map (fun i => nth i f 0 / nth p f 0) (seq 0 g) ++ map (fun i => Rabs ((nth i f 0 - nth (i - 1) f 0) * gr / pk)) (seq 0 g))) as (e & He & Hall).
  exists e. split; [exact He|]. intros s Hs. destruct (cut_facts s) as (lo & up & B1 & B2 & E & H1 & H2). cbv zeta in H1, H2.
  assert (M : forall i, (i < g)%nat -> nth i f 0 / nth p f 0 <= s /\ Rabs ((nth i f 0 - nth (i - 1) f 0) * gr / pk) <= s).
  { intros i Hi. split; (eapply Rle_trans; [apply Hall, in_or_app|exact Hs]); [left|right]; apply in_map_iff; exists i; (split; [reflexivity | apply in_seq; lia]). }
  assert (lo = Nat.max 1 (p - 1)).
  { destruct H1 as [(H1 & _ & B)|(H1 & B)].
    - destruct (Nat.eq_dec lo (p - 1)) as [|D]; [lia|]. exfalso. apply (B (p - 1)%nat); [lia | apply M; lia].
    - destruct (le_lt_dec p 1) as [|D]; [lia|]. exfalso. apply (B (p - 1)%nat); [lia | apply M; lia]. }
  assert (up = Nat.min (g - 1) (p + 1)).
  { destruct H2 as [(H2 & _ & B)|(H2 & B)].
    - destruct (Nat.eq_dec up (p + 1)) as [|D]; [lia|]. exfalso. apply (B (p + 1)%nat); [lia | apply M; lia].
    - destruct (le_lt_dec (g - 2) p) as [|D]; [lia|]. exfalso. apply (B (p + 1)%nat); [lia | apply M; lia]. }
  subst lo up. exact E.
Qed.
End Cut.

(** The flags for a given pair of windows. *)
Definition flagset (ul uu wl wu : R) (T : list (R * R)) : list Z :=
  nonzero (map (fun p : R * R => @nltb XR (nofZ 1) (nadd (@sq XR (ndiv (Fin (fst p - (uu + ul) / 2)) (Fin ((uu - ul) / 2)))) (@sq XR (ndiv (Fin (snd p - (wu + wl) / 2)) (Fin ((wu - wl) / 2)))))) T).
Lemma flagset_bounded ul uu wl wu T : bounded_sorted (zlen T) (flagset ul uu wl wu T).
Proof. split; [apply nonzero_sorted|]. intros i Hi. apply in_flags in Hi. apply Hi. Qed.
Lemma in_flagset ul uu wl wu T i : ul < uu -> wl < wu ->
  (In i (flagset ul uu wl wu T) <-> (0 <= i < zlen T)%Z /\ off_ellipse ul uu wl wu (nth (Z.to_nat i) T (0, 0))).
Proof.
  intros Hu Hw. unfold flagset. rewrite in_flags, rho_flag by lra. unfold beyond, off_ellipse. rewrite (Rplus_comm ul uu), (Rplus_comm wl wu). tauto.
Qed.
Lemma gridpt_last a b g : (2 <= g)%nat -> gridpt a b g (g - 1) = b.
Proof.
  intros H. unfold gridpt. rewrite minus_INR by lia. change (INR 1) with 1. assert (1 < INR g) by (apply (lt_INR 1); lia). field. lra.
Qed.
Lemma normal2_pos a b c x y : 0 < a * c - b ^ 2 -> 0 < normal2 a b c x y.
Proof.
  intros H. unfold normal2. apply Rdiv_lt_0_compat; [apply exp_pos|]. apply Rmult_lt_0_compat; [pose proof PI_RGT_0; lra | apply sqrt_lt_R0, H].
Qed.
Lemma Rsum_pos_ne l : l <> [] -> (forall x, In x l -> 0 < x) -> 0 < Rsum l.
Proof.
  intros Hne H. destruct l as [|a l]; [congruence|]. cbn [Rsum]. pose proof (H a (or_introl eq_refl)).
  assert (0 <= Rsum l) by (apply Rsum_nonneg; intros x Hx; left; apply H; right; exact Hx). lra.
Qed.
Lemma kde2_pos T x y : ~ collinear T -> 0 < kde2 (scott (length T)) T T x y.
Proof.
  intros HC. pose proof (noncol_len T HC) as Hn. destruct (sdet_pos T Hn HC) as [HD _]. unfold kde2, rmean.
  assert (Hne : T <> []) by (intros ->; cbn in Hn; lia). rewrite map_length. assert (0 < INR (length T)) by (apply lt_0_INR; lia).
  apply Rdiv_lt_0_compat; [|assumption]. apply Rsum_pos_ne; [intros E; apply map_eq_nil in E; contradiction|].
  intros z Hz. apply in_map_iff in Hz. destruct Hz as (p & <- & _). apply normal2_pos. unfold sdet in HD. set (h := scott (length T)). assert (0 < h) by apply exp_pos.
  replace (h ^ 2 * scov fst fst T * (h ^ 2 * scov snd snd T) - (h ^ 2 * scov fst snd T) ^ 2) with (h ^ 4 * (scov fst fst T * scov snd snd T - scov fst snd T ^ 2)) by ring.
  apply Rmult_lt_0_compat; [apply pow_lt; assumption|]. lra.
Qed.
Lemma kernel_window kde F P g a b c d p q (cu cw : XR) ul uu wl wu : ~ collinear P -> (3 <= g)%nat ->
  let T := turned P in let us := axis a b (Z.of_nat g) in let ws := axis c d (Z.of_nat g) in
  is_min (map fst T) a -> is_max (map fst T) b -> is_min (map snd T) c -> is_max (map snd T) d ->
  kde_gives kde T F us ws -> first_peak F us ws p q ->
  cutoff [Fin (F (nth p us 0) (nth q ws 0)) : XR] (fins us) cu cu (fins (map (fun x => F x (nth q ws 0)) us)) (Z.of_nat p) (Fin (INR g)) = Ok (Fin ul : XR, Fin uu : XR) ->
  cutoff [Fin (F (nth p us 0) (nth q ws 0)) : XR] (fins ws) cw cw (fins (map (F (nth p us 0)) ws)) (Z.of_nat q) (Fin (INR g)) = Ok (Fin wl : XR, Fin wu : XR) ->
  kernel_at kde (xs fst P) (xs snd P) (Z.of_nat g) cu cw = Ok (flagset ul uu wl wu T).
Proof.
  intros HC Hg T us ws Ha Hb Hc Hd HK HP E1 E2. pose proof (noncol_len P HC) as Hn. destruct (sdet_pos P Hn HC) as [_ HV].
  assert (Hg0 : Z.of_nat g <> 0%Z) by lia.
  unfold kernel_at, windows. rewrite tri_rotation_xs by (try assumption; lra). cbn [bind]. rewrite tri_transform_xs. cbn [bind]. fold (turned P). fold T.
  rewrite (min_xs fst _ a Ha), (max_xs fst _ b Hb), (min_xs snd _ c Hc), (max_xs snd _ d Hd). cbn [bind]. rewrite !mgrid_axis_fins by exact Hg0. cbn [bind]. fold us ws.
  unfold kde_gives in HK. rewrite <- !xs_fins in HK. rewrite HK. cbn [bind].
  destruct (peak_real F us ws) as (p' & q' & HP' & ->); [apply axis_nil, Hg0 | apply axis_nil, Hg0 |]. destruct (first_peak_unique _ _ _ _ _ _ _ HP' HP) as [-> ->]. cbn [bind].
  rewrite xofZ_fin, <- INR_IZR_INZ. rewrite E1. cbn [bind]. rewrite E2. cbn [bind]. cbv zeta.
  rewrite half_fin, !xadd_fin, !xmul_fin, !xsub_fin.
  rewrite bcast_same by (unfold xs; rewrite !map_length; reflexivity). cbn [bind]. f_equal.
  unfold flagset. f_equal. unfold xs. rewrite !map_map, zip_map2, map_map. apply map_ext. intros t. rewrite !xsub_fin. 
  replace (1 / 2 * (uu + ul)) with ((uu + ul) / 2) by field. replace (1 / 2 * (wu + wl)) with ((wu + wl) / 2) by field.
  replace (uu - (uu + ul) / 2) with ((uu - ul) / 2) by field. replace (wu - (wu + wl) / 2) with ((wu - wl) / 2) by field. reflexivity.
Qed.
Lemma kernel_limits P g a b c d : ~ collinear P -> (3 <= g)%nat ->
  let T := turned P in let F := kde2 (scott (length T)) T T in let us := axis a b (Z.of_nat g) in let ws := axis c d (Z.of_nat g) in
  is_min (map fst T) a -> is_max (map fst T) b -> is_min (map snd T) c -> is_max (map snd T) d ->
  exists e0 e1 p q, 0 < e0 /\ 0 < e1 /\ first_peak F us ws p q /\
    (forall s s', s <= e0 -> s' <= e0 -> kernel_at scott_kde (xs fst P) (xs snd P) (Z.of_nat g) (Fin s) (Fin s') = Ok (flagset (gridpt a b g 1) b (gridpt c d g 1) d T)) /\
    (forall s s', e1 <= s -> e1 <= s' -> kernel_at scott_kde (xs fst P) (xs snd P) (Z.of_nat g) (Fin s) (Fin s') =
       Ok (flagset (gridpt a b g (Nat.max 1 (p - 1))) (gridpt a b g (Nat.min (g - 1) (p + 1))) (gridpt c d g (Nat.max 1 (q - 1))) (gridpt c d g (Nat.min (g - 1) (q + 1))) T)).
Proof.
  intros HC Hg T F us ws Ha Hb Hc Hd. assert (HC' : ~ collinear T) by (unfold T; rewrite collinear_turned; exact HC).
  assert (HF : forall x y, 0 < F x y) by (intros x y; apply kde2_pos, HC').
  assert (HK : kde_gives (@scott_kde XR) T F us ws) by (apply scott_gives, HC').
  assert (Hg0 : Z.of_nat g <> 0%Z) by lia.
  destruct (peak_real F us ws) as (p & q & HP & _); [apply axis_nil, Hg0 | apply axis_nil, Hg0 |].
  assert (Lu : length us = g) by (unfold us; rewrite axis_length; lia). assert (Lw : length ws = g) by (unfold ws; rewrite axis_length; lia).
  pose proof HP as (B1 & B2 & _). rewrite Lu in B1. rewrite Lw in B2.
  assert (Pu : forall x, In x (map (fun x => F x (nth q ws 0)) us) -> 0 < x) by (intros x Hx; apply in_map_iff in Hx; destruct Hx as (y & <- & _); apply HF).
  assert (Pw : forall x, In x (map (F (nth p us 0)) ws) -> 0 < x) by (intros x Hx; apply in_map_iff in Hx; destruct Hx as (y & <- & _); apply HF).
  destruct (cut_small a b g (map (fun x => F x (nth q ws 0)) us) p (F (nth p us 0) (nth q ws 0)) (INR g) Hg ltac:(rewrite map_length; exact Lu) B1 (HF _ _) Pu) as (e1 & He1 & S1).
  destruct (cut_small c d g (map (F (nth p us 0)) ws) q (F (nth p us 0) (nth q ws 0)) (INR g) Hg ltac:(rewrite map_length; exact Lw) B2 (HF _ _) Pw) as (e2 & He2 & S2).
  destruct (cut_large a b g (map (fun x => F x (nth q ws 0)) us) p (F (nth p us 0) (nth q ws 0)) (INR g) Hg ltac:(rewrite map_length; exact Lu) B1 (HF _ _) Pu) as (e3 & He3 & S3).
  destruct (cut_large c d g (map (F (nth p us 0)) ws) q (F (nth p us 0) (nth q ws 0)) (INR g) Hg ltac:(rewrite map_length; exact Lw) B2 (HF _ _) Pw) as (e4 & He4 & S4).
  exists (Rmin e1 e2), (Rmax e3 e4), p, q. pose proof (Rmin_l e1 e2). pose proof (Rmin_r e1 e2). pose proof (Rmax_l e3 e4). pose proof (Rmax_r e3 e4).
  split; [apply Rmin_glb_lt; assumption|]. split; [lra|]. split; [exact HP|]. split; intros s s' Hs Hs'.
  - apply (kernel_window _ F P g a b c d p q); try assumption.
    + rewrite S1 by lra. rewrite (gridpt_last a b) by lia. reflexivity.
    + rewrite S2 by lra. rewrite (gridpt_last c d) by lia. reflexivity.
  - apply (kernel_window _ F P g a b c d p q); try assumption.
    + apply S3; lra.
    + apply S4; lra.
Qed.
(** The thresholds. *)
Definition kappa (n : nat) : R := sqrt (2 * ln (INR n)) / sqrt (INR n).
Lemma kappa_pos n : (2 <= n)%nat -> 0 < kappa n.
Proof.
  intros H. assert (1 < INR n) by (apply (lt_INR 1); lia). assert (0 < ln (INR n)) by (rewrite <- ln_1; apply ln_increasing; lra).
  apply Rdiv_lt_0_compat; apply sqrt_lt_R0; lra.
Qed.
Lemma thr_fin n x : (2 <= n)%nat -> thr (Z.of_nat n) (Fin x) = Fin (kappa n * x).
Proof.
  intros H. assert (1 < INR n) by (apply (lt_INR 1); lia). assert (0 < ln (INR n)) by (rewrite <- ln_1; apply ln_increasing; lra). assert (0 < sqrt (INR n)) by (apply sqrt_lt_R0; lra).
  unfold thr. rewrite !xofZ_fin, <- INR_IZR_INZ, xlog_fin, xmul_fin, !xsqrt_fin, xmul_fin, xdiv_fin by lra. unfold kappa. f_equal. field. lra.
Qed.
Lemma noncol_std (f : R * R -> R) P (v1 v2 : R) : (v1 <> 0 \/ v2 <> 0) -> (forall p, f p = v1 * fst p + v2 * snd p) -> ~ collinear P -> 0 < rstd (map f P).
Proof.
  intros Hv Hf HC. pose proof (noncol_len P HC) as Hn. assert (Hne : map f P <> []) by (intros E; apply map_eq_nil in E; subst P; cbn in Hn; lia).
  apply rstd_pos; [exact Hne|]. intros E. apply HC. exists v1, v2, (rmean (map f P)). split; [exact Hv|]. intros p Hp. rewrite <- Hf.
  apply (proj1 (rvar_zero_iff _ Hne) E). apply in_map, Hp.
Qed.
Lemma noncol_sclp s P : 0 < s -> ~ collinear P -> ~ collinear (map (sclp s) P).
Proof. intros H HC. rewrite collinear_sclp by exact H. exact HC. Qed.
Lemma tri_scaled P s g : ~ collinear P -> (3 <= g)%nat -> 0 < s ->
  @tri_kernel XR scott_kde (xs fst (map (sclp s) P)) (xs snd (map (sclp s) P)) (Z.of_nat g) =
  kernel_at scott_kde (xs fst P) (xs snd P) (Z.of_nat g) (Fin (s * (kappa (length P) * rstd (map fst P)))) (Fin (s * (kappa (length P) * rstd (map snd P)))).
Proof.
  intros HC Hg H. pose proof (noncol_len P HC) as Hn. assert (Hne : P <> []) by (intros ->; cbn in Hn; lia).
  assert (N1 : forall f : R * R -> R, map f P <> []) by (intros f E; apply map_eq_nil in E; contradiction).
  rewrite tri_kernel_at by (intros E; apply map_eq_nil, map_eq_nil in E; contradiction).
  rewrite kernel_at_sc by (try exact scott_units; try exact H; try exact Hne; lia).
  assert (Z1 : zlen (xs fst (map (sclp s) P)) = Z.of_nat (length P)) by (unfold zlen, xs; rewrite !map_length; reflexivity). rewrite Z1.
  rewrite xs_sclp_fst, xs_sclp_snd, !np_std_sc, !xs_fins, !np_std_fins by (try exact H; apply N1). cbn [xsc]. rewrite !thr_fin by exact Hn.
  f_equal; f_equal; ring.
Qed.
Lemma is_ext_axis a b g : axis a b (Z.of_nat g) = map (gridpt a b g) (seq 0 g).
Proof. unfold axis. rewrite Zabs2Nat.id. reflexivity. Qed.
Lemma extents_unique T a b c d a' b' c' d' : extents T a b c d -> extents T a' b' c' d' -> a = a' /\ b = b' /\ c = c' /\ d = d'.
Proof.
  intros (A & B & C & D) (A' & B' & C' & D'). repeat split; [apply (is_min_unique (map fst T)) | apply (is_max_unique (map fst T)) | apply (is_min_unique (map snd T)) | apply (is_max_unique (map snd T))]; assumption.
Qed.
Lemma plane_limits P g : ~ collinear P -> (3 <= g)%nat -> let T := turned P in
  exists s0 s1 r0 r1, 0 < s0 /\ 0 < s1 /\ bounded_sorted (zlen P) r0 /\ bounded_sorted (zlen P) r1 /\
    (forall s, 0 < s <= s0 -> @tri_kernel XR scott_kde (xs fst (map (sclp s) P)) (xs snd (map (sclp s) P)) (Z.of_nat g) = Ok r0) /\
    (forall s, s1 <= s -> @tri_kernel XR scott_kde (xs fst (map (sclp s) P)) (xs snd (map (sclp s) P)) (Z.of_nat g) = Ok r1) /\
    (forall i, In i r0 <-> (0 <= i < zlen P)%Z /\ off_whole T g i) /\
    (inner_peak T g -> forall i, In i r1 <-> (0 <= i < zlen P)%Z /\ off_peak T g i) /\
    exists a b c d p q, density_peak T g a b c d p q /\
      r1 = flagset (gridpt a b g (Nat.max 1 (p - 1))) (gridpt a b g (Nat.min (g - 1) (p + 1))) (gridpt c d g (Nat.max 1 (q - 1))) (gridpt c d g (Nat.min (g - 1) (q + 1))) T.
Proof.
  intros HC Hg T. pose proof (noncol_len P HC) as Hn.
  assert (ZT : zlen T = zlen P) by (unfold zlen, T, turned; rewrite map_length; reflexivity).
  destruct (noncol_extents P HC) as (a & b & c & d & Ha & Hb & Hc & Hd).
  assert (HC' : ~ collinear T) by (unfold T; rewrite collinear_turned; exact HC).
  pose proof (extent_fst _ _ _ HC' Ha Hb) as Hab. pose proof (extent_snd _ _ _ HC' Hc Hd) as Hcd.
  destruct (kernel_limits P g a b c d HC Hg Ha Hb Hc Hd) as (e0 & e1 & p & q & He0 & He1 & HP & K0 & K1). fold T in HP, K0, K1.
  assert (HX : extents T a b c d) by (repeat split; [apply Ha | apply Ha | apply Hb | apply Hb | apply Hc | apply Hc | apply Hd | apply Hd]).
  rewrite !is_ext_axis in HP. assert (HDP : density_peak T g a b c d p q) by (split; assumption).
  set (ku := kappa (length P) * rstd (map fst P)). set (kw := kappa (length P) * rstd (map snd P)).
  assert (Ku : 0 < ku) by (apply Rmult_lt_0_compat; [apply kappa_pos, Hn | apply (noncol_std fst P 1 0); [left; lra | intros; ring | exact HC]]).
  assert (Kw : 0 < kw) by (apply Rmult_lt_0_compat; [apply kappa_pos, Hn | apply (noncol_std snd P 0 1); [right; lra | intros; ring | exact HC]]).
  pose proof (Rmax_l ku kw) as M1. pose proof (Rmax_r ku kw) as M2. pose proof (Rmin_l ku kw) as M3. pose proof (Rmin_r ku kw) as M4. assert (M5 : 0 < Rmin ku kw) by (apply Rmin_glb_lt; assumption).
  eexists (e0 / Rmax ku kw), (e1 / Rmin ku kw), _, _.
  split; [apply Rdiv_lt_0_compat; lra|]. split; [apply Rdiv_lt_0_compat; lra|]. rewrite <- ZT.
  split; [|split; [|split; [|split; [|split; [|split; [|exists a, b, c, d, p, q; split; [exact HDP | reflexivity]]]]]]].
  3:{ intros s [Hs1 Hs2]. rewrite tri_scaled by assumption. fold ku kw.
      assert (s * Rmax ku kw <= e0). { apply (Rmult_le_compat_r (Rmax ku kw)) in Hs2; [|lra]. unfold Rdiv in Hs2. rewrite Rmult_assoc, Rinv_l in Hs2 by lra. lra. }
      apply K0; (eapply Rle_trans; [|eassumption]); apply Rmult_le_compat_l; lra. }
  3:{ intros s Hs. assert (Hs0 : 0 < s) by (pose proof (Rdiv_lt_0_compat _ _ He1 M5); lra). rewrite tri_scaled by assumption. fold ku kw.
      assert (e1 <= s * Rmin ku kw). { apply (Rmult_le_compat_r (Rmin ku kw)) in Hs; [|lra]. unfold Rdiv in Hs. rewrite Rmult_assoc, Rinv_l in Hs by lra. lra. }
      apply K1; (eapply Rle_trans; [eassumption|]); apply Rmult_le_compat_l; lra. }
  - apply flagset_bounded.
  - apply flagset_bounded.
  - intros i. rewrite in_flagset.
    + split; intros [H1 H2]; (split; [exact H1|]).
      * exists a, b, c, d. repeat (split; [assumption|]). exact H2.
      * destruct H2 as (a' & b' & c' & d' & X1 & X2 & X3 & X4 & H2). destruct (extents_unique T a b c d a' b' c' d' HX (conj X1 (conj X2 (conj X3 X4)))) as (-> & -> & -> & ->). exact H2.
    + rewrite <- (gridpt_last a b g) at 2 by lia. apply gridpt_lt; [exact Hab | lia | lia].
    + rewrite <- (gridpt_last c d g) at 2 by lia. apply gridpt_lt; [exact Hcd | lia | lia].
  - intros HI i. destruct (HI _ _ _ _ _ _ HDP) as [I1 I2]. pose proof HP as (P1 & P2 & _). rewrite map_length, seq_length in P1, P2. rewrite in_flagset.
    + split; intros [H1 H2]; (split; [exact H1|]).
      * exists a, b, c, d, p, q. split; [exact HDP | exact H2].
      * destruct H2 as (a' & b' & c' & d' & p' & q' & [X HP'] & H2). destruct (extents_unique T a b c d a' b' c' d' HX X) as (-> & -> & -> & ->).
        destruct (first_peak_unique _ _ _ _ _ _ _ HP HP') as [-> ->]. exact H2.
    + apply gridpt_lt; [exact Hab | lia | lia].
    + apply gridpt_lt; [exact Hcd | lia | lia].
Qed.
Lemma rdc_scl c l : rdc (map (Rmult c) l) = map (Rmult c) (rdc l).
Proof.
  unfold rdc, rcentral. rewrite map_length, map_map. apply map_ext. intros i. destruct (_ && _)%bool; [|ring].
  assert (N0 : forall k, nth k (map (Rmult c) l) 0 = c * nth k l 0) by (intros k; rewrite <- (map_nth (Rmult c)); f_equal; ring). rewrite !N0. unfold Rdiv. ring.
Qed.
Lemma tri_full_split P grid r : ~ collinear P -> grid <> 0%Z -> @tri_kernel XR scott_kde (xs fst P) (xs snd P) grid = Ok r ->
  exists e, @tri_kernel_full XR scott_kde (xs fst P) (xs snd P) grid = Ok (r, e).
Proof.
  intros HC Hg E. destruct (noncol_extents P HC) as (a & b & c & d & Ha & Hb & Hc & Hd). unfold tri_kernel_full. rewrite (tri_estimation_ok P grid a b c d) by assumption. cbn [bind].
  rewrite E. eexists. reflexivity.
Qed.
Lemma three_scaled l g s x1 x2 x3 : in_general_position l -> (3 <= g)%nat -> 0 < s ->
  let d1 := rdc l in let d2 := rdc d1 in
  let K P := @tri_kernel XR scott_kde (xs fst (map (sclp s) P)) (xs snd (map (sclp s) P)) (Z.of_nat g) in
  K (combine l d1) = Ok x1 -> K (combine l d2) = Ok x2 -> K (combine d1 d2) = Ok x3 ->
  @three_dimensional_kernel_full XR scott_kde DFloat (fins (map (Rmult s) l)) (Z.of_nat g) = Ok (zunique (x1 ++ x2 ++ x3)).
Proof.
  intros (C1 & C2 & C3) Hg Hs d1 d2 K E1 E2 E3. unfold three_dimensional_kernel_full. rewrite tri_derivatives_exact.
  fold (rdc (map (Rmult s) l)). fold (rdc (rdc (map (Rmult s) l))). rewrite !rdc_scl. fold d1 d2. cbn [bind].
  assert (L1 : length l = length d1) by (unfold d1, rdc; rewrite rcentral_length; reflexivity).
  assert (L2 : length d1 = length d2) by (unfold d2, rdc; rewrite rcentral_length; reflexivity).
  assert (X : forall u w, length u = length w -> xs fst (map (sclp s) (combine u w)) = fins (map (Rmult s) u) /\ xs snd (map (sclp s) (combine u w)) = fins (map (Rmult s) w))
    by (intros u w L; rewrite <- combine_sclp; apply xs_combine; rewrite !map_length; exact L).
  destruct (tri_full_split (map (sclp s) (combine l d1)) (Z.of_nat g) x1 (noncol_sclp s _ Hs C1) ltac:(lia) E1) as (e1 & F1).
  destruct (tri_full_split (map (sclp s) (combine l d2)) (Z.of_nat g) x2 (noncol_sclp s _ Hs C2) ltac:(lia) E2) as (e2 & F2).
  destruct (tri_full_split (map (sclp s) (combine d1 d2)) (Z.of_nat g) x3 (noncol_sclp s _ Hs C3) ltac:(lia) E3) as (e3 & F3).
  destruct (X l d1 L1) as [A1 B1]. destruct (X l d2 (eq_trans L1 L2)) as [A2 B2]. destruct (X d1 d2 L2) as [A3 B3].
  rewrite A1, B1 in F1. rewrite A2, B2 in F2. rewrite A3, B3 in F3. rewrite F1. cbn [bind]. rewrite F2. cbn [bind]. rewrite F3. reflexivity.
Qed.
Lemma three_limits l (g : nat) : in_general_position l -> (3 <= g)%nat -> let planes := three_planes l (rdc l) (rdc (rdc l)) in
  exists s0 s1 r0 r1, 0 < s0 /\ 0 < s1 /\ bounded_sorted (zlen l) r0 /\ bounded_sorted (zlen l) r1 /\
    (forall s, 0 < s <= s0 -> @three_dimensional_kernel_full XR scott_kde DFloat (fins (map (Rmult s) l)) (Z.of_nat g) = Ok r0) /\
    (forall s, s1 <= s -> @three_dimensional_kernel_full XR scott_kde DFloat (fins (map (Rmult s) l)) (Z.of_nat g) = Ok r1) /\
    (forall i, In i r0 <-> (0 <= i < zlen l)%Z /\ exists P, In P planes /\ off_whole (turned P) g i) /\
    ((forall P, In P planes -> inner_peak (turned P) g) ->
     forall i, In i r1 <-> (0 <= i < zlen l)%Z /\ exists P, In P planes /\ off_peak (turned P) g i).
Proof.
  intros HP Hg planes. pose proof HP as (C1 & C2 & C3).
  assert (L1 : length l = length (rdc l)) by (unfold rdc; rewrite rcentral_length; reflexivity).
  assert (L2 : length (rdc l) = length (rdc (rdc l))) by (unfold rdc; rewrite !rcentral_length; reflexivity).
  assert (Z1 : zlen (combine l (rdc l)) = zlen l) by (unfold zlen; rewrite combine_length; lia).
  assert (Z2 : zlen (combine l (rdc (rdc l))) = zlen l) by (unfold zlen; rewrite combine_length; lia).
  assert (Z3 : zlen (combine (rdc l) (rdc (rdc l))) = zlen l) by (unfold zlen; rewrite combine_length; lia).
  destruct (plane_limits _ g C1 Hg) as (a0 & a1 & x0 & x1 & A1 & A2 & A3 & A4 & A5 & A6 & A7 & A8 & _). rewrite Z1 in A3, A4, A7, A8.
  destruct (plane_limits _ g C2 Hg) as (b0 & b1 & y0 & y1 & B1 & B2 & B3 & B4 & B5 & B6 & B7 & B8 & _). rewrite Z2 in B3, B4, B7, B8.
  destruct (plane_limits _ g C3 Hg) as (c0 & c1 & z0 & z1 & D1 & D2 & D3 & D4 & D5 & D6 & D7 & D8 & _). rewrite Z3 in D3, D4, D7, D8.
  exists (Rmin a0 (Rmin b0 c0)), (Rmax a1 (Rmax b1 c1)), (zunique (x0 ++ y0 ++ z0)), (zunique (x1 ++ y1 ++ z1)).
  pose proof (Rmin_l a0 (Rmin b0 c0)). pose proof (Rmin_r a0 (Rmin b0 c0)). pose proof (Rmin_l b0 c0). pose proof (Rmin_r b0 c0).
  pose proof (Rmax_l a1 (Rmax b1 c1)). pose proof (Rmax_r a1 (Rmax b1 c1)). pose proof (Rmax_l b1 c1). pose proof (Rmax_r b1 c1).
  split; [repeat apply Rmin_glb_lt; assumption|]. split; [lra|]. split; [apply union_bounded; assumption|]. split; [apply union_bounded; assumption|].
  split; [|split; [|split]].
  - intros s Hs. apply (three_scaled l g s); [exact HP | exact Hg | lra | apply A5; lra | apply B5; lra | apply D5; lra].
  - intros s Hs. apply (three_scaled l g s); [exact HP | exact Hg | lra | apply A6; lra | apply B6; lra | apply D6; lra].
  - intros i. rewrite in_union3, A7, B7, D7. unfold planes, three_planes. split.
    + intros [[K1 K2]|[[K1 K2]|[K1 K2]]]; (split; [exact K1|]); eexists; (split; [|exact K2]); cbn; tauto.
    + intros [K1 (P & [<-|[<-|[<-|[]]]] & K2)]; tauto.
  - intros HI i. unfold planes, three_planes in HI |- *. rewrite in_union3, A8, B8, D8 by (apply HI; cbn; tauto). split.
    + intros [[K1 K2]|[[K1 K2]|[K1 K2]]]; (split; [exact K1|]); eexists; (split; [|exact K2]); cbn; tauto.
    + intros [K1 (P & [<-|[<-|[<-|[]]]] & K2)]; tauto.
Qed.

(** ** A record whose flags depend on the unit *)
Definition wl8 : list R := [-4; -40; 40; 0; 0; -40; 40; 4].
Definition wd1 : list R := [0; 22; 20; -20; -20; 20; 22; 0].
Definition wd2 : list R := [0; 10; -21; -20; 20; 21; -10; 0].
Lemma wl8_d1 : rdc wl8 = wd1.
Proof. unfold rdc, rcentral, wl8, wd1. cbn [length seq map Nat.ltb Nat.leb andb nth Nat.sub]. repeat (apply (f_equal2 cons); [lra|]). reflexivity. Qed.
Lemma wl8_d2 : rdc wd1 = wd2.
Proof. unfold rdc, rcentral, wd1, wd2. cbn [length seq map Nat.ltb Nat.leb andb nth Nat.sub]. repeat (apply (f_equal2 cons); [lra|]). reflexivity. Qed.
Definition wP1 : list (R * R) := [(-4, 0); (-40, 22); (40, 20); (0, -20); (0, -20); (-40, 20); (40, 22); (4, 0)].
Definition wP2 : list (R * R) := [(-4, 0); (-40, 10); (40, -21); (0, -20); (0, 20); (-40, 21); (40, -10); (4, 0)].
Definition wP3 : list (R * R) := [(0, 0); (22, 10); (20, -21); (-20, -20); (-20, 20); (20, 21); (22, -10); (0, 0)].
Lemma wP1_noncol : ~ collinear wP1.
Proof.
  intros (a & b & c & Hab & H). pose proof (H (-4, 0) ltac:(cbn; tauto)) as H1. pose proof (H (4, 0) ltac:(cbn; tauto)) as H2. pose proof (H (0, -20) ltac:(cbn; tauto)) as H3. cbn [fst snd] in *. destruct Hab; lra.
Qed.
Lemma wP2_noncol : ~ collinear wP2.
Proof.
  intros (a & b & c & Hab & H). pose proof (H (-4, 0) ltac:(cbn; tauto)) as H1. pose proof (H (4, 0) ltac:(cbn; tauto)) as H2. pose proof (H (0, -20) ltac:(cbn; tauto)) as H3. cbn [fst snd] in *. destruct Hab; lra.
Qed.
Lemma wP3_noncol : ~ collinear wP3.
Proof.
  intros (a & b & c & Hab & H). pose proof (H (0, 0) ltac:(cbn; tauto)) as H1. pose proof (H (22, 10) ltac:(cbn; tauto)) as H2. pose proof (H (22, -10) ltac:(cbn; tauto)) as H3. cbn [fst snd] in *. destruct Hab; lra.
Qed.
Lemma wl8_general : in_general_position wl8.
Proof. unfold in_general_position. cbv zeta. rewrite wl8_d1, wl8_d2. split; [exact wP1_noncol|]. split; [exact wP2_noncol | exact wP3_noncol]. Qed.
Lemma wP1_turned : turned wP1 = wP1.
Proof. apply turned_uncorrelated. unfold scov, rmean, wP1. cbn [map Rsum length fst snd INR]. lra. Qed.
Lemma wP3_turned : turned wP3 = wP3.
Proof. apply turned_uncorrelated. unfold scov, rmean, wP3. cbn [map Rsum length fst snd INR]. lra. Qed.
Lemma INR64 : INR 64 = 64. Proof. rewrite INR_IZR_INZ. reflexivity. Qed.
Lemma gridpt64 a b : gridpt a b 64 1 = a + (b - a) / 63.
Proof. unfold gridpt. rewrite INR64. change (INR 1) with 1. lra. Qed.
Ltac minmax := split; [cbn; tauto | intros x Hx; cbn in Hx; repeat (destruct Hx as [<-|Hx]; [lra|]); destruct Hx].
Lemma wP1_ext : extents wP1 (-40) 40 (-20) 22.
Proof. unfold extents, wP1. cbn [map fst snd]. split; [minmax|]. split; [minmax|]. split; minmax. Qed.
Lemma wP3_ext : extents wP3 (-20) 22 (-21) 21.
Proof. unfold extents, wP3. cbn [map fst snd]. split; [minmax|]. split; [minmax|]. split; minmax. Qed.
Lemma ratio64 a b x : a < b -> (x - (a + (b - a) / 63 + b) / 2) / ((b - (a + (b - a) / 63)) / 2) = (126 * x - 62 * a - 64 * b) / (62 * (b - a)).
Proof. intros H. field. lra. Qed.
Lemma inside64 a b c d x y : a < b -> c < d -> - (40 * (b - a)) <= 126 * x - 62 * a - 64 * b <= 40 * (b - a) -> - (40 * (d - c)) <= 126 * y - 62 * c - 64 * d <= 40 * (d - c) ->
  ~ off_ellipse (gridpt a b 64 1) b (gridpt c d 64 1) d (x, y).
Proof.
  intros Hab Hcd Hx Hy H. unfold off_ellipse in H. cbn [fst snd] in H. rewrite !gridpt64, !ratio64 in H by lra.
  assert (Q : forall n h, 0 < h -> - (40 * h) <= n <= 40 * h -> (n / (62 * h)) ^ 2 <= 45 / 100).
  { intros n h Hh Hn. assert (E : n = n / h * h) by (field; lra). set (r := n / h) in *. replace (n / (62 * h)) with (r / 62) by (unfold r; field; lra).
    assert (-40 <= r <= 40) by (rewrite E in Hn; split; nra). assert (r * r <= 1600) by nra. replace ((r / 62) ^ 2) with (r * r / 3844) by field. lra. }
  pose proof (Q _ (b - a) ltac:(lra) Hx). pose proof (Q _ (d - c) ltac:(lra) Hy). lra.
Qed.
Lemma wP1_in i : i = 0%Z \/ i = 7%Z -> ~ off_whole (turned wP1) 64 i.
Proof.
  intros Hi. rewrite wP1_turned. intros (a & b & c & d & A & B & C & D & H). destruct (extents_unique wP1 a b c d _ _ _ _ (conj A (conj B (conj C D))) wP1_ext) as (-> & -> & -> & ->).
  revert H. destruct Hi as [-> | ->]; try change (Z.to_nat 7) with 7%nat; unfold wP1; cbn [Z.to_nat Pos.to_nat Pos.iter_op Nat.add nth]; apply inside64; lra.
Qed.
Lemma wP3_in i : i = 0%Z \/ i = 7%Z -> ~ off_whole (turned wP3) 64 i.
Proof.
  intros Hi. rewrite wP3_turned. intros (a & b & c & d & A & B & C & D & H). destruct (extents_unique wP3 a b c d _ _ _ _ (conj A (conj B (conj C D))) wP3_ext) as (-> & -> & -> & ->).
  revert H. destruct Hi as [-> | ->]; try change (Z.to_nat 7) with 7%nat; unfold wP3; cbn [Z.to_nat Pos.to_nat Pos.iter_op Nat.add nth]; apply inside64; lra.
Qed.
Lemma two_dirs C S b u v : C * C + S * S = 1 -> Rabs (20 * S) <= b -> Rabs (40 * C + u * S) <= b -> Rabs u <= 10 -> v * v <= 16 -> 256 <= b * b /\ 16 <= b /\ ((63 * v - b) / (62 * b)) ^ 2 <= 1 / 4.
Proof.
  intros E H1 H2 Hu Hv. assert (0 <= b) by (pose proof (Rabs_pos (20 * S)); lra).
  assert (A : Rabs (40 * C) <= 3 / 2 * b).
  { replace (40 * C) with ((40 * C + u * S) - u * S) by ring. eapply Rle_trans; [apply Rabs_triang|]. rewrite Rabs_Ropp, Rabs_mult. rewrite Rabs_mult, (Rabs_pos_eq 20) in H1 by lra.
    pose proof (Rabs_pos S). pose proof (Rmult_le_compat_r (Rabs S) _ _ ltac:(lra) Hu). lra. }
  assert (A1 : (40 * C) * (40 * C) <= (3 / 2 * b) * (3 / 2 * b)) by (rewrite <- (Rabs_pos_eq (40 * C * (40 * C))) by nra; rewrite Rabs_mult; apply Rmult_le_compat; try apply Rabs_pos; assumption).
  assert (A2 : (20 * S) * (20 * S) <= b * b) by (rewrite <- (Rabs_pos_eq (20 * S * (20 * S))) by nra; rewrite Rabs_mult; apply Rmult_le_compat; try apply Rabs_pos; assumption).
  assert (B : 256 <= b * b) by nra. assert (B1 : 16 <= b) by nra. split; [exact B|]. split; [exact B1|].
  replace (((63 * v - b) / (62 * b)) ^ 2) with (((63 * v - b) * (63 * v - b)) / ((62 * b) * (62 * b))) by (field; lra).
  apply (Rmult_le_reg_r ((62 * b) * (62 * b))); [nra|]. unfold Rdiv at 1. rewrite Rmult_assoc, Rinv_l by nra. rewrite Rmult_1_r.
  assert (V : -4 <= v <= 4) by nra. assert (- (31 * b) <= 63 * v - b <= 31 * b) by lra. nra.
Qed.
Lemma sym_ext (T : list (R * R)) a b c d : (forall p, In p T -> In (- fst p, - snd p) T) -> extents T a b c d -> a = - b /\ c = - d.
Proof.
  intros HS ([A1 A2] & [B1 B2] & [C1 C2] & [D1 D2]).
  assert (N1 : forall x, In x (map fst T) -> In (- x) (map fst T)) by (intros x Hx; apply in_map_iff in Hx; destruct Hx as (p & <- & Hp); apply in_map_iff; exists (- fst p, - snd p); split; [reflexivity | apply HS, Hp]).
  assert (N2 : forall x, In x (map snd T) -> In (- x) (map snd T)) by (intros x Hx; apply in_map_iff in Hx; destruct Hx as (p & <- & Hp); apply in_map_iff; exists (- fst p, - snd p); split; [reflexivity | apply HS, Hp]).
  pose proof (A2 _ (N1 _ B1)). pose proof (B2 _ (N1 _ A1)). pose proof (C2 _ (N2 _ D1)). pose proof (D2 _ (N2 _ C1)). lra.
Qed.
Lemma wP2_sym p : In p wP2 -> In (- fst p, - snd p) wP2.
Proof.
  assert (E : forall x y x' y' : R, x = x' -> y = y' -> (x, y) = (x', y')) by (intros; f_equal; assumption).
  unfold wP2. cbn [In]. intros H. repeat (destruct H as [<-|H]; [cbn [fst snd]; first [ do 7 right; left; apply E; lra | do 6 right; left; apply E; lra | do 5 right; left; apply E; lra | do 4 right; left; apply E; lra | do 3 right; left; apply E; lra | do 2 right; left; apply E; lra | right; left; apply E; lra | left; apply E; lra ]|]). destruct H.
Qed.
Lemma wP2_in i : i = 0%Z \/ i = 7%Z -> ~ off_whole (turned wP2) 64 i.
Proof.
  intros Hi (a & b & c & d & A & B & C & D & H). set (t := tri_angle wP2) in *. set (T := turned wP2) in *.
  assert (HS : forall p, In p T -> In (- fst p, - snd p) T).
  { intros p Hp. apply in_map_iff in Hp. destruct Hp as (z & <- & Hz). apply in_map_iff. exists (- fst z, - snd z). split; [unfold rotate; cbn [fst snd]; f_equal; ring | apply wP2_sym, Hz]. }
  destruct (sym_ext T a b c d HS (conj A (conj B (conj C D)))) as [-> ->].
  assert (PT : forall p, In p wP2 -> Rabs (fst (rotate t p)) <= b /\ Rabs (snd (rotate t p)) <= d).
  { intros p Hp. pose proof (in_map (rotate t) _ _ Hp) as Hp'. fold (turned wP2) in Hp'. fold T in Hp'. split; apply Rabs_le.
    - pose proof (proj2 A _ (in_map fst _ _ Hp')). pose proof (proj2 B _ (in_map fst _ _ Hp')). lra.
    - pose proof (proj2 C _ (in_map snd _ _ Hp')). pose proof (proj2 D _ (in_map snd _ _ Hp')). lra. }
  destruct (PT (0, 20) ltac:(unfold wP2; cbn; tauto)) as [Q1 Q2]. destruct (PT (40, -10) ltac:(unfold wP2; cbn; tauto)) as [Q3 Q4]. unfold rotate in Q1, Q2, Q3, Q4. cbn [fst snd] in Q1, Q2, Q3, Q4.
  pose proof (sin2_cos2 t) as SC. unfold Rsqr in SC.
  assert (V : exists e, (e = 1 \/ e = -1) /\ nth (Z.to_nat i) T (0, 0) = (4 * e * cos t, - (4 * e * sin t))).
  { assert (NT : forall k, (k < 8)%nat -> nth k T (0, 0) = rotate t (nth k wP2 (0, 0))) by (intros k Hk; unfold T, turned; apply nth_map_in; exact Hk).
    destruct Hi as [-> | ->]; [exists (-1) | exists 1]; (split; [lra|]); rewrite NT by (cbn; lia); try change (Z.to_nat 7) with 7%nat; unfold wP2; cbn [Z.to_nat Pos.to_nat Pos.iter_op Nat.add nth]; unfold rotate; cbn [fst snd]; apply f_equal2; lra. }
  destruct V as (e & He & V). unfold off_ellipse in H. rewrite V, !gridpt64 in H. cbn [fst snd] in H.
  assert (E2 : e * e = 1) by (destruct He as [-> | ->]; lra).
  assert (CS : cos t * cos t <= 1 /\ sin t * sin t <= 1) by nra.
  destruct (two_dirs (cos t) (sin t) b (-10) (4 * e * cos t)) as (_ & Hb & R1); [lra | replace (20 * sin t) with (0 * cos t + 20 * sin t) by ring; exact Q1 | exact Q3 | rewrite Rabs_left; lra | |].
  { replace (4 * e * cos t * (4 * e * cos t)) with (16 * (e * e) * (cos t * cos t)) by ring. rewrite E2. lra. }
  destruct (two_dirs (sin t) (cos t) d 10 (- (4 * e * sin t))) as (_ & Hd & R2); [lra | replace (20 * cos t) with (20 * cos t - 0 * sin t) by ring; exact Q2 | replace (40 * sin t + 10 * cos t) with (- (-10 * cos t - 40 * sin t)) by ring; rewrite Rabs_Ropp; exact Q4 | rewrite Rabs_pos_eq; lra | |].
  { replace (- (4 * e * sin t) * - (4 * e * sin t)) with (16 * (e * e) * (sin t * sin t)) by ring. rewrite E2. lra. }
  assert (S1 : (4 * e * cos t - (- b + (b - - b) / 63 + b) / 2) / ((b - (- b + (b - - b) / 63)) / 2) = (63 * (4 * e * cos t) - b) / (62 * b)) by (field; lra).
  assert (S2 : (- (4 * e * sin t) - (- d + (d - - d) / 63 + d) / 2) / ((d - (- d + (d - - d) / 63)) / 2) = (63 * - (4 * e * sin t) - d) / (62 * d)) by (field; lra).
  rewrite S1, S2 in H. lra.
Qed.
(** The mirror images of rho_flag_out. *)
Lemma sq_opp_div (u a : R) : @sq XR (ndiv (Fin (- u)) (Fin a)) = @sq XR (ndiv (Fin u) (Fin a)).
Proof.
  destruct (Req_dec a 0) as [->|Ha].
  - unfold sq. cbn [ndiv nmul XR car xdiv]. rewrite !Req_bool_true by reflexivity. destruct (Req_dec u 0) as [->|Hu].
    + rewrite Ropp_0. reflexivity.
    + rewrite !Req_bool_false by lra. cbn. destruct (xneg u), (xneg (- u)); reflexivity.
  - rewrite !xdiv_fin by exact Ha. unfold sq. rewrite !xmul_fin. f_equal. field. exact Ha.
Qed.
Lemma wP1_out ul uu wl wu : 0 <= uu - ul <= 7 -> wl <= wu -> (wl < wu \/ wu + wl <> 0) -> In 0%Z (flagset ul uu wl wu wP1) \/ In 7%Z (flagset ul uu wl wu wP1).
Proof.
  intros Hu Hw HD. unfold flagset. destruct (Rle_lt_dec 0 ((uu + ul) / 2)) as [Hm|Hm]; [left|right]; apply in_flags; (split; [unfold wP1, zlen; cbn; lia|]).
  - unfold wP1. cbn [Z.to_nat nth fst snd]. apply rho_flag_out; [lra | lra | lra | destruct HD; [left; lra | right; lra]].
  - change (Z.to_nat 7) with 7%nat. unfold wP1. cbn [nth fst snd]. rewrite <- (sq_opp_div (4 - (uu + ul) / 2)). apply rho_flag_out; [lra | lra | lra | destruct HD; [left; lra | right; lra]].
Qed.
Lemma three_unit_wl8 : exists r r' s s', 0 < s /\ 0 < s' /\ r <> r' /\
  @three_dimensional_kernel_full XR scott_kde DFloat (fins (map (Rmult s) wl8)) 64 = Ok r /\
  @three_dimensional_kernel_full XR scott_kde DFloat (fins (map (Rmult s') wl8)) 64 = Ok r'.
Proof.
  destruct (three_limits wl8 64 wl8_general ltac:(lia)) as (s0 & s1 & r0 & r1 & H0 & H1 & _ & _ & K0 & K1 & K2 & _). change (Z.of_nat 64) with 64%Z in *.
  rewrite wl8_d1, wl8_d2 in K2.
  assert (NI : forall i, i = 0%Z \/ i = 7%Z -> ~ In i r0).
  { intros i Hi Hin. apply K2 in Hin. destruct Hin as (_ & P & HP & HO). unfold three_planes in HP. cbn [In] in HP.
    destruct HP as [<-|[<-|[<-|[]]]]; [apply (wP1_in i Hi), HO | apply (wP2_in i Hi), HO | apply (wP3_in i Hi), HO]. }
  destruct (plane_limits wP1 64 wP1_noncol ltac:(lia)) as (_ & t1 & _ & x1 & _ & Ht1 & _ & _ & _ & T1 & _ & _ & a & b & c & d & p & q & [HX HP] & Ex). rewrite wP1_turned in HX, HP, Ex.
  destruct (extents_unique wP1 a b c d _ _ _ _ HX wP1_ext) as (-> & -> & -> & ->). destruct HP as (Hp & Hq & _). rewrite map_length, seq_length in Hp, Hq.
  exists r0, r1, s0, (Rmax s1 t1). pose proof (Rmax_l s1 t1) as M1. pose proof (Rmax_r s1 t1) as M2. split; [exact H0|]. split; [lra|].
  assert (E1 := K1 (Rmax s1 t1) M1). specialize (T1 (Rmax s1 t1) M2). change (Z.of_nat 64) with 64%Z in T1. set (s := Rmax s1 t1) in *.
  split; [|split; [apply K0; lra | exact E1]].
  assert (HG : in_general_position (map (Rmult s) wl8)).
  { unfold in_general_position. cbv zeta. rewrite !rdc_scl, wl8_d1, wl8_d2, !combine_sclp. split; [|split]; apply noncol_sclp; try lra; [exact wP1_noncol | exact wP2_noncol | exact wP3_noncol]. }
  destruct (three_full_any scott_kde _ 64 scott_estimator ltac:(lia) HG) as (r & y1 & E & _ & E2 & Hsub). rewrite E in E1. injection E1 as ->.
  rewrite rdc_scl, wl8_d1, combine_sclp in E2. change (combine wl8 wd1) with wP1 in E2. rewrite T1 in E2. injection E2 as <-.
  intros ->. rewrite Ex in Hsub.
  assert (GW : forall a b i j, a < b -> (i <= j)%nat -> (j <= i + 2)%nat -> 0 <= gridpt a b 64 j - gridpt a b 64 i <= 2 * ((b - a) / 63)).
  { intros a' b' i j Hab Hij Hj. unfold gridpt. rewrite INR64. apply le_INR in Hij. apply le_INR in Hj. rewrite plus_INR in Hj. change (INR 2) with 2 in Hj.
    assert (0 < (b' - a') / (64 - 1)) by (apply Rdiv_lt_0_compat; lra). replace (64 - 1) with 63 in * by lra. split; nra. }
  destruct (wP1_out (gridpt (-40) 40 64 (Nat.max 1 (p - 1))) (gridpt (-40) 40 64 (Nat.min (64 - 1) (p + 1))) (gridpt (-20) 22 64 (Nat.max 1 (q - 1))) (gridpt (-20) 22 64 (Nat.min (64 - 1) (q + 1)))) as [H|H].
  - pose proof (GW (-40) 40 (Nat.max 1 (p - 1)) (Nat.min (64 - 1) (p + 1)) ltac:(lra) ltac:(lia) ltac:(lia)). lra.
  - pose proof (GW (-20) 22 (Nat.max 1 (q - 1)) (Nat.min (64 - 1) (q + 1)) ltac:(lra) ltac:(lia) ltac:(lia)). lra.
  - destruct (Nat.eq_dec q 0) as [->|Hq0].
    + right. change (Nat.max 1 (0 - 1)) with 1%nat. change (Nat.min (64 - 1) (0 + 1)) with 1%nat. rewrite gridpt64. lra.
    + left. apply gridpt_lt; [lra | lia | lia].
  - exact (NI 0%Z (or_introl eq_refl) (Hsub _ H)).
  - exact (NI 7%Z (or_intror eq_refl) (Hsub _ H)).
Qed.
Lemma three_unit_refuted : let l := [-4; -40; 40; 0; 0; -40; 40; 4] in exists r r' s s', 0 < s /\ 0 < s' /\ r <> r' /\
  @three_dimensional_kernel_full XR scott_kde DFloat (fins (map (Rmult s) l)) 64 = Ok r /\
  @three_dimensional_kernel_full XR scott_kde DFloat (fins (map (Rmult s') l)) 64 = Ok r'.
Proof. exact three_unit_wl8. Qed.
Lemma biv_unit_example : exists l r, r <> [] /\ forall c, 0 < c -> biv_detect scott_kde (fins (map (Rmult c) l)) = Ok r.
Proof.
  destruct biv_hypotheses as (l & HC & _). destruct (proj1 (biv_scott l) HC) as (r & _ & E & Hr & _). exists l, r. split; [exact Hr|].
  intros c Hc. rewrite (biv_unit scott_kde c l scott_units Hc). exact E.
Qed.
Lemma limits_example : in_general_position [-4; -40; 40; 0; 0; -40; 40; 4] /\ exists P, In P (three_planes [-4; -40; 40; 0; 0; -40; 40; 4] [0; 22; 20; -20; -20; 20; 22; 0] [0; 10; -21; -20; 20; 21; -10; 0]) /\
  ~ off_whole (turned P) 64 0 /\ off_whole (turned P) 64 1.
Proof.
  split; [exact wl8_general|]. exists wP1. split; [left; reflexivity|]. split; [apply wP1_in; left; reflexivity|]. rewrite wP1_turned.
  exists (-40), 40, (-20), 22. destruct wP1_ext as (A & B & C & D). repeat (split; [assumption|]). unfold off_ellipse. rewrite !gridpt64, !ratio64 by lra.
  change (Z.to_nat 1) with 1%nat. unfold wP1. cbn [nth fst snd].
  assert (Q : 1 < ((126 * -40 - 62 * -40 - 64 * 40) / (62 * (40 - -40))) ^ 2).
  { replace ((126 * -40 - 62 * -40 - 64 * 40) / (62 * (40 - -40))) with (- (32 / 31)) by field. lra. }
  pose proof (pow2_ge_0 ((126 * 22 - 62 * -20 - 64 * 22) / (62 * (22 - -20)))). lra.
Qed.
