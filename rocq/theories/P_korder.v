(** Lemmas: what the bivariate density and the summary statistics do not depend on. *)
From Coq Require Import Reals Lra Permutation.
From Flocq Require Import Core.Raux.
From Verif Require Export NpBase XR Spec2 M_kernel P_series P_kernel P_hist.
Local Open Scope Z_scope.

(** The value found by the bandwidth search is not used. *)
Lemma kernel_search_unused (N : Num) fft s1 s2 (xs ys : list N) hx hy grid :
  (forall m k, exists t, s1 m k = Ok t) -> (forall m k, exists t, s2 m k = Ok t) ->
  bivariate_kernel fft s1 xs ys hx hy grid = bivariate_kernel fft s2 xs ys hx hy grid.
Proof.
  intros H1 H2. unfold bivariate_kernel.
  destruct (k_scaling xs) as [[[max0 min0] scale0]|]; cbn [bind]; [|reflexivity].
  destruct (k_scaling ys) as [[[max1 min1] scale1]|]; cbn [bind]; [|reflexivity].
  destruct (k_histogram _ grid) as [binned|]; cbn [bind]; [|reflexivity].
  destruct (dct2 fft binned) as [discrete|]; cbn [bind]; [|reflexivity].
  destruct (H1 discrete (zlen xs + zlen ys)) as (t1 & ->). destruct (H2 discrete (zlen xs + zlen ys)) as (t2 & ->).
  reflexivity.
Qed.
(** An exception of the search is the outcome of the call. *)
Lemma kernel_search_raises (N : Num) fft s1 e (xs ys : list N) hx hy grid out :
  (forall m k, s1 m k = Raise e) -> bivariate_kernel fft s1 xs ys hx hy grid = Ok out -> False.
Proof.
  intros H1. unfold bivariate_kernel.
  destruct (k_scaling xs) as [[[max0 min0] scale0]|]; cbn [bind]; [|discriminate].
  destruct (k_scaling ys) as [[[max1 min1] scale1]|]; cbn [bind]; [|discriminate].
  destruct (k_histogram _ grid) as [binned|]; cbn [bind]; [|discriminate].
  destruct (dct2 fft binned) as [discrete|]; cbn [bind]; [|discriminate].
  rewrite H1. cbn [bind]. discriminate.
Qed.

Lemma is_min_perm l l' a : Permutation l l' -> is_min l a -> is_min l' a.
Proof.
  intros HP [H1 H2]. split; [apply (Permutation_in _ HP H1)|].
  intros x Hx. apply H2. apply (Permutation_in _ (Permutation_sym HP) Hx).
Qed.
Lemma is_max_perm l l' a : Permutation l l' -> is_max l a -> is_max l' a.
Proof.
  intros HP [H1 H2]. split; [apply (Permutation_in _ HP H1)|].
  intros x Hx. apply H2. apply (Permutation_in _ (Permutation_sym HP) Hx).
Qed.
Lemma scaling_perm l l' : Permutation l l' -> @k_scaling XR (fins l) = @k_scaling XR (fins l').
Proof.
  intros HP. destruct l as [|x l]; [apply Permutation_nil in HP; subst; reflexivity|].
  destruct (arr_max_fins (x :: l)) as (b & Hb & _); [discriminate|].
  destruct (arr_min_fins (x :: l)) as (a & Ha & _); [discriminate|].
  rewrite (scaling_exact _ a b Ha Hb), (scaling_exact l' a b); [reflexivity | apply (is_min_perm _ _ _ HP Ha) | apply (is_max_perm _ _ _ HP Hb)].
Qed.

Lemma filter_perm {A} (f : A -> bool) l l' : Permutation l l' -> length (filter f l) = length (filter f l').
Proof.
  intros HP. induction HP as [|x l l' HP IH|x y l|l l' l'' _ IH1 _ IH2]; [reflexivity | | | congruence].
  - cbn [filter]. destruct (f x); cbn; congruence.
  - cbn [filter]. destruct (f x), (f y); reflexivity.
Qed.
Lemma mat_ext (B C : list (list R)) g : mshape B g g -> mshape C g g ->
  (forall i j, (i < g)%nat -> (j < g)%nat -> nth j (nth i B []) 0%R = nth j (nth i C []) 0%R) -> B = C.
Proof.
  intros [LB RB] [LC RC] H.
  apply (nth_ext_len B C []); [congruence|]. intros i Hi.
  assert (Hb : length (nth i B []) = g) by (apply RB, nth_In; exact Hi).
  assert (Hc : length (nth i C []) = g) by (apply RC, nth_In; lia).
  apply (nth_ext_len _ _ 0%R); [congruence|]. intros j Hj. apply H; lia.
Qed.
Lemma hist_perm (T T' : list (XR * XR)) g : 1 <= g -> Permutation T T' -> k_histogram T g = k_histogram T' g.
Proof.
  intros Hg HP. destruct T as [|p T]; [apply Permutation_nil in HP; subst; reflexivity|].
  destruct (hist_exact (p :: T) g Hg) as (B & E & SB & HB & _); [discriminate|].
  destruct (hist_exact T' g Hg) as (C & E' & SC & HC & _).
  { intros ->. apply Permutation_sym, Permutation_nil in HP. discriminate. }
  rewrite E, E'. do 2 f_equal. apply (mat_ext B C (Z.to_nat g) SB SC). intros i j Hi Hj.
  rewrite HB, HC by assumption. rewrite (filter_perm _ _ _ HP), (Permutation_length HP). reflexivity.
Qed.

Lemma kernel_order fft search (T T' : list (R * R)) (hx hy : XR) grid : 1 <= grid -> Permutation T T' ->
  @bivariate_kernel XR fft search (fins (map fst T)) (fins (map snd T)) hx hy grid =
  @bivariate_kernel XR fft search (fins (map fst T')) (fins (map snd T')) hx hy grid.
Proof.
  intros Hg HP. unfold bivariate_kernel.
  rewrite (scaling_perm _ _ (Permutation_map fst HP)), (scaling_perm _ _ (Permutation_map snd HP)).
  assert (L1 : zlen (fins (map fst T)) = zlen (fins (map fst T'))) by (unfold zlen, fins; rewrite !map_length, (Permutation_length HP); reflexivity).
  assert (L2 : zlen (fins (map snd T)) = zlen (fins (map snd T'))) by (unfold zlen, fins; rewrite !map_length, (Permutation_length HP); reflexivity).
  rewrite L1, L2.
  destruct (@k_scaling XR (fins (map fst T'))) as [[[max0 min0] scale0]|]; cbn [bind]; [|reflexivity].
  destruct (@k_scaling XR (fins (map snd T'))) as [[[max1 min1] scale1]|]; cbn [bind]; [|reflexivity].
  assert (EH : forall U : list (R * R), combine (@k_transform XR (fins (map fst U)) min0 scale0) (@k_transform XR (fins (map snd U)) min1 scale1) =
    map (fun p => (ndiv (nsub (Fin (fst p) : XR) min0) scale0, ndiv (nsub (Fin (snd p) : XR) min1) scale1)) U).
  { intros U. unfold k_transform, fins. induction U as [|p U IH]; [reflexivity|]. cbn [map combine]. f_equal. exact IH. }
  rewrite !EH, (hist_perm _ _ grid Hg (Permutation_map _ HP)). reflexivity.
Qed.
Lemma kernel_even fft search (xs ys : list XR) (hx hy : R) grid :
  @bivariate_kernel XR fft search xs ys (Fin (- hx)) (Fin (- hy)) grid = @bivariate_kernel XR fft search xs ys (Fin hx) (Fin hy) grid.
Proof.
  unfold bivariate_kernel.
  assert (E : forall h, @sq XR (Fin (- h)) = @sq XR (Fin h)) by (intros h; unfold sq; cbn; f_equal; ring).
  rewrite !E. reflexivity.
Qed.

(** ** Statistics *)
From Verif Require Export Spec M_signal M_normal P_moment P_order P_detect P_corr.
Lemma xadd_comm (a b : XR) : nadd a b = nadd b a.
Proof. destruct a as [x|[]|], b as [y|[]|]; cbn; try reflexivity. f_equal. ring. Qed.
Lemma xadd_assoc (a b c : XR) : nadd a (nadd b c) = nadd (nadd a b) c.
Proof. destruct a as [x|[]|], b as [y|[]|], c as [z|[]|]; cbn; try reflexivity. f_equal. ring. Qed.
Lemma xsum_cons (a : XR) l : nsum (a :: l) = nadd a (nsum l). Proof. reflexivity. Qed.
Lemma xsum_perm (l l' : list XR) : Permutation l l' -> nsum l = nsum l'.
Proof.
  intros HP. induction HP as [|x l l' HP IH|x y l|l l' l'' _ IH1 _ IH2]; [reflexivity | | | congruence].
  - rewrite !xsum_cons, IH. reflexivity.
  - rewrite !xsum_cons, !xadd_assoc, (xadd_comm y x). reflexivity.
Qed.
Lemma zlen_perm {A} (l l' : list A) : Permutation l l' -> zlen l = zlen l'.
Proof. intros HP. unfold zlen. rewrite (Permutation_length HP). reflexivity. Qed.
Lemma np_mean_perm (l l' : list XR) : Permutation l l' -> np_mean l = np_mean l'.
Proof. intros HP. unfold np_mean. rewrite (xsum_perm _ _ HP), (zlen_perm _ _ HP). reflexivity. Qed.
Lemma np_var_perm (l l' : list XR) : Permutation l l' -> np_var l = np_var l'.
Proof. intros HP. unfold np_var. rewrite (np_mean_perm _ _ HP). apply np_mean_perm, Permutation_map, HP. Qed.
Lemma perm_ne {A} (l l' : list A) : Permutation l l' -> l <> [] -> l' <> [].
Proof. intros HP H ->. apply H, Permutation_nil, Permutation_sym, HP. Qed.
Lemma std_perm (l l' : list XR) : Permutation l l' -> spread_std (farr l) = spread_std (farr l').
Proof.
  intros HP. destruct l as [|x l]; [apply Permutation_nil in HP; subst; reflexivity|].
  rewrite !spread_std_farr; [|apply (perm_ne _ _ HP); discriminate | discriminate].
  unfold np_std. rewrite (np_var_perm _ _ HP). reflexivity.
Qed.
Lemma var_perm (l l' : list XR) : Permutation l l' -> spread_variance (farr l) = spread_variance (farr l').
Proof.
  intros HP. destruct l as [|x l]; [apply Permutation_nil in HP; subst; reflexivity|].
  rewrite !spread_variance_farr; [|apply (perm_ne _ _ HP); discriminate | discriminate].
  rewrite (np_var_perm _ _ HP). reflexivity.
Qed.
Lemma mean_of_perm (l l' : list XR) : Permutation l l' -> mean_of l = mean_of l'.
Proof.
  intros HP. destruct l as [|x l]; [apply Permutation_nil in HP; subst; reflexivity|].
  rewrite !mean_of_ne; [|apply (perm_ne _ _ HP); discriminate | discriminate].
  rewrite (np_mean_perm _ _ HP). reflexivity.
Qed.
Lemma skew_perm (l l' : list XR) : Permutation l l' -> moment_skewness l = moment_skewness l'.
Proof.
  intros HP. unfold moment_skewness. rewrite (mean_of_perm _ _ HP), (std_perm _ _ HP), (zlen_perm _ _ HP).
  destruct (mean_of l') as [o|]; cbn [bind]; [|reflexivity]. destruct (spread_std (farr l')) as [s|]; cbn [bind]; [|reflexivity].
  destruct (as_num o) as [a|]; cbn [bind]; [|reflexivity].
  rewrite (xsum_perm _ _ (Permutation_map (fun x => nipow (nsub x a) 3) HP)). reflexivity.
Qed.
Lemma kurt_perm (l l' : list XR) : Permutation l l' -> moment_kurtosis l = moment_kurtosis l'.
Proof.
  intros HP. unfold moment_kurtosis. rewrite (mean_of_perm _ _ HP), (std_perm _ _ HP).
  destruct (mean_of l') as [o|]; cbn [bind]; [|reflexivity]. destruct (spread_std (farr l')) as [s|]; cbn [bind]; [|reflexivity].
  destruct (as_num o) as [a|]; cbn [bind]; [|reflexivity].
  rewrite (mean_of_perm _ _ (Permutation_map (fun x => nipow (nsub x a) 4) HP)). reflexivity.
Qed.
Lemma stats_order (l l' : list XR) : Permutation l l' ->
  mean_of l = mean_of l' /\ spread_variance (farr l) = spread_variance (farr l') /\ spread_std (farr l) = spread_std (farr l') /\
  moment_skewness l = moment_skewness l' /\ moment_kurtosis l = moment_kurtosis l' /\
  forall alt, skewtest l alt = skewtest l' alt /\ kurtotest l alt = kurtotest l' alt.
Proof.
  intros HP. split; [apply mean_of_perm, HP|]. split; [apply var_perm, HP|]. split; [apply std_perm, HP|].
  split; [apply skew_perm, HP|]. split; [apply kurt_perm, HP|]. intros alt. split.
  - unfold skewtest. rewrite (skew_perm _ _ HP), (zlen_perm _ _ HP). reflexivity.
  - unfold kurtotest. rewrite (kurt_perm _ _ HP), (zlen_perm _ _ HP). reflexivity.
Qed.

(** ** Statistics of three components *)
Definition c1 (p : XR * XR * XR) : XR := fst (fst p).
Definition c2 (p : XR * XR * XR) : XR := snd (fst p).
Definition c3 (p : XR * XR * XR) : XR := snd p.
Lemma fluct_col {A} (f : A -> XR) (T : list A) : T <> [] -> fluct (map f T) = Ok (map (fun p => nsub (f p) (np_mean (map f T))) T).
Proof.
  intros H. unfold fluct. rewrite mean_num_ne; [cbn [bind]; rewrite map_map; reflexivity|].
  intros E. apply map_eq_nil in E. contradiction.
Qed.
Lemma bcast_cols {A} (f g : A -> XR) (T : list A) : bcast nmul (map f T) (map g T) = Ok (map (fun p => nmul (f p) (g p)) T).
Proof.
  rewrite bcast_same by (rewrite !map_length; reflexivity). f_equal. unfold zipwith.
  induction T as [|p T IH]; [reflexivity|]. cbn in *. f_equal. exact IH.
Qed.
Lemma mean_col_perm {A} (f : A -> XR) (T T' : list A) : Permutation T T' -> mean_num (map f T) = mean_num (map f T').
Proof. intros HP. unfold mean_num. rewrite (mean_of_perm _ _ (Permutation_map f HP)). reflexivity. Qed.
Lemma turbulence_order (T T' : list (XR * XR * XR)) : Permutation T T' ->
  let u := map (fun p => fst (fst p)) in let v := map (fun p => snd (fst p)) in let w := map (fun p => snd p) in
  kinetic_turbulent_energy (u T) (v T) (w T) = kinetic_turbulent_energy (u T') (v T') (w T') /\
  reynolds_stresses (u T) (v T) (w T) = reynolds_stresses (u T') (v T') (w T').
Proof.
  intros HP u v w. destruct T as [|p T]; [apply Permutation_nil in HP; subst; split; reflexivity|].
  assert (H1 : p :: T <> []) by discriminate. assert (H2 := perm_ne _ _ HP H1). set (T0 := p :: T) in *. clearbody T0. clear p T.
  unfold u, v, w, kinetic_turbulent_energy, reynolds_stresses.
  rewrite !fluct_col by assumption. cbn [bind].
  rewrite <- !(fun f => np_mean_perm _ _ (Permutation_map f HP)).
  rewrite !map_map. rewrite !bcast_cols. cbn [bind].
  rewrite <- !(fun f => mean_col_perm f _ _ HP). split; reflexivity.
Qed.

(** ** Velocity correlation *)
Lemma sorted_indices {A} (f : nat -> A) (p : nat -> bool) n : forall r, StronglySorted Z.lt r ->
  (forall i, In i r <-> 0 <= i < Z.of_nat n /\ p (Z.to_nat i) = true) ->
  map (fun i => f (Z.to_nat i)) r = map f (filter p (seq 0 n)).
Proof.
  intros r Hr Hi. rewrite <- (map_map Z.to_nat f). f_equal.
  assert (E : r = map Z.of_nat (filter p (seq 0 n))).
  { apply sorted_ext; [exact Hr | |].
    - assert (HS : forall s n, StronglySorted lt (seq s n)).
      { intros s m. revert s. induction m as [|m IH]; intros s; cbn; constructor; [apply IH|]. apply Forall_forall. intros x Hx. apply in_seq in Hx. lia. }
      specialize (HS 0%nat n). induction HS as [|x l Hs IH Hf]; cbn; [constructor|].
      rewrite Forall_forall in Hf. destruct (p x); [|exact IH]. cbn. constructor; [exact IH|]. apply Forall_forall.
      intros z Hz. apply in_map_iff in Hz. destruct Hz as (y & <- & Hy). apply filter_In in Hy. specialize (Hf y (proj1 Hy)). lia.
    - intros i. rewrite Hi, in_map_iff. split.
      + intros [B P]. exists (Z.to_nat i). split; [lia|]. apply filter_In. split; [apply in_seq; lia | exact P].
      + intros (y & <- & Hy). apply filter_In in Hy. destruct Hy as [Hy P]. apply in_seq in Hy. rewrite Nat2Z.id. split; [lia | exact P]. }
  rewrite E, map_map. rewrite <- map_id. apply map_ext. intros x. apply Nat2Z.id.
Qed.
Lemma filter_map_swap {A B} (f : A -> B) (p : B -> bool) l : filter p (map f l) = map f (filter (fun x => p (f x)) l).
Proof. induction l as [|a l IH]; [reflexivity|]. cbn. destruct (p (f a)); cbn; rewrite IH; reflexivity. Qed.
Lemma filter_nth {A} (p : A -> bool) d (l : list A) : map (fun i => nth i l d) (filter (fun i => p (nth i l d)) (seq 0 (length l))) = filter p l.
Proof.
  induction l as [|a l IH]; [reflexivity|]. cbn [length seq filter nth].
  assert (E : map (fun i => nth i (a :: l) d) (filter (fun i => p (nth i (a :: l) d)) (seq 1 (length l))) = filter p l).
  { rewrite <- seq_shift, filter_map_swap, map_map. exact IH. }
  destruct (p a); cbn [map]; [change (nth 0 (a :: l) d) with a; f_equal|]; exact E.
Qed.
Definition dev3 (du dv dw : R) (t1 a1 b1 t2 a2 b2 t3 a3 b3 : R) : bool :=
  Rlt_bool 1 (((du * cos t1 + dv * sin t1) / a1) ^ 2 + ((dv * cos t1 - du * sin t1) / b1) ^ 2) ||
  Rlt_bool 1 (((du * cos t2 + dw * sin t2) / a2) ^ 2 + ((dw * cos t2 - du * sin t2) / b2) ^ 2) ||
  Rlt_bool 1 (((dv * cos t3 + dw * sin t3) / a3) ^ 2 + ((dw * cos t3 - dv * sin t3) / b3) ^ 2).
Lemma dev3_iff du dv dw t1 a1 b1 t2 a2 b2 t3 a3 b3 : dev3 du dv dw t1 a1 b1 t2 a2 b2 t3 a3 b3 = true <->
  (outside t1 a1 b1 du dv \/ outside t2 a2 b2 du dw \/ outside t3 a3 b3 dv dw).
Proof. unfold dev3, outside. rewrite !orb_true_iff, !Rlt_bool_iff. tauto. Qed.
Lemma rcov_cols {A} (f g : A -> R) T T' : Permutation T T' -> rcov (map f T) (map g T) = rcov (map f T') (map g T').
Proof.
  intros HP. unfold rcov. rewrite (rmean_perm _ _ (Permutation_map f HP)), (rmean_perm _ _ (Permutation_map g HP)), !map_length, (Permutation_length HP).
  f_equal.
  assert (E : forall S : list A, combine (map f S) (map g S) = map (fun p => (f p, g p)) S).
  { intros S. induction S as [|s S IH]; [reflexivity|]. cbn. rewrite IH. reflexivity. }
  rewrite !E. apply Rsum_perm, Permutation_map, Permutation_map, HP.
Qed.
Lemma rvar_perm l m : Permutation l m -> rvar l = rvar m.
Proof. intros H. unfold rvar. apply rmoment_perm, H. Qed.
Lemma filter_permutation {A} (f : A -> bool) l l' : Permutation l l' -> Permutation (filter f l) (filter f l').
Proof.
  intros HP. induction HP as [|x l l' HP IH|x y l|l l' l'' _ IH1 _ IH2]; [constructor | | | econstructor; eassumption].
  - cbn [filter]. destruct (f x); [constructor|]; exact IH.
  - cbn [filter]. destruct (f x), (f y); try apply Permutation_refl. apply perm_swap.
Qed.
Lemma correlation_order (T T' : list (R * R * R)) : Permutation T T' -> (3 <= length T)%nat ->
  let u := map (fun p => fst (fst p)) in let v := map (fun p => snd (fst p)) in let w := map (fun p => snd p) in
  (velocity_correlation (fins (u T)) (fins (v T)) (fins (w T)) = Raise ValueError /\
   velocity_correlation (fins (u T')) (fins (v T')) (fins (w T')) = Raise ValueError) \/
  (exists r r', velocity_correlation (fins (u T)) (fins (v T)) (fins (w T)) = Ok r /\
   velocity_correlation (fins (u T')) (fins (v T')) (fins (w T')) = Ok r' /\
   Permutation (map (fun i => nth (Z.to_nat i) T (0, 0, 0)%R) r) (map (fun i => nth (Z.to_nat i) T' (0, 0, 0)%R) r')).
Proof.
  intros HP Hn u v w. pose proof (Permutation_length HP) as HL.
  pose proof (correlation_exact (u T) (v T) (w T)) as H. pose proof (correlation_exact (u T') (v T') (w T')) as H'.
  cbv zeta in H, H'.
  assert (LT : forall f (S : list (R * R * R)), length (map f S) = length S) by (intros f S; apply (@map_length _ R)).
  unfold u, v, w in *.
  specialize (H ltac:(rewrite LT; exact Hn) ltac:(rewrite !LT; reflexivity) ltac:(rewrite !LT; reflexivity)).
  specialize (H' ltac:(rewrite LT, <- HL; exact Hn) ltac:(rewrite !LT; reflexivity) ltac:(rewrite !LT; reflexivity)).
  unfold ellipse_exists, rangle, raxis1, raxis2, rangle, rstd in H, H'.
  rewrite !LT, <- HL, <- !(fun f => rvar_perm _ _ (Permutation_map f HP)), <- !(fun f => rmean_perm _ _ (Permutation_map f HP)),
    <- !(fun f g => rcov_cols f g _ _ HP) in H'. rewrite !LT in H.
  match type of H with (?X -> _) /\ _ => set (E := X) in * end.
  assert (DE : E \/ ~ E).
  { unfold E. clear.
    assert (D : forall a b c d e f g h i j k l : R, ((a < b /\ c < d) /\ (e < f /\ g < h) /\ (i < j /\ k < l))%R \/ ~ ((a < b /\ c < d) /\ (e < f /\ g < h) /\ (i < j /\ k < l))%R).
    { intros a b c d e f g h i j k l. destruct (Rlt_dec a b); [|right; tauto]. destruct (Rlt_dec c d); [|right; tauto].
      destruct (Rlt_dec e f); [|right; tauto]. destruct (Rlt_dec g h); [|right; tauto]. destruct (Rlt_dec i j); [|right; tauto].
      destruct (Rlt_dec k l); [left; tauto | right; tauto]. }
    apply D. }
  destruct DE as [HE|HE]; [right | left; split; [apply (proj2 H HE) | apply (proj2 H' HE)]].
  destruct (proj1 H HE) as (r & E1 & S1 & I1). destruct (proj1 H' HE) as (r' & E2 & S2 & I2). exists r, r'.
  split; [exact E1|]. split; [exact E2|].
  set (mu := rmean (map (fun p : R * R * R => fst (fst p)) T)) in *. set (mv := rmean (map (fun p : R * R * R => snd (fst p)) T)) in *.
  set (mw := rmean (map (fun p : R * R * R => snd p) T)) in *.
  match type of I1 with forall i, _ <-> _ /\ (outside ?t1 ?a1 ?b1 _ _ \/ outside ?t2 ?a2 ?b2 _ _ \/ outside ?t3 ?a3 ?b3 _ _) =>
    set (q := fun p : R * R * R => dev3 (fst (fst p) - mu) (snd (fst p) - mv) (snd p - mw) t1 a1 b1 t2 a2 b2 t3 a3 b3) end.
  assert (G : forall S (k : nat), (k < length S)%nat ->
    nth k (map (fun p : R * R * R => fst (fst p)) S) 0%R = fst (fst (nth k S (0, 0, 0)%R)) /\
    nth k (map (fun p : R * R * R => snd (fst p)) S) 0%R = snd (fst (nth k S (0, 0, 0)%R)) /\
    nth k (map (fun p : R * R * R => snd p) S) 0%R = snd (nth k S (0, 0, 0)%R)).
  { intros S k Hk. rewrite !(nth_map_in _ _ _ (0, 0, 0)%R) by exact Hk. auto. }
  rewrite (sorted_indices (fun k => nth k T (0, 0, 0)%R) (fun k => q (nth k T (0, 0, 0)%R)) (length T) r S1), filter_nth.
  2:{ intros i. rewrite I1. unfold zlen. rewrite LT. split; intros [B P]; (split; [exact B|]).
      - apply dev3_iff. destruct (G T (Z.to_nat i)) as (G1 & G2 & G3); [lia|]. rewrite G1, G2, G3 in P. exact P.
      - apply dev3_iff in P. destruct (G T (Z.to_nat i)) as (G1 & G2 & G3); [lia|]. rewrite G1, G2, G3. exact P. }
  rewrite (sorted_indices (fun k => nth k T' (0, 0, 0)%R) (fun k => q (nth k T' (0, 0, 0)%R)) (length T') r' S2), filter_nth.
  2:{ intros i. rewrite I2. unfold zlen. rewrite LT. split; intros [B P]; (split; [lia|]).
      - apply dev3_iff. destruct (G T' (Z.to_nat i)) as (G1 & G2 & G3); [lia|]. rewrite G1, G2, G3 in P. exact P.
      - apply dev3_iff in P. destruct (G T' (Z.to_nat i)) as (G1 & G2 & G3); [lia|]. rewrite G1, G2, G3. exact P. }
  apply filter_permutation, HP.
Qed.
