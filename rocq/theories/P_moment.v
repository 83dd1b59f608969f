(** Proofs about spread.py, moment.py and fluid.py. *)
From Coq Require Import Reals Lra Psatz.
From Flocq Require Import Core.Raux.
From Verif Require Export P_order M_signal.
Local Open Scope R_scope.

Lemma np_mean_fins l : l <> [] -> @np_mean XR (fins l) = Fin (rmean l).
Proof.
  intros H. pose proof (INR_len_pos l H). unfold np_mean. rewrite xsum_fins, xofZ_fin, IZR_zlen, fins_length.
  rewrite xdiv_fin by lra. reflexivity.
Qed.
Lemma map_fins (f : R -> R) (g : XR -> XR) l : (forall x, g (Fin x) = Fin (f x)) -> map g (fins l) = fins (map f l).
Proof. intros H. unfold fins. rewrite !map_map. apply map_ext. exact H. Qed.
Lemma map_nil_iff {A B} (f : A -> B) l : l <> [] -> map f l <> [].
Proof. destruct l; [congruence | discriminate]. Qed.
Lemma mean_of_ne {N : Num} (l : list N) : l <> [] -> mean_of l = Ok (MVal (np_mean l)).
Proof.
  intros H. unfold mean_of. rewrite (mean_numeric _ _ l); [reflexivity| |exact H].
  apply mapM_to_num, mapM_to_num_floats.
Qed.
Lemma mean_num_ne {N : Num} (l : list N) : l <> [] -> mean_num l = Ok (np_mean l).
Proof. intros H. unfold mean_num. rewrite mean_of_ne by exact H. reflexivity. Qed.
Lemma mean_num_nil {N : Num} : @mean_num N [] = Raise TypeError.
Proof. reflexivity. Qed.
Lemma mean_num_fins l : l <> [] -> @mean_num XR (fins l) = Ok (Fin (rmean l)).
Proof. intros H. rewrite mean_num_ne by (apply fins_nil, H). rewrite np_mean_fins by exact H. reflexivity. Qed.

Lemma sq_fin x : @sq XR (Fin x) = Fin (x ^ 2).
Proof. unfold sq. rewrite xmul_fin. f_equal. ring. Qed.
Lemma np_var_fins l : l <> [] -> @np_var XR (fins l) = Fin (rvar l).
Proof.
  intros H. unfold np_var. rewrite np_mean_fins by exact H.
  rewrite (map_fins (fun x => (x - rmean l) ^ 2)) by (intros x; rewrite xsub_fin, sq_fin; reflexivity).
  rewrite np_mean_fins by (apply map_nil_iff, H). reflexivity.
Qed.
Lemma np_std_fins l : l <> [] -> @np_std XR (fins l) = Fin (rstd l).
Proof. intros H. unfold np_std. rewrite np_var_fins by exact H. apply xsqrt_fin, rvar_nonneg, H. Qed.

Lemma variance_correct l : l <> [] -> @spread_variance XR (farr (fins l)) = Ok (Fin (rvar l)).
Proof. intros H. rewrite spread_variance_farr by (apply fins_nil, H). rewrite np_var_fins by exact H. reflexivity. Qed.
Lemma std_correct l : l <> [] -> @spread_std XR (farr (fins l)) = Ok (Fin (rstd l)).
Proof. intros H. rewrite spread_std_farr by (apply fins_nil, H). rewrite np_std_fins by exact H. reflexivity. Qed.
Lemma spread_errors {N : Num} (d : nda N) :
  (nd_ndim d <> 1%Z -> spread_variance d = Raise ValueError /\ spread_std d = Raise ValueError) /\
  (nd_ndim d = 1%Z -> (exists s, In (PyStr s) (nd_items d)) -> spread_variance d = Raise TypeError /\ spread_std d = Raise TypeError) /\
  (nd_ndim d = 1%Z -> nd_items d = [] -> spread_variance d = Raise ValueError /\ spread_std d = Raise ValueError).
Proof.
  unfold spread_variance, spread_std. split; [|split].
  - intros H. rewrite (proj2 (Z.eqb_neq _ _) H). split; reflexivity.
  - intros H (s & Hs). rewrite H. cbn [Z.eqb Pos.eqb negb].
    replace (existsb is_str (nd_items d)) with true by (symmetry; apply existsb_exists; eexists; split; [exact Hs | reflexivity]).
    split; reflexivity.
  - intros H E. rewrite H, E. split; reflexivity.
Qed.

Lemma rstd_nonneg l : 0 <= rstd l.
Proof. apply sqrt_pos. Qed.
Lemma rstd_pow2 l : l <> [] -> rstd l ^ 2 = rvar l.
Proof. intros H. unfold rstd. rewrite <- Rsqr_pow2, Rsqr_sqrt; [reflexivity | apply rvar_nonneg, H]. Qed.
Lemma rstd_pos l : l <> [] -> rvar l <> 0 -> 0 < rstd l.
Proof. intros H E. apply sqrt_lt_R0. pose proof (rvar_nonneg l H). lra. Qed.
Lemma rvar_affine a b l : l <> [] -> rvar (map (fun x => a * x + b) l) = a ^ 2 * rvar l.
Proof. apply rmoment_affine. Qed.
Lemma rstd_affine a b l : l <> [] -> rstd (map (fun x => a * x + b) l) = Rabs a * rstd l.
Proof.
  intros H. unfold rstd. rewrite rvar_affine by exact H. rewrite sqrt_mult; [|apply pow2_ge_0|apply rvar_nonneg, H].
  rewrite <- Rsqr_pow2, sqrt_Rsqr_abs. reflexivity.
Qed.
Lemma rmean_perm l m : Permutation l m -> rmean l = rmean m.
Proof. intros H. unfold rmean. rewrite (Rsum_perm _ _ H), (Permutation_length H). reflexivity. Qed.
Lemma rmoment_perm k l m : Permutation l m -> rmoment k l = rmoment k m.
Proof. intros H. unfold rmoment. rewrite (rmean_perm _ _ H). apply rmean_perm, Permutation_map, H. Qed.

Lemma ipow_sub_fins l a k : map (fun x : XR => nipow (nsub x (Fin a)) k) (fins l) = fins (map (fun x => (x - a) ^ k) l).
Proof. apply map_fins. intros x. rewrite xsub_fin, xipow_fin. reflexivity. Qed.
Lemma skewness_eval l : l <> [] ->
  @moment_skewness XR (fins l) = Ok (ndiv (Fin (Rsum (map (fun x => (x - rmean l) ^ 3) l))) (Fin (INR (length l) * rstd l ^ 3))).
Proof.
  intros H. unfold moment_skewness. rewrite mean_of_ne by (apply fins_nil, H). cbn [bind as_num].
  rewrite np_mean_fins by exact H. rewrite std_correct by exact H. cbn [bind].
  rewrite ipow_sub_fins, xsum_fins, xofZ_fin, IZR_zlen, fins_length, xipow_fin, xmul_fin. reflexivity.
Qed.
Lemma skewness_correct l : l <> [] -> rvar l <> 0 ->
  @moment_skewness XR (fins l) = Ok (Fin (rmoment 3 l / rstd l ^ 3)).
Proof.
  intros H Hv. pose proof (INR_len_pos l H). pose proof (rstd_pos l H Hv).
  rewrite skewness_eval by exact H. rewrite xdiv_fin.
  - do 2 f_equal. unfold rmoment, rmean at 2. rewrite map_length. field. lra.
  - apply Rmult_integral_contrapositive_currified; [lra | apply pow_nonzero; lra].
Qed.
Lemma skewness_constant l : l <> [] -> rvar l = 0 -> @moment_skewness XR (fins l) = Ok NaN.
Proof.
  intros H Hv. rewrite skewness_eval by exact H.
  assert (E : rstd l = 0) by (unfold rstd; rewrite Hv; apply sqrt_0). rewrite E.
  rewrite (Rsum_ext _ (fun _ => 0)).
  - rewrite Rsum_map_const. replace (INR (length l) * 0) with 0 by ring. replace (INR (length l) * 0 ^ 3) with 0 by ring.
    rewrite xdiv_00. reflexivity.
  - intros x Hx. rewrite <- (proj1 (rvar_zero_iff l H) Hv x Hx). ring.
Qed.
Lemma kurtosis_eval l : l <> [] ->
  @moment_kurtosis XR (fins l) = Ok (ndiv (Fin (rmoment 4 l)) (Fin (rstd l ^ 4))).
Proof.
  intros H. unfold moment_kurtosis. rewrite mean_of_ne by (apply fins_nil, H). cbn [bind as_num].
  rewrite np_mean_fins by exact H. rewrite std_correct by exact H. cbn [bind].
  rewrite ipow_sub_fins. rewrite mean_of_ne by (apply fins_nil, map_nil_iff, H). cbn [bind as_num].
  rewrite np_mean_fins by (apply map_nil_iff, H). rewrite xipow_fin. reflexivity.
Qed.
Lemma kurtosis_correct l : l <> [] -> rvar l <> 0 ->
  @moment_kurtosis XR (fins l) = Ok (Fin (rmoment 4 l / rstd l ^ 4)).
Proof.
  intros H Hv. pose proof (rstd_pos l H Hv). rewrite kurtosis_eval by exact H. rewrite xdiv_fin; [reflexivity|].
  apply pow_nonzero. lra.
Qed.
Lemma kurtosis_constant l : l <> [] -> rvar l = 0 -> @moment_kurtosis XR (fins l) = Ok NaN.
Proof.
  intros H Hv. rewrite kurtosis_eval by exact H.
  assert (E : rstd l = 0) by (unfold rstd; rewrite Hv; apply sqrt_0). rewrite E.
  assert (E4 : rmoment 4 l = 0).
  { unfold rmoment, rmean at 1. rewrite (Rsum_ext _ (fun _ => 0)); [rewrite Rsum_map_const; unfold Rdiv; ring|].
    intros x Hx. rewrite <- (proj1 (rvar_zero_iff l H) Hv x Hx). ring. }
  rewrite E4. replace (0 ^ 4) with 0 by ring. rewrite xdiv_00. reflexivity.
Qed.

(** Skewness as a real function, for the invariance statements. *)
Definition rskew l := rmoment 3 l / rstd l ^ 3.
Definition rkurt l := rmoment 4 l / rstd l ^ 4.
Lemma rskew_affine a b l : l <> [] -> rvar l <> 0 -> a <> 0 ->
  rskew (map (fun x => a * x + b) l) = (if Rlt_bool a 0 then -1 else 1) * rskew l.
Proof.
  intros H Hv Ha. pose proof (rstd_pos l H Hv). unfold rskew. rewrite rmoment_affine, rstd_affine by exact H.
  destruct (Rlt_bool_spec a 0).
  - rewrite Rabs_left by lra. field. split; lra.
  - rewrite Rabs_pos_eq by lra. field. split; lra.
Qed.
Lemma rkurt_affine a b l : l <> [] -> rvar l <> 0 -> a <> 0 -> rkurt (map (fun x => a * x + b) l) = rkurt l.
Proof.
  intros H Hv Ha. pose proof (rstd_pos l H Hv). unfold rkurt. rewrite rmoment_affine, rstd_affine by exact H.
  rewrite Rpow_mult_distr. replace (Rabs a ^ 4) with (a ^ 4).
  - field. split; lra.
  - rewrite RPow_abs. rewrite Rabs_pos_eq; [reflexivity|]. replace (a ^ 4) with ((a ^ 2) ^ 2) by ring. apply pow2_ge_0.
Qed.
Lemma rvar_map_neq a b l : l <> [] -> rvar l <> 0 -> a <> 0 -> rvar (map (fun x => a * x + b) l) <> 0.
Proof. intros H Hv Ha. rewrite rvar_affine by exact H. apply Rmult_integral_contrapositive_currified; [apply pow_nonzero; exact Ha | exact Hv]. Qed.

Lemma skewness_affine l a b : l <> [] -> rvar l <> 0 -> a <> 0 ->
  exists s, @moment_skewness XR (fins l) = Ok (Fin s) /\
    @moment_skewness XR (fins (map (fun x => a * x + b) l)) = Ok (Fin (if Rlt_bool a 0 then - s else s)).
Proof.
  intros H Hv Ha. exists (rskew l). split; [apply skewness_correct; assumption|].
  rewrite skewness_correct; [|apply map_nil_iff, H | apply rvar_map_neq; assumption].
  change (rmoment 3 (map (fun x => a * x + b) l) / rstd (map (fun x => a * x + b) l) ^ 3) with (rskew (map (fun x => a * x + b) l)).
  rewrite rskew_affine by assumption. do 2 f_equal. destruct (Rlt_bool a 0); ring.
Qed.
Lemma skewness_symmetric l c : l <> [] -> rvar l <> 0 -> Permutation l (map (fun x => 2 * c - x) l) ->
  @moment_skewness XR (fins l) = Ok (Fin 0).
Proof.
  intros H Hv P. rewrite skewness_correct by assumption. do 2 f_equal.
  assert (E : rmoment 3 l = - rmoment 3 l).
  { rewrite (rmoment_perm 3 _ _ P) at 1.
    rewrite (map_ext (fun x => 2 * c - x) (fun x => (-1) * x + 2 * c)) by (intros; ring).
    rewrite rmoment_affine by exact H. ring. }
  replace (rmoment 3 l) with 0 by lra. unfold Rdiv. ring.
Qed.
Lemma kurtosis_affine l a b : l <> [] -> rvar l <> 0 -> a <> 0 ->
  @moment_kurtosis XR (fins (map (fun x => a * x + b) l)) = @moment_kurtosis XR (fins l).
Proof.
  intros H Hv Ha. rewrite (kurtosis_correct l) by assumption.
  rewrite kurtosis_correct; [|apply map_nil_iff, H | apply rvar_map_neq; assumption].
  do 2 f_equal. apply (rkurt_affine a b l); assumption.
Qed.

Lemma pearson l : l <> [] -> rvar l <> 0 -> 1 + rskew l ^ 2 <= rkurt l.
Proof.
  intros H Hv. pose proof (INR_len_pos l H) as Hn. pose proof (rstd_pos l H Hv) as Hs. pose proof (rstd_pow2 l H) as E2.
  set (n := INR (length l)) in *. set (m := rmean l). set (v := rvar l) in *. set (s := rstd l) in *.
  assert (S1 : Rsum (map (fun x => x - m) l) = 0) by (apply rmean_dev_0, H).
  assert (Hk : forall k, Rsum (map (fun x => (x - m) ^ k) l) = n * rmoment k l).
  { intros k. unfold rmoment, rmean at 1. rewrite map_length. fold n m. field. lra. }
  pose proof (Hk 2%nat) as S2. pose proof (Hk 3%nat) as S3. pose proof (Hk 4%nat) as S4.
  change (rmoment 2 l) with v in S2.
  pose proof (Rsum_CS (fun x => x - m) (fun x => (x - m) ^ 2 - v) l) as CS. cbv beta in CS.
  rewrite (Rsum_ext (fun x => (x - m) * ((x - m) ^ 2 - v)) (fun x => (x - m) ^ 3 - v * (x - m))) in CS by (intros; ring).
  rewrite Rsum_map_sub, Rsum_map_scal, S3, S1 in CS.
  rewrite (Rsum_ext (fun x => ((x - m) ^ 2 - v) ^ 2) (fun x => (x - m) ^ 4 - ((2 * v) * (x - m) ^ 2 - v ^ 2))) in CS by (intros; ring).
  rewrite Rsum_map_sub, Rsum_map_sub, Rsum_map_scal, Rsum_map_const, S2, S4 in CS. fold n in CS.
  assert (C : rmoment 3 l ^ 2 <= v * (rmoment 4 l - v ^ 2)).
  { apply Rmult_le_reg_l with (n ^ 2); [nra|]. nra. }
  unfold rskew, rkurt. fold s.
  assert (Hv0 : 0 < v) by (rewrite <- E2; nra).
  apply Rmult_le_reg_r with (s ^ 6); [apply pow_lt; exact Hs|].
  replace ((1 + (rmoment 3 l / s ^ 3) ^ 2) * s ^ 6) with ((s ^ 2) ^ 3 + rmoment 3 l ^ 2) by (field; lra).
  replace (rmoment 4 l / s ^ 4 * s ^ 6) with (rmoment 4 l * s ^ 2) by (field; lra).
  rewrite E2. nra.
Qed.

(** ** fluid.py *)
Lemma fluct_fins l : l <> [] -> @fluct XR (fins l) = Ok (fins (map (fun x => x - rmean l) l)).
Proof.
  intros H. unfold fluct. rewrite mean_num_fins by exact H. cbn [bind]. f_equal. apply map_fins. intros x. apply xsub_fin.
Qed.
Lemma mean_sq_fluct l : l <> [] -> mean_num (map (@sq XR) (fins (map (fun x => x - rmean l) l))) = Ok (Fin (rvar l)).
Proof.
  intros H. rewrite (map_fins (fun x => x ^ 2)) by (intros; apply sq_fin).
  rewrite map_map. rewrite mean_num_fins by (apply map_nil_iff, H). reflexivity.
Qed.
Lemma tke_correct u v w : u <> [] -> v <> [] -> w <> [] ->
  @kinetic_turbulent_energy XR (fins u) (fins v) (fins w) = Ok (Fin ((rvar u + rvar v + rvar w) / 2)).
Proof.
  intros Hu Hv Hw. unfold kinetic_turbulent_energy.
  rewrite !fluct_fins by assumption. cbn [bind]. rewrite !mean_sq_fluct by assumption. cbn [bind].
  rewrite lit_fin by lia. rewrite !xadd_fin, xmul_fin. do 2 f_equal. cbn. field.
Qed.
Lemma bcast_mul_fins u v : length u = length v ->
  bcast (@nmul XR) (fins u) (fins v) = Ok (fins (map (fun p => fst p * snd p) (combine u v))).
Proof.
  intros H. unfold bcast. rewrite !fins_length, H, Nat.eqb_refl. f_equal. unfold zipwith, fins.
  clear H. revert v. induction u as [|x u IH]; intros [|y v]; cbn; auto. f_equal. apply IH.
Qed.
Lemma combine_ne {A B} (u : list A) (v : list B) : length u = length v -> u <> [] -> combine u v <> [].
Proof. destruct u, v; cbn; congruence. Qed.
Lemma mean_cross u v : u <> [] -> length u = length v ->
  mean_num (fins (map (fun p => fst p * snd p) (combine (map (fun x => x - rmean u) u) (map (fun x => x - rmean v) v)))) = Ok (Fin (rcov u v)).
Proof.
  intros Hu H. rewrite mean_num_fins.
  - do 2 f_equal. unfold rmean at 1. rewrite map_length, combine_length, !map_length, <- H, Nat.min_id. unfold rcov. f_equal.
    f_equal. generalize (rmean u) (rmean v). intros a b. clear Hu. revert v H.
    induction u as [|x u IH]; intros [|y v] H; cbn in *; try discriminate; auto. f_equal. apply IH. congruence.
  - apply map_nil_iff, combine_ne; [rewrite !map_length; exact H | apply map_nil_iff, Hu].
Qed.
Lemma reynolds_correct u v w : u <> [] -> length u = length v -> length u = length w ->
  @reynolds_stresses XR (fins u) (fins v) (fins w) =
    Ok (Fin (rvar u), Fin (rvar v), Fin (rvar w), Fin (rcov u v), Fin (rcov u w), Fin (rcov v w)).
Proof.
  intros Hu Huv Huw.
  assert (Hv : v <> []) by (intros ->; destruct u; [congruence | discriminate]).
  assert (Hw : w <> []) by (intros ->; destruct u; [congruence | discriminate]).
  unfold reynolds_stresses. rewrite !fluct_fins by assumption. cbn [bind].
  rewrite !mean_sq_fluct by assumption. cbn [bind].
  rewrite !bcast_mul_fins by (rewrite !map_length; congruence). cbn [bind].
  rewrite !mean_cross by congruence. reflexivity.
Qed.
Lemma rcov_sym u v : length u = length v -> rcov u v = rcov v u.
Proof.
  intros H. unfold rcov. rewrite H. f_equal. generalize (rmean u) (rmean v). intros a b. revert v H.
  induction u as [|x u IH]; intros [|y v] H; cbn in *; try discriminate; auto. rewrite IH by congruence. ring.
Qed.
Lemma rcov_self u : rcov u u = rvar u.
Proof.
  unfold rcov, rvar, rmoment. unfold rmean at 3. rewrite map_length. f_equal. generalize (rmean u). intros a.
  induction u as [|x u IH]; [reflexivity|]. cbn [combine map Rsum fst snd]. rewrite IH. ring.
Qed.
Lemma rcov_CS u v : u <> [] -> length u = length v -> rcov u v ^ 2 <= rvar u * rvar v.
Proof.
  intros Hu H. pose proof (INR_len_pos u Hu) as Hn.
  pose proof (Rsum_CS (fun p => fst p - rmean u) (fun p => snd p - rmean v) (combine u v)) as CS. cbv beta in CS.
  assert (E1 : Rsum (map (fun p => (fst p - rmean u) ^ 2) (combine u v)) = INR (length u) * rvar u).
  { unfold rvar, rmoment. unfold rmean at 2. rewrite map_length.
    replace (map (fun p : R * R => (fst p - rmean u) ^ 2) (combine u v)) with (map (fun x => (x - rmean u) ^ 2) u).
    - field. lra.
    - generalize (rmean u). intros a. clear - H. revert v H. induction u as [|x u IH]; intros [|y v] H; cbn in *; try discriminate; auto.
      f_equal. apply IH. congruence. }
  assert (E2 : Rsum (map (fun p => (snd p - rmean v) ^ 2) (combine u v)) = INR (length u) * rvar v).
  { unfold rvar, rmoment. unfold rmean at 2. rewrite map_length, <- H.
    replace (map (fun p : R * R => (snd p - rmean v) ^ 2) (combine u v)) with (map (fun x => (x - rmean v) ^ 2) v).
    - field. lra.
    - generalize (rmean v). intros a. clear - H. revert v H. induction u as [|x u IH]; intros [|y v] H; cbn in *; try discriminate; auto.
      f_equal. apply IH. congruence. }
  rewrite E1, E2 in CS. unfold rcov.
  set (c := Rsum (map (fun p => (fst p - rmean u) * (snd p - rmean v)) (combine u v))) in *.
  replace ((c / INR (length u)) ^ 2) with (c ^ 2 / INR (length u) ^ 2) by (field; lra).
  apply Rmult_le_reg_r with (INR (length u) ^ 2); [nra|].
  unfold Rdiv. rewrite Rmult_assoc, Rinv_l by nra. nra.
Qed.

(** ** Forms used in Props_descriptive *)
Lemma mean_exact (parse : string -> option XR) (data : list (pyval XR)) (l : list R) :
  Forall2 denotes data (fins l) -> l <> [] -> desc_mean parse (ASeq data) = Ok (MVal (Fin (Rsum l / INR (length l)))).
Proof.
  intros H Hne. rewrite (mean_numeric parse data (fins l) H) by (apply fins_nil, Hne).
  pose proof (INR_len_pos l Hne).
  rewrite xsum_fins, xofZ_fin, IZR_zlen, fins_length, xdiv_fin by lra. reflexivity.
Qed.
Lemma mean_number {N : Num} (parse : string -> option N) (v : pyval N) :
  (exists z, v = PyInt z) \/ (exists x, v = PyFloat x) -> desc_mean parse (ANum v) = Ok (MSame v).
Proof. intros [(z & ->)|(x & ->)]; reflexivity. Qed.
Lemma mean_empty {N : Num} (parse : string -> option N) : desc_mean parse (ASeq []) = Ok MInvalid.
Proof. reflexivity. Qed.
Lemma mode_empty (N : Num) : @desc_mode N [] = Raise ValueError.
Proof. reflexivity. Qed.
Lemma mean_documented_refuted : exists (parse : string -> option XR) (bad good : string),
  parse bad = None /\ parse good = Some (Fin 5) /\
  desc_mean parse (ASeq [PyInt 1; PyStr bad; PyStr good]) = Ok (MVal (Fin 1)) /\
  desc_mean parse (ASeq [PyInt 1; PyStr good; PyStr bad]) = Ok (MVal (Fin 3)) /\
  desc_mean parse (ASeq [PyStr bad; PyStr good]) = Ok (MVal NaN) /\
  desc_mean parse (ASeq [NpInt 7; PyInt 1; PyStr bad]) = Ok (MVal (Fin 1)).
Proof.
  exists (fun s => if String.eqb s "5" then Some (Fin 5) else None), "x"%string, "5"%string.
  set (parse := fun s => if String.eqb s "5" then Some (Fin 5) else None).
  split; [reflexivity|]. split; [reflexivity|].
  split; [|split; [|split]].
  - pose proof (mean_fail parse [PyInt 1] "x" [PyStr "5"] [Fin 1] [] eq_refl
      (kp_int _ 1 _ _ (kp_nil _)) (kq_str _ _ _ kq_nil)) as E. cbn [app] in E. rewrite E.
    change [Fin 1] with (fins [1]). rewrite xsum_fins, xofZ_fin, xdiv_fin; cbn; [do 3 f_equal; lra | lra].
  - pose proof (mean_fail parse [PyInt 1; PyStr "5"] "x" [] [Fin 1; Fin 5] [] eq_refl
      (kp_int _ 1 _ _ (kp_str _ _ _ _ _ (eq_refl : parse "5"%string = Some (Fin 5)) (kp_nil _))) kq_nil) as E. cbn [app] in E. rewrite E.
    change [Fin 1; Fin 5] with (fins [1; 5]). rewrite xsum_fins, xofZ_fin, xdiv_fin; cbn; [do 3 f_equal; lra | lra].
  - pose proof (mean_fail parse [] "x" [PyStr "5"] [] [] eq_refl (kp_nil _) (kq_str _ _ _ kq_nil)) as E. cbn [app] in E. rewrite E.
    change (@nil (car XR)) with (fins []). rewrite xsum_fins, xofZ_fin. cbn [Rsum zlen length fins map Z.of_nat].
    rewrite xdiv_00. reflexivity.
  - pose proof (mean_fail parse [NpInt 7; PyInt 1] "x" [] [Fin 1] [] eq_refl
      (kp_npint _ 7 _ _ (kp_int _ 1 _ _ (kp_nil _))) kq_nil) as E. cbn [app] in E. rewrite E.
    change [Fin 1] with (fins [1]). rewrite xsum_fins, xofZ_fin, xdiv_fin; cbn; [do 3 f_equal; lra | lra].
Qed.
Lemma median_perm (l m : list R) : l <> [] -> Permutation l m ->
  @desc_median XR (farr (fins l)) = @desc_median XR (farr (fins m)).
Proof.
  intros H P. rewrite (median_correct l (rsort l) H (rsort_is_sorting l)). symmetry. apply median_correct.
  - intros ->. apply Permutation_sym, Permutation_nil in P. congruence.
  - destruct (rsort_is_sorting l) as [P2 S]. split; [apply perm_trans with l; [apply Permutation_sym, P | exact P2] | exact S].
Qed.
Lemma variance_std_correct (l : list R) : l <> [] ->
  @spread_variance XR (farr (fins l)) = Ok (Fin (rmean (map (fun x => (x - rmean l) ^ 2) l))) /\
  @spread_std XR (farr (fins l)) = Ok (Fin (sqrt (rmean (map (fun x => (x - rmean l) ^ 2) l)))) /\
  0 <= rmean (map (fun x => (x - rmean l) ^ 2) l) /\
  (rmean (map (fun x => (x - rmean l) ^ 2) l) = 0 <-> forall x y, In x l -> In y l -> x = y).
Proof.
  intros H. split; [apply variance_correct, H|]. split; [apply std_correct, H|].
  split; [apply rvar_nonneg, H | apply rvar_const_iff, H].
Qed.
Lemma variance_std_affine (l : list R) (a b : R) : l <> [] ->
  exists v s, @spread_variance XR (farr (fins l)) = Ok (Fin v) /\ @spread_std XR (farr (fins l)) = Ok (Fin s) /\
    @spread_variance XR (farr (fins (map (fun x => a * x + b) l))) = Ok (Fin (a ^ 2 * v)) /\
    @spread_std XR (farr (fins (map (fun x => a * x + b) l))) = Ok (Fin (Rabs a * s)).
Proof.
  intros H. exists (rvar l), (rstd l). split; [apply variance_correct, H|]. split; [apply std_correct, H|].
  rewrite variance_correct, std_correct by (apply map_nil_iff, H). rewrite rvar_affine, rstd_affine by exact H. auto.
Qed.
Lemma skew_kurt_pearson (l : list R) : l <> [] -> rvar l <> 0 ->
  exists s k, @moment_skewness XR (fins l) = Ok (Fin s) /\ @moment_kurtosis XR (fins l) = Ok (Fin k) /\ 1 + s ^ 2 <= k.
Proof.
  intros H Hv. exists (rskew l), (rkurt l). split; [apply skewness_correct; assumption|].
  split; [apply kurtosis_correct; assumption | apply pearson; assumption].
Qed.
Lemma tke_nonneg u v w : u <> [] -> v <> [] -> w <> [] ->
  @kinetic_turbulent_energy XR (fins u) (fins v) (fins w) = Ok (Fin ((rvar u + rvar v + rvar w) / 2)) /\
  0 <= (rvar u + rvar v + rvar w) / 2.
Proof.
  intros Hu Hv Hw. split; [apply tke_correct; assumption|].
  pose proof (rvar_nonneg u Hu). pose proof (rvar_nonneg v Hv). pose proof (rvar_nonneg w Hw). lra.
Qed.
Lemma rvar_shift a l : l <> [] -> rvar (map (fun x => x + a) l) = rvar l.
Proof.
  intros H. rewrite (map_ext (fun x => x + a) (fun x => 1 * x + a)) by (intros; ring). rewrite rvar_affine by exact H. ring.
Qed.
Lemma tke_shift (u v w : list R) (a b c : R) : u <> [] -> v <> [] -> w <> [] ->
  @kinetic_turbulent_energy XR (fins (map (fun x => x + a) u)) (fins (map (fun x => x + b) v)) (fins (map (fun x => x + c) w)) =
  @kinetic_turbulent_energy XR (fins u) (fins v) (fins w).
Proof.
  intros Hu Hv Hw. rewrite !tke_correct by (try apply map_nil_iff; assumption). rewrite !rvar_shift by assumption. reflexivity.
Qed.
Lemma rcov_props (u v : list R) : u <> [] -> length u = length v ->
  rcov u v = rcov v u /\ rcov u v ^ 2 <= rvar u * rvar v /\ rcov u u = rvar u.
Proof. intros Hu H. split; [apply rcov_sym, H|]. split; [apply rcov_CS; assumption | apply rcov_self]. Qed.
Lemma fluid_empty (N : Num) (v w : list N) :
  kinetic_turbulent_energy [] v w = Raise TypeError /\ reynolds_stresses [] v w = Raise TypeError.
Proof. split; reflexivity. Qed.
