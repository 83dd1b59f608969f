(** Proofs about the model of the normal distribution functions. *)
From Coq Require Import Reals Lra Lia.
From Coquelicot Require Import Coquelicot.
From Flocq Require Import Core.Raux.
From Verif Require Import NpBase Lib XR M_descriptive M_series M_normal Spec2 P_gauss P_brent.
Local Open Scope R_scope.

(** ** The distribution function *)
Lemma sqrt2_pos : 0 < sqrt 2. Proof. apply sqrt_lt_R0. lra. Qed.
Lemma sqrt2_sq : sqrt 2 * sqrt 2 = 2. Proof. apply sqrt_sqrt. lra. Qed.
Lemma sqrt2PI : sqrt (2 * PI) = sqrt 2 * sqrt PI.
Proof. apply sqrt_mult; [lra | left; apply PI_RGT_0]. Qed.
Lemma gauss_cont m s x : s <> 0 -> continuous (gauss m s) x.
Proof.
  intros Hs. apply (ex_derive_continuous (K := R_AbsRing) (V := R_NormedModule)). unfold gauss.
  pose proof sqrt2_pos. pose proof sqrt_PI_pos.
  assert (sqrt (2 * PI) <> 0) by (rewrite sqrt2PI; apply Rmult_integral_contrapositive_currified; lra).
  auto_derive. repeat split; try (apply Rmult_integral_contrapositive_currified; auto; lra); auto.
Qed.
Lemma gauss_RInt m s a b : s <> 0 -> ex_RInt (gauss m s) a b.
Proof. intros H. apply (ex_RInt_continuous (V := R_CompleteNormedModule)). intros z _. apply gauss_cont, H. Qed.
Lemma Phi_erf x : Phi x = 1 / 2 + 1 / 2 * erfR (x * (1 / sqrt 2)).
Proof.
  unfold Phi. f_equal. rewrite erf_gI. pose proof sqrt2_pos. pose proof sqrt_PI_pos. pose proof sqrt2_sq as S.
  set (u := 1 / sqrt 2).
  pose proof (RInt_linR ex2 u 0 0 x (ex2_RInt _ _)) as H1.
  replace (u * 0 + 0) with 0 in H1 by ring. replace (u * x + 0) with (x * u) in H1 by ring.
  unfold gI. rewrite <- H1.
  replace (1 / 2 * (2 / sqrt PI * RInt (fun t => u * ex2 (u * t + 0)) 0 x))
     with (1 / sqrt PI * RInt (fun t => u * ex2 (u * t + 0)) 0 x) by (field; lra).
  rewrite <- RInt_scalR.
  - apply RInt_ext. intros t _. unfold gauss, ex2. rewrite sqrt2PI. asR.
    replace (- ((u * t + 0) * (u * t + 0))) with (- ((t - 0) * (t - 0)) / (2 * (1 * 1))).
    + unfold u. field. lra.
    + unfold u. replace ((1 / sqrt 2 * t + 0) * (1 / sqrt 2 * t + 0)) with (t * t / (sqrt 2 * sqrt 2)) by (field; lra).
      rewrite S. field.
  - apply (ex_RInt_continuous (V := R_CompleteNormedModule)). intros z _.
    apply (ex_derive_continuous (K := R_AbsRing) (V := R_NormedModule)). unfold ex2. auto_derive. exact I.
Qed.
Lemma Phi_bound x : 0 < Phi x < 1.
Proof. rewrite Phi_erf. pose proof (erf_bound (x * (1 / sqrt 2))). lra. Qed.
Lemma Phi_odd x : Phi (- x) = 1 - Phi x.
Proof. rewrite !Phi_erf. replace (- x * (1 / sqrt 2)) with (- (x * (1 / sqrt 2))) by ring. rewrite erf_odd. lra. Qed.
Lemma Phi_0 : Phi 0 = 1 / 2.
Proof. unfold Phi. rewrite RInt_point. unfold zero. cbn. lra. Qed.
Lemma Phi_derive x : is_derive Phi x (gauss 0 1 x).
Proof.
  unfold Phi. replace (gauss 0 1 x) with (plus 0 (gauss 0 1 x)) by (unfold plus; cbn; asR; ring).
  apply (is_derive_plus (K := R_AbsRing) (V := R_NormedModule)).
  - apply (is_derive_const (K := R_AbsRing) (V := R_NormedModule) (1 / 2) x).
  - apply (is_derive_RInt (V := R_CompleteNormedModule) (gauss 0 1) (fun y => RInt (gauss 0 1) 0 y) 0 x).
    + exists (mkposreal 1 Rlt_0_1). intros y _. apply RInt_correct, gauss_RInt. lra.
    + apply gauss_cont. lra.
Qed.
Lemma gauss_pos m s x : 0 < s -> 0 < gauss m s x.
Proof.
  intros H. unfold gauss. rewrite sqrt2PI. pose proof sqrt2_pos. pose proof sqrt_PI_pos.
  apply Rdiv_lt_0_compat; [apply exp_pos|]. repeat apply Rmult_lt_0_compat; lra.
Qed.
Lemma Phi_diff a b : Phi b - Phi a = RInt (gauss 0 1) a b.
Proof.
  unfold Phi. assert (C : RInt (gauss 0 1) 0 b = RInt (gauss 0 1) 0 a + RInt (gauss 0 1) a b).
  { symmetry. apply (RInt_Chasles (V := R_CompleteNormedModule)); apply gauss_RInt; lra. }
  rewrite C. ring.
Qed.
Lemma Phi_incr x y : x < y -> Phi x < Phi y.
Proof.
  intros H. enough (0 < RInt (gauss 0 1) x y) by (pose proof (Phi_diff x y); lra).
  apply RInt_gt_0; [exact H | |].
  - intros t _. apply gauss_pos. lra.
  - intros t _. apply gauss_cont. lra.
Qed.
Lemma Phi_lim_p : is_lim Phi p_infty 1.
Proof.
  apply (is_lim_ext (fun x => 1 / 2 + 1 / 2 * erfR (x * (1 / sqrt 2)))).
  { intros y. symmetry. apply Phi_erf. }
  assert (E : Finite 1 = Finite (1 / 2 + 1 / 2 * 1)) by (f_equal; lra). rewrite E.
  apply (is_lim_plus (fun _ => 1 / 2) (fun x => 1 / 2 * erfR (x * (1 / sqrt 2))) p_infty (1 / 2) (1 / 2 * 1));
    [apply is_lim_const | | reflexivity].
  apply (is_lim_scal_l (fun x => erfR (x * (1 / sqrt 2))) (1 / 2) p_infty 1).
  apply (is_lim_comp erfR (fun x => x * (1 / sqrt 2)) p_infty 1 p_infty).
  - apply erf_lim.
  - assert (P : 0 < 1 / sqrt 2) by (apply Rdiv_lt_0_compat; [lra | apply sqrt2_pos]).
    replace p_infty with (Rbar_mult p_infty (1 / sqrt 2)) at 2.
    + apply (is_lim_scal_r (fun x => x) (1 / sqrt 2) p_infty p_infty). apply is_lim_id.
    + unfold Rbar_mult, Rbar_mult'. destruct (Rle_dec 0 (1 / sqrt 2)) as [L|L]; [|lra].
      destruct (Rle_lt_or_eq_dec 0 (1 / sqrt 2) L) as [L'|L']; [reflexivity | lra].
  - exists 0. intros y _. discriminate.
Qed.
Lemma Phi_lim_m : is_lim Phi m_infty 0.
Proof.
  apply (is_lim_ext (fun x => 1 - Phi (- x))).
  { intros y. rewrite Phi_odd. ring. }
  replace 0 with (1 - 1) by lra.
  apply (is_lim_minus (fun _ => 1) (fun x => Phi (- x)) m_infty 1 1); [apply is_lim_const | | reflexivity].
  apply (is_lim_comp Phi (fun x => - x) m_infty 1 p_infty).
  - apply Phi_lim_p.
  - apply (is_lim_opp (fun x => x) m_infty m_infty). apply is_lim_id.
  - exists 0. intros y _. discriminate.
Qed.
Theorem Phi_laws :
  (forall x, 0 < Phi x < 1) /\ (forall x, Phi (- x) = 1 - Phi x) /\ Phi 0 = 1 / 2 /\
  (forall x y, x < y -> Phi x < Phi y) /\ (forall x, is_derive Phi x (gauss 0 1 x)) /\
  is_lim Phi m_infty 0 /\ is_lim Phi p_infty 1.
Proof.
  split; [exact Phi_bound|]. split; [exact Phi_odd|]. split; [exact Phi_0|]. split; [exact Phi_incr|].
  split; [exact Phi_derive|]. split; [exact Phi_lim_m | exact Phi_lim_p].
Qed.

(** ** The loop of cdf, for every number type *)
Section Generic.
Context {N : Num}.
Local Open Scope num_scope.
Definition cdf_val (r x : N) : N :=
  if nabs x <? r then lit 5 1 + lit 5 1 * nerf x
  else if x >? #0 then #1 - lit 5 1 * nerfc (nabs x) else lit 5 1 * nerfc (nabs x).

Lemma getz_app {A} (l1 : list A) x l2 : getz (l1 ++ x :: l2) (zlen l1) = Ok x.
Proof.
  rewrite (getz_ok _ _ x).
  - f_equal. replace (Z.to_nat (zlen l1)) with (length l1) by (unfold zlen; lia). rewrite app_nth2 by lia.
    rewrite PeanoNat.Nat.sub_diag. reflexivity.
  - unfold zlen. rewrite app_length. cbn [length]. lia.
Qed.
Lemma upd_app {A} (l1 : list A) x l2 v : upd (l1 ++ x :: l2) (length l1) v = l1 ++ v :: l2.
Proof. induction l1 as [|y l1 IH]; cbn; [reflexivity|]. now rewrite IH. Qed.
Lemma setz_app {A} (l1 : list A) x l2 v : setz (l1 ++ x :: l2) (zlen l1) v = Ok (l1 ++ v :: l2).
Proof.
  rewrite setz_ok.
  - replace (Z.to_nat (zlen l1)) with (length l1) by (unfold zlen; lia). rewrite upd_app. reflexivity.
  - unfold zlen. rewrite app_length. cbn [length]. lia.
Qed.
Lemma cdf_step_app dt (r : N) ns1 x ns2 c1 y c2 : length c1 = length ns1 ->
  cdf_step dt r (ns1 ++ x :: ns2) (c1 ++ y :: c2, zlen c1) (nabs x) =
  Ok (c1 ++ store dt (cdf_val r x) :: c2, (zlen c1 + 1)%Z).
Proof.
  intros H. assert (Z : zlen c1 = zlen ns1) by (unfold zlen; lia). unfold cdf_step, cdf_val.
  assert (G : getz (ns1 ++ x :: ns2) (zlen c1) = Ok x) by (rewrite Z; apply getz_app). rewrite G.
  destruct (nabs x <? r); cbn [bind]; rewrite setz_app; reflexivity.
Qed.
Lemma cdf_loop dt (r : N) ns2 : forall ns1 c1 c2, length c1 = length ns1 -> length c2 = length ns2 ->
  foldM (cdf_step dt r (ns1 ++ ns2)) (c1 ++ c2, zlen c1) (map nabs ns2) =
  Ok (c1 ++ map (fun x => store dt (cdf_val r x)) ns2, (zlen c1 + zlen ns2)%Z).
Proof.
  induction ns2 as [|x ns2 IH]; intros ns1 c1 c2 H1 H2.
  - destruct c2; [|discriminate]. cbn. rewrite Z.add_0_r. reflexivity.
  - destruct c2 as [|y c2]; [discriminate|]. cbn [map foldM].
    rewrite cdf_step_app by exact H1. cbn [bind].
    replace (ns1 ++ x :: ns2) with ((ns1 ++ [x]) ++ ns2) by (rewrite <- app_assoc; reflexivity).
    replace (c1 ++ store dt (cdf_val r x) :: c2) with ((c1 ++ [store dt (cdf_val r x)]) ++ c2)
      by (rewrite <- app_assoc; reflexivity).
    assert (L : (zlen c1 + 1)%Z = zlen (c1 ++ [store dt (cdf_val r x)])) by (unfold zlen; rewrite app_length; cbn [length]; lia).
    rewrite L, IH.
    + rewrite <- app_assoc. f_equal. f_equal. rewrite <- L, zlen_cons. lia.
    + rewrite !app_length, H1. reflexivity.
    + cbn in H2. lia.
Qed.
Lemma nd_check_ok (a : ndarr N) : elements a <> [] -> existsb nisnan (elements a) = false -> nd_check a = Ok tt.
Proof. intros H1 H2. unfold nd_check. destruct (elements a); [contradiction|]. rewrite H2. reflexivity. Qed.
Lemma cdf_run dt s (d : list N) : d <> [] -> existsb nisnan d = false ->
  cdf dt (Arr s d) = Ok (Arr s (map (fun a => store dt (cdf_val (#1 / nsqrt #2) (a * (#1 / nsqrt #2)))) d)).
Proof.
  intros H1 H2. unfold cdf. rewrite nd_check_ok by assumption. cbn [bind].
  pose proof (cdf_loop dt (#1 / nsqrt #2) (map (fun x => x * (#1 / nsqrt #2)) d) [] [] d eq_refl) as E.
  cbn [app zlen length Z.of_nat] in E. rewrite E by (symmetry; apply map_length). cbn [bind fst].
  rewrite map_map. reflexivity.
Qed.
End Generic.

(** Errors, every number type and dtype. *)
Theorem cdf_errors : forall (N : Num) dt (a : ndarr N),
  (elements a = [] -> cdf dt a = Raise ValueError) /\
  ((exists x, In x (elements a) /\ nisnan x = true) -> cdf dt a = Raise TypeError) /\
  ((exists x, a = Scal x) -> cdf dt a = Raise TypeError) /\
  (forall b, cdf dt a = Ok b -> exists s d, a = Arr s d /\ d <> [] /\ Forall (fun x => nisnan x = false) d).
Proof.
  intros N dt a. repeat split.
  - intros H. unfold cdf, nd_check. rewrite H. reflexivity.
  - intros (x & H1 & H2). unfold cdf, nd_check. destruct (elements a) as [|y l] eqn:E; [destruct H1|].
    replace (existsb nisnan (y :: l)) with true; [reflexivity|]. symmetry. apply existsb_exists. eauto.
  - intros (x & ->). unfold cdf, nd_check. cbn [elements existsb]. destruct (nisnan x || false); reflexivity.
  - intros b. unfold cdf, nd_check. destruct a as [x|s d]; cbn [elements].
    + cbn [existsb]. destruct (nisnan x || false); discriminate.
    + destruct d as [|y d]; [discriminate|]. intros H. exists s, (y :: d). split; [reflexivity|].
      split; [discriminate|]. destruct (existsb nisnan (y :: d)) eqn:E; [discriminate|].
      apply Forall_forall. intros x Hx. destruct (nisnan x) eqn:E'; [|reflexivity].
      rewrite <- E. symmetry. apply existsb_exists. eauto.
Qed.
Lemma no_nan {N : Num} (d : list N) : Forall (fun x => nisnan x = false) d -> existsb nisnan d = false.
Proof. induction 1 as [|x d H _ IH]; [reflexivity|]. cbn. rewrite H, IH. reflexivity. Qed.
(** Pointwise and shape preserving, every number type. *)
Theorem cdf_pointwise : forall (N : Num) dt, exists f : N -> N, forall s d,
  d <> [] -> Forall (fun x => nisnan x = false) d -> cdf dt (Arr s d) = Ok (Arr s (map f d)).
Proof.
  intros N dt. eexists. intros s d H1 H2. apply (cdf_run dt s d H1). apply no_nan, H2.
Qed.

(** ** Exact arithmetic *)
Lemma lit51 : @lit XR 5 1 = Fin (1 / 2).
Proof. rewrite lit_fin by lia. f_equal. change (10 ^ 1)%Z with 10%Z. lra. Qed.
Lemma inv_sqrt2 : @ndiv XR (@nofZ XR 1) (@nsqrt XR (@nofZ XR 2)) = Fin (1 / sqrt 2).
Proof. rewrite !xofZ_fin, xsqrt_fin by lra. apply xdiv_fin. pose proof sqrt2_pos. lra. Qed.
Lemma cdf_val_exact (v : XR) : @nisnan XR v = false ->
  @cdf_val XR (Fin (1 / sqrt 2)) (@nmul XR v (Fin (1 / sqrt 2))) = ext_Phi v.
Proof.
  intros Hv. pose proof sqrt2_pos as P. assert (U : 0 < 1 / sqrt 2) by (apply Rdiv_lt_0_compat; lra).
  set (u := 1 / sqrt 2) in *. destruct v as [x|neg|]; [| |discriminate].
  - rewrite xmul_fin. unfold cdf_val. rewrite lit51, xabs_fin, !xltb_fin, !xofZ_fin.
    cbn [nerf nerfc XR xerf xerfc ext_Phi]. rewrite xltb_fin, !xmul_fin, xadd_fin, xsub_fin, Phi_erf. fold u.
    unfold erfcR. unfold Rabs. destruct (Rlt_bool_spec (if Rcase_abs (x * u) then - (x * u) else x * u) u) as [A|A]; [reflexivity|].
    destruct (Rlt_bool_spec 0 (x * u)) as [B|B]; f_equal.
    + destruct (Rcase_abs (x * u)); [lra|]. lra.
    + destruct (Rcase_abs (x * u)) as [C|C].
      * rewrite erf_odd. lra.
      * replace (x * u) with 0 in * by lra. lra.
  - assert (E : @nmul XR (Inf neg) (Fin u) = Inf neg).
    { cbn. rewrite Req_bool_false by lra. unfold xneg. rewrite Rlt_bool_false by lra. now rewrite Bool.xorb_false_r. }
    rewrite E. unfold cdf_val. rewrite lit51, !xofZ_fin. cbn [nabs XR xabs nltb xltb negb nerfc xerfc ext_Phi].
    destruct neg; cbn [negb]; rewrite ?xmul_fin, ?xsub_fin; f_equal; lra.
Qed.
Theorem cdf_exact : forall s (d : list XR), d <> [] -> Forall (fun x => nisnan x = false) d ->
  cdf DFloat (Arr s d) = Ok (Arr s (map ext_Phi d)).
Proof.
  intros s d H1 H2. rewrite cdf_run by (try apply no_nan; assumption).
  do 2 f_equal. apply map_ext_Forall. apply (Forall_impl _ (P := fun x => nisnan x = false)); [|exact H2].
  intros v Hv. cbn [store]. rewrite inv_sqrt2. apply cdf_val_exact, Hv.
Qed.
Lemma fins_ne l : l <> [] -> fins l <> [].
Proof. destruct l; [congruence | discriminate]. Qed.
Lemma fins_no_nan l : Forall (fun x => @nisnan XR x = false) (fins l).
Proof. apply Forall_forall. intros x H. apply in_map_iff in H. destruct H as (r & <- & _). reflexivity. Qed.
Theorem cdf_fins : forall s l, l <> [] -> cdf DFloat (Arr s (fins l)) = Ok (Arr s (fins (map Phi l))).
Proof.
  intros s l H. rewrite cdf_exact by (apply fins_ne, H || apply fins_no_nan).
  unfold fins. rewrite !map_map. reflexivity.
Qed.

(** Integer arrays. *)
Lemma trunc_Phi x : Ztrunc (Phi x) = 0%Z.
Proof.
  pose proof (Phi_bound x). rewrite Ztrunc_floor by lra. apply Zfloor_imp. cbn. lra.
Qed.
Theorem cdf_integers : forall s (zs : list Z), zs <> [] ->
  cdf DInt (Arr s (fins (map IZR zs))) = Ok (Arr s (fins (map (fun _ => 0) zs))) /\
  sf DInt (Arr s (fins (map IZR zs))) = Ok (Arr s (fins (map (fun _ => 1) zs))) /\
  log_cdf DInt (Arr s (fins (map IZR zs))) = Ok (Arr s (map (fun _ => Inf true : XR) zs)) /\
  log_sf DInt (Arr s (fins (map IZR zs))) = Ok (Arr s (fins (map (fun _ => 0) zs))) /\
  (exists c, cdf DFloat (Arr s (fins (map IZR zs))) = Ok (Arr s (fins c)) /\ Forall (fun p => 0 < p < 1) c).
Proof.
  intros s zs Hz.
  assert (Hn : fins (map IZR zs) <> []) by (destruct zs; [congruence | discriminate]).
  assert (C : cdf DInt (Arr s (fins (map IZR zs))) = Ok (Arr s (fins (map (fun _ => 0) zs)))).
  { rewrite cdf_run by (try apply no_nan, fins_no_nan; exact Hn). do 2 f_equal. unfold fins. rewrite !map_map.
    apply map_ext. intros z. cbn [store]. rewrite inv_sqrt2.
    rewrite (cdf_val_exact (Fin (IZR z))) by reflexivity. cbn [ext_Phi ntrunc XR]. now rewrite trunc_Phi. }
  assert (K : @nd_check XR (Arr s (fins (map IZR zs))) = Ok tt).
  { apply nd_check_ok; [exact Hn | apply no_nan, fins_no_nan]. }
  assert (S : sf DInt (Arr s (fins (map IZR zs))) = Ok (Arr s (fins (map (fun _ => 1) zs)))).
  { unfold sf. rewrite K. cbn [bind]. rewrite C. cbn [bind nd_map]. do 2 f_equal. unfold fins. rewrite !map_map.
    apply map_ext. intros z. rewrite xofZ_fin, xsub_fin. f_equal. lra. }
  split; [exact C|]. split; [exact S|]. split; [|split].
  - unfold log_cdf. rewrite K. cbn [bind]. rewrite C. cbn [bind nd_map]. do 2 f_equal. unfold fins. rewrite !map_map.
    apply map_ext. intros z. cbn [nlog XR xlog]. rewrite Rlt_bool_false, Req_bool_true by lra. reflexivity.
  - unfold log_sf. rewrite S. cbn [bind nd_map]. do 2 f_equal. unfold fins. rewrite !map_map.
    apply map_ext. intros z. rewrite xlog_fin, ln_1 by lra. reflexivity.
  - exists (map Phi (map IZR zs)). split; [apply cdf_fins; destruct zs; [congruence | discriminate]|].
    apply Forall_forall. intros p Hp. apply in_map_iff in Hp. destruct Hp as (x & <- & _). apply Phi_bound.
Qed.

(** ** Densities *)
Lemma two_PI_pos : 0 < 2 * PI. Proof. pose proof PI_RGT_0. lra. Qed.
Lemma ln_sqrt x : 0 < x -> ln (sqrt x) = / 2 * ln x.
Proof.
  intros H. assert (P : 0 < sqrt x) by (apply sqrt_lt_R0, H).
  rewrite <- (sqrt_sqrt x) at 2 by lra. rewrite ln_mult by assumption. lra.
Qed.
Definition log_gauss (m s x : R) : R := - (1 / 2) * ln (2 * PI) - ln s - (x - m) * (x - m) / (2 * (s * s)).
Lemma gauss_exp m s x : 0 < s -> exp (log_gauss m s x) = gauss m s x.
Proof.
  intros Hs. unfold log_gauss, gauss.
  assert (P : 0 < sqrt (2 * PI)) by (apply sqrt_lt_R0, two_PI_pos).
  replace (- (1 / 2) * ln (2 * PI) - ln s - (x - m) * (x - m) / (2 * (s * s)))
    with (- ((x - m) * (x - m)) / (2 * (s * s)) + - (ln (s * sqrt (2 * PI)))).
  2:{ rewrite ln_mult, ln_sqrt by (assumption || apply two_PI_pos). field. lra. }
  rewrite exp_plus, exp_Ropp, exp_ln by (apply Rmult_lt_0_compat; assumption). reflexivity.
Qed.
Lemma ln_gauss m s x : 0 < s -> ln (gauss m s x) = log_gauss m s x.
Proof. intros H. rewrite <- gauss_exp by exact H. apply ln_exp. Qed.
Lemma log_norm_fin s : 0 < s ->
  @nsub XR (@nmul XR (@nopp XR (@lit XR 5 1)) (@nlog XR (@nmul XR (@nofZ XR 2) (@npi XR)))) (@nlog XR (Fin s))
  = Fin (- (1 / 2) * ln (2 * PI) - ln s).
Proof.
  intros Hs. rewrite lit51, xopp_fin, xofZ_fin. cbn [npi XR]. rewrite xmul_fin, xlog_fin by apply two_PI_pos.
  rewrite xlog_fin by exact Hs. reflexivity.
Qed.
Lemma pdf_val m s x : 0 < s ->
  @nexp XR (@nsub XR (Fin (- (1 / 2) * ln (2 * PI) - ln s))
    (@ndiv XR (@sq XR (@nsub XR (Fin x) (Fin m))) (@nmul XR (@nofZ XR 2) (@nmul XR (Fin s) (Fin s))))) = Fin (gauss m s x).
Proof.
  intros Hs. unfold sq. rewrite xsub_fin, !xmul_fin, xofZ_fin, xmul_fin, xdiv_fin.
  - rewrite xsub_fin. cbn [nexp XR xexp]. f_equal. apply (gauss_exp m s x Hs).
  - pose proof (Rmult_lt_0_compat s s Hs Hs). lra.
Qed.
Lemma nd_check_fins s l : l <> [] -> @nd_check XR (Arr s (fins l)) = Ok tt.
Proof. intros H. apply nd_check_ok; [apply fins_ne, H | apply no_nan, fins_no_nan]. Qed.
Theorem pdf_exact : forall sh l x m s, l <> [] -> 0 < s ->
  pdf (Arr sh (fins l)) (Fin s : XR) (Fin m : XR) = Ok (Arr sh (fins (map (gauss m s) l))) /\
  pdf (Scal (Fin x : XR)) (Fin s : XR) (Fin m : XR) = Ok (Scal (Fin (gauss m s x) : XR)).
Proof.
  intros sh l x m s Hl Hs. split.
  - unfold pdf. rewrite nd_check_fins by exact Hl. cbn [bind nd_map]. rewrite log_norm_fin by exact Hs.
    do 2 f_equal. unfold fins. rewrite !map_map. apply map_ext. intros y. apply pdf_val, Hs.
  - unfold pdf. cbn [nd_check elements existsb nisnan XR orb bind nd_map]. rewrite log_norm_fin by exact Hs.
    do 2 f_equal. apply pdf_val, Hs.
Qed.
Theorem log_pdf_exact : forall sh l x m s, l <> [] -> 0 < s ->
  log_pdf (Arr sh (fins l)) (Fin s : XR) (Fin m : XR) =
    Ok (Arr sh (fins (map (fun y => - (1 / 2) * ln (2 * PI) - ln s - (y - m) * (y - m) / (2 * (s * s))) l))) /\
  log_pdf (Scal (Fin x : XR)) (Fin s : XR) (Fin m : XR) = Ok (Scal (Fin (ln (gauss m s x)) : XR)) /\
  ln (gauss m s x) = - (1 / 2) * ln (2 * PI) - ln s - (x - m) * (x - m) / (2 * (s * s)).
Proof.
  intros sh l x m s Hl Hs. destruct (pdf_exact sh l x m s Hl Hs) as [E1 E2]. split; [|split].
  - unfold log_pdf. rewrite nd_check_fins by exact Hl. cbn [bind]. rewrite E1. cbn [bind nd_map].
    do 2 f_equal. unfold fins. rewrite !map_map. apply map_ext. intros y.
    rewrite xlog_fin by (apply gauss_pos, Hs). f_equal. apply ln_gauss, Hs.
  - unfold log_pdf. cbn [nd_check elements existsb nisnan XR orb bind]. rewrite E2. cbn [bind nd_map].
    rewrite xlog_fin by (apply gauss_pos, Hs). reflexivity.
  - apply ln_gauss, Hs.
Qed.
(** The density: positive, symmetric, largest at the mean, with integral given by Phi. *)
Lemma gauss_RInt_Phi m s a b : 0 < s -> RInt (gauss m s) a b = Phi ((b - m) / s) - Phi ((a - m) / s).
Proof.
  intros Hs. rewrite Phi_diff.
  pose proof (RInt_linR (gauss 0 1) (/ s) (- m / s) a b) as H.
  replace (/ s * a + - m / s) with ((a - m) / s) in H by (field; lra).
  replace (/ s * b + - m / s) with ((b - m) / s) in H by (field; lra).
  rewrite <- H by (apply gauss_RInt; lra). apply RInt_ext. intros t _. asR. unfold gauss.
  replace (- ((/ s * t + - m / s - 0) * (/ s * t + - m / s - 0)) / (2 * (1 * 1))) with (- ((t - m) * (t - m)) / (2 * (s * s)))
    by (field; lra).
  assert (0 < sqrt (2 * PI)) by (apply sqrt_lt_R0, two_PI_pos). field. lra.
Qed.
Theorem gauss_laws : forall m s, 0 < s ->
  (forall x, 0 < gauss m s x) /\ (forall d, gauss m s (m + d) = gauss m s (m - d)) /\
  (forall x, x <> m -> gauss m s x < gauss m s m) /\
  (forall x y, Rabs (x - m) < Rabs (y - m) -> gauss m s y < gauss m s x) /\
  (forall a b, RInt (gauss m s) a b = Phi ((b - m) / s) - Phi ((a - m) / s)) /\
  is_lim (fun b => RInt (gauss m s) m b) p_infty (1 / 2).
Proof.
  intros m s Hs. assert (P : 0 < s * sqrt (2 * PI)).
  { apply Rmult_lt_0_compat; [exact Hs | apply sqrt_lt_R0, two_PI_pos]. }
  assert (S : 0 < 2 * (s * s)) by (pose proof (Rmult_lt_0_compat s s Hs Hs); lra).
  assert (M : forall x y, (x - m) * (x - m) < (y - m) * (y - m) -> gauss m s y < gauss m s x).
  { intros x y H. unfold gauss. apply Rmult_lt_compat_r; [apply Rinv_0_lt_compat, P|].
    apply exp_increasing. apply Rmult_lt_compat_r; [apply Rinv_0_lt_compat, S | lra]. }
  split; [intros x; apply gauss_pos, Hs|]. split.
  { intros d. unfold gauss. do 3 f_equal. ring. }
  split; [|split; [|split]].
  - intros x Hx. apply M. assert (x - m <> 0) by lra. pose proof (Rsqr_pos_lt _ H) as Q. unfold Rsqr in Q. lra.
  - intros x y H. apply M. apply Rsqr_lt_abs_1 in H. exact H.
  - intros a b. apply gauss_RInt_Phi, Hs.
  - apply (is_lim_ext (fun b => Phi ((b - m) / s) - 1 / 2)).
    { intros b. rewrite gauss_RInt_Phi by exact Hs. replace ((m - m) / s) with 0 by (field; lra). now rewrite Phi_0. }
    assert (E : Finite (1 / 2) = Finite (1 - 1 / 2)) by (f_equal; lra). rewrite E.
    apply (is_lim_minus (fun b => Phi ((b - m) / s)) (fun _ => 1 / 2) p_infty 1 (1 / 2)); [|apply is_lim_const|reflexivity].
    apply (is_lim_comp Phi (fun b => (b - m) / s) p_infty 1 p_infty); [apply Phi_lim_p | |exists 0; intros y _; discriminate].
    apply (is_lim_ext (fun b => / s * b + - m / s)); [intros b; field; lra|].
    assert (Q : 0 < / s) by (apply Rinv_0_lt_compat, Hs).
    apply is_lim_spec. intros K. exists ((K + m / s) * s). intros b Hb.
    apply Rmult_lt_reg_r with s; [exact Hs|]. replace ((/ s * b + - m / s) * s) with (b - m) by (field; lra).
    replace ((K + m / s) * s) with (K * s + m) in Hb by (field; lra). lra.
Qed.
(** A standard deviation that is not positive gives NaN everywhere, not an error. *)
Theorem pdf_bad_std : forall sh l m s, l <> [] -> s <= 0 ->
  pdf (Arr sh (fins l)) (Fin s : XR) (Fin m : XR) = Ok (Arr sh (map (fun _ => NaN : XR) l)).
Proof.
  intros sh l m s Hl Hs. unfold pdf. rewrite nd_check_fins by exact Hl. cbn [bind nd_map].
  do 2 f_equal. unfold fins. rewrite map_map. apply map_ext. intros y.
  unfold sq. rewrite lit51, xopp_fin, xofZ_fin. cbn [npi XR]. rewrite xmul_fin, xlog_fin by apply two_PI_pos.
  rewrite xmul_fin, xsub_fin, !xmul_fin.
  destruct (Req_dec s 0) as [->|Hn].
  - replace (@nlog XR (Fin 0)) with (Inf true : XR).
    2:{ cbn. rewrite Rlt_bool_false, Req_bool_true by lra. reflexivity. }
    replace (2 * (0 * 0)) with 0 by ring.
    destruct (Req_dec ((y - m) * (y - m)) 0) as [->|Hy].
    + rewrite xdiv_00. reflexivity.
    + rewrite xdiv_x0 by exact Hy. unfold xneg. rewrite Rlt_bool_false; [reflexivity|]. apply Rle_0_sqr.
  - replace (@nlog XR (Fin s)) with (NaN : XR).
    2:{ cbn. rewrite Rlt_bool_false, Req_bool_false by lra. reflexivity. }
    cbn [nsub XR xsub xadd xopp]. destruct (@ndiv XR (Fin ((y - m) * (y - m))) (Fin (2 * (s * s)))); reflexivity.
Qed.

(** Survival function and logarithms. *)
Theorem sf_exact : forall sh l, l <> [] ->
  sf DFloat (Arr sh (fins l)) = Ok (Arr sh (fins (map (fun x => 1 - Phi x) l))) /\
  log_cdf DFloat (Arr sh (fins l)) = Ok (Arr sh (fins (map (fun x => ln (Phi x)) l))) /\
  log_sf DFloat (Arr sh (fins l)) = Ok (Arr sh (fins (map (fun x => ln (1 - Phi x)) l))) /\
  (forall x, ln (Phi x) < 0 /\ ln (1 - Phi x) < 0).
Proof.
  intros sh l Hl. pose proof (cdf_fins sh l Hl) as C. pose proof (nd_check_fins sh l Hl) as K.
  assert (S : sf DFloat (Arr sh (fins l)) = Ok (Arr sh (fins (map (fun x => 1 - Phi x) l)))).
  { unfold sf. rewrite K. cbn [bind]. rewrite C. cbn [bind nd_map]. do 2 f_equal. unfold fins. rewrite !map_map.
    apply map_ext. intros z. reflexivity. }
  split; [exact S|]. split; [|split].
  - unfold log_cdf. rewrite K. cbn [bind]. rewrite C. cbn [bind nd_map]. do 2 f_equal. unfold fins. rewrite !map_map.
    apply map_ext. intros z. apply xlog_fin, Phi_bound.
  - unfold log_sf. rewrite S. cbn [bind nd_map]. do 2 f_equal. unfold fins. rewrite !map_map.
    apply map_ext. intros z. apply xlog_fin. pose proof (Phi_bound z). lra.
  - intros x. pose proof (Phi_bound x). split; rewrite <- ln_1; apply ln_increasing; lra.
Qed.
