(** Lemmas about the kernel density estimate of trivariatekernel.py. *)
From Coq Require Import Reals Lra Psatz.
From Flocq Require Import Core.Raux.
From Verif Require Export M_trikde Spec4 Spec2 P_kern P_kernel.
Local Open Scope R_scope.

(** ** Sample covariance *)
Lemma zip_map2 {A B C D} (f : B -> C -> D) (a : A -> B) (b : A -> C) l :
  zipwith f (map a l) (map b l) = map (fun x => f (a x) (b x)) l.
Proof. induction l as [|x l IH]; [reflexivity|]. unfold zipwith in *. cbn [map combine]. rewrite IH. reflexivity. Qed.
Lemma rmean_lin {A} (f g : A -> R) a b (P : list A) :
  rmean (map (fun p => a * f p + b * g p) P) = a * rmean (map f P) + b * rmean (map g P).
Proof.
  unfold rmean. rewrite !map_length, (Rsum_map_add (fun p => a * f p) (fun p => b * g p)), !Rsum_map_scal. unfold Rdiv. ring.
Qed.
Lemma scov_sym f g P : scov f g P = scov g f P.
Proof. unfold scov. f_equal. apply Rsum_ext. intros. ring. Qed.
Lemma scov_lin f g k a b P : scov (fun p => a * f p + b * g p) k P = a * scov f k P + b * scov g k P.
Proof.
  unfold scov. rewrite rmean_lin. unfold Rdiv. rewrite <- !Rmult_assoc, <- Rmult_plus_distr_r. f_equal.
  rewrite <- !Rsum_map_scal, <- Rsum_map_add. apply Rsum_ext. intros. ring.
Qed.
Lemma scov_map f g h P : scov f g (map h P) = scov (fun p => f (h p)) (fun p => g (h p)) P.
Proof. unfold scov. rewrite !map_map, map_length. reflexivity. Qed.
Lemma scov_ext f g f' g' P : (forall p, f p = f' p) -> (forall p, g p = g' p) -> scov f g P = scov f' g' P.
Proof.
  intros Hf Hg. unfold scov. rewrite (map_ext f f' Hf), (map_ext g g' Hg). f_equal. apply Rsum_ext. intros. rewrite Hf, Hg. reflexivity.
Qed.
Lemma scov_forms P f g a b a' b' :
  (forall p, f p = a * fst p + b * snd p) -> (forall p, g p = a' * fst p + b' * snd p) ->
  scov f g P = a * a' * scov fst fst P + (a * b' + b * a') * scov fst snd P + b * b' * scov snd snd P.
Proof.
  intros Hf Hg. rewrite (scov_ext f g _ _ P Hf Hg), scov_lin.
  rewrite (scov_sym fst), (scov_sym snd), !scov_lin, (scov_sym snd fst). ring.
Qed.
Lemma scov_rotate t P :
  let c := cos t in let s := sin t in
  let X := scov fst fst P in let Y := scov snd snd P in let Z := scov fst snd P in
  scov fst fst (map (rotate t) P) = c * c * X + 2 * c * s * Z + s * s * Y /\
  scov snd snd (map (rotate t) P) = c * c * Y - 2 * c * s * Z + s * s * X /\
  scov fst snd (map (rotate t) P) = (c * c - s * s) * Z + c * s * (Y - X).
Proof.
  cbn zeta. rewrite !scov_map. unfold rotate. cbn [fst snd].
  split; [|split].
  - rewrite (scov_forms P _ _ (cos t) (sin t) (cos t) (sin t)) by (intros; ring). ring.
  - rewrite (scov_forms P _ _ (- sin t) (cos t) (- sin t) (cos t)) by (intros; ring). ring.
  - rewrite (scov_forms P _ _ (cos t) (sin t) (- sin t) (cos t)) by (intros; ring). ring.
Qed.
Lemma sdet_rotate t P : sdet (map (rotate t) P) = sdet P.
Proof.
  unfold sdet. destruct (scov_rotate t P) as (-> & -> & ->).
  pose proof (sin2_cos2 t) as H. rewrite !Rsqr_pow2 in H. set (c := cos t) in *. set (s := sin t) in *.
  set (X := scov fst fst P). set (Y := scov snd snd P). set (Z := scov fst snd P).
  replace (X * Y - Z ^ 2) with ((X * Y - Z ^ 2) * (s ^ 2 + c ^ 2) ^ 2) by (rewrite H; ring). ring.
Qed.
Lemma n_gt1 {A} (P : list A) : (2 <= length P)%nat -> 1 < INR (length P).
Proof. intros H. apply (lt_INR 1). lia. Qed.
Lemma scov_nonneg f P : (2 <= length P)%nat -> 0 <= scov f f P.
Proof.
  intros H. apply n_gt1 in H. unfold scov. apply Rmult_le_pos; [|left; apply Rinv_0_lt_compat; lra].
  apply Rsum_map_nonneg. intros. apply Rle_0_sqr.
Qed.
Lemma scov_zero f P : (2 <= length P)%nat -> scov f f P = 0 -> forall p, In p P -> f p = rmean (map f P).
Proof.
  intros H E. apply n_gt1 in H. unfold scov in E.
  assert (E' : Rsum (map (fun p => (f p - rmean (map f P)) * (f p - rmean (map f P))) P) = 0).
  { apply Rmult_eq_reg_r with (/ (INR (length P) - 1)); [|apply Rinv_neq_0_compat; lra]. unfold Rdiv in E. lra. }
  intros p Hp. pose proof (Rsum_zero_inv _ P ltac:(intros; apply Rle_0_sqr) E' p Hp) as E0. cbv beta in E0.
  assert (f p - rmean (map f P) = 0) by (apply Rsqr_0_uniq; exact E0). lra.
Qed.
Lemma rmean_const_in {A} (f : A -> R) c P : P <> [] -> (forall p, In p P -> f p = c) -> rmean (map f P) = c.
Proof.
  intros Hne H. unfold rmean. rewrite (Rsum_ext f (fun _ => c) P H), Rsum_map_const, map_length. field.
  pose proof (INR_len_pos P Hne). lra.
Qed.
Lemma scov_const f g c P : (forall p, In p P -> f p = c) -> scov f g P = 0.
Proof.
  intros H. destruct P as [|p P]; [unfold scov; cbn; unfold Rdiv; ring|].
  unfold scov. rewrite (rmean_const_in f c) by (try discriminate; exact H).
  rewrite (Rsum_ext _ (fun _ => 0)); [rewrite Rsum_map_const; unfold Rdiv; ring|]. intros x Hx. rewrite (H x Hx). ring.
Qed.
Lemma sdet_nonneg P : (2 <= length P)%nat -> 0 <= sdet P.
Proof.
  intros H. pose proof (n_gt1 P H) as Hn. unfold sdet, scov. set (n := INR (length P) - 1) in *.
  set (F := fun p : R * R => fst p - rmean (map fst P)). set (G := fun p : R * R => snd p - rmean (map snd P)).
  pose proof (Rsum_CS F G P) as CS.
  replace (Rsum (map (fun p : R * R => (fst p - rmean (map fst P)) * (fst p - rmean (map fst P))) P)) with (Rsum (map (fun p => F p ^ 2) P))
    by (apply Rsum_ext; intros; unfold F; ring).
  replace (Rsum (map (fun p : R * R => (snd p - rmean (map snd P)) * (snd p - rmean (map snd P))) P)) with (Rsum (map (fun p => G p ^ 2) P))
    by (apply Rsum_ext; intros; unfold G; ring).
  fold F G. change (Rsum (map (fun p : R * R => (fst p - rmean (map fst P)) * (snd p - rmean (map snd P))) P)) with (Rsum (map (fun x => F x * G x) P)).
  set (X := Rsum (map (fun p => F p ^ 2) P)) in *. set (Y := Rsum (map (fun p => G p ^ 2) P)) in *. set (Z := Rsum (map (fun x => F x * G x) P)) in *.
  replace (X / n * (Y / n) - (Z / n) ^ 2) with ((X * Y - Z ^ 2) * (/ n) ^ 2) by (unfold Rdiv; ring).
  apply Rmult_le_pos; [lra | apply pow2_ge_0].
Qed.
Lemma sdet_zero_iff P : (2 <= length P)%nat -> (sdet P = 0 <-> collinear P).
Proof.
  intros H. split.
  - intros E. unfold sdet in E. set (X := scov fst fst P) in *. set (Y := scov snd snd P) in *. set (Z := scov fst snd P) in *.
    destruct (Req_dec X 0) as [HX|HX].
    + exists 1, 0, (rmean (map fst P)). split; [left; lra|]. intros p Hp. rewrite <- (scov_zero fst P H HX p Hp). ring.
    + set (h := fun p : R * R => (- Z) * fst p + X * snd p).
      assert (Hh : scov h h P = 0).
      { rewrite (scov_forms P h h (-Z) X (-Z) X) by reflexivity. fold X Y Z. replace (_ + _ + _) with (X * (X * Y - Z ^ 2)) by ring. rewrite E. ring. }
      exists (- Z), X, (rmean (map h P)). split; [right; exact HX|]. intros p Hp. apply (scov_zero h P H Hh p Hp).
  - intros (a & b & c & Hab & Hc).
    assert (E1 : a * scov fst fst P + b * scov fst snd P = 0).
    { rewrite (scov_sym fst snd), <- scov_lin. apply (scov_const _ _ c). exact Hc. }
    assert (E2 : a * scov fst snd P + b * scov snd snd P = 0).
    { rewrite <- scov_lin. apply (scov_const _ _ c). exact Hc. }
    unfold sdet. set (X := scov fst fst P) in *. set (Y := scov snd snd P) in *. set (Z := scov fst snd P) in *.
    destruct Hab as [Ha|Hb].
    + apply Rmult_eq_reg_l with a; [|exact Ha]. replace (a * (X * Y - Z ^ 2)) with (a * X * Y - a * Z * Z) by ring.
      replace (a * X) with (- (b * Z)) by lra. replace (a * Z) with (- (b * Y)) by lra. ring.
    + apply Rmult_eq_reg_l with b; [|exact Hb]. replace (b * (X * Y - Z ^ 2)) with (X * (b * Y) - Z * (b * Z)) by ring.
      replace (b * Z) with (- (a * X)) by lra. replace (b * Y) with (- (a * Z)) by lra. ring.
Qed.
Lemma collinear_rotate t P : collinear (map (rotate t) P) <-> collinear P.
Proof.
  pose proof (sin2_cos2 t) as H. rewrite !Rsqr_pow2 in H. set (c := cos t) in *. set (s := sin t) in *. split.
  - intros (a & b & k & Hab & Hk). exists (a * c - b * s), (a * s + b * c), k. split.
    + assert (E : (a * c - b * s) ^ 2 + (a * s + b * c) ^ 2 = a ^ 2 + b ^ 2) by (replace (_ + _) with ((a ^ 2 + b ^ 2) * (s ^ 2 + c ^ 2)) by ring; rewrite H; ring).
      destruct (Req_dec (a * c - b * s) 0) as [E1|E1]; [right; intros E2 | left; exact E1]. rewrite E1, E2 in E.
      destruct Hab as [Ha|Hb]; nra.
    + intros p Hp. specialize (Hk (rotate t p) (in_map _ _ _ Hp)). unfold rotate in Hk. cbn [fst snd] in Hk. fold c s in Hk. lra.
  - intros (a & b & k & Hab & Hk). exists (a * c + b * s), (b * c - a * s), k. split.
    + assert (E : (a * c + b * s) ^ 2 + (b * c - a * s) ^ 2 = a ^ 2 + b ^ 2) by (replace (_ + _) with ((a ^ 2 + b ^ 2) * (s ^ 2 + c ^ 2)) by ring; rewrite H; ring).
      destruct (Req_dec (a * c + b * s) 0) as [E1|E1]; [right; intros E2 | left; exact E1]. rewrite E1, E2 in E.
      destruct Hab as [Ha|Hb]; nra.
    + intros q Hq. apply in_map_iff in Hq. destruct Hq as (p & <- & Hp). specialize (Hk p Hp). unfold rotate. cbn [fst snd]. fold c s.
      replace (_ + _) with ((a * fst p + b * snd p) * (s ^ 2 + c ^ 2)) by ring. rewrite H. lra.
Qed.
Lemma collinear_short P : (length P < 2)%nat -> collinear P.
Proof.
  intros H. destruct P as [|p [|q P]]; [| |cbn in H; lia].
  - exists 1, 0, 0. split; [left; lra|]. intros p [].
  - exists 1, 0, (fst p). split; [left; lra|]. intros q [<-|[]]. ring.
Qed.
Lemma collinear_short3 p q : collinear [p; q].
Proof.
  destruct (Req_dec (snd p) (snd q)) as [E|E].
  - exists 0, 1, (snd p). split; [right; lra|]. intros r [<-|[<-|[]]]; [ring | rewrite E; ring].
  - exists (snd q - snd p), (fst p - fst q), ((snd q - snd p) * fst p + (fst p - fst q) * snd p). split; [left; lra|].
    intros r [<-|[<-|[]]]; ring.
Qed.

(** ** The covariance computed by the code *)
Definition xs (f : R * R -> R) (P : list (R * R)) : list XR := map (fun p => Fin (f p)) P.
Lemma xs_fins f P : xs f P = fins (map f P).
Proof. unfold xs, fins. rewrite map_map. reflexivity. Qed.
Lemma td_weight_xs (P : list (R * R)) : P <> [] -> @td_weight XR (length P) = xs (fun _ => / INR (length P)) P.
Proof.
  intros Hne. pose proof (INR_len_pos P Hne) as Hn. unfold td_weight. rewrite xofZ_fin, xofZ_fin, <- INR_IZR_INZ, xdiv_fin by lra.
  unfold Rdiv. rewrite Rmult_1_l. unfold xs. generalize (/ INR (length P)). clear. intros w.
  induction P as [|p P IH]; [reflexivity|]. cbn [length map repeat]. f_equal. exact IH.
Qed.
Lemma xs_sum f P : @nsum XR (xs f P) = Fin (Rsum (map f P)).
Proof. rewrite xs_fins. apply xsum_fins. Qed.
Lemma xs_mul f g P : zipwith (@nmul XR) (xs f P) (xs g P) = xs (fun p => f p * g p) P.
Proof. unfold xs. rewrite zip_map2. reflexivity. Qed.
Lemma xs_sub f c P : map (fun v => @nsub XR v (Fin c)) (xs f P) = xs (fun p => f p - c) P.
Proof. unfold xs. rewrite map_map. reflexivity. Qed.
Lemma xs_sq f P : map (@sq XR) (xs f P) = xs (fun p => f p * f p) P.
Proof. unfold xs. rewrite map_map. reflexivity. Qed.
Lemma np_cov_xs f g P : (2 <= length P)%nat ->
  @np_cov XR (td_weight (length P)) (xs f P) (xs g P) = Fin (scov f g P).
Proof.
  intros H. pose proof (n_gt1 P H) as Hn. assert (Hne : P <> []) by (intros ->; cbn in H; lia).
  unfold np_cov. rewrite td_weight_xs by exact Hne. set (n := INR (length P)) in *.
  unfold dot. rewrite !xs_mul, xs_sq, !xs_sum.
  assert (W : Rsum (map (fun _ : R * R => / n) P) = 1). { rewrite Rsum_map_const. fold n. field. lra. }
  assert (S2 : Rsum (map (fun _ : R * R => / n * / n) P) = / n). { rewrite Rsum_map_const. fold n. field. lra. }
  rewrite W, S2, !xdiv_fin by lra.
  assert (Mf : forall h : R * R -> R, Rsum (map (fun p => h p * / n) P) / 1 = rmean (map h P)).
  { intros h. rewrite Rsum_map_scal_r. unfold rmean. rewrite map_length. fold n. unfold Rdiv. rewrite Rinv_1. ring. }
  rewrite !Mf, !xs_sub, !xs_mul, xs_sum.
  rewrite !xofZ_fin, xmul_fin, xdiv_fin by lra. rewrite xsub_fin, xleb_fin.
  assert (Hf : 0 < 1 - 1 * / n / 1). { assert (/ n < 1) by (rewrite <- Rinv_1; apply Rinv_lt_contravar; lra). unfold Rdiv. rewrite Rinv_1. lra. }
  rewrite Rle_bool_false by exact Hf. rewrite xdiv_fin by lra. rewrite xmul_fin. f_equal. unfold scov. fold n.
  rewrite (Rsum_ext _ (fun x => (f x - rmean (map f P)) * (g x - rmean (map g P)) * / n)) by (intros; ring).
  rewrite Rsum_map_scal_r. field. repeat split; lra.
Qed.
Lemma scott_pos n : 0 < scott n.
Proof. unfold scott, Rpower. apply exp_pos. Qed.
Lemma td_net_xs (P : list (R * R)) : P <> [] ->
  @npow XR (nsum (map sq (td_weight (length P)))) (nofZ (-1)) = Fin (INR (length P)).
Proof.
  intros Hne. pose proof (INR_len_pos P Hne) as Hn. rewrite td_weight_xs by exact Hne. rewrite xs_sq, xs_sum, Rsum_map_const, xofZ_fin.
  set (n := INR (length P)) in *. cbn [npow XR]. unfold xpow. replace (n * (/ n * / n)) with (/ n) by (field; lra).
  rewrite Rlt_bool_true by (apply Rinv_0_lt_compat; exact Hn). f_equal. change (IZR (-1)) with (- (1)). rewrite Rpower_Ropp.
  rewrite Rpower_1 by (apply Rinv_0_lt_compat; exact Hn). apply Rinv_inv.
Qed.
Lemma td_factor_fin n : (0 < n)%nat -> @td_factor XR 2 (Fin (INR n)) = Fin (scott n).
Proof.
  intros H. apply lt_INR in H. cbn [INR] in H. unfold td_factor. rewrite !xofZ_fin, ?xopp_fin, xdiv_fin by (cbn; lra).
  cbn [npow XR]. unfold xpow. rewrite ?xopp_fin. rewrite Rlt_bool_true by exact H. f_equal. unfold scott. f_equal. change (2 + 4)%Z with 6%Z. lra.
Qed.

(** ** Cholesky factor *)
Lemma cholesky2_ok a b c : 0 < a -> 0 < a * c - b ^ 2 ->
  @cholesky2 XR (Fin a) (Fin b) (Fin b) (Fin c) = Ok (Fin (sqrt a), Fin (b / sqrt a), Fin (sqrt (c - b / sqrt a * (b / sqrt a)))) /\
  0 < sqrt a /\ 0 < c - b / sqrt a * (b / sqrt a) /\ c - b / sqrt a * (b / sqrt a) = (a * c - b ^ 2) / a.
Proof.
  intros Ha Hd. pose proof (sqrt_lt_R0 a Ha) as Hs.
  assert (E : c - b / sqrt a * (b / sqrt a) = (a * c - b ^ 2) / a).
  { replace (b / sqrt a * (b / sqrt a)) with (b ^ 2 / (sqrt a * sqrt a)) by (field; lra). rewrite sqrt_sqrt by lra. field. lra. }
  assert (Hp : 0 < c - b / sqrt a * (b / sqrt a)). { rewrite E. apply Rdiv_lt_0_compat; assumption. }
  split; [|split; [exact Hs | split; [exact Hp | exact E]]].
  unfold cholesky2. cbn [nisfin XR andb negb]. rewrite !xofZ_fin, xltb_fin, Rlt_bool_true by exact Ha. cbn [negb].
  rewrite xsqrt_fin by lra. rewrite xdiv_fin by lra. rewrite xmul_fin, xsub_fin, xltb_fin, Rlt_bool_true by exact Hp. cbn [negb].
  rewrite xsqrt_fin by lra. reflexivity.
Qed.
Lemma cholesky2_singular a b c : 0 <= a -> a * c - b ^ 2 = 0 ->
  @cholesky2 XR (Fin a) (Fin b) (Fin b) (Fin c) = Raise LinAlgError.
Proof.
  intros Ha Hd. unfold cholesky2. cbn [nisfin XR andb negb]. rewrite !xofZ_fin, xltb_fin.
  destruct (Req_dec a 0) as [->|Hn]; [rewrite Rlt_bool_false by lra; reflexivity|].
  rewrite Rlt_bool_true by lra. cbn [negb]. assert (Hs : 0 < sqrt a) by (apply sqrt_lt_R0; lra).
  rewrite xsqrt_fin by lra. rewrite xdiv_fin by lra. rewrite xmul_fin, xsub_fin, xltb_fin.
  replace (c - b / sqrt a * (b / sqrt a)) with 0; [rewrite Rlt_bool_false by lra; reflexivity|].
  replace (b / sqrt a * (b / sqrt a)) with (b ^ 2 / (sqrt a * sqrt a)) by (field; lra). rewrite sqrt_sqrt by lra.
  replace (b ^ 2) with (a * c) by lra. field. exact Hn.
Qed.

(** What the evaluation dictionary holds for points P with a regular covariance matrix. *)
Definition evals_spec (P : list (R * R)) (e : td_evals XR) : Prop :=
  let n := length P in let h := scott n in
  e_weight e = repeat (Fin (/ INR n)) n /\ e_net e = Fin (INR n) /\ e_factor e = Fin h /\
  e_cov e = (Fin (h ^ 2 * scov fst fst P), Fin (h ^ 2 * scov fst snd P), Fin (h ^ 2 * scov fst snd P), Fin (h ^ 2 * scov snd snd P)) /\
  (exists r11 r12 r22, e_chol e = (Fin r11, Fin r12, Fin r22) /\ 0 < r11 /\ 0 < r22 /\
     r11 * r11 = h ^ 2 * scov fst fst P /\ r11 * r12 = h ^ 2 * scov fst snd P /\ r12 * r12 + r22 * r22 = h ^ 2 * scov snd snd P) /\
  e_log e = Fin (ln ((2 * PI) ^ 2 * (h ^ 4 * sdet P))).
Lemma sdet_pos P : (2 <= length P)%nat -> ~ collinear P -> 0 < sdet P /\ 0 < scov fst fst P.
Proof.
  intros H HC. pose proof (sdet_nonneg P H) as H0. pose proof (scov_nonneg fst P H) as H1.
  assert (Hd : sdet P <> 0) by (intros E; apply HC, sdet_zero_iff; assumption). split; [lra|].
  destruct (Req_dec (scov fst fst P) 0) as [E|E]; [|lra]. exfalso. unfold sdet in *. rewrite E in *. nra.
Qed.
Lemma td_covariance_xs P : (2 <= length P)%nat -> ~ collinear P ->
  exists e, @td_covariance XR (xs fst P) (xs snd P) = Ok e /\ evals_spec P e.
Proof.
  intros H HC. destruct (sdet_pos P H HC) as [Hd Ha]. assert (Hne : P <> []) by (intros ->; cbn in H; lia).
  pose proof (INR_len_pos P Hne) as Hn.
  unfold td_covariance. replace (length (xs fst P)) with (length P) by (unfold xs; rewrite map_length; reflexivity).
  rewrite !np_cov_xs by exact H. rewrite (scov_sym snd fst).
  destruct (cholesky2_ok (scov fst fst P) (scov fst snd P) (scov snd snd P) Ha Hd) as (-> & Hs & Hp & E). cbn [bind].
  rewrite td_net_xs by exact Hne. rewrite td_factor_fin by lia.
  set (h := scott (length P)). assert (Hh : 0 < h) by apply scott_pos.
  set (X := scov fst fst P) in *. set (Y := scov snd snd P) in *. set (Z := scov fst snd P) in *.
  set (d := Y - Z / sqrt X * (Z / sqrt X)) in *. pose proof (sqrt_lt_R0 d Hp) as Hsd.
  assert (SX : sqrt X * sqrt X = X) by (apply sqrt_sqrt; lra). assert (SD : sqrt d * sqrt d = d) by (apply sqrt_sqrt; lra).
  eexists. split; [reflexivity|]. unfold evals_spec. cbn [e_weight e_net e_factor e_cov e_chol e_log]. fold h X Y Z.
  split. { rewrite td_weight_xs by exact Hne. unfold xs. generalize (/ INR (length P)). intros w. clear.
           induction P as [|p P IH]; [reflexivity|]. cbn [length map repeat]. f_equal. exact IH. }
  split; [reflexivity|]. split; [reflexivity|]. unfold sq. rewrite !xmul_fin.
  split. { repeat (f_equal; try ring). }
  split. { exists (sqrt X * h), (Z / sqrt X * h), (sqrt d * h). split; [reflexivity|].
    split; [apply Rmult_lt_0_compat; assumption|]. split; [apply Rmult_lt_0_compat; assumption|]. split; [|split].
    - replace (sqrt X * h * (sqrt X * h)) with (sqrt X * sqrt X * h ^ 2) by ring. rewrite SX. ring.
    - replace (sqrt X * h * (Z / sqrt X * h)) with (Z * h ^ 2 * (sqrt X * / sqrt X)) by (unfold Rdiv; ring). rewrite Rinv_r by lra. ring.
    - replace (Z / sqrt X * h * (Z / sqrt X * h) + sqrt d * h * (sqrt d * h)) with (h ^ 2 * (Z / sqrt X * (Z / sqrt X) + sqrt d * sqrt d)) by ring.
      rewrite SD. unfold d. ring. }
  unfold td_determination. cbn [map].
  assert (P2 : 0 < PI * 2) by (pose proof PI_RGT_0; lra). pose proof (sqrt_lt_R0 _ P2) as SP.
  assert (Epi : @npi XR = Fin PI) by reflexivity. rewrite Epi, !xofZ_fin, !xmul_fin, xsqrt_fin by lra. rewrite !xmul_fin.
  assert (L1 : 0 < sqrt X * h * sqrt (PI * 2)) by (repeat apply Rmult_lt_0_compat; assumption).
  assert (L2 : 0 < sqrt d * h * sqrt (PI * 2)) by (repeat apply Rmult_lt_0_compat; assumption).
  rewrite !xlog_fin by assumption. change [Fin (ln (sqrt X * h * sqrt (PI * 2))); Fin (ln (sqrt d * h * sqrt (PI * 2)))] with (fins [ln (sqrt X * h * sqrt (PI * 2)); ln (sqrt d * h * sqrt (PI * 2))]).
  rewrite xsum_fins, xmul_fin. f_equal. cbn [Rsum fold_right]. rewrite Rplus_0_r, <- ln_mult by assumption.
  set (q := sqrt X * h * sqrt (PI * 2) * (sqrt d * h * sqrt (PI * 2))). assert (Hq : 0 < q) by (apply Rmult_lt_0_compat; assumption).
  replace (2 * ln q) with (ln q + ln q) by ring. rewrite <- ln_mult by exact Hq. f_equal. unfold q.
  assert (SPI : sqrt (PI * 2) * sqrt (PI * 2) = PI * 2) by (apply sqrt_sqrt; lra).
  replace (_ * _) with ((sqrt X * sqrt X) * (sqrt d * sqrt d) * h ^ 4 * ((sqrt (PI * 2) * sqrt (PI * 2)) * (sqrt (PI * 2) * sqrt (PI * 2)))) by ring.
  rewrite SX, SD, SPI, E. fold (sdet P). replace (X * Y - Z ^ 2) with (sdet P) by reflexivity. field. lra.
Qed.
Lemma td_covariance_singular P : (2 <= length P)%nat -> collinear P ->
  @td_covariance XR (xs fst P) (xs snd P) = Raise LinAlgError.
Proof.
  intros H HC. unfold td_covariance. replace (length (xs fst P)) with (length P) by (unfold xs; rewrite map_length; reflexivity).
  rewrite !np_cov_xs by exact H. rewrite (scov_sym snd fst).
  rewrite cholesky2_singular; [reflexivity | apply scov_nonneg, H | apply sdet_zero_iff; assumption].
Qed.
Lemma td_density_xs P :
  ((length P < 2)%nat -> @td_density XR (xs fst P) (xs snd P) = Raise ValueError) /\
  ((2 <= length P)%nat -> collinear P -> @td_density XR (xs fst P) (xs snd P) = Raise LinAlgError) /\
  (~ collinear P -> exists e, @td_density XR (xs fst P) (xs snd P) = Ok e /\ evals_spec P e).
Proof.
  assert (L : length (xs fst P) = length P) by (unfold xs; apply map_length). unfold td_density. rewrite L. split; [|split].
  - intros H. destruct (length P =? 0)%nat; [reflexivity|]. rewrite (proj2 (Nat.ltb_lt _ _) H). reflexivity.
  - intros H HC. rewrite (proj2 (Nat.eqb_neq _ _)), (proj2 (Nat.ltb_ge _ _)) by lia. apply td_covariance_singular; assumption.
  - intros HC. assert (H : (2 <= length P)%nat) by (destruct (le_lt_dec 2 (length P)); [assumption | exfalso; apply HC, collinear_short; lia]).
    rewrite (proj2 (Nat.eqb_neq _ _)), (proj2 (Nat.ltb_ge _ _)) by lia. apply td_covariance_xs; assumption.
Qed.

(** ** The Gaussian estimate *)
Definition f2 (p : R * R) : XR * XR := (Fin (fst p), Fin (snd p)).
Lemma combine_xs f g P : combine (xs f P) (xs g P) = map (fun p => (Fin (f p), Fin (g p))) P.
Proof. unfold xs. induction P as [|p P IH]; [reflexivity|]. cbn [map combine]. rewrite IH. reflexivity. Qed.
Lemma gke_fold (T : XR * XR -> XR) (t : R * R -> R) (g : R * R -> XR * XR) w P : (forall p, T (g p) = Fin (t p)) -> forall a,
  fold_left (fun est pw => @nadd XR est (nmul (snd pw) (T (fst pw)))) (combine (map g P) (repeat (Fin w : XR) (length P))) (Fin a)
  = Fin (a + Rsum (map (fun p => w * t p) P)).
Proof.
  intros H. induction P as [|p P IH]; intros a; cbn [map combine length repeat fold_left].
  - f_equal. cbn. ring.
  - cbn [fst snd]. rewrite H. change (@nadd XR (Fin a) (nmul (Fin w) (Fin (t p)))) with (Fin (a + w * t p) : XR). rewrite IH. f_equal.
    change (Rsum (w * t p :: map (fun p => w * t p) P)) with (w * t p + Rsum (map (fun p => w * t p) P)). ring.
Qed.
Lemma gke_fin P w l11 l21 l22 x y : 0 < l11 -> 0 < l22 ->
  @gke XR (map f2 P) (repeat (Fin w : XR) (length P)) (Fin l11) (Fin l21) (Fin l22) (Fin x, Fin y) =
  Fin (Rsum (map (fun p => w * normal2 (l11 * l11) (l11 * l21) (l21 * l21 + l22 * l22) (x - fst p) (y - snd p)) P)).
Proof.
  intros H1 H2. unfold gke.
  assert (Epi : @npi XR = Fin PI) by reflexivity. assert (Hpi := PI_RGT_0).
  assert (EN : @ndiv XR (ndiv (npow (nmul (nofZ 2) npi) (nofZ (-1))) (Fin l11)) (Fin l22) = Fin (/ (2 * PI) / l11 / l22)).
  { rewrite Epi, !xofZ_fin, xmul_fin. cbn [npow XR]. unfold xpow. rewrite Rlt_bool_true by lra. change (IZR (-1)) with (- (1)).
    rewrite Rpower_Ropp, Rpower_1 by lra. change xdiv with (@ndiv XR). rewrite !xdiv_fin by lra. reflexivity. }
  rewrite EN. clear EN Epi.
  assert (EW : forall p, whiten (Fin l11) (Fin l21) (Fin l22) (f2 p) = ((Fin (fst p / l11), Fin ((snd p - l21 * (fst p / l11)) / l22)) : XR * XR)).
  { intros p. unfold whiten, f2. cbn [fst snd]. rewrite xdiv_fin by lra. rewrite xmul_fin, xsub_fin, xdiv_fin by lra. reflexivity. }
  change (Fin x, Fin y) with (f2 (x, y)). rewrite EW. cbn [fst snd]. rewrite map_map, xofZ_fin.
  rewrite (gke_fold _ (fun p => normal2 (l11 * l11) (l11 * l21) (l21 * l21 + l22 * l22) (x - fst p) (y - snd p))).
  - f_equal. apply Rplus_0_l.
  - intros p. rewrite EW. unfold gke_term. cbn [fst snd].
    rewrite !xsub_fin, !xmul_fin, !xofZ_fin, !xadd_fin, xopp_fin, xdiv_fin by lra. cbn [nexp XR xexp]. rewrite xmul_fin. f_equal.
    unfold normal2. replace (l11 * l11 * (l21 * l21 + l22 * l22) - (l11 * l21) ^ 2) with ((l11 * l22) * (l11 * l22)) by ring.
    rewrite sqrt_square by (left; apply Rmult_lt_0_compat; assumption).
    match goal with |- exp ?a * _ = exp ?b / _ => replace b with a by (field; split; lra); set (E := exp a) end.
    clearbody E. field. repeat split; lra.
Qed.
Lemma gke_evals S P e x y : (P <> []) -> length S = length P -> evals_spec S e ->
  let '(c11, c12, c22) := e_chol e in
  @gke XR (map f2 P) (e_weight e) c11 c12 c22 (Fin x, Fin y) = Fin (kde2 (scott (length P)) S P x y).
Proof.
  intros Hne HL (E1 & _ & _ & _ & (r11 & r12 & r22 & E & H1 & H2 & Q1 & Q2 & Q3) & _). rewrite E, E1, HL. rewrite gke_fin by assumption.
  rewrite Q1, Q2, Q3, HL. f_equal. unfold kde2, rmean. rewrite Rsum_map_scal, map_length. unfold Rdiv. ring.
Qed.
Lemma evolve_evals S P e (uf wf : list R) : P <> [] -> length S = length P -> evals_spec S e ->
  @td_evolve XR (map f2 P) e (fins uf) (fins wf) =
  map (fun x => map (fun y => Fin (kde2 (scott (length P)) S P x y)) wf) uf.
Proof.
  intros Hne HL HE. unfold td_evolve. pose proof (fun x y => gke_evals S P e x y Hne HL HE) as G.
  destruct (e_chol e) as [[c11 c12] c22]. unfold fins. rewrite map_map. apply map_ext. intros x. rewrite map_map. apply map_ext. intros y. apply G.
Qed.
Lemma scott_kde_xs P (uf wf : list R) :
  ((length P < 2)%nat -> @scott_kde XR (xs fst P) (xs snd P) (fins uf) (fins wf) = Raise ValueError) /\
  ((2 <= length P)%nat -> collinear P -> @scott_kde XR (xs fst P) (xs snd P) (fins uf) (fins wf) = Raise LinAlgError) /\
  (~ collinear P -> @scott_kde XR (xs fst P) (xs snd P) (fins uf) (fins wf) =
     Ok (map (fun x => map (fun y => Fin (kde2 (scott (length P)) P P x y)) wf) uf)).
Proof.
  destruct (td_density_xs P) as (H1 & H2 & H3). unfold scott_kde. split; [|split].
  - intros H. rewrite H1 by exact H. reflexivity.
  - intros H HC. rewrite H2 by assumption. reflexivity.
  - intros HC. destruct (H3 HC) as (e & -> & HE). cbn [bind]. rewrite combine_xs. change (fun p : R * R => (Fin (fst p), Fin (snd p))) with f2.
    rewrite (evolve_evals P P e) by (try reflexivity; try exact HE; intros ->; apply HC, collinear_short; cbn; lia). reflexivity.
Qed.

(** ** The rotated points and the grid *)
Lemma scov_sums f g P : (2 <= length P)%nat ->
  INR (length P) * Rsum (map (fun p => f p * g p) P) - Rsum (map f P) * Rsum (map g P) = INR (length P) * (INR (length P) - 1) * scov f g P.
Proof.
  intros H. apply n_gt1 in H. unfold scov. set (n := INR (length P)) in *.
  rewrite (Rsum_ext (fun p => (f p - rmean (map f P)) * (g p - rmean (map g P))) (fun p => (f p * g p - rmean (map g P) * f p) - (rmean (map f P) * g p - rmean (map f P) * rmean (map g P)))) by (intros; ring).
  rewrite Rsum_map_sub, Rsum_map_sub, (Rsum_map_sub (fun p => rmean (map f P) * g p)), !Rsum_map_scal, Rsum_map_const.
  unfold rmean. rewrite !map_length. fold n. field. split; lra.
Qed.
Lemma tri_rotation_xs P : (2 <= length P)%nat -> scov fst fst P <> 0 ->
  @tri_rotation XR (xs fst P) (xs snd P) = Ok (Fin (tri_angle P)).
Proof.
  intros H HV. pose proof (n_gt1 P H) as Hn. unfold tri_rotation.
  rewrite bcast_same by (unfold xs; rewrite !map_length; reflexivity). cbn [bind].
  rewrite xs_mul, xs_sq, !xs_sum. unfold zlen. replace (length (xs fst P)) with (length P) by (unfold xs; rewrite map_length; reflexivity).
  rewrite xofZ_fin, <- INR_IZR_INZ, !xmul_fin, !xsub_fin, !scov_sums by exact H.
  cbn [natan2 XR xatan2]. do 2 f_equal. unfold atan2R, tri_angle. pose proof (scov_nonneg fst P H) as H0.
  assert (HP : 0 < INR (length P) * (INR (length P) - 1)) by (apply Rmult_lt_0_compat; lra).
  rewrite Rlt_bool_true by (apply Rmult_lt_0_compat; lra). f_equal. field. repeat split; lra.
Qed.
Lemma tri_rotation_fin P : exists t, @tri_rotation XR (xs fst P) (xs snd P) = Ok (Fin t).
Proof.
  unfold tri_rotation. rewrite bcast_same by (unfold xs; rewrite !map_length; reflexivity). cbn [bind].
  rewrite xs_mul, xs_sq, !xs_sum, xofZ_fin, !xmul_fin, !xsub_fin. eexists. reflexivity.
Qed.
Lemma tri_transform_xs P t :
  @tri_transform XR (xs fst P) (xs snd P) (Fin t) = Ok (xs fst (map (rotate t) P), xs snd (map (rotate t) P)).
Proof.
  rewrite tri_transform_gen by (unfold xs; rewrite !map_length; reflexivity). unfold xs. rewrite !zip_map2, !map_map.
  rewrite xcos_fin, xsin_fin.
  rewrite (map_ext _ (fun p => Fin (fst (rotate t p)))) by (intros p; unfold rotate; cbn [fst snd]; rewrite !xmul_fin, xadd_fin; reflexivity).
  rewrite (map_ext (fun x => @nadd XR (nmul (nopp (Fin (fst x))) (Fin (sin t))) (nmul (Fin (snd x)) (Fin (cos t)))) (fun p => Fin (snd (rotate t p))))
    by (intros p; unfold rotate; cbn [fst snd]; rewrite xopp_fin, !xmul_fin, xadd_fin; f_equal; ring).
  reflexivity.
Qed.
Lemma mgrid_axis_fins a b grid : grid <> 0%Z -> @mgrid_axis XR (Fin a) (Fin b) grid = Ok (fins (axis a b grid)).
Proof.
  intros H. unfold mgrid_axis. rewrite (proj2 (Z.eqb_neq (Z.abs grid) 0)) by lia. f_equal. unfold axis, fins.
  unfold zrange. rewrite Z.sub_0_r. replace (Z.to_nat (Z.abs grid)) with (Z.abs_nat grid) by lia. rewrite !map_map. apply map_ext_in. intros i Hi.
  apply in_seq in Hi. rewrite !xofZ_fin, Z.add_0_l, <- INR_IZR_INZ, xsub_fin. unfold gridpt.
  destruct (Z.eqb_spec (Z.abs grid) 1) as [E|E].
  - replace i with 0%nat by lia. rewrite xmul_fin, xadd_fin. f_equal. cbn [INR]. ring.
  - replace (IZR (Z.abs grid - 1)) with (INR (Z.abs_nat grid) - 1) by (rewrite minus_IZR, INR_IZR_INZ; do 2 f_equal; lia).
    assert (1 < INR (Z.abs_nat grid)) by (apply (lt_INR 1); lia).
    rewrite xdiv_fin by lra. rewrite xmul_fin, xadd_fin. f_equal. ring.
Qed.
Lemma axis_length a b grid : length (axis a b grid) = Z.abs_nat grid.
Proof. unfold axis. rewrite map_length, seq_length. reflexivity. Qed.

(** ** The estimation *)
Definition kgrid (h : R) (S C : list (R * R)) (a b c d : R) (grid : Z) : list (list XR) :=
  map (fun x => map (fun y => Fin (kde2 h S C x y)) (axis c d grid)) (axis a b grid).
Lemma noncol_len P : ~ collinear P -> (2 <= length P)%nat.
Proof. intros HC. destruct (le_lt_dec 2 (length P)); [assumption | exfalso; apply HC, collinear_short; lia]. Qed.
Lemma min_xs f P a : is_min (map f P) a -> @arr_min XR (xs f P) = Ok (Fin a).
Proof.
  intros H. rewrite xs_fins. assert (Hne : map f P <> []) by (intros E; destruct H as [H _]; rewrite E in H; destruct H).
  destruct (arr_min_fins _ Hne) as (a' & Ha & ->). rewrite (is_min_unique _ a' a Ha H). reflexivity.
Qed.
Lemma max_xs f P a : is_max (map f P) a -> @arr_max XR (xs f P) = Ok (Fin a).
Proof.
  intros H. rewrite xs_fins. assert (Hne : map f P <> []) by (intros E; destruct H as [H _]; rewrite E in H; destruct H).
  destruct (arr_max_fins _ Hne) as (a' & Ha & ->). rewrite (is_max_unique _ a' a Ha H). reflexivity.
Qed.
Lemma tri_estimation_ok P grid a b c d : ~ collinear P -> grid <> 0%Z ->
  is_min (map fst (turned P)) a -> is_max (map fst (turned P)) b -> is_min (map snd (turned P)) c -> is_max (map snd (turned P)) d ->
  @tri_estimation XR (xs fst P) (xs snd P) grid = Ok (kgrid (scott (length P)) (turned P) P a b c d grid).
Proof.
  intros HC Hg Ha Hb Hc Hd. pose proof (noncol_len P HC) as Hn. destruct (sdet_pos P Hn HC) as [_ HV].
  unfold tri_estimation. rewrite tri_rotation_xs by (try assumption; lra). cbn [bind]. rewrite tri_transform_xs. cbn [bind]. fold (turned P).
  rewrite (min_xs fst _ a Ha), (max_xs fst _ b Hb), (min_xs snd _ c Hc), (max_xs snd _ d Hd). cbn [bind]. rewrite !mgrid_axis_fins by exact Hg. cbn [bind].
  assert (HC' : ~ collinear (turned P)) by (unfold turned; rewrite collinear_rotate; exact HC).
  destruct (td_density_xs (turned P)) as (_ & _ & HD). destruct (HD HC') as (e & -> & HE). cbn [bind]. rewrite combine_xs.
  change (fun p : R * R => (Fin (fst p), Fin (snd p))) with f2.
  rewrite (evolve_evals (turned P) P e) by (try exact HE; try (unfold turned; apply map_length); intros ->; cbn in Hn; lia). reflexivity.
Qed.
Lemma tri_estimation_fails P grid :
  (P = [] -> @tri_estimation XR (xs fst P) (xs snd P) grid = Raise ValueError) /\
  (P <> [] -> grid = 0%Z -> @tri_estimation XR (xs fst P) (xs snd P) grid = Raise IndexError) /\
  (length P = 1%nat -> grid <> 0%Z -> @tri_estimation XR (xs fst P) (xs snd P) grid = Raise ValueError) /\
  ((2 <= length P)%nat -> grid <> 0%Z -> collinear P -> @tri_estimation XR (xs fst P) (xs snd P) grid = Raise LinAlgError).
Proof.
  unfold tri_estimation. destruct (tri_rotation_fin P) as (t & ->). cbn [bind]. rewrite tri_transform_xs. cbn [bind].
  split; [intros ->; reflexivity|].
  assert (HX : P <> [] -> exists a b c d, is_min (map fst (map (rotate t) P)) a /\ is_max (map fst (map (rotate t) P)) b /\
              is_min (map snd (map (rotate t) P)) c /\ is_max (map snd (map (rotate t) P)) d).
  { intros Hne. assert (H : forall f : R * R -> R, map f (map (rotate t) P) <> []) by (intros f E; apply map_eq_nil, map_eq_nil in E; contradiction).
    destruct (arr_min_fins _ (H fst)) as (a & Ha & _). destruct (arr_max_fins _ (H fst)) as (b & Hb & _).
    destruct (arr_min_fins _ (H snd)) as (c & Hc & _). destruct (arr_max_fins _ (H snd)) as (d & Hd & _). exists a, b, c, d. auto. }
  destruct (td_density_xs (map (rotate t) P)) as (H1 & H2 & _). rewrite map_length in H1, H2. rewrite collinear_rotate in H2.
  split; [|split].
  - intros Hne ->. destruct (HX Hne) as (a & b & c & d & Ha & Hb & Hc & Hd).
    rewrite (min_xs fst _ a Ha), (max_xs fst _ b Hb), (min_xs snd _ c Hc), (max_xs snd _ d Hd). reflexivity.
  - intros HL Hg. destruct HX as (a & b & c & d & Ha & Hb & Hc & Hd); [intros ->; discriminate|].
    rewrite (min_xs fst _ a Ha), (max_xs fst _ b Hb), (min_xs snd _ c Hc), (max_xs snd _ d Hd). cbn [bind]. rewrite !mgrid_axis_fins by exact Hg. cbn [bind].
    rewrite H1 by lia. reflexivity.
  - intros HL Hg HC. destruct HX as (a & b & c & d & Ha & Hb & Hc & Hd); [intros ->; cbn in HL; lia|].
    rewrite (min_xs fst _ a Ha), (max_xs fst _ b Hb), (min_xs snd _ c Hc), (max_xs snd _ d Hd). cbn [bind]. rewrite !mgrid_axis_fins by exact Hg. cbn [bind].
    rewrite H2 by assumption. reflexivity.
Qed.

(** ** The kernel returns *)
Lemma find_index_in (N : Num) (f : N -> bool) l x : In x l -> f x = true -> forall k, exists c, find_index f l k = Some c /\ (k <= c < k + zlen l)%Z.
Proof.
  intros Hi Hf. induction l as [|y l IH]; intros k; [destruct Hi|]. cbn [find_index]. destruct (f y) eqn:E.
  - exists k. split; [reflexivity|]. unfold zlen. cbn [length]. lia.
  - destruct Hi as [->|Hi]; [congruence|]. destruct (IH Hi (k + 1)%Z) as (c & -> & Hc). exists c. split; [reflexivity|]. unfold zlen in *. cbn [length]. lia.
Qed.
Lemma find_pos_in (N : Num) (f : N -> bool) (m : list (list N)) n row x : (forall r, In r m -> length r = n) -> In row m -> In x row -> f x = true ->
  forall k, exists r c, find_pos f m k = Some (r, c) /\ (k <= r < k + zlen m)%Z /\ (0 <= c < Z.of_nat n)%Z.
Proof.
  intros Hrect Hr Hx Hf. induction m as [|y m IH]; intros k; [destruct Hr|]. cbn [find_pos].
  destruct (find_index f y 0) as [c|] eqn:E.
  - exists k, c. split; [reflexivity|]. destruct (find_index_spec N f y 0 c E) as (z & H1 & H2 & _). unfold zlen. cbn [length]. split; [lia|].
    assert (Z.to_nat (c - 0) < length y)%nat by (apply nth_error_Some; rewrite H2; discriminate). rewrite (Hrect y (or_introl eq_refl)) in H. lia.
  - destruct Hr as [->|Hr]; [rewrite (find_index_none N f row 0 E x Hx) in Hf; discriminate|].
    destruct (IH (fun r H => Hrect r (or_intror H)) Hr (k + 1)%Z) as (r & c & -> & H1 & H2). exists r, c. split; [reflexivity|]. unfold zlen in *. cbn [length]. lia.
Qed.
Lemma mapM_total {A B} (f : A -> res B) l : (forall x, In x l -> exists y, f x = Ok y) -> exists r, mapM f l = Ok r /\ length r = length l.
Proof.
  intros H. induction l as [|x l IH]; [exists []; split; reflexivity|]. destruct (H x (or_introl eq_refl)) as (y & Ey).
  destruct IH as (r & Er & Hr); [intros; apply H; right; assumption|]. exists (y :: r). split; [|cbn; congruence].
  cbn [mapM]. rewrite Ey. cbn [bind]. rewrite Er. reflexivity.
Qed.
Lemma tri_peak_total (F : R -> R -> R) (us ws : list R) : us <> [] -> ws <> [] ->
  exists peak up wp fu fw, @tri_peak XR (map (fun x => map (fun y => Fin (F x y)) ws) us) = Ok (peak, up, wp, fu, fw) /\
    (0 <= up < zlen us)%Z /\ (0 <= wp < zlen ws)%Z /\ length fu = length us /\ length fw = length ws.
Proof.
  intros Hu Hw. set (m := map (fun x => map (fun y => Fin (F x y)) ws) us : list (list XR)).
  assert (EC : concat m = fins (concat (map (fun x => map (fun y => F x y) ws) us))).
  { unfold m, fins. rewrite concat_map, map_map. f_equal. apply map_ext. intros x. rewrite map_map. reflexivity. }
  assert (Hne : concat (map (fun x => map (fun y => F x y) ws) us) <> []).
  { destruct us as [|u us]; [congruence|]. destruct ws as [|w ws]; [congruence|]. discriminate. }
  destruct (arr_max_fins _ Hne) as (b & [Hb _] & EB). unfold tri_peak. rewrite EC, EB. cbn [bind].
  apply in_concat in Hb. destruct Hb as (row & Hr & Hbr). apply in_map_iff in Hr. destruct Hr as (u & <- & Hu').
  apply in_map_iff in Hbr. destruct Hbr as (w & Eb & Hw').
  assert (Hrect : forall r, In r m -> length r = length ws) by (intros r Hr; apply in_map_iff in Hr; destruct Hr as (x & <- & _); apply map_length).
  destruct (find_pos_in XR (fun x => neqb x (Fin b)) m (length ws) (map (fun y => Fin (F u y)) ws) (Fin b) Hrect) with (k := 0%Z) as (r & c & E & H1 & H2).
  - apply in_map_iff. exists u. split; [reflexivity | exact Hu'].
  - apply in_map_iff. exists w. split; [rewrite Eb; reflexivity | exact Hw'].
  - rewrite xeqb_fin. apply Req_bool_true. reflexivity.
  - rewrite E. destruct (mapM_total (fun row => getz row c) m) as (fu & EF & LF).
    { intros x Hx. eexists. apply (getz_ok x c (Fin 0 : XR)). unfold zlen. rewrite (Hrect x Hx). exact H2. }
    rewrite EF. cbn [bind]. assert (Lm : length m = length us) by (unfold m; apply map_length).
    rewrite (getz_ok m r []) by exact H1. cbn [bind]. eexists _, r, c, fu, _. split; [reflexivity|].
    unfold zlen in *. rewrite Lm in *. split; [lia|]. split; [exact H2|]. split; [exact LF|]. apply Hrect, nth_In. lia.
Qed.
Lemma cutoff_one (N : Num) (density velocity force : list N) (c1 c2 grid : N) : length density = 1%nat -> length force = 1%nat -> length velocity = 1%nat ->
  forall p, p = 0%Z -> cutoff density velocity c1 c2 force p grid = Raise IndexError.
Proof.
  intros Hd Hf Hv p ->. destruct density as [|x [|]]; try discriminate. destruct force as [|y [|]]; try discriminate. destruct velocity as [|z [|]]; try discriminate.
  reflexivity.
Qed.
Lemma axis_nil a b grid : grid <> 0%Z -> axis a b grid <> [].
Proof. intros H E. apply (f_equal (@length R)) in E. rewrite axis_length in E. cbn in E. lia. Qed.
Lemma min_max_xs (f : R * R -> R) P : P <> [] -> exists a b : R, is_min (map f P) a /\ is_max (map f P) b.
Proof.
  intros Hne. assert (H : map f P <> []) by (intros E; apply map_eq_nil in E; contradiction).
  destruct (arr_min_fins _ H) as (a & Ha & _). destruct (arr_max_fins _ H) as (b & Hb & _). eauto.
Qed.
Lemma tri_kernel_scott P grid : ~ collinear P ->
  ((2 <= Z.abs grid)%Z -> exists r, @tri_kernel XR scott_kde (xs fst P) (xs snd P) grid = Ok r) /\
  (Z.abs grid = 1%Z -> @tri_kernel XR scott_kde (xs fst P) (xs snd P) grid = Raise IndexError).
Proof.
  intros HC. pose proof (noncol_len P HC) as Hn. destruct (sdet_pos P Hn HC) as [_ HV].
  assert (HC' : ~ collinear (turned P)) by (unfold turned; rewrite collinear_rotate; exact HC).
  assert (Hne : P <> []) by (intros ->; cbn in Hn; lia).
  assert (Hne' : turned P <> []) by (intros E; apply map_eq_nil in E; contradiction).
  destruct (min_max_xs fst _ Hne') as (a & b & Ha & Hb). destruct (min_max_xs snd _ Hne') as (c & d & Hc & Hd).
  assert (K : grid <> 0%Z -> exists peak up wp fu fw cu cw,
     (0 <= up < Z.abs grid)%Z /\ (0 <= wp < Z.abs grid)%Z /\ zlen fu = Z.abs grid /\ zlen fw = Z.abs grid /\
     @tri_kernel XR scott_kde (xs fst P) (xs snd P) grid =
       (let* (ul, uu) := cutoff [peak] (fins (axis a b grid)) cu cu fu up (nofZ grid) in
        let* (wl, wu) := cutoff [peak] (fins (axis c d grid)) cw cw fw wp (nofZ grid) in
        let half := lit 5 1 in
        let uu1 := nsub uu (nmul half (nadd uu ul)) in
        let wu1 := nsub wu (nmul half (nadd wu wl)) in
        let* rho := bcast nadd (map (fun v => sq (ndiv (nsub v (nmul half (nadd uu ul))) uu1)) (xs fst (turned P)))
                         (map (fun v => sq (ndiv (nsub v (nmul half (nadd wu wl))) wu1)) (xs snd (turned P))) in
        Ok (nonzero (map (fun r => nltb (nofZ 1) r) rho)))).
  { intros Hg. unfold tri_kernel. rewrite tri_rotation_xs by (try assumption; lra). cbn [bind]. rewrite tri_transform_xs. cbn [bind]. fold (turned P).
    rewrite (min_xs fst _ a Ha), (max_xs fst _ b Hb), (min_xs snd _ c Hc), (max_xs snd _ d Hd). cbn [bind]. rewrite !mgrid_axis_fins by exact Hg. cbn [bind].
    destruct (scott_kde_xs (turned P) (axis a b grid) (axis c d grid)) as (_ & _ & ->); [|exact HC']. cbn [bind].
    destruct (tri_peak_total (kde2 (scott (length (turned P))) (turned P) (turned P)) (axis a b grid) (axis c d grid) (axis_nil _ _ _ Hg) (axis_nil _ _ _ Hg))
      as (peak & up & wp & fu & fw & -> & H1 & H2 & H3 & H4). cbn [bind].
    rewrite !spread_std_farr by (intros E; apply map_eq_nil in E; contradiction). cbn [bind].
    unfold zlen in H1, H2. rewrite axis_length in H1, H2, H3, H4.
    eexists peak, up, wp, fu, fw, _, _. split; [lia|]. split; [lia|]. split; [unfold zlen; lia|]. split; [unfold zlen; lia|]. reflexivity. }
  split.
  - intros Hg. destruct K as (peak & up & wp & fu & fw & cu & cw & H1 & H2 & H3 & H4 & ->); [lia|].
    assert (LA : forall x y, zlen (fins (axis x y grid)) = Z.abs grid) by (intros; rewrite zlen_fins; unfold zlen; rewrite axis_length; lia).
    destruct (cutoff_general XR [peak] (fins (axis a b grid)) fu cu cu (nofZ grid) up (Fin 0)) as (lo & upp & E1 & _);
      [lia | rewrite LA; lia | right; reflexivity | lia|].
    rewrite E1. cbn [bind].
    destruct (cutoff_general XR [peak] (fins (axis c d grid)) fw cw cw (nofZ grid) wp (Fin 0)) as (lo2 & upp2 & E2 & _);
      [lia | rewrite LA; lia | right; reflexivity | lia|].
    rewrite E2. cbn [bind]. cbv zeta. rewrite bcast_same by (unfold xs; rewrite !map_length; reflexivity). cbn [bind]. eexists. reflexivity.
  - intros Hg. destruct K as (peak & up & wp & fu & fw & cu & cw & H1 & H2 & H3 & H4 & ->); [lia|].
    rewrite cutoff_one; [reflexivity | reflexivity | unfold zlen in H3; lia | rewrite fins_length, axis_length; lia | lia].
Qed.
Lemma xs_combine u w : length u = length w -> xs fst (combine u w) = fins u /\ xs snd (combine u w) = fins w.
Proof.
  revert w. induction u as [|x u IH]; intros [|y w] H; try discriminate; [split; reflexivity|].
  destruct (IH w) as [E1 E2]; [injection H; auto|]. unfold xs, fins in *. cbn [combine map fst snd]. rewrite E1, E2. split; reflexivity.
Qed.
(** The failures of the estimation are failures of the kernel whatever the oracle. *)
Lemma tri_full_raises (N : Num) kde (u w : list N) grid e : tri_estimation u w grid = Raise e -> tri_kernel_full kde u w grid = Raise e.
Proof. intros H. unfold tri_kernel_full. rewrite H. reflexivity. Qed.
Lemma tri_full_ok P grid a b c d : ~ collinear P -> (2 <= Z.abs grid)%Z ->
  is_min (map fst (turned P)) a -> is_max (map fst (turned P)) b -> is_min (map snd (turned P)) c -> is_max (map snd (turned P)) d ->
  exists r, @tri_kernel_full XR scott_kde (xs fst P) (xs snd P) grid = Ok (r, kgrid (scott (length P)) (turned P) P a b c d grid).
Proof.
  intros HC Hg Ha Hb Hc Hd. unfold tri_kernel_full. rewrite (tri_estimation_ok P grid a b c d) by (try assumption; lia). cbn [bind].
  destruct (tri_kernel_scott P grid HC) as [H _]. destruct (H Hg) as (r & ->). exists r. reflexivity.
Qed.
Lemma tri_full_iff P grid : (exists r, @tri_kernel_full XR scott_kde (xs fst P) (xs snd P) grid = Ok r) <-> (2 <= Z.abs grid)%Z /\ ~ collinear P.
Proof.
  split.
  - intros (r & E). destruct (tri_estimation_fails P grid) as (F1 & F2 & F3 & F4). unfold tri_kernel_full in E.
    assert (Hne : P <> []) by (intros H; rewrite (F1 H) in E; discriminate).
    assert (Hg : grid <> 0%Z) by (intros H; rewrite (F2 Hne H) in E; discriminate).
    assert (HL : length P <> 1%nat) by (intros H; rewrite (F3 H Hg) in E; discriminate).
    assert (Hn : (2 <= length P)%nat) by (destruct P as [|p [|q P]]; cbn in *; try congruence; lia).
    assert (HC : ~ collinear P) by (intros H; rewrite (F4 Hn Hg H) in E; discriminate). split; [|exact HC].
    destruct (Z.eq_dec (Z.abs grid) 1) as [H1|H1]; [|lia]. exfalso.
    destruct (tri_kernel_scott P grid HC) as [_ H]. rewrite (H H1) in E. apply bind_ok in E. destruct E as (? & _ & E). discriminate.
  - intros [Hg HC]. assert (Hne : turned P <> []) by (intros E; apply map_eq_nil in E; apply HC; rewrite E; apply collinear_short; cbn; lia).
    destruct (min_max_xs fst _ Hne) as (a & b & Ha & Hb). destruct (min_max_xs snd _ Hne) as (c & d & Hc & Hd).
    destruct (tri_full_ok P grid a b c d HC Hg Ha Hb Hc Hd) as (r & E). eexists. exact E.
Qed.

(** The three planes of a record. *)
Lemma three_full_iff (l : list R) grid :
  (exists r, @three_dimensional_kernel_full XR scott_kde DFloat (fins l) grid = Ok r) <->
  (2 <= Z.abs grid)%Z /\ ~ collinear (combine l (rdc l)) /\ ~ collinear (combine l (rdc (rdc l))) /\ ~ collinear (combine (rdc l) (rdc (rdc l))).
Proof.
  unfold three_dimensional_kernel_full. rewrite tri_derivatives_exact. fold (rdc l). fold (rdc (rdc l)). cbn [bind].
  assert (L1 : length l = length (rdc l)) by (unfold rdc; rewrite rcentral_length; reflexivity).
  assert (L2 : length (rdc l) = length (rdc (rdc l))) by (unfold rdc; rewrite !rcentral_length; reflexivity).
  destruct (xs_combine l (rdc l) L1) as [A1 B1]. destruct (xs_combine l (rdc (rdc l)) (eq_trans L1 L2)) as [A2 B2]. destruct (xs_combine (rdc l) (rdc (rdc l)) L2) as [A3 B3].
  pose proof (tri_full_iff (combine l (rdc l)) grid) as I1. pose proof (tri_full_iff (combine l (rdc (rdc l))) grid) as I2. pose proof (tri_full_iff (combine (rdc l) (rdc (rdc l))) grid) as I3.
  rewrite A1, B1 in I1. rewrite A2, B2 in I2. rewrite A3, B3 in I3. clear A1 A2 A3 B1 B2 B3. split.
  - intros (r & E). apply bind_ok in E. destruct E as ([x1 e1] & E1 & E). apply bind_ok in E. destruct E as ([x2 e2] & E2 & E). apply bind_ok in E. destruct E as ([x3 e3] & E3 & E).
    destruct (proj1 I1 (ex_intro _ _ E1)) as [G1 C1]. destruct (proj1 I2 (ex_intro _ _ E2)) as [G2 C2]. destruct (proj1 I3 (ex_intro _ _ E3)) as [G3 C3]. auto.
  - intros (G & C1 & C2 & C3). destruct (proj2 I1 (conj G C1)) as ([x1 e1] & ->). destruct (proj2 I2 (conj G C2)) as ([x2 e2] & ->). destruct (proj2 I3 (conj G C3)) as ([x3 e3] & ->).
    eexists. reflexivity.
Qed.
(** First plane on a line: the call fails whatever the oracle. *)
Lemma three_full_linalg kde (l : list R) grid : (2 <= length l)%nat -> grid <> 0%Z -> collinear (combine l (rdc l)) ->
  @three_dimensional_kernel_full XR kde DFloat (fins l) grid = Raise LinAlgError.
Proof.
  intros Hn Hg HC. unfold three_dimensional_kernel_full. rewrite tri_derivatives_exact. fold (rdc l). fold (rdc (rdc l)). cbn [bind].
  assert (L1 : length l = length (rdc l)) by (unfold rdc; rewrite rcentral_length; reflexivity).
  destruct (xs_combine l (rdc l) L1) as [A1 B1]. destruct (tri_estimation_fails (combine l (rdc l)) grid) as (_ & _ & _ & F).
  rewrite A1, B1 in F. rewrite (tri_full_raises XR kde _ _ _ LinAlgError); [reflexivity|]. apply F; [|exact Hg | exact HC].
  rewrite combine_length, <- L1. lia.
Qed.
(** A record with period two (a constant one, an alternating one). *)
Lemma rdc_period2 (l : list R) : (forall i, (S (S i) < length l)%nat -> nth (S (S i)) l 0 = nth i l 0) -> forall v, In v (rdc l) -> v = 0.
Proof.
  intros H v Hv. unfold rdc, rcentral in Hv. apply in_map_iff in Hv. destruct Hv as (i & <- & Hi). apply in_seq in Hi.
  destruct i as [|i]; [reflexivity|]. destruct (Nat.ltb_spec (S (S i)) (length l)) as [L|L]; cbn [Nat.ltb Nat.leb andb]; [|reflexivity].
  replace (S i - 1)%nat with i by lia. rewrite H by exact L. unfold Rdiv. ring.
Qed.
Lemma period2_collinear (l : list R) : (forall i, (S (S i) < length l)%nat -> nth (S (S i)) l 0 = nth i l 0) -> collinear (combine l (rdc l)).
Proof.
  intros H. exists 0, 1, 0. split; [right; lra|]. intros [x y] Hp. apply in_combine_r in Hp. cbn [fst snd]. rewrite (rdc_period2 l H y Hp). ring.
Qed.
Lemma three_full_period2 kde (l : list R) grid : (2 <= length l)%nat -> grid <> 0%Z ->
  (forall i, (S (S i) < length l)%nat -> nth (S (S i)) l 0 = nth i l 0) ->
  @three_dimensional_kernel_full XR kde DFloat (fins l) grid = Raise LinAlgError.
Proof. intros Hn Hg H. apply three_full_linalg; try assumption. apply period2_collinear, H. Qed.
(** Fewer than four samples: never a result. *)
Lemma three_full_short kde (l : list R) grid r : (length l < 4)%nat ->
  @three_dimensional_kernel_full XR kde DFloat (fins l) grid <> Ok r.
Proof.
  intros Hn E. unfold three_dimensional_kernel_full in E. rewrite tri_derivatives_exact in E. fold (rdc l) in E. fold (rdc (rdc l)) in E. cbn [bind] in E.
  assert (L1 : length l = length (rdc l)) by (unfold rdc; rewrite rcentral_length; reflexivity).
  assert (L2 : length (rdc l) = length (rdc (rdc l))) by (unfold rdc; rewrite !rcentral_length; reflexivity).
  apply bind_ok in E. destruct E as ([x1 e1] & E1 & E). apply bind_ok in E. destruct E as ([x2 e2] & E2 & E). clear E.
  destruct (xs_combine l (rdc (rdc l)) (eq_trans L1 L2)) as [A2 B2].
  destruct (tri_estimation_fails (combine l (rdc (rdc l))) grid) as (F1 & F2 & F3 & F4). rewrite A2, B2 in *.
  unfold tri_kernel_full in E2.
  destruct (Z.eq_dec grid 0) as [Hg|Hg]; [destruct (combine l (rdc (rdc l))) as [|p P] eqn:EP; [rewrite (F1 eq_refl) in E2 | rewrite (F2 ltac:(discriminate) Hg) in E2]; discriminate|].
  assert (HC : collinear (combine l (rdc (rdc l)))).
  { exists 0, 1, 0. split; [right; lra|]. intros [x y] Hp. apply in_combine_r in Hp. cbn [fst snd].
    destruct l as [|a [|b [|c [|d l]]]]; cbn in Hn; try lia; cbn in Hp; intuition (subst; unfold Rdiv; ring). }
  destruct (combine l (rdc (rdc l))) as [|p [|q P]] eqn:EP.
  - rewrite (F1 eq_refl) in E2. discriminate.
  - rewrite (F3 eq_refl Hg) in E2. discriminate.
  - rewrite (F4 ltac:(cbn; lia) Hg HC) in E2. discriminate.
Qed.

(** ** Statements on plain records *)
Lemma kgrid_on_grid h S C a b c d grid : kgrid h S C a b c d grid = finm (on_grid (kde2 h S C) (axis a b grid) (axis c d grid)).
Proof. unfold kgrid, finm, on_grid. rewrite map_map. apply map_ext. intros x. unfold fins. rewrite map_map. reflexivity. Qed.
Theorem covariance_exact (P : list (R * R)) : ~ collinear P ->
  let n := length P in let h := scott n in
  exists e r11 r12 r22, @td_density XR (fins (map fst P)) (fins (map snd P)) = Ok e /\
    e_weight e = repeat (Fin (/ INR n)) n /\ e_net e = Fin (INR n) /\ e_factor e = Fin h /\
    e_cov e = (Fin (h ^ 2 * scov fst fst P), Fin (h ^ 2 * scov fst snd P), Fin (h ^ 2 * scov fst snd P), Fin (h ^ 2 * scov snd snd P)) /\
    e_chol e = (Fin r11, Fin r12, Fin r22) /\ 0 < r11 /\ 0 < r22 /\
    r11 * r11 = h ^ 2 * scov fst fst P /\ r11 * r12 = h ^ 2 * scov fst snd P /\ r12 * r12 + r22 * r22 = h ^ 2 * scov snd snd P /\
    0 < sdet P /\ e_log e = Fin (ln ((2 * PI) ^ 2 * (h ^ 4 * sdet P))).
Proof.
  intros HC n h. destruct (td_density_xs P) as (_ & _ & H). destruct (H HC) as (e & E & H1 & H2 & H3 & H4 & (r11 & r12 & r22 & H5 & H6 & H7 & H8 & H9 & H10) & H11).
  rewrite !xs_fins in E. destruct (sdet_pos P (noncol_len P HC) HC) as [Hd _].
  exists e, r11, r12, r22. repeat (split; [assumption|]). assumption.
Qed.
Theorem covariance_fails (P : list (R * R)) :
  ((length P < 2)%nat -> @td_density XR (fins (map fst P)) (fins (map snd P)) = Raise ValueError) /\
  ((2 <= length P)%nat -> collinear P -> @td_density XR (fins (map fst P)) (fins (map snd P)) = Raise LinAlgError).
Proof. destruct (td_density_xs P) as (H1 & H2 & _). rewrite !xs_fins in H1, H2. split; assumption. Qed.
Theorem estimation_exact (P : list (R * R)) grid a b c d : ~ collinear P -> grid <> 0%Z ->
  is_min (map fst (turned P)) a -> is_max (map fst (turned P)) b -> is_min (map snd (turned P)) c -> is_max (map snd (turned P)) d ->
  @tri_estimation XR (fins (map fst P)) (fins (map snd P)) grid =
    Ok (finm (on_grid (kde2 (scott (length P)) (turned P) P) (axis a b grid) (axis c d grid))).
Proof. intros. rewrite <- kgrid_on_grid, <- !xs_fins. apply tri_estimation_ok; assumption. Qed.
Theorem scott_kde_exact (P : list (R * R)) (us ws : list R) :
  ((length P < 2)%nat -> @scott_kde XR (fins (map fst P)) (fins (map snd P)) (fins us) (fins ws) = Raise ValueError) /\
  ((2 <= length P)%nat -> collinear P -> @scott_kde XR (fins (map fst P)) (fins (map snd P)) (fins us) (fins ws) = Raise LinAlgError) /\
  (~ collinear P -> @scott_kde XR (fins (map fst P)) (fins (map snd P)) (fins us) (fins ws) =
     Ok (finm (on_grid (kde2 (scott (length P)) P P) us ws))).
Proof.
  destruct (scott_kde_xs P us ws) as (H1 & H2 & H3). rewrite !xs_fins in H1, H2, H3. split; [exact H1|]. split; [exact H2|].
  intros HC. rewrite (H3 HC). apply f_equal. unfold finm, on_grid. rewrite map_map. apply map_ext. intros x. unfold fins. rewrite map_map. reflexivity.
Qed.
Lemma turned_uncorrelated P : scov fst snd P = 0 -> turned P = P.
Proof.
  intros E. unfold turned, tri_angle. rewrite E. replace (0 / scov fst fst P) with 0 by (unfold Rdiv; ring). rewrite atan_0.
  rewrite <- (map_id P) at 2. apply map_ext. intros [x y]. unfold rotate. cbn [fst snd]. rewrite cos_0, sin_0. f_equal; ring.
Qed.
(** Uncorrelated coordinates: the estimation is the density of the points. *)
Theorem estimation_uncorrelated (P : list (R * R)) grid a b c d : ~ collinear P -> grid <> 0%Z -> scov fst snd P = 0 ->
  is_min (map fst P) a -> is_max (map fst P) b -> is_min (map snd P) c -> is_max (map snd P) d ->
  @tri_estimation XR (fins (map fst P)) (fins (map snd P)) grid =
  @scott_kde XR (fins (map fst P)) (fins (map snd P)) (fins (axis a b grid)) (fins (axis c d grid)).
Proof.
  intros HC Hg E Ha Hb Hc Hd. pose proof (turned_uncorrelated P E) as ET. rewrite (estimation_exact P grid a b c d) by (try assumption; rewrite ET; assumption).
  destruct (scott_kde_exact P (axis a b grid) (axis c d grid)) as (_ & _ & H). rewrite (H HC), ET. reflexivity.
Qed.
(** ** The witness *)
Definition wP : list (R * R) := [(1, 2); (1, 0); (-1, 0); (-1, -2)].
Lemma wP_scov : scov fst fst wP = 4 / 3 /\ scov snd snd wP = 8 / 3 /\ scov fst snd wP = 4 / 3.
Proof. unfold scov, wP, rmean. cbn. repeat split; field. Qed.
Lemma wP_turned : turned wP = let r := / sqrt 2 in [(3 * r, r); (r, - r); (- r, r); (- (3 * r), - r)].
Proof.
  unfold turned, tri_angle. destruct wP_scov as (-> & _ & ->). replace (4 / 3 / (4 / 3)) with 1 by field. rewrite atan_1.
  unfold rotate, wP. cbn [map fst snd]. rewrite cos_PI4, sin_PI4. cbv zeta. unfold Rdiv. repeat (f_equal; try ring).
Qed.
Lemma wP_noncol : ~ collinear wP.
Proof. rewrite <- sdet_zero_iff by (cbn; lia). unfold sdet. destruct wP_scov as (-> & -> & ->). lra. Qed.
Lemma wP_turned_scov : scov fst fst (turned wP) = 10 / 3 /\ scov snd snd (turned wP) = 2 / 3 /\ scov fst snd (turned wP) = 2 / 3.
Proof.
  unfold turned, tri_angle. destruct wP_scov as (EX & EY & EZ). rewrite EX, EZ. replace (4 / 3 / (4 / 3)) with 1 by field. rewrite atan_1.
  destruct (scov_rotate (PI / 4) wP) as (-> & -> & ->). rewrite EX, EY, EZ, cos_PI4, sin_PI4.
  assert (S : 1 / sqrt 2 * (1 / sqrt 2) = 1 / 2). { replace (1 / sqrt 2 * (1 / sqrt 2)) with (/ (sqrt 2 * sqrt 2)) by (field; apply sqrt2_neq_0). rewrite sqrt_sqrt by lra. lra. }
  replace (2 * (1 / sqrt 2) * (1 / sqrt 2)) with (2 * (1 / sqrt 2 * (1 / sqrt 2))) by ring. rewrite S. repeat split; field.
Qed.
Lemma scott4_sq : scott 4 ^ 2 <= 2 / 3 /\ 0 < scott 4 ^ 2.
Proof.
  assert (E : scott 4 ^ 2 = Rpower 4 (- (1 / 3))).
  { unfold scott. replace (INR 4) with 4 by (cbn; ring). rewrite <- Rpower_pow by apply exp_pos. rewrite Rpower_mult. f_equal. cbn. field. }
  rewrite E. split; [|apply exp_pos]. rewrite Rpower_Ropp.
  assert (H : 3 / 2 <= Rpower 4 (1 / 3)).
  { replace (3 / 2) with (Rpower (27 / 8) (1 / 3)); [apply Rle_Rpower_l; lra|].
    replace (27 / 8) with (Rpower (3 / 2) (INR 3)) by (rewrite Rpower_pow by lra; field).
    rewrite Rpower_mult. replace (INR 3 * (1 / 3)) with 1 by (cbn; field). apply Rpower_1. lra. }
  apply Rle_trans with (/ (3 / 2)); [apply Rinv_le_contravar; lra | lra].
Qed.
Lemma exp_neg_le t b : 0 <= b <= t -> exp (- t) <= / (1 + b / 4) ^ 4.
Proof.
  intros H. rewrite exp_Ropp. apply Rinv_le_contravar; [apply pow_lt; lra|].
  replace (exp t) with (exp (t / 4) ^ 4) by (cbn [pow]; rewrite Rmult_1_r, <- !exp_plus; f_equal; field).
  apply pow_incr. split; [lra|]. pose proof (exp_ineq1_le (t / 4)). lra.
Qed.
Lemma axis_hd a b grid : grid <> 0%Z -> exists t, axis a b grid = a :: t.
Proof.
  intros H. unfold axis. destruct (Z.abs_nat grid) as [|g] eqn:E; [lia|]. cbn [seq map]. eexists. f_equal. unfold gridpt. cbn [INR]. ring.
Qed.
Lemma witness_corner : let r := / sqrt 2 in
  kde2 (scott 4) (turned wP) wP (- (3 * r)) (- r) < kde2 (scott 4) (turned wP) (turned wP) (- (3 * r)) (- r).
Proof.
  cbv zeta. unfold kde2. destruct wP_turned_scov as (-> & -> & ->). rewrite wP_turned. cbv zeta. set (r := / sqrt 2).
  destruct scott4_sq as [Hh Hp]. set (q := scott 4 ^ 2) in *.
  assert (R2 : r * r = 1 / 2). { unfold r. rewrite <- Rinv_mult. rewrite sqrt_sqrt by lra. lra. }
  assert (Rp : 0 < r) by (unfold r; apply Rinv_0_lt_compat, sqrt_lt_R0; lra).
  assert (Rb : 0.707 < r < 0.7072) by (split; nra).
  unfold rmean, wP. cbn [map length fst snd].
  apply Rmult_lt_compat_r; [apply Rinv_0_lt_compat; cbn; lra|].
  assert (Hdet : q * (10 / 3) * (q * (2 / 3)) - (q * (2 / 3)) ^ 2 = 16 / 9 * q ^ 2) by field.
  assert (Hs : 0 < 2 * PI * sqrt (16 / 9 * q ^ 2)) by (pose proof PI_RGT_0; apply Rmult_lt_0_compat; [lra | apply sqrt_lt_R0; nra]).
  unfold normal2. rewrite !Hdet. set (K := 2 * PI * sqrt (16 / 9 * q ^ 2)) in *.
  assert (E : forall dx dy, - (q * (2 / 3) * dx ^ 2 - 2 * (q * (2 / 3)) * dx * dy + q * (10 / 3) * dy ^ 2) / (2 * (16 / 9 * q ^ 2))
                = - (3 / 16 * / q * ((dx - dy) ^ 2 + 4 * dy ^ 2))) by (intros; field; lra).
  rewrite !E. clear E.
  assert (Hk : 3 / 2 <= / q) by (apply Rle_trans with (/ (2 / 3)); [lra | apply Rinv_le_contravar; lra]).
  set (k := / q) in *. clearbody k K. clear Hdet.
  assert (T : forall m s, m <= s -> 0 <= m -> exp (- (3 / 16 * k * s)) <= / (1 + 9 / 32 * m / 4) ^ 4).
  { intros m s Hm H0. apply exp_neg_le. split; [lra|]. assert (3 / 2 * m <= k * s) by (apply Rmult_le_compat; lra). lra. }
  assert (B1 : exp (- (3 / 16 * k * ((- (3 * r) - 1 - (- r - 2)) ^ 2 + 4 * (- r - 2) ^ 2))) <= 0.02).
  { eapply Rle_trans; [apply (T 28); nra|]. lra. }
  assert (B2 : exp (- (3 / 16 * k * ((- (3 * r) - 1 - (- r - 0)) ^ 2 + 4 * (- r - 0) ^ 2))) <= 0.2).
  { eapply Rle_trans; [apply (T 7.8); nra|]. lra. }
  assert (B3 : exp (- (3 / 16 * k * ((- (3 * r) - -1 - (- r - 0)) ^ 2 + 4 * (- r - 0) ^ 2))) <= 0.6).
  { eapply Rle_trans; [apply (T 2.17); nra|]. lra. }
  assert (B4 : exp (- (3 / 16 * k * ((- (3 * r) - -1 - (- r - -2)) ^ 2 + 4 * (- r - -2) ^ 2))) <= 0.1).
  { eapply Rle_trans; [apply (T 12); nra|]. lra. }
  assert (B0 : exp (- (3 / 16 * k * ((- (3 * r) - - (3 * r) - (- r - - r)) ^ 2 + 4 * (- r - - r) ^ 2))) = 1).
  { rewrite <- exp_0. f_equal. ring. }
  rewrite B0. cbn [Rsum fold_right].
  repeat match goal with |- context [exp (- (3 / 16 * k * ?s))] => let x := fresh "x" in pose proof (exp_pos (- (3 / 16 * k * s))); set (x := exp (- (3 / 16 * k * s))) in * end.
  unfold Rdiv. rewrite !Rplus_0_r. rewrite <- !Rmult_plus_distr_r. apply Rmult_lt_compat_r; [apply Rinv_0_lt_compat; exact Hs|]. lra.
Qed.
(** The estimation is not the density of the rotated points, on any grid. *)
Theorem estimation_not_density_refuted : exists P, ~ collinear P /\ forall grid, grid <> 0%Z ->
  exists a b c d E D, is_min (map fst (turned P)) a /\ is_max (map fst (turned P)) b /\ is_min (map snd (turned P)) c /\ is_max (map snd (turned P)) d /\
    @tri_estimation XR (fins (map fst P)) (fins (map snd P)) grid = Ok E /\
    @scott_kde XR (fins (map fst (turned P))) (fins (map snd (turned P))) (fins (axis a b grid)) (fins (axis c d grid)) = Ok D /\ E <> D.
Proof.
  exists wP. split; [apply wP_noncol|]. intros grid Hg. set (r := / sqrt 2).
  assert (Rp : 0 < r) by (unfold r; apply Rinv_0_lt_compat, sqrt_lt_R0; lra).
  assert (M : is_min (map fst (turned wP)) (- (3 * r)) /\ is_max (map fst (turned wP)) (3 * r) /\ is_min (map snd (turned wP)) (- r) /\ is_max (map snd (turned wP)) r).
  { rewrite wP_turned. fold r. cbv zeta. cbn [map fst snd]. unfold is_min, is_max. cbn [In]. repeat split; try tauto; intros x Hx; intuition lra. }
  destruct M as (Ha & Hb & Hc & Hd).
  exists (- (3 * r)), (3 * r), (- r), r. eexists _, _. repeat (split; [assumption|]).
  split; [apply (estimation_exact wP grid (- (3 * r)) (3 * r) (- r) r wP_noncol Hg Ha Hb Hc Hd)|].
  split; [apply scott_kde_exact; unfold turned; rewrite collinear_rotate; apply wP_noncol|].
  destruct (axis_hd (- (3 * r)) (3 * r) grid Hg) as (t1 & ->). destruct (axis_hd (- r) r grid Hg) as (t2 & ->).
  unfold on_grid, finm, fins. cbn [map]. intros HE. injection HE as HE _ _.
  pose proof witness_corner as HW. cbv zeta in HW. fold r in HW. change (length wP) with 4%nat in HE.
  replace (length (turned wP)) with 4%nat in HE by reflexivity. lra.
Qed.
Theorem kernel_total (P : list (R * R)) grid :
  ((exists r, @tri_kernel_full XR scott_kde (fins (map fst P)) (fins (map snd P)) grid = Ok r) <-> (2 <= Z.abs grid)%Z /\ ~ collinear P) /\
  (~ collinear P -> Z.abs grid = 1%Z -> @tri_kernel_full XR scott_kde (fins (map fst P)) (fins (map snd P)) grid = Raise IndexError).
Proof.
  rewrite <- !xs_fins. split; [apply tri_full_iff|]. intros HC Hg. unfold tri_kernel_full.
  assert (Hne : turned P <> []) by (intros E; apply map_eq_nil in E; apply HC; rewrite E; apply collinear_short; cbn; lia).
  destruct (min_max_xs fst _ Hne) as (a & b & Ha & Hb). destruct (min_max_xs snd _ Hne) as (c & d & Hc & Hd).
  rewrite (tri_estimation_ok P grid a b c d) by (try assumption; lia). cbn [bind].
  destruct (tri_kernel_scott P grid HC) as [_ H]. rewrite (H Hg). reflexivity.
Qed.
Theorem kernel_fails (P : list (R * R)) kde grid :
  (P = [] -> @tri_kernel_full XR kde (fins (map fst P)) (fins (map snd P)) grid = Raise ValueError) /\
  (P <> [] -> grid = 0%Z -> @tri_kernel_full XR kde (fins (map fst P)) (fins (map snd P)) grid = Raise IndexError) /\
  (length P = 1%nat -> grid <> 0%Z -> @tri_kernel_full XR kde (fins (map fst P)) (fins (map snd P)) grid = Raise ValueError) /\
  ((2 <= length P)%nat -> grid <> 0%Z -> collinear P -> @tri_kernel_full XR kde (fins (map fst P)) (fins (map snd P)) grid = Raise LinAlgError).
Proof.
  rewrite <- !xs_fins. destruct (tri_estimation_fails P grid) as (F1 & F2 & F3 & F4). repeat split; intros; apply tri_full_raises; auto.
Qed.
(** The detector with both values computed flags the same samples whenever it returns. *)
Theorem full_same_indices (N : Num) kde dt (data : list N) grid r :
  three_dimensional_kernel_full kde dt data grid = Ok r -> three_dimensional_kernel kde dt data grid = Ok r.
Proof.
  unfold three_dimensional_kernel_full, three_dimensional_kernel, tri_kernel_full. destruct (tri_derivatives dt data) as [[dc dc2]|]; [|discriminate]. cbn [bind].
  destruct (tri_estimation data dc grid); [|discriminate]. cbn [bind]. destruct (tri_kernel kde data dc grid); [|discriminate]. cbn [bind].
  destruct (tri_estimation data dc2 grid); [|discriminate]. cbn [bind]. destruct (tri_kernel kde data dc2 grid); [|discriminate]. cbn [bind].
  destruct (tri_estimation dc dc2 grid); [|discriminate]. cbn [bind]. destruct (tri_kernel kde dc dc2 grid); [|discriminate]. cbn [bind]. auto.
Qed.
