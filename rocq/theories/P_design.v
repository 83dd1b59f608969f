(** The Butterworth designs: stability and magnitude response (C59, C60). *)
From Coq Require Import Reals Lra Psatz Permutation.
From Coquelicot Require Import Complex.
From Flocq Require Import Core.Raux.
From Verif Require Import Num NpBase Lib XR M_butter Spec3 P_cx P_butter P_buttap.
Local Open Scope R_scope.

(** ** Roots of the split *)
Lemma split_in s l w0 : In s (split_roots l w0) ->
  exists v, In v l /\ (s * s - RtoC 2 * v * s + RtoC (w0 * w0) = RtoC 0)%C.
Proof.
  unfold split_roots. intros H. apply in_app_iff in H as [H|H];
  apply in_map_iff in H as [v [E Hv]]; exists v; (split; [easy|]);
  rewrite <- (split_quad v w0 s), <- E; ring.
Qed.

Lemma quad_lhp s v w0 : w0 <> 0 -> fst v < 0 ->
  (s * s - RtoC 2 * v * s + RtoC (w0 * w0) = RtoC 0)%C -> fst s < 0.
Proof.
  intros Hw Hv E. destruct s as [a b], v as [x y]. cbn [fst] in *.
  assert (E1 := f_equal fst E). assert (E2 := f_equal snd E). cbn in E1, E2. clear E.
  ring_simplify in E1. ring_simplify in E2.
  assert (NZ : 0 < a * a + b * b).
  { apply sumsq_pos. intros [-> ->]. assert (w0 * w0 = 0) by nra. nra. }
  (* multiply by the conjugate of s *)
  assert (M : (a * a + b * b) * a + w0 * w0 * a = 2 * x * (a * a + b * b)).
  { transitivity (a * (a ^ 2 - 2 * a * x - b ^ 2 + 2 * b * y + w0 ^ 2)
       + b * (2 * a * b - 2 * a * y - 2 * b * x) + 2 * x * (a * a + b * b)); [ring|].
    replace (a ^ 2 - 2 * a * x - b ^ 2 + 2 * b * y + w0 ^ 2) with 0 by lra.
    replace (2 * a * b - 2 * a * y - 2 * b * x) with 0 by lra. ring. }
  assert (0 < w0 * w0) by nra.
  assert (P : 0 < a * a + b * b + w0 * w0) by lra.
  assert (Q : a * (a * a + b * b + w0 * w0) < 0) by nra.
  destruct (Rlt_or_le a 0) as [L|L]; [easy|]. nra.
Qed.

Lemma split_lhp l w0 : w0 <> 0 -> (forall v, In v l -> fst v < 0) ->
  forall s, In s (split_roots l w0) -> fst s < 0.
Proof.
  intros Hw Hl s Hs. apply split_in in Hs as [v [Hv E]]. eapply quad_lhp; eauto.
Qed.

Lemma Csqrt_pm a b : (a * a = b * b)%C -> a = b \/ a = (- b)%C.
Proof.
  intros E. assert (E' : ((a - b) * (a + b) = RtoC 0)%C).
  { transitivity (a * a - b * b)%C; [ring|rewrite E; ring]. }
  apply Cmult_integral in E' as [E'|E'].
  - left. now apply Cminus_0.
  - right. apply Cminus_0. rewrite <- E'. ring.
Qed.

Lemma split_conj v w0 :
  Permutation [Cconj (splitp v w0); Cconj (splitm v w0)] [splitp (Cconj v) w0; splitm (Cconj v) w0].
Proof.
  unfold splitp, splitm.
  set (d := (v * v - RtoC (w0 * w0))%C). set (d' := (Cconj v * Cconj v - RtoC (w0 * w0))%C).
  assert (Ed : d' = Cconj d) by (unfold d, d'; now rewrite Cconj_sub, Cconj_mul, Cconj_real).
  assert (E : (Csqrt d' * Csqrt d' = Cconj (Csqrt d) * Cconj (Csqrt d))%C).
  { rewrite Csqrt_sqr, <- Cconj_mul, Csqrt_sqr. exact Ed. }
  rewrite Cconj_add, Cconj_sub.
  apply Csqrt_pm in E as [-> | ->]; [apply Permutation_refl|].
  replace (Cconj v + - Cconj (Csqrt d))%C with (Cconj v - Cconj (Csqrt d))%C by ring.
  replace (Cconj v - - Cconj (Csqrt d))%C with (Cconj v + Cconj (Csqrt d))%C by ring.
  apply perm_swap.
Qed.

Definition split2 (w0 : R) (v : C) : list C := [splitp v w0; splitm v w0].

Lemma split_roots_flat l w0 : Permutation (split_roots l w0) (flat_map (split2 w0) l).
Proof.
  unfold split_roots. induction l as [|v l IH]; [constructor|].
  cbn [map flat_map split2 app]. constructor.
  rewrite <- IH. symmetry. apply Permutation_middle.
Qed.

Lemma flat_map_perm {A B} (f : A -> list B) l l' :
  Permutation l l' -> Permutation (flat_map f l) (flat_map f l').
Proof.
  induction 1; cbn; [constructor|now apply Permutation_app_head| |etransitivity; eauto].
  rewrite !app_assoc. apply Permutation_app_tail, Permutation_app_comm.
Qed.

Lemma split_conj_closed l w0 : conj_closed l -> conj_closed (split_roots l w0).
Proof.
  intros H. unfold conj_closed.
  etransitivity; [apply Permutation_map, split_roots_flat|].
  etransitivity; [|symmetry; apply split_roots_flat].
  etransitivity; [|apply flat_map_perm, H].
  clear H. induction l as [|v l IH]; [constructor|].
  cbn [flat_map map]. rewrite map_app. apply Permutation_app; [|exact IH]. apply split_conj.
Qed.

Lemma split_length l w0 : length (split_roots l w0) = (2 * length l)%nat.
Proof. unfold split_roots. rewrite app_length, !map_length. lia. Qed.

(** ** The analog designs *)
Definition adesign (b : band) (n : nat) : list C * list C * R :=
  let P := proto_poles n in
  match b with
  | LP w => (map (Cmult (RtoC w)) [], map (Cmult (RtoC w)) P, 1 * w ^ (length P - 0))
  | HP w => (map (Cdiv (RtoC w)) [] ++ repeat (RtoC 0) (length P - 0), map (Cdiv (RtoC w)) P,
             1 * gain_real [] P)
  | BP w1 w2 =>
      let w0 := sqrt (w1 * w2) in
      (split_roots (map (half_mul (w2 - w1)) []) w0 ++ repeat (RtoC 0) (length P - 0),
       split_roots (map (half_mul (w2 - w1)) P) w0, 1 * (w2 - w1) ^ (length P - 0))
  | BS w1 w2 =>
      let w0 := sqrt (w1 * w2) in
      ((split_roots (map (half_div (w2 - w1)) []) w0 ++ repeat (ipt w0) (length P - 0))
         ++ repeat (ipt (- w0)) (length P - 0),
       split_roots (map (half_div (w2 - w1)) P) w0, 1 * gain_real [] P)
  end.

Definition transform (b : band) (zs ps : list (cx XR)) (k : XR) : res (zpk XR) :=
  match b with
  | LP w => low_to_low zs ps k (Fin w)
  | HP w => low_to_high zs ps k (Fin w)
  | BP w1 w2 => low_to_band zs ps k (nsqrt (@nmul XR (Fin w1) (Fin w2))) (@nsub XR (Fin w2) (Fin w1))
  | BS w1 w2 => low_to_stop zs ps k (nsqrt (@nmul XR (Fin w1) (Fin w2))) (@nsub XR (Fin w2) (Fin w1))
  end.

Lemma transform_ok b n : band_ok b ->
  transform b [] (cfs (proto_poles n)) (Fin 1)
  = Ok (cfs (fst (fst (adesign b n))), cfs (snd (fst (adesign b n))), Fin (snd (adesign b n))).
Proof.
  intros Hb. pose proof (proto_nz n) as NZ.
  change (@nil (XR * XR)) with (cfs []).
  destruct b as [w|w|w1 w2|w1 w2]; cbn [transform adesign fst snd].
  - apply low_to_low_cfs. cbn. lia.
  - apply low_to_high_cfs; [cbn; lia|easy|easy].
  - rewrite xmul_fin, xsub_fin, xsqrt_ok by (cbn in Hb; nra). apply low_to_band_cfs. cbn. lia.
  - rewrite xmul_fin, xsub_fin, xsqrt_ok by (cbn in Hb; nra).
    apply low_to_stop_cfs; [cbn; lia|easy|easy].
Qed.

Lemma div_lhp w p : 0 < w -> fst p < 0 -> fst (RtoC w / p)%C < 0.
Proof.
  intros Hw Hp. destruct p as [x y]. cbn [fst] in Hp. cbn.
  assert (P : 0 < x * (x * 1) + y * (y * 1)) by nra.
  replace (w * (x / (x * (x * 1) + y * (y * 1))) - 0 * (- y / (x * (x * 1) + y * (y * 1))))
    with (w * x / (x * (x * 1) + y * (y * 1))) by (field; lra).
  apply Ropp_lt_cancel. rewrite Ropp_0. unfold Rdiv. rewrite Ropp_mult_distr_l.
  apply Rmult_lt_0_compat; [nra|now apply Rinv_0_lt_compat].
Qed.

Lemma adesign_poles b n : band_ok b ->
  forall p, In p (snd (fst (adesign b n))) -> fst p < 0.
Proof.
  intros Hb p. pose proof (proto_lhp n) as L.
  destruct b as [w|w|w1 w2|w1 w2]; cbn [adesign fst snd band_ok] in *; intros Hp.
  - apply in_map_iff in Hp as [q [<- Hq]]. specialize (L _ Hq). destruct q. cbn in *. nra.
  - apply in_map_iff in Hp as [q [<- Hq]]. apply div_lhp; [easy|now apply L].
  - revert Hp. apply split_lhp.
    + assert (0 < w1 * w2) by nra. pose proof (sqrt_lt_R0 _ H). lra.
    + intros v Hv. apply in_map_iff in Hv as [q [<- Hq]]. specialize (L _ Hq).
      replace (half_mul (w2 - w1) q) with (RtoC ((w2 - w1) / 2) * q)%C.
      * destruct q. cbn in *. nra.
      * unfold half_mul. rewrite RtoC_div by lra. pose proof C2_nz. field. easy.
  - revert Hp. apply split_lhp.
    + assert (0 < w1 * w2) by nra. pose proof (sqrt_lt_R0 _ H). lra.
    + intros v Hv. apply in_map_iff in Hv as [q [<- Hq]]. apply div_lhp; [lra|now apply L].
Qed.

Lemma adesign_zeros b n : forall z, In z (fst (fst (adesign b n))) -> fst z = 0.
Proof.
  intros z. destruct b as [w|w|w1 w2|w1 w2]; cbn [adesign fst snd map split_roots app]; intros Hz.
  - easy.
  - apply repeat_spec in Hz. now subst.
  - apply repeat_spec in Hz. now subst.
  - apply in_app_iff in Hz as [Hz|Hz]; apply repeat_spec in Hz; now subst.
Qed.

Lemma adesign_conj b n :
  conj_closed (fst (fst (adesign b n))) /\ conj_closed (snd (fst (adesign b n))).
Proof.
  pose proof (proto_conj n) as HC.
  destruct b as [w|w|w1 w2|w1 w2]; cbn [adesign fst snd map split_roots app]; split.
  - constructor.
  - apply conj_closed_map; [|easy]. intros. now rewrite Cconj_mul, Cconj_real.
  - apply conj_closed_repeat_real.
  - apply conj_closed_map; [|easy]. intros. now rewrite Cconj_div, Cconj_real.
  - apply conj_closed_repeat_real.
  - apply split_conj_closed, conj_closed_map; [|easy]. intros. unfold half_mul.
    now rewrite Cconj_div, Cconj_mul, !Cconj_real.
  - unfold conj_closed. rewrite map_app.
    assert (E : forall w m, map Cconj (repeat (ipt w) m) = repeat (ipt (- w)) m).
    { intros w m. induction m; [easy|]. cbn [repeat map]. rewrite IHm. f_equal. }
    rewrite !E, Ropp_involutive. apply Permutation_app_comm.
  - apply split_conj_closed, conj_closed_map; [|easy]. intros. unfold half_div.
    now rewrite Cconj_div, !Cconj_real.
Qed.

Lemma adesign_lengths b n :
  length (snd (fst (adesign b n))) = band_order b n /\
  (length (fst (fst (adesign b n))) <= band_order b n)%nat.
Proof.
  pose proof (proto_length n) as HL.
  destruct b as [w|w|w1 w2|w1 w2]; cbn [adesign fst snd map split_roots app band_order];
  rewrite ?split_length, ?app_length, ?repeat_length, ?map_length, ?HL; cbn [length]; lia.
Qed.

(** ** Magnitude response *)
Lemma proto_tf n x : (0 < n)%nat -> mag2 (tf [] (proto_poles n) 1 (0, x)) = butter_mag2 n x.
Proof.
  intros Hn. unfold tf, butter_mag2. rewrite <- (proto_mag2 n x Hn).
  rewrite mag2_div.
  - replace (RtoC 1 * from_roots [] (0, x))%C with (RtoC 1) by (unfold from_roots; cbn [map Cprodl]; ring).
    rewrite mag2_real. f_equal. ring.
  - intros E. apply mag2_0 in E. rewrite proto_mag2 in E by easy.
    rewrite pow_mult in E. assert (0 <= (x ^ 2) ^ n) by (apply pow_le; nra). lra.
Qed.

Lemma pow_even x y n : x * x = y * y -> x ^ (2 * n) = y ^ (2 * n).
Proof. intros H. rewrite !pow_mult. f_equal. nra. Qed.

Definition jw (W : R) : C := (0, W).
Lemma jw_not_pole (l : list C) W : (forall p, In p l -> fst p < 0) -> ~ In (jw W) l.
Proof. intros H Hin. apply H in Hin. cbn in Hin. lra. Qed.

Lemma adesign_response b n W : (0 < n)%nat -> band_ok b -> band_regular b W ->
  mag2 (tf (fst (fst (adesign b n))) (snd (fst (adesign b n))) (snd (adesign b n)) (jw W))
  = butter_mag2 n (band_ratio b W).
Proof.
  intros Hn Hb HR. pose proof (jw_not_pole _ W (adesign_poles b n Hb)) as NP.
  pose proof (proto_nz n) as NZ. pose proof (proto_conj n) as PC.
  destruct b as [w|w|w1 w2|w1 w2]; cbn [adesign fst snd band_ok band_regular band_ratio] in *.
  - pose proof (low_to_low_tf [] (proto_poles n) 1 w (jw W)) as T. cbn [length] in T.
    rewrite T; [|lia|lra|easy].
    replace (jw W / RtoC w)%C with ((0, W / w) : C) by (apply C_eq; cbn; field; lra).
    now apply proto_tf.
  - pose proof (low_to_high_tf [] (proto_poles n) 1 w (jw W)) as T. cbn [length] in T.
    rewrite T; try easy; [|lia|constructor|apply C_nz; cbn; tauto].
    replace (RtoC w / jw W)%C with ((0, - (w / W)) : C) by (apply C_eq; cbn; field; lra).
    rewrite proto_tf by easy. unfold butter_mag2.
    rewrite (pow_even (- (w / W)) (w / W)) by ring. reflexivity.
  - assert (HW : 0 < w1 * w2) by nra.
    pose proof (low_to_band_tf [] (proto_poles n) 1 (sqrt (w1 * w2)) (w2 - w1) (jw W)) as T.
    cbn [length] in T.
    rewrite T; [|lia|lra|apply C_nz; cbn; tauto|easy].
    rewrite sqrt_sqrt by lra.
    replace ((jw W * jw W + RtoC (w1 * w2)) / (RtoC (w2 - w1) * jw W))%C
      with ((0, (W ^ 2 - w1 * w2) / ((w2 - w1) * W)) : C) by (apply C_eq; cbn; field; lra).
    now apply proto_tf.
  - assert (HW : 0 < w1 * w2) by nra.
    pose proof (low_to_stop_tf [] (proto_poles n) 1 (sqrt (w1 * w2)) (w2 - w1) (jw W)) as T.
    cbn [length] in T.
    rewrite T; try easy; [|lia|constructor|].
    + rewrite sqrt_sqrt by lra.
      replace (RtoC (w2 - w1) * jw W / (jw W * jw W + RtoC (w1 * w2)))%C
        with ((0, - ((w2 - w1) * W / (W ^ 2 - w1 * w2))) : C).
      * rewrite proto_tf by easy. unfold butter_mag2.
        rewrite (pow_even (- ((w2 - w1) * W / (W ^ 2 - w1 * w2))) ((w2 - w1) * W / (W ^ 2 - w1 * w2)))
          by ring. reflexivity.
      * assert (W ^ 2 - w1 * w2 <> 0) by lra.
        apply C_eq; cbn; field; repeat split; try nra; lra.
    + rewrite sqrt_sqrt by lra. intros E. apply (f_equal fst) in E. cbn in E. nra.
Qed.

(** ** The digital designs *)
Definition warp (w : R) : R := 4 * tan (PI * w / 2).
Definition ddesign (b : band) (n : nat) : list C * list C * R :=
  let d := adesign (band_map warp b) n in
  let zs := fst (fst d) in let ps := snd (fst d) in
  (map (tustin 4) zs ++ repeat (RtoC (-1)) (length ps - length zs), map (tustin 4) ps,
   snd d * bgain 4 zs ps).


Lemma warp_pos w : 0 < w < 1 -> 0 < warp w.
Proof.
  intros H. unfold warp. pose proof PI_RGT_0.
  assert (0 < tan (PI * w / 2)) by (apply tan_gt_0; nra). lra.
Qed.
Lemma warp_lt a b : 0 < a -> a < b -> b < 1 -> warp a < warp b.
Proof.
  intros Ha Hab Hb. unfold warp. pose proof PI_RGT_0.
  assert (tan (PI * a / 2) < tan (PI * b / 2)) by (apply tan_increasing; nra). lra.
Qed.
Lemma warp_ok b : digital_ok b -> band_ok (band_map warp b).
Proof.
  intros [Hb H1]. destruct b as [w|w|w1 w2|w1 w2]; cbn [band_ok band_map band_freqs In] in *.
  - apply warp_pos. split; [easy|]. apply H1; auto.
  - apply warp_pos. split; [easy|]. apply H1; auto.
  - assert (w2 < 1) by (apply H1; auto). split; [apply warp_pos; lra|apply warp_lt; lra].
  - assert (w2 < 1) by (apply H1; auto). split; [apply warp_pos; lra|apply warp_lt; lra].
Qed.

Lemma adesign_no4 b n : band_ok b ->
  ~ In (RtoC 4) (fst (fst (adesign b n))) /\ ~ In (RtoC 4) (snd (fst (adesign b n))).
Proof.
  intros Hb. split; intros H.
  - apply adesign_zeros in H. cbn in H. lra.
  - apply adesign_poles in H; [|easy]. cbn in H. lra.
Qed.

Lemma bilinear_design b n : digital_ok b ->
  let d := adesign (band_map warp b) n in
  @bilinear XR (cfs (fst (fst d))) (cfs (snd (fst d))) (Fin (snd d)) (@SrScalar XR (Fin 2))
  = Ok (cfs (fst (fst (ddesign b n))), cfs (snd (fst (ddesign b n))), Fin (snd (ddesign b n))).
Proof.
  intros Hb d. pose proof (warp_ok b Hb) as Hw. destruct (adesign_no4 _ n Hw) as [Z P].
  destruct (adesign_lengths (band_map warp b) n) as [L1 L2].
  pose proof (bilinear_cfs (fst (fst d)) (snd (fst d)) (snd d) 2) as B.
  replace (2 * 2) with 4 in B by ring.
  rewrite B by (try easy; unfold d; rewrite L1; exact L2). reflexivity.
Qed.

Lemma ddesign_poles b n : digital_ok b ->
  forall p, In p (snd (fst (ddesign b n))) -> Cmod p < 1.
Proof.
  intros Hb p Hp. cbn [ddesign fst snd] in Hp. apply in_map_iff in Hp as [q [<- Hq]].
  apply tustin_stable; [lra|]. eapply adesign_poles; [|exact Hq]. now apply warp_ok.
Qed.

Lemma ddesign_lengths b n :
  length (snd (fst (ddesign b n))) = band_order b n /\
  length (fst (fst (ddesign b n))) = band_order b n.
Proof.
  destruct (adesign_lengths (band_map warp b) n) as [L1 L2].
  assert (E : band_order (band_map warp b) n = band_order b n) by now destruct b.
  cbn [ddesign fst snd]. rewrite app_length, !map_length, repeat_length, L1. rewrite E in *. lia.
Qed.

Lemma tustin_conj c r : Cconj (tustin c r) = tustin c (Cconj r).
Proof. unfold tustin. now rewrite Cconj_div, Cconj_add, Cconj_sub, Cconj_real. Qed.

Lemma ddesign_conj b n :
  conj_closed (fst (fst (ddesign b n))) /\ conj_closed (snd (fst (ddesign b n))).
Proof.
  destruct (adesign_conj (band_map warp b) n) as [Z P]. cbn [ddesign fst snd]. split.
  - apply conj_closed_app; [|apply conj_closed_repeat_real].
    apply conj_closed_map; [|easy]. intros; apply tustin_conj.
  - apply conj_closed_map; [|easy]. intros; apply tustin_conj.
Qed.

(** The unit circle is the image of the imaginary axis. *)
Lemma circle_point v : cos (PI * v / 2) <> 0 ->
  (Ei (PI * v) + RtoC 1 <> RtoC 0)%C /\
  (RtoC 4 * (Ei (PI * v) - RtoC 1) / (Ei (PI * v) + RtoC 1))%C = jw (warp v).
Proof.
  intros H. set (t := PI * v / 2) in *.
  replace (PI * v) with (2 * t) by (unfold t; field).
  assert (EC : Ei (2 * t) = (2 * (cos t * cos t) - 1, 2 * (sin t * cos t)) :> C).
  { apply C_eq; cbn; [rewrite cos_2a_cos; ring|rewrite sin_2a; ring]. }
  pose proof (sin2_cos2 t) as SC. unfold Rsqr in SC.
  assert (HN : (Ei (2 * t) + RtoC 1 <> RtoC 0)%C).
  { intros E. rewrite EC in E. apply (f_equal fst) in E. cbn in E. nra. }
  split; [exact HN|].
  assert (E : (RtoC 4 * (Ei (2 * t) - RtoC 1) = jw (warp v) * (Ei (2 * t) + RtoC 1))%C).
  { rewrite EC. unfold warp. fold t. unfold tan, jw. apply C_eq; cbn.
    - transitivity (- (8 * (sin t * sin t))); [|field; easy].
      replace (sin t * sin t) with (1 - cos t * cos t) by lra. ring.
    - field. easy. }
  rewrite E. field. exact HN.
Qed.

Lemma circle_not_pole b n t : digital_ok b -> ~ In (Ei t) (snd (fst (ddesign b n))).
Proof. intros Hb H. apply ddesign_poles in H; [|easy]. rewrite Cmod_Ei in H. lra. Qed.


Lemma ratio_scale b v : band_ok (band_map warp b) -> band_regular (band_map plain_tan b) (plain_tan v) ->
  band_ratio (band_map warp b) (warp v) = band_ratio (band_map plain_tan b) (plain_tan v)
  /\ band_regular (band_map warp b) (warp v).
Proof.
  unfold warp. change (fun w => 4 * tan (PI * w / 2)) with (fun w => 4 * plain_tan w).
  change (tan (PI * v / 2)) with (plain_tan v). set (T := plain_tan v).
  destruct b as [w|w|w1 w2|w1 w2]; cbn [band_map band_ok band_regular band_ratio];
  intros Hb HR; fold (plain_tan v) in *;
  repeat match goal with |- context [tan (PI * ?w / 2)] => change (tan (PI * w / 2)) with (plain_tan w) end;
  repeat match goal with H : context [tan (PI * ?w / 2)] |- _ => change (tan (PI * w / 2)) with (plain_tan w) in H end.
  - split; [|easy]. field. lra.
  - split; [|lra]. field. easy.
  - split; [|lra]. field. lra.
  - split.
    + field. split; nra.
    + nra.
Qed.

Lemma ddesign_response b n v : (0 < n)%nat -> digital_ok b -> -1 < v < 1 ->
  band_regular (band_map plain_tan b) (plain_tan v) ->
  mag2 (tf (fst (fst (ddesign b n))) (snd (fst (ddesign b n))) (snd (ddesign b n)) (Ei (PI * v)))
  = butter_mag2 n (band_ratio (band_map plain_tan b) (plain_tan v)).
Proof.
  intros Hn Hb Hv HR. pose proof (warp_ok b Hb) as Hw. pose proof PI_RGT_0.
  destruct (ratio_scale b v Hw HR) as [ER RR]. rewrite <- ER.
  assert (HC : cos (PI * v / 2) <> 0).
  { assert (0 < cos (PI * v / 2)); [apply cos_gt_0; nra|lra]. }
  destruct (circle_point v HC) as [N1 E1].
  rewrite <- (adesign_response (band_map warp b) n (warp v)) by easy. rewrite <- E1.
  destruct (adesign_no4 _ n Hw) as [Z P]. destruct (adesign_conj (band_map warp b) n) as [CZ CP].
  destruct (adesign_lengths (band_map warp b) n) as [L1 L2].
  f_equal. cbn [ddesign fst snd]. apply bilinear_tf; try easy; [rewrite L1; easy|].
  apply (circle_not_pole b n (PI * v) Hb).
Qed.
