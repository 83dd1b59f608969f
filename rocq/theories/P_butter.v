(** The four analog transformations and the bilinear transformation (C56, C57). *)
From Coq Require Import Reals Lra Psatz Permutation.
From Coquelicot Require Import Complex.
From Flocq Require Import Core.Raux.
From Verif Require Import Num NpBase Lib XR M_butter Spec3 P_cx.
Local Open Scope R_scope.

Lemma relative_scale_cfs zs ps : (length zs <= length ps)%nat ->
  @relative_scale XR (cfs zs) (cfs ps) = Ok (length ps - length zs)%nat.
Proof.
  intros H. unfold relative_scale. rewrite !cfs_zlen. unfold zlen.
  destruct (Z.ltb_spec (Z.of_nat (length ps) - Z.of_nat (length zs)) 0); [lia|].
  f_equal. lia.
Qed.

Lemma improper_raises {N : Num} (zs ps : list (cx N)) :
  (length ps < length zs)%nat -> relative_scale zs ps = Raise ValueError.
Proof.
  intros H. unfold relative_scale, zlen.
  destruct (Z.ltb_spec (Z.of_nat (length ps) - Z.of_nat (length zs)) 0); [easy|lia].
Qed.

(** Substituting a rational function root by root. *)
Lemma from_roots_subst (phi d : C) (c q : C -> C) l :
  d <> RtoC 0 -> (forall r, In r l -> phi - r = c r * q r / d)%C ->
  (from_roots l phi * Cpown d (length l) = Cprodl (map c l) * Cprodl (map q l))%C.
Proof.
  intros Hd H. unfold from_roots. induction l as [|r l IH]; cbn [map Cprodl length Cpown]; [ring|].
  rewrite (H r) by now left.
  transitivity ((c r * q r / d * d) * (Cprodl (map (fun r0 => phi - r0) l) * Cpown d (length l)))%C;
    [ring|].
  rewrite IH by (intros; apply H; now right). field. exact Hd.
Qed.

Lemma tf_subst (phi d : C) (c q : C -> C) zs ps (k : R) :
  d <> RtoC 0 -> (length zs <= length ps)%nat ->
  (forall r, In r zs -> phi - r = c r * q r / d)%C ->
  (forall r, In r ps -> phi - r = c r * q r / d)%C ->
  Cprodl (map c ps) <> RtoC 0 -> Cprodl (map q ps) <> RtoC 0 ->
  tf zs ps k phi = (RtoC k * (Cprodl (map c zs) / Cprodl (map c ps))
    * (Cprodl (map q zs) * Cpown d (length ps - length zs)) / Cprodl (map q ps))%C.
Proof.
  intros Hd HL Hz Hp Hc Hq. unfold tf.
  pose proof (from_roots_subst _ _ _ _ _ Hd Hz) as Ez.
  pose proof (from_roots_subst _ _ _ _ _ Hd Hp) as Ep.
  pose proof (Cpown_nz d (length zs) Hd) as D1.
  pose proof (Cpown_nz d (length ps) Hd) as D2.
  pose proof (Cpown_nz d (length ps - length zs) Hd) as D3.
  assert (ED : Cpown d (length ps) = (Cpown d (length zs) * Cpown d (length ps - length zs))%C).
  { rewrite <- Cpown_add. f_equal. lia. }
  assert (Fz : from_roots zs phi = (Cprodl (map c zs) * Cprodl (map q zs) / Cpown d (length zs))%C).
  { rewrite <- Ez. field. easy. }
  assert (Fp : from_roots ps phi = (Cprodl (map c ps) * Cprodl (map q ps) / Cpown d (length ps))%C).
  { rewrite <- Ep. field. easy. }
  rewrite Fz, Fp, ED. field. repeat split; try easy.
Qed.

Lemma prodl_map_nz (f : C -> C) l : (forall r, In r l -> f r <> RtoC 0) -> Cprodl (map f l) <> RtoC 0.
Proof.
  intros H. apply Cprodl_nz. intros Hin. apply in_map_iff in Hin as [r [E Hr]].
  now apply (H r).
Qed.
Lemma from_roots_map {A} (f : A -> C) l s : from_roots (map f l) s = Cprodl (map (fun r => s - f r)%C l).
Proof. unfold from_roots. now rewrite map_map. Qed.
Lemma Cmult_integral (a b : C) : (a * b = RtoC 0 -> a = RtoC 0 \/ b = RtoC 0)%C.
Proof.
  intros H. destruct (Ceq_dec a 0) as [E|E]; [now left|].
  destruct (Ceq_dec b 0) as [E'|E']; [now right|]. now apply (Cmult_neq_0 a b) in H.
Qed.
Lemma RtoC_nz x : x <> 0 -> RtoC x <> RtoC 0.
Proof. intros H E. apply H. now apply RtoC_inj. Qed.
Lemma Cminus_0 (a b : C) : (a - b = RtoC 0 <-> a = b)%C.
Proof.
  split; [intros H|intros ->; ring].
  transitivity (a - b + b)%C; [ring|rewrite H; ring].
Qed.
Lemma C1_nz : RtoC 1 <> RtoC 0. Proof. apply RtoC_nz; lra. Qed.
Lemma C2_nz : RtoC 2 <> RtoC 0. Proof. apply RtoC_nz; lra. Qed.

(** ** low_to_low *)
Lemma low_to_low_cfs zs ps k w : (length zs <= length ps)%nat ->
  @low_to_low XR (cfs zs) (cfs ps) (Fin k) (Fin w) =
  Ok (cfs (map (Cmult (RtoC w)) zs), cfs (map (Cmult (RtoC w)) ps),
      Fin (k * w ^ (length ps - length zs))).
Proof.
  intros H. unfold low_to_low. rewrite relative_scale_cfs by easy. cbn [bind].
  rewrite cre_cf.
  rewrite (map_cfs (cmul (cf w)) (Cmult (RtoC w)) zs) by (intros; apply cmul_cf).
  rewrite (map_cfs (cmul (cf w)) (Cmult (RtoC w)) ps) by (intros; apply cmul_cf).
  rewrite xipow_fin. reflexivity.
Qed.

Lemma low_to_low_tf zs ps k w s : (length zs <= length ps)%nat -> w <> 0 ->
  ~ In s (map (Cmult (RtoC w)) ps) ->
  tf (map (Cmult (RtoC w)) zs) (map (Cmult (RtoC w)) ps) (k * w ^ (length ps - length zs)) s
  = tf zs ps k (s / RtoC w)%C.
Proof.
  intros HL Hw Hs. pose proof (RtoC_nz _ Hw) as Hw'.
  assert (HQ : forall l r, In r l -> (s / RtoC w - r = RtoC 1 * (s - RtoC w * r) / RtoC w)%C).
  { intros l r _. field. easy. }
  apply from_roots_nz in Hs. rewrite from_roots_map in Hs.
  rewrite (tf_subst (s / RtoC w)%C (RtoC w) (fun _ => RtoC 1) (fun r => s - RtoC w * r)%C zs ps k);
    try easy.
  - unfold tf. rewrite !from_roots_map.
    rewrite RtoC_mult, RtoC_pow, !Cprodl_map_const.
    assert (E1 : forall n, Cpown (RtoC 1) n = RtoC 1) by (induction n; cbn; [easy|rewrite IHn; ring]).
    rewrite !E1. field. repeat split; try easy; apply C1_nz.
  - now apply HQ.
  - now apply HQ.
  - apply prodl_map_nz. intros; apply C1_nz.
Qed.

(** ** low_to_high *)
Definition gain_real (zs ps : list C) : R := fst (Cprodl (map Copp zs) / Cprodl (map Copp ps))%C.

Lemma map_copp_cfs l : map (@copp XR) (cfs l) = cfs (map Copp l).
Proof. apply map_cfs. intros; apply copp_cf. Qed.

Lemma prodl_opp_nz l : ~ In (RtoC 0) l -> Cprodl (map Copp l) <> RtoC 0.
Proof.
  intros H. apply prodl_map_nz. intros r Hr E. apply H.
  replace (RtoC 0) with r; [easy|]. transitivity (- - r)%C; [ring|rewrite E; ring].
Qed.

Lemma gain_cfs zs ps : ~ In (RtoC 0) ps ->
  @re XR (@cdiv XR (@cprod XR (map (@copp XR) (cfs zs))) (@cprod XR (map (@copp XR) (cfs ps))))
  = Fin (gain_real zs ps).
Proof.
  intros H. rewrite !map_copp_cfs, !cprod_cfs, cdiv_cf by now apply prodl_opp_nz. reflexivity.
Qed.

Lemma conj_closed_opp l : conj_closed l -> conj_closed (map Copp l).
Proof. apply conj_closed_map. intros; apply Cconj_opp. Qed.

Lemma quot_real a b : snd a = 0 -> snd b = 0 -> b <> RtoC 0 -> RtoC (fst (a / b)%C) = (a / b)%C.
Proof.
  intros Ha Hb Hn. symmetry. apply real_C. apply Cconj_Im0. rewrite Cconj_div.
  now rewrite (proj2 (Cconj_Im0 a)), (proj2 (Cconj_Im0 b)).
Qed.

Lemma gain_real_ok zs ps : conj_closed zs -> conj_closed ps -> ~ In (RtoC 0) ps ->
  RtoC (gain_real zs ps) = (Cprodl (map Copp zs) / Cprodl (map Copp ps))%C.
Proof.
  intros Cz Cp H. apply quot_real; [| |now apply prodl_opp_nz];
  now apply conj_closed_prod_real, conj_closed_opp.
Qed.

Lemma low_to_high_cfs zs ps k w : (length zs <= length ps)%nat ->
  ~ In (RtoC 0) zs -> ~ In (RtoC 0) ps ->
  @low_to_high XR (cfs zs) (cfs ps) (Fin k) (Fin w) =
  Ok (cfs (map (Cdiv (RtoC w)) zs ++ repeat (RtoC 0) (length ps - length zs)),
      cfs (map (Cdiv (RtoC w)) ps), Fin (k * gain_real zs ps)).
Proof.
  intros H Hz Hp. unfold low_to_high. rewrite relative_scale_cfs by easy. cbn [bind].
  rewrite cre_cf.
  rewrite (map_cfs (cdiv (cf w)) (Cdiv (RtoC w)) zs)
    by (intros r Hr; apply cdiv_cf; intros ->; easy).
  rewrite (map_cfs (cdiv (cf w)) (Cdiv (RtoC w)) ps)
    by (intros r Hr; apply cdiv_cf; intros ->; easy).
  rewrite gain_cfs by easy. rewrite xmul_fin, cfs_app, cfs_repeat. reflexivity.
Qed.

Lemma low_to_high_tf zs ps k w s : (length zs <= length ps)%nat ->
  ~ In (RtoC 0) zs -> ~ In (RtoC 0) ps -> conj_closed zs -> conj_closed ps -> s <> RtoC 0 ->
  ~ In s (map (Cdiv (RtoC w)) ps) ->
  tf (map (Cdiv (RtoC w)) zs ++ repeat (RtoC 0) (length ps - length zs))
     (map (Cdiv (RtoC w)) ps) (k * gain_real zs ps) s
  = tf zs ps k (RtoC w / s)%C.
Proof.
  intros HL Hz Hp Cz Cp Hs0 Hs.
  assert (HQ : forall l r, ~ In (RtoC 0) l -> In r l ->
     (RtoC w / s - r = (- r) * (s - RtoC w / r) / s)%C).
  { intros l r Hn Hr. assert (r <> RtoC 0) by (intros ->; easy). field. repeat split; easy. }
  apply from_roots_nz in Hs. rewrite from_roots_map in Hs.
  rewrite (tf_subst (RtoC w / s)%C s Copp (fun r => s - RtoC w / r)%C zs ps k); try easy.
  - unfold tf. rewrite from_roots_app, from_roots_repeat, !from_roots_map.
    rewrite RtoC_mult, gain_real_ok by easy.
    replace (s - RtoC 0)%C with s by ring. pose proof (prodl_opp_nz ps Hp). field. repeat split; easy.
  - intros; now apply (HQ zs).
  - intros; now apply (HQ ps).
  - now apply prodl_opp_nz.
Qed.

(** ** the quadratic split used by low_to_band and low_to_stop *)
Definition splitp (v : C) (w0 : R) : C := (v + Csqrt (v * v - RtoC (w0 * w0)))%C.
Definition splitm (v : C) (w0 : R) : C := (v - Csqrt (v * v - RtoC (w0 * w0)))%C.
Definition split_roots (l : list C) (w0 : R) : list C :=
  map (fun v => splitp v w0) l ++ map (fun v => splitm v w0) l.

Lemma catenate_cfs l w0 : @catenate XR (cfs l) (Fin w0) = cfs (split_roots l w0).
Proof.
  unfold catenate, split_roots. rewrite cfs_app, xmul_fin, cre_cf. f_equal.
  - apply map_cfs. intros v _. now rewrite cmul_cf, csub_cf, csqrt_cf, cadd_cf.
  - apply map_cfs. intros v _. now rewrite cmul_cf, csub_cf, csqrt_cf, csub_cf.
Qed.

Lemma split_quad v w0 s :
  ((s - splitp v w0) * (s - splitm v w0) = s * s - RtoC 2 * v * s + RtoC (w0 * w0))%C.
Proof.
  unfold splitp, splitm. set (d := (v * v - RtoC (w0 * w0))%C).
  transitivity (s * s - RtoC 2 * v * s + v * v - Csqrt d * Csqrt d)%C.
  - rewrite (RtoC_plus 1 1 : RtoC 2 = _). ring.
  - rewrite Csqrt_sqr. unfold d. ring.
Qed.

Lemma split_roots_eval l w0 s :
  from_roots (split_roots l w0) s
  = Cprodl (map (fun v => s * s - RtoC 2 * v * s + RtoC (w0 * w0))%C l).
Proof.
  unfold split_roots. rewrite from_roots_app, !from_roots_map, <- Cprodl_map_mul.
  apply Cprodl_ext. intros v _. apply split_quad.
Qed.

(** ** low_to_band *)
Definition half_mul (bw : R) (r : C) : C := (r * RtoC bw / RtoC 2)%C.

Lemma low_to_band_cfs zs ps k w0 bw : (length zs <= length ps)%nat ->
  @low_to_band XR (cfs zs) (cfs ps) (Fin k) (Fin w0) (Fin bw) =
  Ok (cfs (split_roots (map (half_mul bw) zs) w0 ++ repeat (RtoC 0) (length ps - length zs)),
      cfs (split_roots (map (half_mul bw) ps) w0), Fin (k * bw ^ (length ps - length zs))).
Proof.
  intros H. unfold low_to_band. rewrite relative_scale_cfs by easy. cbn [bind].
  change (@nofZ XR 2) with (Fin 2). rewrite !cre_cf.
  assert (E : forall l, map (fun a => @cdiv XR (@cmul XR a (cf bw)) (cf 2)) (cfs l)
                        = cfs (map (half_mul bw) l)).
  { intros l. apply map_cfs. intros r _. rewrite cmul_cf, cdiv_cf; [easy|apply C2_nz]. }
  rewrite !E, !catenate_cfs, cfs_app, cfs_repeat, xipow_fin. reflexivity.
Qed.

Lemma low_to_band_tf zs ps k w0 bw s : (length zs <= length ps)%nat -> bw <> 0 -> s <> RtoC 0 ->
  ~ In s (split_roots (map (half_mul bw) ps) w0) ->
  tf (split_roots (map (half_mul bw) zs) w0 ++ repeat (RtoC 0) (length ps - length zs))
     (split_roots (map (half_mul bw) ps) w0) (k * bw ^ (length ps - length zs)) s
  = tf zs ps k ((s * s + RtoC (w0 * w0)) / (RtoC bw * s))%C.
Proof.
  intros HL Hb Hs0 Hs. pose proof (RtoC_nz _ Hb) as Hb'.
  assert (HQ : forall l r, In r l -> ((s * s + RtoC (w0 * w0)) / (RtoC bw * s) - r
     = RtoC 1 * (s * s - RtoC 2 * half_mul bw r * s + RtoC (w0 * w0)) / (RtoC bw * s))%C).
  { intros l r _. unfold half_mul. field. repeat split; try easy; apply C2_nz. }
  apply from_roots_nz in Hs. rewrite split_roots_eval, map_map in Hs.
  rewrite (tf_subst ((s * s + RtoC (w0 * w0)) / (RtoC bw * s))%C (RtoC bw * s)%C (fun _ => RtoC 1)
    (fun r => s * s - RtoC 2 * half_mul bw r * s + RtoC (w0 * w0))%C zs ps k); try easy.
  - unfold tf. rewrite from_roots_app, !split_roots_eval, !map_map, from_roots_repeat.
    rewrite RtoC_mult, RtoC_pow, !Cprodl_map_const, Cpown_mul.
    assert (E1 : forall n, Cpown (RtoC 1) n = RtoC 1) by (induction n; cbn; [easy|rewrite IHn; ring]).
    rewrite !E1. replace (s - RtoC 0)%C with s by ring. pose proof C1_nz. field. repeat split; easy.
  - now apply Cmult_neq_0.
  - now apply HQ.
  - now apply HQ.
  - apply prodl_map_nz. intros; apply C1_nz.
Qed.

(** ** low_to_stop *)
Definition half_div (bw : R) (r : C) : C := (RtoC (bw / 2) / r)%C.
Definition ipt (w : R) : C := (0, w).

Lemma low_to_stop_cfs zs ps k w0 bw : (length zs <= length ps)%nat ->
  ~ In (RtoC 0) zs -> ~ In (RtoC 0) ps ->
  @low_to_stop XR (cfs zs) (cfs ps) (Fin k) (Fin w0) (Fin bw) =
  Ok (cfs ((split_roots (map (half_div bw) zs) w0 ++ repeat (ipt w0) (length ps - length zs))
           ++ repeat (ipt (- w0)) (length ps - length zs)),
      cfs (split_roots (map (half_div bw) ps) w0), Fin (k * gain_real zs ps)).
Proof.
  intros H Hz Hp. unfold low_to_stop. rewrite relative_scale_cfs by easy. cbn [bind].
  change (@nofZ XR 2) with (Fin 2). rewrite (xdiv_ok bw 2) by lra. rewrite !cre_cf.
  assert (E : forall l, ~ In (RtoC 0) l ->
     map (fun b => @cdiv XR (cf (RtoC (bw / 2))) b) (cfs l) = cfs (map (half_div bw) l)).
  { intros l Hl. apply map_cfs. intros r Hr. apply cdiv_cf. intros ->. easy. }
  rewrite !E by easy. rewrite !catenate_cfs, gain_cfs, xmul_fin by easy.
  rewrite !cfs_app, !cfs_repeat. reflexivity.
Qed.

Lemma low_to_stop_tf zs ps k w0 bw s : (length zs <= length ps)%nat ->
  ~ In (RtoC 0) zs -> ~ In (RtoC 0) ps -> conj_closed zs -> conj_closed ps ->
  (s * s + RtoC (w0 * w0) <> RtoC 0)%C ->
  ~ In s (split_roots (map (half_div bw) ps) w0) ->
  tf ((split_roots (map (half_div bw) zs) w0 ++ repeat (ipt w0) (length ps - length zs))
           ++ repeat (ipt (- w0)) (length ps - length zs))
     (split_roots (map (half_div bw) ps) w0) (k * gain_real zs ps) s
  = tf zs ps k (RtoC bw * s / (s * s + RtoC (w0 * w0)))%C.
Proof.
  intros HL Hz Hp Cz Cp Hs0 Hs.
  assert (HQ : forall l r, ~ In (RtoC 0) l -> In r l ->
     (RtoC bw * s / (s * s + RtoC (w0 * w0)) - r
     = (- r) * (s * s - RtoC 2 * half_div bw r * s + RtoC (w0 * w0)) / (s * s + RtoC (w0 * w0)))%C).
  { intros l r Hl Hr. unfold half_div. rewrite RtoC_div by lra.
    assert (r <> RtoC 0) by (intros ->; easy). pose proof C2_nz. field. repeat split; easy. }
  apply from_roots_nz in Hs. rewrite split_roots_eval, map_map in Hs.
  rewrite (tf_subst (RtoC bw * s / (s * s + RtoC (w0 * w0)))%C (s * s + RtoC (w0 * w0))%C Copp
    (fun r => s * s - RtoC 2 * half_div bw r * s + RtoC (w0 * w0))%C zs ps k); try easy.
  - unfold tf. rewrite !from_roots_app, !split_roots_eval, !map_map, !from_roots_repeat.
    rewrite RtoC_mult, gain_real_ok by easy.
    assert (E : (Cpown (s * s + RtoC (w0 * w0)) (length ps - length zs)
      = Cpown (s - ipt w0) (length ps - length zs) * Cpown (s - ipt (- w0)) (length ps - length zs))%C).
    { rewrite <- Cpown_mul. f_equal. apply C_eq; cbn; ring. }
    rewrite E. pose proof (prodl_opp_nz ps Hp). field. repeat split; easy.
  - intros; now apply (HQ zs).
  - intros; now apply (HQ ps).
  - now apply prodl_opp_nz.
Qed.

(** ** bilinear *)
Definition tustin (c : R) (r : C) : C := ((RtoC c + r) / (RtoC c - r))%C.
Definition bgain (c : R) (zs ps : list C) : R :=
  fst (Cprodl (map (Cminus (RtoC c)) zs) / Cprodl (map (Cminus (RtoC c)) ps))%C.

Lemma prodl_sub_nz c l : ~ In (RtoC c) l -> Cprodl (map (Cminus (RtoC c)) l) <> RtoC 0.
Proof.
  intros H. apply prodl_map_nz. intros r Hr E. apply H. apply (proj1 (Cminus_0 _ _)) in E. now rewrite E.
Qed.

Lemma bgain_ok c zs ps : conj_closed zs -> conj_closed ps -> ~ In (RtoC c) ps ->
  RtoC (bgain c zs ps) = (Cprodl (map (Cminus (RtoC c)) zs) / Cprodl (map (Cminus (RtoC c)) ps))%C.
Proof.
  intros Cz Cp H. apply quot_real; [| |now apply prodl_sub_nz].
  all: apply conj_closed_prod_real, conj_closed_map; [|easy].
  all: intros; now rewrite Cconj_sub, Cconj_real.
Qed.

Lemma bilinear_cfs zs ps k fs : (length zs <= length ps)%nat ->
  ~ In (RtoC (2 * fs)) zs -> ~ In (RtoC (2 * fs)) ps ->
  @bilinear XR (cfs zs) (cfs ps) (Fin k) (@SrScalar XR (Fin fs)) =
  Ok (cfs (map (tustin (2 * fs)) zs ++ repeat (RtoC (-1)) (length ps - length zs)),
      cfs (map (tustin (2 * fs)) ps), Fin (k * bgain (2 * fs) zs ps)).
Proof.
  intros H Hz Hp. unfold bilinear. cbn [valid_g bind]. rewrite relative_scale_cfs by easy. cbn [bind].
  change (@nofZ XR 2) with (Fin 2). rewrite xmul_fin, !cre_cf.
  assert (E : forall l, ~ In (RtoC (2 * fs)) l ->
    map (fun y => @cdiv XR (@cadd XR (cf (2 * fs)%R) y) (@csub XR (cf (2 * fs)%R) y)) (cfs l)
    = cfs (map (tustin (2 * fs)) l)).
  { intros l Hl. apply map_cfs. intros r Hr. rewrite cadd_cf, csub_cf, cdiv_cf; [easy|].
    intros E0. apply (proj1 (Cminus_0 _ _)) in E0. rewrite <- E0 in Hr. easy. }
  rewrite !E by easy.
  assert (E2 : forall l, map (@csub XR (cf (2 * fs)%R)) (cfs l) = cfs (map (Cminus (RtoC (2 * fs))) l)).
  { intros l. apply map_cfs. intros r Hr. apply csub_cf. }
  rewrite !E2, !cprod_cfs, cdiv_cf by now apply prodl_sub_nz.
  rewrite cfs_app, cfs_repeat.
  replace (@cre XR (@nopp XR (@nofZ XR 1))) with (cf (RtoC (-1))); [reflexivity|].
  unfold cf, cre. apply f_equal2; [|easy]. change (Fin (-1) = Fin (- (1))). apply f_equal. lra.
Qed.

Lemma bilinear_tf zs ps k c z : (length zs <= length ps)%nat ->
  ~ In (RtoC c) zs -> ~ In (RtoC c) ps -> conj_closed zs -> conj_closed ps ->
  (z + RtoC 1 <> RtoC 0)%C -> ~ In z (map (tustin c) ps) ->
  tf (map (tustin c) zs ++ repeat (RtoC (-1)) (length ps - length zs))
     (map (tustin c) ps) (k * bgain c zs ps) z
  = tf zs ps k (RtoC c * (z - RtoC 1) / (z + RtoC 1))%C.
Proof.
  intros HL Hz Hp Cz Cp Hs0 Hs.
  assert (HQ : forall l r, ~ In (RtoC c) l -> In r l ->
     (RtoC c * (z - RtoC 1) / (z + RtoC 1) - r
     = (RtoC c - r) * (z - tustin c r) / (z + RtoC 1))%C).
  { intros l r Hl Hr. unfold tustin.
    assert (RtoC c - r <> RtoC 0)%C by (intros E; apply (proj1 (Cminus_0 _ _)) in E; rewrite <- E in Hr; easy).
    field. repeat split; easy. }
  apply from_roots_nz in Hs. rewrite from_roots_map in Hs.
  rewrite (tf_subst (RtoC c * (z - RtoC 1) / (z + RtoC 1))%C (z + RtoC 1)%C (Cminus (RtoC c))
    (fun r => z - tustin c r)%C zs ps k); try easy.
  - unfold tf. rewrite from_roots_app, !from_roots_map, !from_roots_repeat.
    rewrite RtoC_mult, bgain_ok by easy.
    replace (z - RtoC (-1))%C with (z + RtoC 1)%C by (apply C_eq; cbn; ring).
    pose proof (prodl_sub_nz c ps Hp). field. repeat split; easy.
  - intros; now apply (HQ zs).
  - intros; now apply (HQ ps).
  - now apply prodl_sub_nz.
Qed.

Lemma tustin_stable c r : 0 < c -> fst r < 0 -> Cmod (tustin c r) < 1.
Proof.
  intros Hc Hr. unfold tustin.
  assert (Hn : (RtoC c - r <> RtoC 0)%C).
  { intros E. apply (f_equal fst) in E. cbn in E. lra. }
  rewrite Cmod_div by easy. pose proof (proj1 (Cmod_gt_0 _) Hn) as HP.
  apply (Rmult_lt_reg_r (Cmod (RtoC c - r)%C)); [easy|].
  unfold Rdiv. rewrite Rmult_assoc, Rinv_l, Rmult_1_r, Rmult_1_l by lra.
  unfold Cmod. apply sqrt_lt_1_alt. destruct r as [a b]. cbn [fst] in Hr. cbn.
  assert (0 < c * - a) by (apply Rmult_lt_0_compat; lra).
  pose proof (Rle_0_sqr (c + a)). pose proof (Rle_0_sqr b). unfold Rsqr in *. split; nra.
Qed.
