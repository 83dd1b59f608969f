(** Phase-space detection and the mean of the record (phasespace.py, examples/filtration/phase-space.py). *)
From Coq Require Import Reals Lra Psatz.
From Flocq Require Import Core.Raux.
From Verif Require Import P_symm M_pipeline.
From Verif Require Export P_phase P_pipeline P_corr.
Local Open Scope Z_scope.

(** The parameters needed for the first ellipse, without conditions on the others. *)
Lemma ps_first_axes (l dc dc2 : list R) : length dc = length l -> length dc2 = length l -> l <> [] ->
  exists p, ps_parameters (fins l) (fins dc) (fins dc2) = Ok p /\
    p_a1 p = Fin (runiv (length l) * rstd l) /\ p_b1 p = Fin (runiv (length l) * rstd dc).
Proof.
  intros L1 L2 Hne.
  assert (Hne1 : dc <> []) by (intros ->; destruct l; [congruence | discriminate]).
  assert (Hne2 : dc2 <> []) by (intros ->; destruct l; [congruence | discriminate]).
  unfold ps_parameters. rewrite !std_correct by assumption. cbn [bind].
  rewrite bcast_same by (rewrite !fins_length; congruence). cbn [bind].
  assert (HU : @nsqrt XR (nmul (nofZ 2) (nlog (nofZ (zlen (fins l))))) = Fin (runiv (length l))).
  { rewrite zlen_fins. apply univ_fin, Hne. }
  rewrite HU. eexists. split; [reflexivity|]. cbn [p_a1 p_b1]. rewrite !xmul_fin. split; reflexivity.
Qed.
Lemma far_outside a b x y : (0 < a)%R -> (a < Rabs x)%R -> outside 0 a b x y.
Proof.
  intros Ha Hx. unfold outside. rewrite cos_0, sin_0.
  assert (1 < (x / a) ^ 2)%R.
  { rewrite <- (pow2_abs (x / a)). assert (1 < Rabs (x / a))%R; [|nra]. unfold Rdiv. rewrite Rabs_mult, Rabs_inv, (Rabs_pos_eq a) by lra.
    apply (Rmult_lt_reg_r a); [exact Ha|]. rewrite Rmult_assoc, Rinv_l by lra. lra. }
  pose proof (pow2_ge_0 ((y * 1 - x * 0) / b)). replace ((x * 1 + y * 0) / a)%R with (x / a)%R by (unfold Rdiv; ring). lra.
Qed.

(** Samples all larger than the first threshold are all flagged. *)
Lemma phasespace_all (l : list R) : (2 <= length l)%nat -> rvar l <> 0%R -> rvar (rcentral (round_dec 4) l) <> 0%R ->
  (forall x, In x l -> (runiv (length l) * rstd l < Rabs x)%R) ->
  phasespace_thresholding DFloat (fins l) = Ok (zrange 0 (zlen l)).
Proof.
  intros Hn Hv Hv1 Hfar. set (dc := rcentral (round_dec 4) l) in *. set (dc2 := rcentral (round_dec 4) dc).
  assert (Hne : l <> []) by (intros ->; cbn in Hn; lia).
  assert (Ldc : length dc = length l) by apply rcentral_length.
  assert (Ldc2 : length dc2 = length l) by (unfold dc2; rewrite rcentral_length; exact Ldc).
  assert (Hne1 : dc <> []) by (intros E; rewrite E in Ldc; destruct l; [congruence | discriminate]).
  destruct (ps_first_axes l dc dc2 Ldc Ldc2 Hne) as (p & Ep & P1 & P2).
  assert (Hlam : (0 < runiv (length l))%R) by (apply runiv_pos, Hn).
  assert (Ha1 : (0 < runiv (length l) * rstd l)%R) by (apply Rmult_lt_0_compat; [exact Hlam | apply rstd_pos; assumption]).
  assert (Hb1 : (0 < runiv (length l) * rstd dc)%R) by (apply Rmult_lt_0_compat; [exact Hlam | apply rstd_pos; assumption]).
  assert (E1 : ps_derivatives DFloat (fins l) = Ok (fins dc, fins dc2)).
  { unfold ps_derivatives. rewrite (central_fins (round_dec 4)) by (intros; apply around_fin). cbn [bind]. fold dc.
    replace (length (fins l)) with (length (fins dc)) by (rewrite !fins_length; exact Ldc).
    rewrite (central_fins (round_dec 4)) by (intros; apply around_fin). reflexivity. }
  unfold phasespace_thresholding. rewrite E1. cbn [bind]. rewrite Ep. cbn [bind].
  rewrite !rho_num by (rewrite !fins_length; congruence). cbn [bind]. rewrite P1, P2. f_equal.
  match goal with |- union_above_one ?r1 ?r2 ?r3 = _ => destruct (in_union_above XR r1 r2 r3 (zlen l) (Fin 0)) as [HS HI] end.
  - rewrite zlen_zipwith, zlen_fins by (rewrite !fins_length; congruence). reflexivity.
  - rewrite zlen_zipwith, zlen_fins by (rewrite !fins_length; congruence). unfold zlen. rewrite Ldc. reflexivity.
  - rewrite zlen_zipwith, zlen_fins by (rewrite !fins_length; congruence). reflexivity.
  - apply sorted_ext; [exact HS | apply zrange_sorted|]. intros i. rewrite HI, in_zrange. split; [intros [H _]; exact H|].
    intros Hi. split; [exact Hi|]. left.
    assert (Hk : (Z.to_nat i < length l)%nat) by (unfold zlen in Hi; lia).
    rewrite !(nth_zipwith _ _ _ _ (Fin 0) (Fin 0)) by (rewrite fins_length; congruence).
    rewrite !fins_nth. change (@nofZ XR 0) with (Fin 0). apply rho_outside; [lra | lra|].
    apply far_outside; [exact Ha1|]. apply Hfar, nth_In, Hk.
Qed.

Lemma rcentral_shift rnd (M : R) l : rcentral rnd (map (fun x => x + M)%R l) = rcentral rnd l.
Proof.
  unfold rcentral. rewrite map_length. apply map_ext_in. intros i Hi. apply in_seq in Hi.
  destruct (Nat.ltb_spec 0 i), (Nat.ltb_spec (S i) (length l)); cbn [andb]; try reflexivity.
  rewrite !(nth_map_in _ _ _ 0%R) by lia. f_equal. field.
Qed.
Lemma abs_in_sum (l : list R) x : In x l -> (Rabs x <= Rsum (map Rabs l))%R.
Proof.
  induction l as [|y l IH]; [intros []|]. cbn [map]. cbn [Rsum]. intros [->|H].
  - assert (0 <= Rsum (map Rabs l))%R; [|lra]. clear. induction l as [|y l IH]; cbn [map]; [cbn; lra|]. cbn [Rsum]. pose proof (Rabs_pos y). lra.
  - pose proof (Rabs_pos y). specialize (IH H). lra.
Qed.
(** A large offset makes every sample a spike. *)
Lemma phasespace_offset (l : list R) : (2 <= length l)%nat -> rvar l <> 0%R -> rvar (rcentral (round_dec 4) l) <> 0%R ->
  exists M0, forall M, (M0 <= Rabs M)%R ->
    phasespace_thresholding DFloat (fins (map (fun x => x + M)%R l)) = Ok (zrange 0 (zlen l)).
Proof.
  intros Hn Hv Hv1. assert (Hne : l <> []) by (intros ->; cbn in Hn; lia).
  exists (runiv (length l) * rstd l + Rsum (map Rabs l) + 1)%R. intros M HM.
  replace (zlen l) with (zlen (map (fun x => x + M)%R l)) by (unfold zlen; rewrite map_length; reflexivity).
  apply phasespace_all.
  - rewrite map_length. exact Hn.
  - rewrite rvar_shift by exact Hne. exact Hv.
  - rewrite rcentral_shift. exact Hv1.
  - intros x Hx. apply in_map_iff in Hx. destruct Hx as (y & <- & Hy). rewrite map_length. unfold rstd. rewrite rvar_shift by exact Hne.
    fold (rstd l). pose proof (abs_in_sum l y Hy). pose proof (Rabs_triang (y + M) (- y)) as T.
    replace (y + M + - y)%R with M in T by ring. rewrite Rabs_Ropp in T. lra.
Qed.

(** The script takes the mean away first. *)
Lemma fluct_shift (x : list R) (c m m' : R) : x <> [] -> m = rmean x -> m' = rmean (map (fun v => v + c)%R x) ->
  map (fun v => @nsub XR v (Fin m')) (fins (map (fun v => v + c)%R x)) = map (fun v => @nsub XR v (Fin m)) (fins x).
Proof.
  intros H -> ->. rewrite !(map_fins (fun v => v - _)%R) by (intros; apply xsub_fin). exact (f_equal _ (rdev_shift c x H)).
Qed.
Lemma phase_detect_shift (x y z : list R) (a b c : R) : x <> [] -> y <> [] -> z <> [] ->
  @phase_detect XR (fins (map (fun v => v + a)%R x), fins (map (fun v => v + b)%R y), fins (map (fun v => v + c)%R z)) =
  @phase_detect XR (fins x, fins y, fins z).
Proof.
  intros Hx Hy Hz. unfold phase_detect, by_component.
  rewrite !mean_num_fins by (first [assumption | apply map_nil_iff; assumption]). cbn [bind].
  rewrite (fluct_shift x a (rmean x) _ Hx eq_refl eq_refl), (fluct_shift y b (rmean y) _ Hy eq_refl eq_refl), (fluct_shift z c (rmean z) _ Hz eq_refl eq_refl).
  reflexivity.
Qed.

Lemma offset_example : let l := [4; 0; 4; 8]%R in
  (2 <= length l)%nat /\ rvar l <> 0%R /\ rvar (rcentral (round_dec 4) l) <> 0%R.
Proof. destruct phasespace_example as (H1 & H2 & H3 & _). repeat split; assumption. Qed.
