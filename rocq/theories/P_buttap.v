(** The Butterworth prototype: its poles and its magnitude response (C58). *)
From Coq Require Import Reals Lra Psatz Permutation.
From Coquelicot Require Import Complex.
From Flocq Require Import Core.Raux.
From Verif Require Import Num NpBase Lib XR M_butter Spec3 P_cx P_butter.
Local Open Scope R_scope.

(** ** A monic polynomial with as many distinct roots as its degree is their product *)
Fixpoint hpoly (a : list C) (s : C) : C :=
  match a with [] => RtoC 1 | c :: a' => (c + s * hpoly a' s)%C end.

Lemma hpoly_div a r : a <> [] ->
  exists b, length b = (length a - 1)%nat /\
    forall s, hpoly a s = ((s - r) * hpoly b s + hpoly a r)%C.
Proof.
  induction a as [|c a IH]; [easy|]. intros _. destruct a as [|d a].
  - exists []. split; [easy|]. intros s. cbn. ring.
  - destruct IH as [b [HL Hb]]; [easy|].
    exists (hpoly (d :: a) r :: b). split; [cbn in *; lia|]. intros s.
    cbn [hpoly] in *. rewrite (Hb s). ring.
Qed.

Lemma hpoly_roots l : NoDup l -> forall a, length a = length l ->
  (forall r, In r l -> hpoly a r = RtoC 0) -> forall s, hpoly a s = from_roots l s.
Proof.
  induction 1 as [|r l Hn ND IH]; intros a HL HR s.
  - destruct a; [reflexivity|easy].
  - destruct (hpoly_div a r) as [b [HLb Hb]]; [intros ->; easy|].
    rewrite Hb, (HR r) by now left. unfold from_roots. cbn [map Cprodl].
    rewrite (IH b).
    + unfold from_roots. ring.
    + cbn in HL. lia.
    + intros r' Hr'. assert (E := HR r' (or_intror Hr')). rewrite Hb, (HR r) in E by now left.
      assert (E' : ((r' - r) * hpoly b r' = RtoC 0)%C) by (rewrite <- E; ring).
      apply Cmult_integral in E' as [E'|E']; [|easy].
      apply (proj1 (Cminus_0 _ _)) in E'. subst. easy.
Qed.

(** ** Points of the unit circle *)

Lemma Ei_add a b : Ei (a + b) = (Ei a * Ei b)%C.
Proof. apply C_eq; cbn; [apply cos_plus|rewrite sin_plus; ring]. Qed.
Lemma Ei_pow a n : Cpown (Ei a) n = Ei (INR n * a).
Proof.
  induction n.
  - cbn. apply C_eq; cbn; rewrite Rmult_0_l; [now rewrite cos_0|now rewrite sin_0].
  - cbn [Cpown]. rewrite IHn, <- Ei_add. f_equal. rewrite S_INR. ring.
Qed.
Lemma Ei_conj a : Cconj (Ei a) = Ei (- a).
Proof. apply C_eq; cbn; [now rewrite cos_neg|now rewrite sin_neg]. Qed.
Lemma mag2_Ei a : mag2 (Ei a) = 1.
Proof. unfold mag2, Ei. cbn [fst snd]. pose proof (sin2_cos2 a). unfold Rsqr in *. lra. Qed.
Lemma Cmod_Ei a : Cmod (Ei a) = 1.
Proof. rewrite Cmod_mag2, mag2_Ei. apply sqrt_1. Qed.

Lemma Ei_odd_pi k : Ei (INR (2 * k + 1) * PI) = RtoC (-1).
Proof.
  induction k.
  - cbn. rewrite Rmult_1_l. apply C_eq; cbn; [now rewrite cos_PI|now rewrite sin_PI].
  - replace (INR (2 * S k + 1) * PI) with (INR (2 * k + 1) * PI + 2 * PI).
    + apply C_eq; cbn [fst snd Ei].
      * replace (INR (2 * k + 1) * PI + 2 * PI) with (INR (2 * k + 1) * PI + 2 * INR 1 * PI) by (change (INR 1) with 1; ring).
        rewrite cos_period. apply (f_equal fst) in IHk. exact IHk.
      * replace (INR (2 * k + 1) * PI + 2 * PI) with (INR (2 * k + 1) * PI + 2 * INR 1 * PI) by (change (INR 1) with 1; ring).
        rewrite sin_period. apply (f_equal snd) in IHk. exact IHk.
    + replace (2 * S k + 1)%nat with (S (S (2 * k + 1))) by lia. rewrite !S_INR. ring.
Qed.

(** ** The roots of s^(2n) + 1 *)
Definition alpha (n k : nat) : R := INR (2 * k + 1) * PI / INR (2 * n).

Lemma alpha_range n k : (k < n)%nat -> 0 < alpha n k < PI.
Proof.
  intros H. unfold alpha. pose proof PI_RGT_0.
  assert (0 < INR (2 * n)) by (apply lt_0_INR; lia).
  assert (HK : 0 < INR (2 * k + 1)) by (apply lt_0_INR; lia).
  assert (INR (2 * k + 1) < INR (2 * n)) by (apply lt_INR; lia).
  split.
  - apply Rmult_lt_0_compat; [now apply Rmult_lt_0_compat|now apply Rinv_0_lt_compat].
  - apply (Rmult_lt_reg_r (INR (2 * n))); [easy|]. unfold Rdiv. rewrite Rmult_assoc, Rinv_l by lra.
    rewrite Rmult_1_r, Rmult_comm. apply Rmult_lt_compat_l; easy.
Qed.
Lemma alpha_lt n j k : (j < k < n)%nat -> alpha n j < alpha n k.
Proof.
  intros H. unfold alpha, Rdiv. pose proof PI_RGT_0.
  apply Rmult_lt_compat_r; [apply Rinv_0_lt_compat, lt_0_INR; lia|].
  apply Rmult_lt_compat_r; [easy|]. apply lt_INR. lia.
Qed.
Lemma alpha_inj n j k : (j < n)%nat -> (k < n)%nat -> cos (alpha n j) = cos (alpha n k) -> j = k.
Proof.
  intros Hj Hk E. pose proof (alpha_range _ _ Hj). pose proof (alpha_range _ _ Hk).
  destruct (lt_eq_lt_dec j k) as [[L| ->]|L]; [|easy|].
  - pose proof (alpha_lt n j k ltac:(lia)).
    assert (cos (alpha n k) < cos (alpha n j)) by (apply cos_decreasing_1; lra). lra.
  - pose proof (alpha_lt n k j ltac:(lia)).
    assert (cos (alpha n j) < cos (alpha n k)) by (apply cos_decreasing_1; lra). lra.
Qed.

Definition unit_roots (n : nat) : list C :=
  map (fun k => Ei (alpha n k)) (seq 0 n) ++ map (fun k => Ei (- alpha n k)) (seq 0 n).

Lemma NoDup_map_in {A B} (f : A -> B) l : NoDup l ->
  (forall a b, In a l -> In b l -> f a = f b -> a = b) -> NoDup (map f l).
Proof.
  induction 1 as [|x l Hn ND IH]; intros H; cbn; constructor.
  - intros Hin. apply in_map_iff in Hin as [y [E Hy]]. apply Hn.
    rewrite (H x y); [easy|now left|now right|easy].
  - apply IH. intros a b Ha Hb. apply H; now right.
Qed.

Lemma NoDup_app' {A} (a b : list A) : NoDup a -> NoDup b -> (forall x, In x a -> ~ In x b) -> NoDup (a ++ b).
Proof.
  induction 1 as [|x a Hn ND IH]; intros Hb H; cbn; [easy|]. constructor.
  - rewrite in_app_iff. intros [E|E]; [easy|]. apply (H x); [now left|easy].
  - apply IH; [easy|]. intros y Hy. apply H. now right.
Qed.

Lemma unit_roots_nodup n : NoDup (unit_roots n).
Proof.
  unfold unit_roots. apply NoDup_app'.
  - apply NoDup_map_in; [apply seq_NoDup|]. intros a b Ha Hb E. apply in_seq in Ha, Hb.
    apply (alpha_inj n); try lia. now apply (f_equal fst) in E.
  - apply NoDup_map_in; [apply seq_NoDup|]. intros a b Ha Hb E. apply in_seq in Ha, Hb.
    apply (alpha_inj n); try lia. apply (f_equal fst) in E. cbn in E. now rewrite !cos_neg in E.
  - intros x Hx Hy. apply in_map_iff in Hx as [i [Ei' Hi]], Hy as [j [Ej Hj]].
    apply in_seq in Hi, Hj. rewrite <- Ei' in Ej. apply (f_equal snd) in Ej. cbn in Ej.
    rewrite sin_neg in Ej.
    pose proof (alpha_range n i ltac:(lia)) as Ri. pose proof (alpha_range n j ltac:(lia)) as Rj.
    pose proof (sin_gt_0 (alpha n i) (proj1 Ri) (proj2 Ri)).
    pose proof (sin_gt_0 (alpha n j) (proj1 Rj) (proj2 Rj)). lra.
Qed.

Lemma hpoly_zeros m s : hpoly (repeat (RtoC 0) m) s = Cpown s m.
Proof. induction m; cbn; [easy|]. rewrite IHm. ring. Qed.

Lemma alpha_pow n k : (k < n)%nat -> Cpown (Ei (alpha n k)) (2 * n) = RtoC (-1).
Proof.
  intros H. rewrite Ei_pow. rewrite <- (Ei_odd_pi k). f_equal. unfold alpha. field.
  apply not_0_INR. lia.
Qed.

Lemma unit_roots_poly n s : (0 < n)%nat ->
  from_roots (unit_roots n) s = (Cpown s (2 * n) + RtoC 1)%C.
Proof.
  intros Hn.
  assert (E : forall s, hpoly (RtoC 1 :: repeat (RtoC 0) (2 * n - 1)) s = (Cpown s (2 * n) + RtoC 1)%C).
  { intros t. cbn [hpoly]. rewrite hpoly_zeros.
    replace (2 * n)%nat with (S (2 * n - 1)) at 2 by lia. cbn [Cpown]. ring. }
  rewrite <- E. symmetry. apply hpoly_roots; [apply unit_roots_nodup| |].
  - unfold unit_roots. cbn [length]. rewrite repeat_length, app_length, !map_length, seq_length. lia.
  - intros r Hr. rewrite E. unfold unit_roots in Hr. apply in_app_iff in Hr as [Hr|Hr].
    + apply in_map_iff in Hr as [k [<- Hk]]. apply in_seq in Hk. rewrite alpha_pow by lia.
      apply C_eq; cbn; ring.
    + apply in_map_iff in Hr as [k [<- Hk]]. apply in_seq in Hk.
      assert (EE : Cpown (Ei (- alpha n k)) (2 * n) = RtoC (-1)).
      { rewrite Ei_pow. replace (INR (2 * n) * - alpha n k) with (- (INR (2 * n) * alpha n k)) by ring.
        rewrite <- Ei_conj, <- Ei_pow, alpha_pow by lia. apply Cconj_real. }
      rewrite EE. apply C_eq; cbn; ring.
Qed.

(** ** The prototype poles *)
Definition theta (n k : nat) : R := PI * (2 * INR k - INR n + 1) / (2 * INR n).
Definition proto_pole (n k : nat) : C := (- Ei (theta n k))%C.
Definition proto_poles (n : nat) : list C := map (proto_pole n) (seq 0 n).

Lemma theta_alpha n k : (0 < n)%nat -> alpha n k = theta n k + PI / 2.
Proof.
  intros H. unfold alpha, theta. rewrite plus_INR, !mult_INR. cbn [INR].
  assert (INR n <> 0) by (apply not_0_INR; lia). field. lra.
Qed.
Lemma theta_range n k : (k < n)%nat -> - (PI / 2) < theta n k < PI / 2.
Proof. intros H. pose proof (alpha_range n k H). rewrite theta_alpha in H0 by lia. lra. Qed.

Lemma proto_length n : length (proto_poles n) = n.
Proof. unfold proto_poles. now rewrite map_length, seq_length. Qed.

Lemma proto_unit n p : In p (proto_poles n) -> Cmod p = 1.
Proof.
  intros H. apply in_map_iff in H as [k [<- _]]. unfold proto_pole. rewrite Cmod_opp. apply Cmod_Ei.
Qed.
Lemma proto_lhp n p : In p (proto_poles n) -> fst p < 0.
Proof.
  intros H. apply in_map_iff in H as [k [<- Hk]]. apply in_seq in Hk. cbn.
  pose proof (theta_range n k ltac:(lia)). pose proof (cos_gt_0 (theta n k)). lra.
Qed.
Lemma proto_nz n : ~ In (RtoC 0) (proto_poles n).
Proof. intros H. apply proto_lhp in H. cbn in H. lra. Qed.

Lemma map_rev_seq {A} (f : nat -> A) n : rev (map f (seq 0 n)) = map (fun k => f (n - 1 - k)%nat) (seq 0 n).
Proof.
  apply (nth_ext _ _ (f 0%nat) (f 0%nat)); [now rewrite rev_length, !map_length|].
  intros i Hi. rewrite rev_length, map_length, seq_length in Hi.
  rewrite rev_nth by now rewrite map_length, seq_length.
  rewrite map_length, seq_length.
  rewrite (nth_indep _ _ (f (n - 1 - 0)%nat)) by (rewrite map_length, seq_length; lia).
  rewrite (nth_indep (map _ (seq 0 n)) (f 0%nat) (f (n - 1 - 0)%nat)) by (rewrite map_length, seq_length; lia).
  rewrite (map_nth (fun k => f (n - 1 - k)%nat) (seq 0 n) 0%nat i).
  rewrite (nth_indep _ _ (f 0%nat)) by (rewrite map_length, seq_length; lia).
  rewrite (map_nth f). rewrite !seq_nth by lia. f_equal. lia.
Qed.

Lemma proto_conj n : conj_closed (proto_poles n).
Proof.
  unfold conj_closed. replace (map Cconj (proto_poles n)) with (rev (proto_poles n)).
  - symmetry. apply Permutation_rev.
  - unfold proto_poles. rewrite map_rev_seq, map_map. apply map_ext_in. intros k Hk. apply in_seq in Hk.
    unfold proto_pole. rewrite Cconj_opp, Ei_conj. do 2 f_equal. unfold theta.
    assert (INR n <> 0) by (apply not_0_INR; lia).
    rewrite !minus_INR by lia. cbn [INR]. field. easy.
Qed.

Lemma mag2_prodl l : mag2 (Cprodl l) = fold_right Rmult 1 (map mag2 l).
Proof.
  induction l as [|z l IH]; cbn [Cprodl map fold_right]; [rewrite mag2_real; ring|].
  now rewrite mag2_mul, IH.
Qed.

Lemma proto_mag2 n w : (0 < n)%nat ->
  mag2 (from_roots (proto_poles n) (0, w)) = 1 + w ^ (2 * n).
Proof.
  intros Hn. unfold from_roots, proto_poles. rewrite mag2_prodl, !map_map.
  pose proof (unit_roots_poly n (RtoC w) Hn) as E.
  unfold unit_roots in E. rewrite from_roots_app, !from_roots_map, <- Cprodl_map_mul in E.
  rewrite <- RtoC_pow, <- RtoC_plus in E.
  apply RtoC_inj. rewrite Rplus_comm. rewrite <- E.
  assert (P : forall l, (forall k, In k l -> (k < n)%nat) ->
    RtoC (fold_right Rmult 1 (map (fun x => mag2 ((0, w) - proto_pole n x)%C) l))
    = Cprodl (map (fun x => ((RtoC w - Ei (alpha n x)) * (RtoC w - Ei (- alpha n x)))%C) l)).
  { induction l as [|k l IH]; intros Hl; cbn [map fold_right Cprodl]; [easy|].
    rewrite RtoC_mult, IH by (intros; apply Hl; now right). f_equal.
    rewrite theta_alpha by easy. set (t := theta n k).
    unfold proto_pole. fold t. pose proof (sin2_cos2 t) as S. unfold Rsqr in S.
    assert (C1 : cos (t + PI / 2) = - sin t).
    { rewrite cos_plus, cos_PI2, sin_PI2. ring. }
    assert (S1 : sin (t + PI / 2) = cos t).
    { rewrite sin_plus, cos_PI2, sin_PI2. ring. }
    apply C_eq; unfold mag2, Ei; cbn; rewrite cos_neg, sin_neg, C1, S1; [|ring].
    transitivity (w * w + 2 * w * sin t + (sin t * sin t + cos t * cos t)); ring. }
  apply P. intros k Hk. apply in_seq in Hk. lia.
Qed.

(** ** buttap *)
Lemma nofZ_xr z : @nofZ XR z = Fin (IZR z). Proof. reflexivity. Qed.

Lemma Ztrunc_INR n : Ztrunc (INR n) = Z.of_nat n.
Proof. rewrite INR_IZR_INZ. apply Ztrunc_IZR. Qed.
Lemma Zfloor_INR n : Zfloor (INR n) = Z.of_nat n.
Proof. rewrite INR_IZR_INZ. apply Zfloor_IZR. Qed.

Lemma zrange_seq (n : nat) : zrange 0 (Z.of_nat n) = map Z.of_nat (seq 0 n).
Proof.
  induction n; [now rewrite zrange_nil by lia|].
  replace (Z.of_nat (S n)) with (Z.of_nat n + 1)%Z by lia.
  rewrite zrange_snoc by lia. rewrite IHn, seq_S, map_app. reflexivity.
Qed.

Lemma buttap_pole (n : nat) k : (0 < n)%nat ->
  @copp XR (@cexp XR (@cdiv XR (@cmul XR (Fin 0, Fin PI)
     (@cre XR (Fin (IZR (- Z.of_nat n + 1 + 2 * Z.of_nat k))))) (@cre XR (Fin (2 * INR n)))))
  = cf (proto_pole n k).
Proof.
  intros Hn. assert (NZ : INR n <> 0) by (apply not_0_INR; lia).
  change (Fin 0, Fin PI) with (cf (0, PI)). rewrite !cre_cf, cmul_cf, cdiv_cf by (apply RtoC_nz; lra).
  assert (E : ((0, PI) * RtoC (IZR (- Z.of_nat n + 1 + 2 * Z.of_nat k)) / RtoC (2 * INR n))%C
              = (0, theta n k)).
  { rewrite !plus_IZR, mult_IZR, opp_IZR, <- !INR_IZR_INZ. unfold theta.
    apply C_eq; cbn; field; lra. }
  rewrite E. unfold cexp, cf. cbn [fst snd].
  change (@nexp XR (Fin 0)) with (Fin (exp 0)). rewrite exp_0.
  change (@ncos XR (Fin (theta n k))) with (Fin (cos (theta n k))).
  change (@nsin XR (Fin (theta n k))) with (Fin (sin (theta n k))).
  rewrite !xmul_fin, !Rmult_1_l. reflexivity.
Qed.

Lemma buttap_ok (n : nat) :
  @buttap XR (Fin (INR n)) = Ok ([], cfs (proto_poles n), Fin 1).
Proof.
  unfold buttap. change (@nisnan XR (Fin (INR n))) with false.
  change (@nisfin XR (Fin (INR n))) with true. cbn [negb].
  change (@ntrunc XR (Fin (INR n))) with (Fin (IZR (Ztrunc (INR n)))).
  rewrite Ztrunc_INR, <- INR_IZR_INZ.
  change (@nabs XR (Fin (INR n))) with (Fin (Rabs (INR n))).
  rewrite Rabs_right by (apply Rle_ge, pos_INR).
  change (@neqb XR (Fin (INR n)) (Fin (INR n))) with (Req_bool (INR n) (INR n)).
  rewrite Req_bool_true by easy. cbn [negb].
  change (@nfloorZ XR (Fin (INR n))) with (Zfloor (INR n)). rewrite Zfloor_INR.
  rewrite zrange_seq, !map_map. unfold proto_poles, cfs. rewrite map_map.
  lazymatch goal with |- Ok (_, ?a, _) = Ok (_, ?b, _) => assert (E : a = b) end.
  { apply map_ext_in. intros k Hk. apply in_seq in Hk. rewrite <- buttap_pole by lia.
    reflexivity. }
  rewrite E. reflexivity.
Qed.

Lemma buttap_bad (x : R) : (forall n : nat, x <> INR n) -> @buttap XR (Fin x) = Raise ValueError.
Proof.
  intros H. unfold buttap. change (@nisnan XR (Fin x)) with false.
  change (@nisfin XR (Fin x)) with true. cbn [negb].
  change (@neqb XR (@nabs XR (@ntrunc XR (Fin x))) (Fin x)) with (Req_bool (Rabs (IZR (Ztrunc x))) x).
  rewrite Req_bool_false; [easy|]. intros E.
  apply (H (Z.to_nat (Z.abs (Ztrunc x)))). rewrite INR_IZR_INZ, Z2Nat.id by lia.
  now rewrite abs_IZR.
Qed.
