(** Complex arithmetic of the model on exact values is arithmetic in [C]. *)
From Coq Require Import Reals Lra Psatz Permutation.
From Coquelicot Require Import Complex.
From Flocq Require Import Core.Raux.
From Verif Require Import Num NpBase Lib XR M_butter Spec3.
Local Open Scope R_scope.

Lemma C_eq (a b : C) : fst a = fst b -> snd a = snd b -> a = b.
Proof. destruct a, b; cbn; now intros -> ->. Qed.

Lemma sumsq_pos (a b : R) : ~ (a = 0 /\ b = 0) -> 0 < a * a + b * b.
Proof. intros H. destruct (Req_dec a 0) as [->|Ha]; [|nra].
  assert (b <> 0) by tauto. nra. Qed.

Lemma C_nz (z : C) : z <> RtoC 0 <-> ~ (fst z = 0 /\ snd z = 0).
Proof. split; intros H E; apply H.
  - apply C_eq; tauto.
  - now rewrite E. Qed.

Lemma cre_cf x : @cre XR (Fin x) = cf (RtoC x). Proof. reflexivity. Qed.
Lemma cadd_cf a b : @cadd XR (cf a) (cf b) = cf (a + b)%C. Proof. reflexivity. Qed.
Lemma csub_cf a b : @csub XR (cf a) (cf b) = cf (a - b)%C. Proof. reflexivity. Qed.
Lemma cmul_cf a b : @cmul XR (cf a) (cf b) = cf (a * b)%C. Proof. reflexivity. Qed.
Lemma copp_cf a : @copp XR (cf a) = cf (- a)%C. Proof. reflexivity. Qed.
Lemma cconj_cf a : @cconj XR (cf a) = cf (Cconj a). Proof. reflexivity. Qed.

Lemma xdiv_ok x y : y <> 0 -> @ndiv XR (Fin x) (Fin y) = Fin (x / y).
Proof. intros H. cbn. now rewrite Req_bool_false. Qed.
Lemma xsqrt_ok x : 0 <= x -> @nsqrt XR (Fin x) = Fin (sqrt x).
Proof. intros H. cbn. now rewrite Rlt_bool_false. Qed.

Lemma cdiv_cf a b : b <> RtoC 0 -> @cdiv XR (cf a) (cf b) = cf (a / b)%C.
Proof.
  intros Hb. apply C_nz in Hb. destruct a as [ar ai], b as [br bi]. cbn [fst snd] in Hb.
  pose proof (sumsq_pos _ _ Hb) as Hs.
  unfold cdiv, cf. cbn [fst snd].
  change (@nabs XR (Fin bi)) with (Fin (Rabs bi)). change (@nabs XR (Fin br)) with (Fin (Rabs br)).
  change (@nleb XR (Fin (Rabs bi)) (Fin (Rabs br))) with (Rle_bool (Rabs bi) (Rabs br)).
  change (@neqb XR (Fin br) (@nofZ XR 0)) with (Req_bool br 0).
  change (@neqb XR (Fin bi) (@nofZ XR 0)) with (Req_bool bi 0).
  destruct (Rle_bool_spec (Rabs bi) (Rabs br)) as [L|L].
  - assert (Hr : br <> 0).
    { intros ->. rewrite Rabs_R0 in L. assert (bi = 0). { destruct (Req_dec bi 0); auto.
      apply Rabs_pos_lt in H. lra. } tauto. }
    rewrite (Req_bool_false br 0) by easy. cbn [andb].
    rewrite (xdiv_ok bi br) by easy. rewrite !xmul_fin, !xadd_fin.
    change (@nofZ XR 1) with (Fin 1).
    assert (Hd : br + bi * (bi / br) <> 0).
    { intros E. assert (br * br + bi * bi = 0); [|lra].
      replace (br * br + bi * bi) with (br * (br + bi * (bi / br))) by (field; easy). rewrite E. ring. }
    rewrite !(xdiv_ok 1) by easy. rewrite ?xmul_fin, ?xadd_fin, ?xsub_fin, ?xmul_fin.
    apply f_equal2; apply f_equal; cbn; field; repeat split; try easy; lra.
  - assert (Hr : bi <> 0).
    { intros ->. rewrite Rabs_R0 in L. pose proof (Rabs_pos br). lra. }
    rewrite (xdiv_ok br bi) by easy. rewrite !xmul_fin, !xadd_fin.
    change (@nofZ XR 1) with (Fin 1).
    assert (Hd : bi + br * (br / bi) <> 0).
    { intros E. assert (br * br + bi * bi = 0); [|lra].
      replace (br * br + bi * bi) with (bi * (bi + br * (br / bi))) by (field; easy). rewrite E. ring. }
    rewrite !(xdiv_ok 1) by easy. rewrite ?xmul_fin, ?xadd_fin, ?xsub_fin, ?xmul_fin.
    apply f_equal2; apply f_equal; cbn; field; repeat split; try easy; lra.
Qed.

Lemma mag2_nonneg z : 0 <= mag2 z.
Proof. unfold mag2. nra. Qed.
Lemma Cmod_mag2 z : Cmod z = sqrt (mag2 z). Proof. reflexivity. Qed.
Lemma Cmod_sq z : Cmod z * Cmod z = mag2 z.
Proof. rewrite Cmod_mag2. apply sqrt_sqrt, mag2_nonneg. Qed.

Lemma cabs_cf a : @cabs XR (cf a) = Fin (Cmod a).
Proof.
  unfold cabs, cf. cbn [fst snd]. rewrite !xmul_fin, xadd_fin, xsqrt_ok by nra.
  apply f_equal. unfold Cmod. f_equal. ring.
Qed.

(** Principal square root of a complex number. *)
Definition Csqrt (z : C) : C :=
  let x := fst z in let y := snd z in
  if Req_bool x 0 && Req_bool y 0 then (0, y)
  else if Rle_bool 0 x then let t := sqrt ((x + Cmod z) / 2) in (t, y / (2 * t))
  else let t := sqrt ((Cmod z - x) / 2) in (Rabs y / (2 * t), if Rlt_bool y 0 then - t else t).

Lemma Cmod_ge_fst z : Rabs (fst z) <= Cmod z.
Proof. eapply Rle_trans; [|apply Rmax_Cmod]. apply Rmax_l. Qed.
Lemma Cmod_ge_snd z : Rabs (snd z) <= Cmod z.
Proof. eapply Rle_trans; [|apply Rmax_Cmod]. apply Rmax_r. Qed.

Lemma csqrt_pos_arg z : ~ (fst z = 0 /\ snd z = 0) -> 0 <= fst z -> 0 < (fst z + Cmod z) / 2.
Proof.
  intros H0 H. assert (0 < Cmod z). { apply Cmod_gt_0. now apply C_nz. } lra.
Qed.

Lemma csqrt_cf z : @csqrt XR (cf z) = cf (Csqrt z).
Proof.
  unfold csqrt, Csqrt. rewrite cabs_cf. destruct z as [x y].
  change (fst (cf (x, y))) with (Fin x). change (snd (cf (x, y))) with (Fin y).
  change (fst (x, y)) with x. change (snd (x, y)) with y.
  set (m := Cmod (x, y)).
  change (@neqb XR (Fin x) (@nofZ XR 0)) with (Req_bool x 0).
  change (@neqb XR (Fin y) (@nofZ XR 0)) with (Req_bool y 0).
  change (@nleb XR (@nofZ XR 0) (Fin x)) with (Rle_bool 0 x).
  change (@nofZ XR 2) with (Fin 2).
  destruct (Req_bool_spec x 0) as [Hx|Hx], (Req_bool_spec y 0) as [Hy|Hy]; cbn [andb];
    [reflexivity| | |].
  all: assert (NZ : ~ (fst (x, y) = 0 /\ snd (x, y) = 0)) by (cbn; tauto).
  all: assert (Hm : 0 < m) by (apply Cmod_gt_0; now apply C_nz).
  all: destruct (Rle_bool_spec 0 x) as [L|L].
  all: try (pose proof (csqrt_pos_arg _ NZ L) as HP; cbn [fst] in HP; fold m in HP;
    rewrite xadd_fin, xdiv_ok by lra; rewrite xsqrt_ok by lra; rewrite xmul_fin;
    pose proof (sqrt_lt_R0 _ HP); rewrite xdiv_ok by lra; reflexivity).
  all: assert (HP : 0 < (m - x) / 2) by lra.
  all: rewrite xsub_fin, xdiv_ok by lra; rewrite xsqrt_ok by lra; rewrite xmul_fin;
    pose proof (sqrt_lt_R0 _ HP);
    change (@nabs XR (Fin y)) with (Fin (Rabs y)); rewrite xdiv_ok by lra.
  all: unfold nneg; change (@nltb XR (Fin y) (@nofZ XR 0)) with (Rlt_bool y 0);
    change (@neqb XR (Fin y) (@nofZ XR 0)) with (Req_bool y 0).
  all: try lra.
  - rewrite Hy. rewrite Rlt_bool_false by lra. rewrite Req_bool_true by easy. cbn [orb andb].
    assert (E : @nltb XR (@ndiv XR (@nofZ XR 1) (Fin 0)) (@nofZ XR 0) = false).
    { cbn. rewrite Req_bool_true by easy. rewrite Req_bool_false by lra.
      unfold xneg. cbn. now rewrite Rlt_bool_false by lra. }
    rewrite E. reflexivity.
  - rewrite (Req_bool_false y) by easy. cbn [andb]. rewrite orb_false_r.
    unfold cf. cbn [fst snd]. destruct (Rlt_bool y 0); reflexivity.
Qed.

Lemma Csqrt_sqr z : (Csqrt z * Csqrt z = z)%C.
Proof.
  unfold Csqrt. destruct z as [x y]. cbn [fst snd].
  pose proof (Cmod_sq (x, y)) as HS. unfold mag2 in HS. cbn [fst snd] in HS.
  assert (Hm0 := Cmod_ge_0 (x, y)).
  set (m := Cmod (x, y)) in *.
  destruct (Req_bool_spec x 0) as [Hx|Hx], (Req_bool_spec y 0) as [Hy|Hy]; cbn [andb];
    [subst; apply C_eq; cbn; ring| | |].
  all: assert (NZ : ~ (fst (x, y) = 0 /\ snd (x, y) = 0)) by (cbn; tauto).
  all: assert (Hm : 0 < m) by (apply Cmod_gt_0; now apply C_nz).
  all: clearbody m.
  all: destruct (Rle_bool_spec 0 x) as [L|L].
  all: try (assert (HP : 0 < (x + m) / 2) by lra;
    pose proof (sqrt_lt_R0 _ HP); pose proof (sqrt_sqrt _ (Rlt_le _ _ HP)) as HT;
    set (t := sqrt ((x + m) / 2)) in *; clearbody t;
    apply C_eq; cbn [fst snd Cmult];
    [ replace (t * t - y / (2 * t) * (y / (2 * t))) with ((4 * (t * t) * (t * t) - y * y) / (4 * (t * t))) by (field; lra);
      rewrite HT; apply (Rmult_eq_reg_r (4 * ((x + m) / 2))); [|lra];
      unfold Rdiv at 1; rewrite Rmult_assoc, Rinv_l by lra; nra
    | field; lra ]).
  all: assert (HP : 0 < (m - x) / 2) by lra;
    pose proof (sqrt_lt_R0 _ HP); pose proof (sqrt_sqrt _ (Rlt_le _ _ HP)) as HT;
    set (t := sqrt ((m - x) / 2)) in *; clearbody t.
  all: try lra.
  - subst y. rewrite Rlt_bool_false by lra. rewrite Rabs_R0.
    apply C_eq; cbn [fst snd Cmult]; [|field; lra].
    replace (0 / (2 * t) * (0 / (2 * t)) - t * t) with (- (t * t)) by (field; lra).
    rewrite HT. assert (m = - x) by nra. lra.
  - assert (HA : Rabs y * Rabs y = y * y) by (rewrite <- Rabs_mult; apply Rabs_right; nra).
    apply C_eq; cbn [fst snd Cmult].
    + destruct (Rlt_bool y 0).
      1-2: replace (Rabs y / (2 * t) * (Rabs y / (2 * t))) with (y * y / (4 * (t * t)))
        by (rewrite <- HA; field; lra).
      1: replace (- t * - t) with (t * t) by ring.
      1-2: rewrite HT; apply (Rmult_eq_reg_r (4 * ((m - x) / 2))); [|lra];
        rewrite Rmult_minus_distr_r; unfold Rdiv at 1; rewrite Rmult_assoc, Rinv_l by lra; nra.
    + destruct (Rlt_bool_spec y 0).
      * rewrite Rabs_left by easy. field; lra.
      * rewrite Rabs_right by lra. field; lra.
Qed.

(** ** Lists *)
Lemma cfs_app a b : cfs (a ++ b) = cfs a ++ cfs b. Proof. apply map_app. Qed.
Lemma cfs_length l : length (cfs l) = length l. Proof. apply map_length. Qed.
Lemma cfs_zlen l : zlen (cfs l) = zlen l. Proof. unfold zlen. now rewrite cfs_length. Qed.
Lemma cfs_repeat z n : cfs (repeat z n) = repeat (cf z) n.
Proof. induction n; [easy|]. cbn. now f_equal. Qed.

Lemma map_cfs (f : XR * XR -> XR * XR) (g : C -> C) l :
  (forall z, In z l -> f (cf z) = cf (g z)) -> map f (cfs l) = cfs (map g l).
Proof.
  intros H. unfold cfs. rewrite !map_map. apply map_ext_in. exact H.
Qed.

Lemma fold_cmul l a : fold_left (@cmul XR) (cfs l) (cf a) = cf (a * Cprodl l)%C.
Proof.
  revert a. induction l as [|z l IH]; intros a; cbn [cfs map fold_left Cprodl].
  - f_equal. ring.
  - rewrite cmul_cf. change (map cf l) with (cfs l). rewrite IH. f_equal. ring.
Qed.
Lemma cprod_cfs l : @cprod XR (cfs l) = cf (Cprodl l).
Proof.
  unfold cprod. change (@cre XR (@nofZ XR 1)) with (cf (RtoC 1)).
  rewrite fold_cmul. f_equal. ring.
Qed.

Lemma Cprodl_app a b : Cprodl (a ++ b) = (Cprodl a * Cprodl b)%C.
Proof. induction a as [|z a IH]; cbn; [ring|]. rewrite IH. ring. Qed.
Lemma Cprodl_repeat z n : Cprodl (repeat z n) = Cpown z n.
Proof. induction n; cbn; [easy|]. now rewrite IHn. Qed.
Lemma Cprodl_map_mul {A} (f g : A -> C) l :
  Cprodl (map (fun x => (f x * g x)%C) l) = (Cprodl (map f l) * Cprodl (map g l))%C.
Proof. induction l as [|z l IH]; cbn; [ring|]. rewrite IH. ring. Qed.
Lemma Cprodl_map_const {A} (c : C) (l : list A) : Cprodl (map (fun _ => c) l) = Cpown c (length l).
Proof. induction l as [|z l IH]; cbn; [easy|]. now rewrite IH. Qed.
Lemma Cprodl_ext {A} (f g : A -> C) l : (forall x, In x l -> f x = g x) ->
  Cprodl (map f l) = Cprodl (map g l).
Proof. intros H. f_equal. now apply map_ext_in. Qed.
Lemma Cprodl_nz l : ~ In (RtoC 0) l <-> Cprodl l <> RtoC 0.
Proof.
  induction l as [|z l IH]; cbn.
  - split; [|easy]. intros _ E. apply (f_equal fst) in E. cbn in E. lra.
  - split.
    + intros H. apply Cmult_neq_0; [intros ->; apply H; auto|]. apply IH. tauto.
    + intros H [-> | E]; [apply H; ring|]. apply H.
      destruct (Ceq_dec (Cprodl l) 0) as [-> |]; [ring|]. tauto.
Qed.
Lemma Cprodl_perm a b : Permutation a b -> Cprodl a = Cprodl b.
Proof. induction 1; cbn; [easy|congruence|ring|congruence]. Qed.
Lemma from_roots_app a b s : from_roots (a ++ b) s = (from_roots a s * from_roots b s)%C.
Proof. unfold from_roots. now rewrite map_app, Cprodl_app. Qed.
Lemma from_roots_repeat z n s : from_roots (repeat z n) s = Cpown (s - z)%C n.
Proof. unfold from_roots. induction n; cbn; [easy|]. now rewrite IHn. Qed.
Lemma from_roots_perm a b s : Permutation a b -> from_roots a s = from_roots b s.
Proof. intros H. apply Cprodl_perm. now apply Permutation_map. Qed.
Lemma from_roots_nz l s : ~ In s l <-> from_roots l s <> RtoC 0.
Proof.
  unfold from_roots. rewrite <- Cprodl_nz, in_map_iff. split.
  - intros H [r [E Hr]]. apply H. replace s with r; [easy|].
    transitivity (s - (s - r))%C; [ring|rewrite E; ring].
  - intros H Hs. apply H. exists s. split; [ring|easy].
Qed.
Lemma Cpown_add z m n : Cpown z (m + n) = (Cpown z m * Cpown z n)%C.
Proof. induction m; cbn; [ring|]. rewrite IHm. ring. Qed.
Lemma Cpown_mul a b n : Cpown (a * b)%C n = (Cpown a n * Cpown b n)%C.
Proof. induction n; cbn; [ring|]. rewrite IHn. ring. Qed.
Lemma Cpown_nz z n : z <> RtoC 0 -> Cpown z n <> RtoC 0.
Proof.
  intros H. induction n; cbn.
  - intros E. apply (f_equal fst) in E. cbn in E. lra.
  - now apply Cmult_neq_0.
Qed.
Lemma RtoC_pow x n : RtoC (x ^ n) = Cpown (RtoC x) n.
Proof. induction n; cbn; [easy|]. now rewrite RtoC_mult, IHn. Qed.

(** ** Conjugation *)
Lemma Cconj_mul a b : Cconj (a * b)%C = (Cconj a * Cconj b)%C.
Proof. apply C_eq; cbn; ring. Qed.
Lemma Cconj_add a b : Cconj (a + b)%C = (Cconj a + Cconj b)%C.
Proof. apply C_eq; cbn; ring. Qed.
Lemma Cconj_sub a b : Cconj (a - b)%C = (Cconj a - Cconj b)%C.
Proof. apply C_eq; cbn; ring. Qed.
Lemma Cconj_opp a : Cconj (- a)%C = (- Cconj a)%C.
Proof. apply C_eq; cbn; ring. Qed.
Lemma Cconj_conj a : Cconj (Cconj a) = a.
Proof. apply C_eq; cbn; ring. Qed.
Lemma Cconj_real x : Cconj (RtoC x) = RtoC x.
Proof. apply C_eq; cbn; ring. Qed.
Lemma Cconj_inv a : Cconj (/ a)%C = (/ Cconj a)%C.
Proof.
  unfold Cinv, Cconj. cbn [fst snd]. replace ((- snd a) ^ 2) with (snd a ^ 2) by ring.
  apply f_equal2; [easy|]. unfold Rdiv. ring.
Qed.
Lemma Cconj_div a b : Cconj (a / b)%C = (Cconj a / Cconj b)%C.
Proof. unfold Cdiv. now rewrite Cconj_mul, Cconj_inv. Qed.
Lemma Cconj_Im0 a : Cconj a = a <-> snd a = 0.
Proof.
  split; intros H.
  - apply (f_equal snd) in H. cbn in H. lra.
  - apply C_eq; cbn; lra.
Qed.
Lemma real_C a : snd a = 0 -> a = RtoC (fst a).
Proof. intros H. now apply C_eq. Qed.
Lemma Cconj_prodl l : Cconj (Cprodl l) = Cprodl (map Cconj l).
Proof. induction l as [|z l IH]; cbn [Cprodl map]; [apply Cconj_real|]. now rewrite Cconj_mul, IH. Qed.
Lemma Cmul_conj a : (a * Cconj a)%C = RtoC (mag2 a).
Proof. unfold mag2. apply C_eq; cbn; ring. Qed.
Lemma mag2_mul a b : mag2 (a * b)%C = mag2 a * mag2 b.
Proof. unfold mag2. cbn. ring. Qed.
Lemma mag2_0 a : mag2 a = 0 <-> a = RtoC 0.
Proof.
  unfold mag2. split.
  - intros H. apply C_eq; cbn; nra.
  - intros ->. cbn. ring.
Qed.
Lemma mag2_pos a : a <> RtoC 0 -> 0 < mag2 a.
Proof. intros H. destruct (mag2_nonneg a) as [L|E]; [easy|]. symmetry in E. now apply mag2_0 in E. Qed.
Lemma mag2_div a b : b <> RtoC 0 -> mag2 (a / b)%C = mag2 a / mag2 b.
Proof.
  intros H. pose proof (mag2_pos _ H).
  apply (Rmult_eq_reg_r (mag2 b)); [|lra]. rewrite <- mag2_mul.
  unfold Rdiv. rewrite Rmult_assoc, Rinv_l by lra. rewrite Rmult_1_r. f_equal. field. easy.
Qed.
Lemma mag2_real x : mag2 (RtoC x) = x * x.
Proof. unfold mag2. cbn. ring. Qed.
Lemma mag2_conj a : mag2 (Cconj a) = mag2 a.
Proof. unfold mag2. cbn. ring. Qed.

Lemma conj_closed_map (f : C -> C) l :
  (forall z, In z l -> Cconj (f z) = f (Cconj z)) -> conj_closed l -> conj_closed (map f l).
Proof.
  intros H C. unfold conj_closed in *. rewrite map_map.
  rewrite (map_ext_in _ (fun z => f (Cconj z)) l H).
  rewrite <- (map_map Cconj f). now apply Permutation_map.
Qed.
Lemma conj_closed_app a b : conj_closed a -> conj_closed b -> conj_closed (a ++ b).
Proof. unfold conj_closed. intros. rewrite map_app. now apply Permutation_app. Qed.
Lemma conj_closed_prod_real l : conj_closed l -> snd (Cprodl l) = 0.
Proof. intros H. apply Cconj_Im0. rewrite Cconj_prodl. now apply Cprodl_perm. Qed.
Lemma conj_closed_repeat_real x n : conj_closed (repeat (RtoC x) n).
Proof.
  unfold conj_closed. replace (map Cconj (repeat (RtoC x) n)) with (repeat (RtoC x) n); [easy|].
  induction n; [easy|]. cbn [repeat map]. now rewrite <- IHn, Cconj_real.
Qed.
