(** Finite sums of reals, means and moments: lemmas only. *)
From Coq Require Import Reals Lra Psatz.
From Verif Require Export Spec.
Local Open Scope R_scope.

Lemma IZR_zlen {A} (l : list A) : IZR (zlen l) = INR (length l).
Proof. unfold zlen. rewrite INR_IZR_INZ. reflexivity. Qed.
Lemma INR_len_pos {A} (l : list A) : l <> [] -> 0 < INR (length l).
Proof. intros H. destruct l as [|x l]; [congruence|]. apply lt_0_INR. cbn. lia. Qed.
Lemma Rsum_app l m : Rsum (l ++ m) = Rsum l + Rsum m.
Proof. induction l as [|x l IH]; cbn; [lra|]. rewrite IH. lra. Qed.
Lemma Rsum_map_add {A} (f g : A -> R) l : Rsum (map (fun x => f x + g x) l) = Rsum (map f l) + Rsum (map g l).
Proof. induction l as [|x l IH]; cbn; [lra|]. rewrite IH. lra. Qed.
Lemma Rsum_map_sub {A} (f g : A -> R) l : Rsum (map (fun x => f x - g x) l) = Rsum (map f l) - Rsum (map g l).
Proof. induction l as [|x l IH]; cbn; [lra|]. rewrite IH. lra. Qed.
Lemma Rsum_map_scal {A} c (f : A -> R) l : Rsum (map (fun x => c * f x) l) = c * Rsum (map f l).
Proof. induction l as [|x l IH]; cbn; [lra|]. rewrite IH. lra. Qed.
Lemma Rsum_map_scal_r {A} c (f : A -> R) l : Rsum (map (fun x => f x * c) l) = Rsum (map f l) * c.
Proof. induction l as [|x l IH]; cbn; [lra|]. rewrite IH. lra. Qed.
Lemma Rsum_map_const {A} c (l : list A) : Rsum (map (fun _ => c) l) = INR (length l) * c.
Proof. induction l as [|x l IH]; [cbn; lra|]. cbn [map Rsum length]. rewrite IH, S_INR. lra. Qed.
Lemma Rsum_ext {A} (f g : A -> R) l : (forall x, In x l -> f x = g x) -> Rsum (map f l) = Rsum (map g l).
Proof. intros H. f_equal. apply map_ext_in. exact H. Qed.
Lemma Rsum_nonneg l : (forall x, In x l -> 0 <= x) -> 0 <= Rsum l.
Proof.
  intros H. induction l as [|x l IH]; cbn; [lra|].
  assert (0 <= x) by (apply H; left; reflexivity).
  assert (0 <= Rsum l) by (apply IH; intros y Hy; apply H; right; exact Hy). lra.
Qed.
Lemma Rsum_map_nonneg {A} (f : A -> R) l : (forall x, In x l -> 0 <= f x) -> 0 <= Rsum (map f l).
Proof. intros H. apply Rsum_nonneg. intros y Hy. apply in_map_iff in Hy. destruct Hy as (x & <- & Hx). auto. Qed.
Lemma Rsum_map_le {A} (f g : A -> R) l : (forall x, In x l -> f x <= g x) -> Rsum (map f l) <= Rsum (map g l).
Proof.
  intros H. assert (0 <= Rsum (map (fun x => g x - f x) l)).
  { apply Rsum_map_nonneg. intros x Hx. specialize (H x Hx). lra. }
  rewrite Rsum_map_sub in H0. lra.
Qed.
Lemma Rsum_zero_inv {A} (f : A -> R) l : (forall x, In x l -> 0 <= f x) -> Rsum (map f l) = 0 ->
  forall x, In x l -> f x = 0.
Proof.
  intros Hn. induction l as [|y l IH]; cbn; intros E x Hx; [contradiction|].
  assert (0 <= f y) by (apply Hn; left; reflexivity).
  assert (0 <= Rsum (map f l)) by (apply Rsum_map_nonneg; intros; apply Hn; right; assumption).
  destruct Hx as [<-|Hx]; [lra|]. apply IH; [intros; apply Hn; right; assumption | lra | exact Hx].
Qed.
Lemma Rsum_perm l m : Permutation l m -> Rsum l = Rsum m.
Proof. intros H. induction H; cbn; lra. Qed.
Lemma Rsum_map_id l : Rsum (map (fun x => x) l) = Rsum l.
Proof. rewrite map_id. reflexivity. Qed.

(** Cauchy-Schwarz for finite sums. *)
Lemma Rsum_CS {A} (f g : A -> R) l :
  (Rsum (map (fun x => f x * g x) l)) ^ 2 <= Rsum (map (fun x => f x ^ 2) l) * Rsum (map (fun x => g x ^ 2) l).
Proof.
  set (a := Rsum (map (fun x => f x ^ 2) l)). set (b := Rsum (map (fun x => g x ^ 2) l)).
  set (c := Rsum (map (fun x => f x * g x) l)).
  assert (Hq : forall s t, 0 <= s * s * a + 2 * s * t * c + t * t * b).
  { intros s t.
    replace (s * s * a + 2 * s * t * c + t * t * b) with (Rsum (map (fun x => (s * f x + t * g x) ^ 2) l)).
    - apply Rsum_map_nonneg. intros x _. apply pow2_ge_0.
    - unfold a, b, c. rewrite <- !Rsum_map_scal, <- !Rsum_map_add. apply Rsum_ext. intros x _. ring. }
  assert (Ha : 0 <= a) by (apply Rsum_map_nonneg; intros; apply pow2_ge_0).
  assert (Hb : 0 <= b) by (apply Rsum_map_nonneg; intros; apply pow2_ge_0).
  destruct (Req_dec a 0) as [E|E].
  - rewrite E in *. (* c must be 0 *)
    assert (c = 0); [|nra].
    destruct (Req_dec c 0) as [|Hc]; [assumption|exfalso].
    pose proof (Hq (- (b + 1) / c) 1) as H1. 
    replace (2 * (- (b + 1) / c) * 1 * c) with (- 2 * (b + 1)) in H1 by (field; exact Hc). nra.
  - pose proof (Hq (- c) a) as H1. nra.
Qed.

(** ** Means and moments *)
Lemma rmean_map_affine a b l : l <> [] -> rmean (map (fun x => a * x + b) l) = a * rmean l + b.
Proof.
  intros H. pose proof (INR_len_pos l H). unfold rmean. rewrite map_length, Rsum_map_add, Rsum_map_scal, Rsum_map_const, Rsum_map_id.
  field. lra.
Qed.
Lemma rmean_dev_0 l : l <> [] -> Rsum (map (fun x => x - rmean l) l) = 0.
Proof.
  intros H. pose proof (INR_len_pos l H). rewrite Rsum_map_sub, Rsum_map_const, Rsum_map_id. unfold rmean. field. lra.
Qed.
Lemma rmoment_affine k a b l : l <> [] -> rmoment k (map (fun x => a * x + b) l) = a ^ k * rmoment k l.
Proof.
  intros H. unfold rmoment. rewrite rmean_map_affine by exact H. rewrite map_map.
  unfold rmean at 1 3. rewrite !map_length. unfold Rdiv. rewrite <- Rmult_assoc. f_equal.
  rewrite <- Rsum_map_scal. apply Rsum_ext. intros x _. rewrite <- Rpow_mult_distr. f_equal. ring.
Qed.
Lemma rvar_nonneg l : l <> [] -> 0 <= rvar l.
Proof.
  intros H. pose proof (INR_len_pos l H). unfold rvar, rmoment, rmean at 1. rewrite map_length.
  apply Rmult_le_pos; [apply Rsum_map_nonneg; intros; apply pow2_ge_0 | left; apply Rinv_0_lt_compat; assumption].
Qed.
Lemma rvar_zero_iff l : l <> [] -> (rvar l = 0 <-> forall x, In x l -> x = rmean l).
Proof.
  intros H. pose proof (INR_len_pos l H) as Hp. unfold rvar, rmoment. unfold rmean at 1. rewrite map_length. split.
  - intros E x Hx.
    assert (E' : Rsum (map (fun x => (x - rmean l) ^ 2) l) = 0).
    { apply Rmult_integral in E. destruct E as [E|E]; [exact E|]. apply Rinv_neq_0_compat in E; [contradiction | lra]. }
    pose proof (Rsum_zero_inv (fun x => (x - rmean l) ^ 2) l (fun x _ => pow2_ge_0 _) E' x Hx) as E2. cbn in E2. nra.
  - intros Hc. rewrite (Rsum_ext _ (fun _ => 0)); [rewrite Rsum_map_const; unfold Rdiv; ring|].
    intros x Hx. rewrite <- (Hc x Hx). ring.
Qed.
Lemma rvar_const_iff l : l <> [] -> (rvar l = 0 <-> forall x y, In x l -> In y l -> x = y).
Proof.
  intros H. rewrite (rvar_zero_iff l H). split.
  - intros Hc x y Hx Hy. rewrite (Hc x Hx), (Hc y Hy). reflexivity.
  - intros Hc x Hx. unfold rmean. pose proof (INR_len_pos l H) as Hp.
    rewrite <- (Rsum_map_id l), (Rsum_ext _ (fun _ => x)) by (intros y Hy; apply Hc; assumption).
    rewrite Rsum_map_const. field. lra.
Qed.
Lemma rmean_between l a b : l <> [] -> (forall x, In x l -> a <= x <= b) -> a <= rmean l <= b.
Proof.
  intros H Hb. pose proof (INR_len_pos l H) as Hp. unfold rmean.
  assert (INR (length l) * a <= Rsum l <= INR (length l) * b).
  { pose proof (Rsum_map_le (fun _ => a) (fun x => x) l (fun x Hx => proj1 (Hb x Hx))) as H1.
    pose proof (Rsum_map_le (fun x => x) (fun _ => b) l (fun x Hx => proj2 (Hb x Hx))) as H2.
    rewrite Rsum_map_const, Rsum_map_id in *. lra. }
  split.
  - apply Rmult_le_reg_r with (INR (length l)); [exact Hp|]. unfold Rdiv. rewrite Rmult_assoc, Rinv_l by lra. lra.
  - apply Rmult_le_reg_r with (INR (length l)); [exact Hp|]. unfold Rdiv. rewrite Rmult_assoc, Rinv_l by lra. lra.
Qed.
