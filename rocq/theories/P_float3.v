(** The interpolating scripts in any arithmetic where rounding twice is rounding once; binary64. *)
From Coq Require Import Reals Lra Lia Sorted.
From Flocq Require Import Core IEEE754.BinarySingleNaN.
From Verif Require Import Num Lib F64 Spec Spec5 Spec6 M_pipeline P_replacement P_order P_interp P_detect P_pipeline P_float P_float2.
Import ListNotations.
Local Open Scope Z_scope.

Lemma fancy_set_length {A} (v r : list A) idx x : fancy_set v idx x = Ok r -> length r = length v.
Proof.
  unfold fancy_set. intros E. refine (foldM_inv _ (fun s => length s = length v) idx v r eq_refl _ E).
  intros s i s' _ Hs E'. apply setz_inv in E'. destruct E' as (k & _ & -> & _). rewrite upd_length. exact Hs.
Qed.
Lemma li_run_length (N : Num) (v m r : list N) a b : li_run v m a b = Ok r -> length r = length m.
Proof.
  unfold li_run. intros E. apply bind_ok in E. destruct E as (vs & _ & E). apply bind_ok in E. destruct E as (ve & _ & E).
  destruct (negb (nisnan vs) && negb (nisnan ve)).
  - refine (foldM_inv _ (fun s => length s = length m) _ m r eq_refl _ E).
    intros s i s' _ Hs E'. apply setz_inv in E'. destruct E' as (k & _ & -> & _). rewrite upd_length. exact Hs.
  - destruct (nisnan ve).
    + apply bind_ok in E. destruct E as (x & _ & E). apply bind_ok in E. destruct E as (y & _ & E). injection E as <-. apply slice_set_length.
    + injection E as <-. apply slice_set_length.
Qed.
Lemma li_length (N : Num) (v r : list N) idx dec : linear_interpolation DFloat v idx dec = Ok r -> length r = length v.
Proof.
  unfold linear_interpolation. intros E. apply bind_ok in E. destruct E as (m0 & E0 & E). apply fancy_set_length in E0.
  apply bind_ok in E. destruct E as (s1 & _ & E). apply bind_ok in E. destruct E as (s2 & _ & E). apply bind_ok in E. destruct E as (m1 & E1 & E).
  injection E as <-. rewrite map_length. refine (foldM_inv _ (fun s => length s = length v) _ m0 m1 E0 _ E1).
  intros s i s' _ Hs E'. apply li_run_length in E'. congruence.
Qed.

(** ** Any arithmetic *)
Definition stable {N : Num} (x : N) : Prop := nisnan x = false /\ nisnan (around x 3) = false /\ around (around x 3) 3 = around x 3.
Definition kept {N : Num} (hist : list (list Z)) (l m : list N) : Prop :=
  length m = length l /\
  forall i x, nth_error l i = Some x -> never hist i -> stable x -> nth_error m i = Some (match hist with [] => x | _ => around x 3 end).
Lemma kept_refl (N : Num) (l : list N) : kept [] l l.
Proof. split; [reflexivity|]. intros i x H _ _. exact H. Qed.
Lemma kept_step (N : Num) idx hist (v r w : list N) : idx <> [] -> bounded_sorted (zlen v) idx ->
  linear_interpolation DFloat v idx 3 = Ok r -> kept hist r w -> kept (idx :: hist) v w.
Proof.
  intros Hne [HS HB] E [HL HK]. pose proof (li_length N v r idx 3 E) as HLr. split; [congruence|].
  intros i x Hx Hn (H1 & H2 & H3).
  assert (Hi : (i < length v)%nat) by (apply nth_error_Some; congruence).
  assert (Hv : valid_only v <> []).
  { intros E0. assert (HI : In x (valid_only v)) by (apply filter_In; split; [apply nth_error_In in Hx; exact Hx | rewrite H1; reflexivity]). rewrite E0 in HI. exact HI. }
  destruct (li_keeps_rounded N v idx 3 nnan (Z.of_nat i) Hv Hne HS HB) as (r' & E' & _ & Hr).
  { unfold zlen. lia. } { apply Hn. left. reflexivity. }
  assert (r' = r) by congruence. subst r'. rewrite Nat2Z.id in Hr. rewrite (nth_error_nth v i nnan Hx) in Hr.
  assert (Er : nth_error r i = Some (around x 3)) by (rewrite (nth_error_nth' r nnan) by lia; congruence).
  rewrite (HK i (around x 3) Er).
  - destruct hist; [reflexivity | rewrite H3; reflexivity].
  - intros j Hj. apply Hn. right. exact Hj.
  - split; [exact H2|]. rewrite H3. split; [exact H2 | exact H3].
Qed.
Lemma passes_kept (N : Num) (detect : nat -> rec3 N -> res (list Z)) (n : nat) :
  (forall k x y z r, length x = n -> length y = n -> length z = n -> detect k (x, y, z) = Ok r -> bounded_sorted (Z.of_nat n) r) ->
  forall k s hist s', passes detect (replace3 li3) k s hist s' ->
  let '(x, y, z) := s in let '(x', y', z') := s' in
  length x = n -> length y = n -> length z = n -> kept hist x x' /\ kept hist y y' /\ kept hist z z'.
Proof.
  intros HD k s hist s' Hp. induction Hp as [k [[x y] z] | k [[x y] z] idx [[a b] c] hist [[x' y'] z'] Ed Hne Er Hp IH].
  - intros _ _ _. split; [apply kept_refl|]. split; apply kept_refl.
  - intros Lx Ly Lz. specialize (HD k x y z idx Lx Ly Lz Ed).
    unfold replace3 in Er. apply bind_ok in Er. destruct Er as (a0 & Ea & Er). apply bind_ok in Er. destruct Er as (b0 & Eb & Er).
    apply bind_ok in Er. destruct Er as (c0 & Ec & Er). injection Er as -> -> ->.
    pose proof (li_length _ _ _ _ _ Ea). pose proof (li_length _ _ _ _ _ Eb). pose proof (li_length _ _ _ _ _ Ec).
    destruct IH as (Ka & Kb & Kc); try congruence.
    split; [|split]; (eapply kept_step; [exact Hne | | eassumption | assumption]); unfold zlen; [rewrite Lx | rewrite Ly | rewrite Lz]; exact HD.
Qed.
Lemma accel_bounded (N : Num) tag (x y z : list N) r : x <> [] -> length y = length x -> length z = length x -> tag = 1 \/ tag = 2 ->
  accel_detect tag (x, y, z) = Ok r -> bounded_sorted (zlen x) r.
Proof.
  intros Hx Ly Lz Ht E. assert (Hy : y <> []) by (destruct x, y; cbn in *; congruence). assert (Hz : z <> []) by (destruct x, z; cbn in *; congruence).
  assert (HC : forall v : list N, v <> [] -> length v = length x -> exists iv, acceleration_thresholding (centred v) (nofZ 100) tag (nofZ 980) (lit 15 1) (nofZ 1) = Ok iv /\ bounded_sorted (zlen x) iv).
  { intros v Hv Lv. destruct (accel_general N (centred v) (nofZ 100) (nofZ 980) (lit 15 1) (nofZ 1) _ nnan (centred_ne _ _ Hv) (spread_std_farr _ (centred_ne _ _ Hv)))
      as [(r1 & E1 & S1 & I1) (r2 & E2 & S2 & I2)]. unfold zlen in *. rewrite centred_length, Lv in I1, I2.
    destruct Ht as [-> | ->]; [exists r1 | exists r2]; (split; [assumption|]; split; [assumption|]); intros i Hi; [apply I1 in Hi | apply I2 in Hi]; apply Hi. }
  destruct (HC x Hx eq_refl) as (ix & Ex & Bx). destruct (HC y Hy Ly) as (iy & Ey & By). destruct (HC z Hz Lz) as (iz & Ez & Bz).
  unfold accel_detect in E. rewrite (by_component_ok N _ x y z ix iy iz Hx Hy Hz Ex Ey Ez) in E. injection E as <-. apply union_bounded; assumption.
Qed.

(** ** binary64 *)
Lemma fin_not_nan (x : f64) : is_finite x = true -> is_nan x = false.
Proof. destruct x; [reflexivity..| |]; try discriminate; reflexivity. Qed.
Lemma ne_len {A B} (a : list A) (b : list B) : length a = length b -> b <> [] -> a <> [].
Proof. intros H Hb ->. destruct b; [congruence | discriminate H]. Qed.
Lemma stable_f64 (L : Libm) (x : F64 L) : is_finite x = true -> (Rabs (B2R x) <= IZR (10 ^ 12))%R -> stable x.
Proof.
  intros Fx Hx. destruct (around_f64 L x 3) as (Fy & Ey & _); [lia | exact Fx | |].
  - rewrite Rabs_mult, (Rabs_pos_eq (IZR (10 ^ 3))) by (apply IZR_le; cbn; lia).
    apply Rle_trans with (IZR (10 ^ 12) * IZR (10 ^ 3))%R; [apply Rmult_le_compat_r; [apply IZR_le; cbn; lia | exact Hx]|].
    rewrite <- mult_IZR. change (bpow radix2 50) with (IZR (2 ^ 50)). apply IZR_le. vm_compute. discriminate.
  - split; [|split; [|exact Ey]].
    + exact (fin_not_nan x Fx).
    + exact (fin_not_nan _ Fy).
Qed.
Lemma kept_f64_of (L : Libm) hist (l m : list (F64 L)) : kept hist l m -> kept_f64 L hist l m.
Proof. intros [HL HK]. split; [exact HL|]. intros i x Hx Hn Fx Bx. apply HK; [exact Hx | exact Hn | apply stable_f64; assumption]. Qed.
Lemma accel_f64 (L : Libm) (x y z x' y' z' : list (F64 L)) : x <> [] -> length y = length x -> length z = length x ->
  accel_script (x, y, z) = Ok (x', y', z') ->
  exists hist, despiked (fun pass => accel_detect (if Nat.even pass then 2 else 1)) (replace3 (fun v idx => linear_interpolation DFloat v idx 3)) 10 (x, y, z) hist (x', y', z') /\
    kept_f64 L hist x x' /\ kept_f64 L hist y y' /\ kept_f64 L hist z z'.
Proof.
  intros Hx Ly Lz E. apply accel_history in E. destruct E as (hist & HD). exists hist. split; [exact HD|]. destruct HD as [Hp _].
  eapply (passes_kept (F64 L) _ (length x)) in Hp; [destruct Hp as (Ka & Kb & Kc); auto using kept_f64_of|].
  intros k a b c r La Lb Lc E. pose proof (accel_bounded (F64 L) (if Nat.even k then 2 else 1) a b c r (ne_len a x La Hx) (eq_trans Lb (eq_sym La)) (eq_trans Lc (eq_sym La)) ltac:(destruct (Nat.even k); auto) E) as HB.
  unfold zlen in HB. rewrite La in HB. exact HB.
Qed.
Lemma phase_f64 (L : Libm) (x y z x' y' z' : list (F64 L)) : x <> [] -> length y = length x -> length z = length x ->
  phase_script (x, y, z) = Ok (x', y', z') ->
  exists hist, despiked (fun _ => phase_detect) (replace3 (fun v idx => linear_interpolation DFloat v idx 3)) 10 (x, y, z) hist (x', y', z') /\
    kept_f64 L hist x x' /\ kept_f64 L hist y y' /\ kept_f64 L hist z z'.
Proof.
  intros Hx Ly Lz E. apply phase_history in E. destruct E as (hist & HD). exists hist. split; [exact HD|]. destruct HD as [Hp _].
  eapply (passes_kept (F64 L) _ (length x)) in Hp; [destruct Hp as (Ka & Kb & Kc); auto using kept_f64_of|].
  intros k a b c r La Lb Lc E.
  destruct (phase_detect_union (F64 L) a b c (ne_len a x La Hx) (eq_trans Lb (eq_sym La)) (eq_trans Lc (eq_sym La))) as (_ & _ & _ & r' & _ & _ & _ & E' & S' & _ & B').
  assert (r' = r) by congruence. subst r'. unfold zlen in B'. rewrite La in B'. split; assumption.
Qed.
Lemma sphere_f64 (L : Libm) (x y z x' y' z' : list (F64 L)) : (2 <= length x)%nat -> length y = length x -> length z = length x ->
  sphere_script (x, y, z) = Ok (x', y', z') ->
  exists hist, despiked (fun pass => sphere_detect (Z.of_nat pass)) (replace3 (fun v idx => linear_interpolation DFloat v idx 3)) 3 (x, y, z) hist (x', y', z') /\
    kept_f64 L hist x x' /\ kept_f64 L hist y y' /\ kept_f64 L hist z z'.
Proof.
  intros Hx Ly Lz E. apply sphere_history in E. destruct E as (hist & HD). exists hist. split; [exact HD|]. destruct HD as [Hp _].
  eapply (passes_kept (F64 L) _ (length x)) in Hp; [destruct Hp as (Ka & Kb & Kc); auto using kept_f64_of|].
  intros k a b c r La Lb Lc E.
  destruct (sphere_detect_union (F64 L) (Z.of_nat k) a b c ltac:(unfold zlen; lia) (eq_trans Lb (eq_sym La)) (eq_trans Lc (eq_sym La))) as (_ & _ & _ & r' & _ & _ & _ & E' & S' & _ & B').
  assert (r' = r) by congruence. subst r'. unfold zlen in B'. rewrite La in B'. split; assumption.
Qed.
