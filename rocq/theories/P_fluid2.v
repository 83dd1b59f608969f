(** Turbulent kinetic energy and Reynolds stresses in rotated axes. *)
From Coq Require Import Reals Lra Lia.
From Verif Require Export Lib XR M_series M_signal Spec Spec18 LibR P_order P_moment.
Local Open Scope R_scope.

Lemma combine3 (u v w : list R) : length u = length v -> length u = length w ->
  exists P : list (R * R * R), u = map (fun p => fst (fst p)) P /\ v = map (fun p => snd (fst p)) P /\ w = map snd P.
Proof.
  revert v w. induction u as [|x u IH]; intros [|y v] [|z w] H1 H2; cbn in *; try lia.
  - exists []. auto.
  - destruct (IH v w) as (P & -> & -> & ->); try lia. exists ((x, y, z) :: P). auto.
Qed.
Section Points.
Context {A : Type}.
Variable P : list A.
Hypothesis HP : P <> [].
Definition dev (f : A -> R) (p : A) : R := f p - rmean (map f P).
Lemma rcov_points f g : rcov (map f P) (map g P) = Rsum (map (fun p => dev f p * dev g p) P) / INR (length P).
Proof.
  unfold rcov. rewrite map_length. f_equal. f_equal. unfold dev. generalize (rmean (map f P)) (rmean (map g P)). intros a b. clear HP.
  induction P as [|p Q IH]; [reflexivity|]. cbn [map combine]. cbn [fst snd]. f_equal. apply IH.
Qed.
Lemma rmean_lin a b c (f g h : A -> R) : rmean (map (fun p => a * f p + b * g p + c * h p) P) = a * rmean (map f P) + b * rmean (map g P) + c * rmean (map h P).
Proof.
  unfold rmean. rewrite !map_length. rewrite !Rsum_map_add, !Rsum_map_scal. assert (0 < INR (length P)) by (apply INR_len_pos; exact HP). field. lra.
Qed.
Lemma dev_lin a b c f g h p : dev (fun p => a * f p + b * g p + c * h p) p = a * dev f p + b * dev g p + c * dev h p.
Proof. unfold dev. rewrite rmean_lin. ring. Qed.
Lemma rcov_lin a b c a' b' c' f g h :
  rcov (map (fun p => a * f p + b * g p + c * h p) P) (map (fun p => a' * f p + b' * g p + c' * h p) P) =
  a * a' * rcov (map f P) (map f P) + b * b' * rcov (map g P) (map g P) + c * c' * rcov (map h P) (map h P) +
  (a * b' + b * a') * rcov (map f P) (map g P) + (a * c' + c * a') * rcov (map f P) (map h P) + (b * c' + c * b') * rcov (map g P) (map h P).
Proof.
  rewrite !rcov_points.
  rewrite (Rsum_ext _ (fun p => a * a' * (dev f p * dev f p) + b * b' * (dev g p * dev g p) + c * c' * (dev h p * dev h p) +
    (a * b' + b * a') * (dev f p * dev g p) + (a * c' + c * a') * (dev f p * dev h p) + (b * c' + c * b') * (dev g p * dev h p))).
  - rewrite !Rsum_map_add, !Rsum_map_scal. unfold Rdiv. ring.
  - intros p _. rewrite !dev_lin. ring.
Qed.
End Points.
Lemma mix_map a b c (P : list (R * R * R)) :
  mix a b c (map (fun p => fst (fst p)) P) (map (fun p => snd (fst p)) P) (map snd P) = map (fun p => a * fst (fst p) + b * snd (fst p) + c * snd p) P.
Proof. unfold mix. induction P as [|p P IH]; [reflexivity|]. cbn [map combine fst snd]. rewrite IH. reflexivity. Qed.
Lemma mix_length a b c u v w : length u = length v -> length u = length w -> length (mix a b c u v w) = length u.
Proof. intros H1 H2. unfold mix. rewrite map_length, combine_length, combine_length. lia. Qed.
Lemma mix_ne a b c u v w : length u = length v -> length u = length w -> u <> [] -> mix a b c u v w <> [].
Proof. intros H1 H2 Hu E. apply (f_equal (@length R)) in E. rewrite mix_length in E by assumption. destruct u; [congruence | discriminate]. Qed.

Lemma mix_cov (u v w : list R) a b c a' b' c' : u <> [] -> length u = length v -> length u = length w ->
  rcov (mix a b c u v w) (mix a' b' c' u v w) =
  a * a' * rvar u + b * b' * rvar v + c * c' * rvar w + (a * b' + b * a') * rcov u v + (a * c' + c * a') * rcov u w + (b * c' + c * b') * rcov v w.
Proof.
  intros Hu H1 H2. destruct (combine3 u v w H1 H2) as (P & -> & -> & ->). rewrite !mix_map. rewrite rcov_lin by (intros ->; apply Hu; reflexivity).
  rewrite !rcov_self. reflexivity.
Qed.
Lemma mix_var (u v w : list R) a b c : u <> [] -> length u = length v -> length u = length w ->
  rvar (mix a b c u v w) = a ^ 2 * rvar u + b ^ 2 * rvar v + c ^ 2 * rvar w + 2 * (a * b * rcov u v + a * c * rcov u w + b * c * rcov v w).
Proof. intros Hu H1 H2. rewrite <- rcov_self, mix_cov by assumption. ring. Qed.

(** The six Reynolds stresses are a tensor. *)
Theorem reynolds_rotated (u v w : list R) q11 q12 q13 q21 q22 q23 q31 q32 q33 : u <> [] -> length u = length v -> length u = length w ->
  exists uu vv ww uv uw vw, @reynolds_stresses XR (fins u) (fins v) (fins w) = Ok (Fin uu, Fin vv, Fin ww, Fin uv, Fin uw, Fin vw) /\
    let T a b c a' b' c' := a * a' * uu + b * b' * vv + c * c' * ww + (a * b' + b * a') * uv + (a * c' + c * a') * uw + (b * c' + c * b') * vw in
    (forall a b c, 0 <= T a b c a b c) /\
    @reynolds_stresses XR (fins (mix q11 q12 q13 u v w)) (fins (mix q21 q22 q23 u v w)) (fins (mix q31 q32 q33 u v w)) =
      Ok (Fin (T q11 q12 q13 q11 q12 q13), Fin (T q21 q22 q23 q21 q22 q23), Fin (T q31 q32 q33 q31 q32 q33),
          Fin (T q11 q12 q13 q21 q22 q23), Fin (T q11 q12 q13 q31 q32 q33), Fin (T q21 q22 q23 q31 q32 q33)).
Proof.
  intros Hu H1 H2. exists (rvar u), (rvar v), (rvar w), (rcov u v), (rcov u w), (rcov v w). split; [apply reynolds_correct; assumption|]. cbv zeta. split.
  - intros a b c. rewrite <- mix_cov by assumption. rewrite rcov_self. apply rvar_nonneg. apply mix_ne; assumption.
  - rewrite reynolds_correct by (rewrite ?mix_length by assumption; try apply mix_ne; assumption || reflexivity).
    rewrite <- !rcov_self. rewrite !mix_cov by assumption. rewrite !rcov_self. reflexivity.
Qed.
(** Turbulent kinetic energy does not depend on the orientation of the axes. *)
Theorem tke_rotated (u v w : list R) q11 q12 q13 q21 q22 q23 q31 q32 q33 : u <> [] -> length u = length v -> length u = length w ->
  q11 ^ 2 + q21 ^ 2 + q31 ^ 2 = 1 -> q12 ^ 2 + q22 ^ 2 + q32 ^ 2 = 1 -> q13 ^ 2 + q23 ^ 2 + q33 ^ 2 = 1 ->
  q11 * q12 + q21 * q22 + q31 * q32 = 0 -> q11 * q13 + q21 * q23 + q31 * q33 = 0 -> q12 * q13 + q22 * q23 + q32 * q33 = 0 ->
  @kinetic_turbulent_energy XR (fins (mix q11 q12 q13 u v w)) (fins (mix q21 q22 q23 u v w)) (fins (mix q31 q32 q33 u v w)) =
  @kinetic_turbulent_energy XR (fins u) (fins v) (fins w).
Proof.
  intros Hu H1 H2 A1 A2 A3 B1 B2 B3.
  assert (Hv : v <> []) by (intros ->; destruct u; [congruence | discriminate]). assert (Hw : w <> []) by (intros ->; destruct u; [congruence | discriminate]).
  rewrite !tke_correct by (try apply mix_ne; assumption). do 2 f_equal. rewrite !mix_var by assumption. unfold Rdiv. f_equal.
  transitivity ((q11 ^ 2 + q21 ^ 2 + q31 ^ 2) * rvar u + (q12 ^ 2 + q22 ^ 2 + q32 ^ 2) * rvar v + (q13 ^ 2 + q23 ^ 2 + q33 ^ 2) * rvar w +
    2 * ((q11 * q12 + q21 * q22 + q31 * q32) * rcov u v + (q11 * q13 + q21 * q23 + q31 * q33) * rcov u w + (q12 * q13 + q22 * q23 + q32 * q33) * rcov v w)); [ring|].
  rewrite A1, A2, A3, B1, B2, B3. ring.
Qed.
(** A rotation by 45 degrees about the vertical axis and a shear. *)
Lemma rotation_example : let c := sqrt 2 / 2 in
  c ^ 2 + (- c) ^ 2 + 0 ^ 2 = 1 /\ c ^ 2 + c ^ 2 + 0 ^ 2 = 1 /\ c * c + - c * c + 0 * 0 = 0 /\
  mix c c 0 [1; 3] [5; 1] [0; 2] = [c * 1 + c * 5 + 0 * 0; c * 3 + c * 1 + 0 * 2].
Proof.
  cbv zeta. assert (S : (sqrt 2 / 2) ^ 2 = / 2).
  { unfold Rdiv. rewrite Rpow_mult_distr, pow2_sqrt by lra. field. }
  repeat split; try ring. - replace ((- (sqrt 2 / 2)) ^ 2) with ((sqrt 2 / 2) ^ 2) by ring. lra. - lra.
Qed.
