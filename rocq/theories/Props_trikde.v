(** Property theorems C80 to C82 (kernel density estimate of trivariatekernel.py). *)
From Coq Require Import Reals Lra.
From Verif Require Import F64 F64ex P_trikde.
Local Open Scope R_scope.

Local Notation NF := (F64 libm_ex).
Local Definition raised {A} (r : res A) : option exn := match r with Ok _ => None | Raise e => Some e end.

(** ** C80 *)
Theorem C80_covariance : forall (P : list (R * R)),
  ~ collinear P ->
  let n := length P in let h := scott n in
  exists e r11 r12 r22, @td_density XR (fins (map fst P)) (fins (map snd P)) = Ok e /\
    e_weight e = repeat (Fin (/ INR n)) n /\ e_net e = Fin (INR n) /\ e_factor e = Fin h /\
    e_cov e = (Fin (h ^ 2 * scov fst fst P), Fin (h ^ 2 * scov fst snd P), Fin (h ^ 2 * scov fst snd P), Fin (h ^ 2 * scov snd snd P)) /\
    e_chol e = (Fin r11, Fin r12, Fin r22) /\ 0 < r11 /\ 0 < r22 /\
    r11 * r11 = h ^ 2 * scov fst fst P /\ r11 * r12 = h ^ 2 * scov fst snd P /\ r12 * r12 + r22 * r22 = h ^ 2 * scov snd snd P /\
    0 < sdet P /\ e_log e = Fin (ln ((2 * PI) ^ 2 * (h ^ 4 * sdet P))).
Proof. exact covariance_exact. Qed.
Print Assumptions C80_covariance.
Theorem C80_errors : forall (P : list (R * R)),
  ((length P < 2)%nat -> @td_density XR (fins (map fst P)) (fins (map snd P)) = Raise ValueError) /\
  ((2 <= length P)%nat -> collinear P -> @td_density XR (fins (map fst P)) (fins (map snd P)) = Raise LinAlgError).
Proof. exact covariance_fails. Qed.
Print Assumptions C80_errors.
(** The determinant of the covariance of two or more points vanishes exactly when they lie on one line. *)
Theorem C80_singular_iff_collinear : forall P,
  (2 <= length P)%nat -> (sdet P = 0 <-> collinear P).
Proof. exact sdet_zero_iff. Qed.
Print Assumptions C80_singular_iff_collinear.
Example C80_nonvacuous : ~ collinear [(1, 2); (1, 0); (-1, 0); (-1, -2)] /\ collinear [(0, 1); (1, 3); (2, 5)].
Proof.
  split; [exact wP_noncol|]. exists 2, (-1), (-1). split; [left; lra|]. intros p [<-|[<-|[<-|[]]]]; cbn; lra.
Qed.
Example C80_run : raised (@td_density NF (map nofZ [0; 1; 2; 3]%Z) (map nofZ [0; 2; 4; 6]%Z)) = Some LinAlgError /\
  raised (@td_density NF (map nofZ [0; 1; 2; 3]%Z) (map nofZ [0; 2; 4; 7]%Z)) = None /\
  raised (@td_density NF (map nofZ [0]%Z) (map nofZ [0]%Z)) = Some ValueError.
Proof. vm_compute. repeat split. Qed.

(** ** C81 *)
(** What the second returned value is: Gaussians with the covariance of the rotated points, centred at the points
    that were not rotated. *)
Theorem C81_estimation : forall (P : list (R * R)) grid a b c d,
  ~ collinear P -> grid <> 0%Z ->
  is_min (map fst (turned P)) a -> is_max (map fst (turned P)) b -> is_min (map snd (turned P)) c -> is_max (map snd (turned P)) d ->
  @tri_estimation XR (fins (map fst P)) (fins (map snd P)) grid =
    Ok (finm (on_grid (kde2 (scott (length P)) (turned P) P) (axis a b grid) (axis c d grid))).
Proof. exact estimation_exact. Qed.
Print Assumptions C81_estimation.
(** What scipy's estimate is. *)
Theorem C81_scott_kde : forall (P : list (R * R)) (us ws : list R),
  ((length P < 2)%nat -> @scott_kde XR (fins (map fst P)) (fins (map snd P)) (fins us) (fins ws) = Raise ValueError) /\
  ((2 <= length P)%nat -> collinear P -> @scott_kde XR (fins (map fst P)) (fins (map snd P)) (fins us) (fins ws) = Raise LinAlgError) /\
  (~ collinear P -> @scott_kde XR (fins (map fst P)) (fins (map snd P)) (fins us) (fins ws) =
     Ok (finm (on_grid (kde2 (scott (length P)) P P) us ws))).
Proof. exact scott_kde_exact. Qed.
Print Assumptions C81_scott_kde.
(** They agree when the two rows are uncorrelated. *)
Theorem C81_uncorrelated : forall (P : list (R * R)) grid a b c d,
  ~ collinear P -> grid <> 0%Z -> scov fst snd P = 0 ->
  is_min (map fst P) a -> is_max (map fst P) b -> is_min (map snd P) c -> is_max (map snd P) d ->
  @tri_estimation XR (fins (map fst P)) (fins (map snd P)) grid =
  @scott_kde XR (fins (map fst P)) (fins (map snd P)) (fins (axis a b grid)) (fins (axis c d grid)).
Proof. exact estimation_uncorrelated. Qed.
Print Assumptions C81_uncorrelated.
(** Refuted in general: one cloud for which they differ on every grid. *)
Theorem C81_refuted : 
  exists P, ~ collinear P /\ forall grid, grid <> 0%Z ->
  exists a b c d E D, is_min (map fst (turned P)) a /\ is_max (map fst (turned P)) b /\ is_min (map snd (turned P)) c /\ is_max (map snd (turned P)) d /\
    @tri_estimation XR (fins (map fst P)) (fins (map snd P)) grid = Ok E /\
    @scott_kde XR (fins (map fst (turned P))) (fins (map snd (turned P))) (fins (axis a b grid)) (fins (axis c d grid)) = Ok D /\ E <> D.
Proof. exact estimation_not_density_refuted. Qed.
Print Assumptions C81_refuted.
Example C81_nonvacuous : let P := [(1, 2); (1, 0); (-1, 0); (-1, -2)] in ~ collinear P /\ (3 <> 0)%Z /\ 
  exists a b c d, is_min (map fst (turned P)) a /\ is_max (map fst (turned P)) b /\ is_min (map snd (turned P)) c /\ is_max (map snd (turned P)) d.
Proof.
  cbv zeta. split; [exact wP_noncol|]. split; [lia|].
  destruct (min_max_xs fst (turned wP) ltac:(discriminate)) as (a & b & Ha & Hb).
  destruct (min_max_xs snd (turned wP) ltac:(discriminate)) as (c & d & Hc & Hd).
  exists a, b, c, d. auto.
Qed.
Example C81_nonvacuous_uncorrelated : let P := [(1, 1); (1, -1); (-1, 1); (-1, -1)] in ~ collinear P /\ scov fst snd P = 0 /\
  is_min (map fst P) (-1) /\ is_max (map fst P) 1 /\ is_min (map snd P) (-1) /\ is_max (map snd P) 1.
Proof.
  cbv zeta. split.
  - rewrite <- sdet_zero_iff by (cbn; lia). unfold sdet, scov, rmean. cbn. lra.
  - split; [unfold scov, rmean; cbn; lra|].
    unfold is_min, is_max. cbn [map fst snd In]. repeat split; try tauto; intros x Hx; intuition lra.
Qed.

(** ** C82 *)
(** One plane, for exact arithmetic and scipy's estimate: a result exactly for two or more grid points and points
    not on one line. *)
Theorem C82_plane : forall (P : list (R * R)) grid,
  ((exists r, @tri_kernel_full XR scott_kde (fins (map fst P)) (fins (map snd P)) grid = Ok r) <-> (2 <= Z.abs grid)%Z /\ ~ collinear P) /\
  (~ collinear P -> Z.abs grid = 1%Z -> @tri_kernel_full XR scott_kde (fins (map fst P)) (fins (map snd P)) grid = Raise IndexError).
Proof. exact kernel_total. Qed.
Print Assumptions C82_plane.
(** The failures, whatever the estimator in line 484 returns. *)
Theorem C82_plane_errors : forall (P : list (R * R)) kde grid,
  (P = [] -> @tri_kernel_full XR kde (fins (map fst P)) (fins (map snd P)) grid = Raise ValueError) /\
  (P <> [] -> grid = 0%Z -> @tri_kernel_full XR kde (fins (map fst P)) (fins (map snd P)) grid = Raise IndexError) /\
  (length P = 1%nat -> grid <> 0%Z -> @tri_kernel_full XR kde (fins (map fst P)) (fins (map snd P)) grid = Raise ValueError) /\
  ((2 <= length P)%nat -> grid <> 0%Z -> collinear P -> @tri_kernel_full XR kde (fins (map fst P)) (fins (map snd P)) grid = Raise LinAlgError).
Proof. exact kernel_fails. Qed.
Print Assumptions C82_plane_errors.
(** The detector. *)
Theorem C82_detector : forall (l : list R) grid,
  (exists r, @three_dimensional_kernel_full XR scott_kde DFloat (fins l) grid = Ok r) <->
  (2 <= Z.abs grid)%Z /\ ~ collinear (combine l (rdc l)) /\ ~ collinear (combine l (rdc (rdc l))) /\ ~ collinear (combine (rdc l) (rdc (rdc l))).
Proof. exact three_full_iff. Qed.
Print Assumptions C82_detector.
(** Constant and alternating records fail. *)
Theorem C82_period_two : forall kde (l : list R) grid,
  (2 <= length l)%nat -> grid <> 0%Z ->
  (forall i, (S (S i) < length l)%nat -> nth (S (S i)) l 0 = nth i l 0) ->
  @three_dimensional_kernel_full XR kde DFloat (fins l) grid = Raise LinAlgError.
Proof. exact three_full_period2. Qed.
Print Assumptions C82_period_two.
(** Fewer than four samples never give a result. *)
Theorem C82_short : forall kde (l : list R) grid r,
  (length l < 4)%nat ->
  @three_dimensional_kernel_full XR kde DFloat (fins l) grid <> Ok r.
Proof. exact three_full_short. Qed.
Print Assumptions C82_short.
(** Computing the second value does not change which samples are flagged. *)
Theorem C82_same_indices : forall (N : Num) kde dt (data : list N) grid r,
  three_dimensional_kernel_full kde dt data grid = Ok r -> three_dimensional_kernel kde dt data grid = Ok r.
Proof. exact full_same_indices. Qed.
Print Assumptions C82_same_indices.
Example C82_nonvacuous : let l := [0; 4; 2; 1] in
  ~ collinear (combine l (rdc l)) /\ ~ collinear (combine l (rdc (rdc l))) /\ ~ collinear (combine (rdc l) (rdc (rdc l))).
Proof.
  assert (K : forall p q r P, (fst q - fst p) * (snd r - snd p) - (fst r - fst p) * (snd q - snd p) <> 0 -> In p P -> In q P -> In r P -> ~ collinear P).
  { intros p q r P H Hp Hq Hr (a & b & c & Hab & HP). apply HP in Hp, Hq, Hr.
    assert (E1 : a * (fst q - fst p) + b * (snd q - snd p) = 0) by lra. assert (E2 : a * (fst r - fst p) + b * (snd r - snd p) = 0) by lra.
    destruct Hab as [Ha|Hb]; apply H; [apply (Rmult_eq_reg_l a); [|exact Ha] | apply (Rmult_eq_reg_l b); [|exact Hb]].
    - replace (a * _) with ((a * (fst q - fst p)) * (snd r - snd p) - (a * (fst r - fst p)) * (snd q - snd p)) by ring.
      replace (a * (fst q - fst p)) with (- (b * (snd q - snd p))) by lra. replace (a * (fst r - fst p)) with (- (b * (snd r - snd p))) by lra. ring.
    - replace (b * _) with ((fst q - fst p) * (b * (snd r - snd p)) - (fst r - fst p) * (b * (snd q - snd p))) by ring.
      replace (b * (snd q - snd p)) with (- (a * (fst q - fst p))) by lra. replace (b * (snd r - snd p)) with (- (a * (fst r - fst p))) by lra. ring. }
  cbv zeta. cbn. repeat split; [eapply (K (0, 0) (4, (2 - 0) / 2) (2, (1 - 4) / 2)) | eapply (K (0, 0) (4, ((1 - 4) / 2 - 0) / 2) (2, (0 - (2 - 0) / 2) / 2)) |
    eapply (K (0, 0) ((2 - 0) / 2, ((1 - 4) / 2 - 0) / 2) ((1 - 4) / 2, (0 - (2 - 0) / 2) / 2))]; cbn; try tauto; lra.
Qed.
Example C82_run : raised (@three_dimensional_kernel_full NF scott_kde DFloat (map nofZ [5; 5; 5; 5]%Z) 3) = Some LinAlgError /\
  raised (@three_dimensional_kernel_full NF scott_kde DFloat (map nofZ [5; 7; 5; 7]%Z) 3) = Some LinAlgError /\
  raised (@three_dimensional_kernel_full NF scott_kde DFloat (map nofZ [0; 4; 2; 1]%Z) 1) = Some IndexError.
Proof. vm_compute. repeat split. Qed.
