(** Property theorems C142 (rotation angle of the spherical detector). *)
From Coq Require Import Reals Lra Lia List ZArith.
From Flocq Require Import Core.Raux.
From Verif Require Import F64ex P_sphang.
Import ListNotations.
Local Open Scope R_scope.

Local Notation zs := (map (@nofZ (F64 libm_ex))).

(** ** C142 *)
(** The numerator of the angle is made of the two first and the two last samples. *)
Theorem C142_angle : forall (l : list R) it (m : XR),
  (2 <= length l)%nat ->
  let c := map (fun x => round_dec 4 (x - rmean l)) l in
  let n := length l in
  let theta := round_dec 4 (atan2R
    (nth (n - 1) c 0 ^ 2 - nth 0 c 0 ^ 2 + (nth 0 c 0 * nth 1 c 0 - nth (n - 2) c 0 * nth (n - 1) c 0) / 2)
    (rdot (rgradient (rgradient c)) (rgradient (rgradient c)))) in
  spherical_phasespace_thresholding (fins l) it m =
  (let* (x, y, z) := @sph_rotation XR (fins c) (fins (rgradient c)) (fins (rgradient (rgradient c))) (Fin theta) in
   let '(a, b, d) := sph_parameters x y z in
   sph_spike_indices x y z a b d).
Proof. exact spherical_angle. Qed.
Print Assumptions C142_angle.
(** Records that start and end at their mean, or start as they end, are not rotated, whatever lies between. *)
Theorem C142_ends : forall (l : list R) it (m : XR),
  (2 <= length l)%nat ->
  let c := map (fun x => round_dec 4 (x - rmean l)) l in
  (nth 0 c 0 = 0 /\ nth (length l - 1) c 0 = 0 \/
   nth 0 c 0 = nth (length l - 1) c 0 /\ nth 1 c 0 = nth (length l - 2) c 0) ->
  spherical_phasespace_thresholding (fins l) it m =
  (let '(a, b, d) := sph_parameters (N := XR) (fins c) (fins (rgradient c)) (fins (rgradient (rgradient c))) in
   sph_spike_indices (fins c) (fins (rgradient c)) (fins (rgradient (rgradient c))) a b d).
Proof. exact spherical_not_rotated. Qed.
Print Assumptions C142_ends.
(** Oscillations of any length and amplitude whose principal axis is inclined by 45 degrees are not rotated. *)
Theorem C142_refuted : forall (j : Z) (k : nat) it (m : XR),
  (j <> 0)%Z -> (1 <= k)%nat ->
  let c := map (wave (IZR j)) (seq 0 (4 * k + 1)) in
  rmean c = 0 /\ regression_slope c (rgradient (rgradient c)) = -1 /\
  spherical_phasespace_thresholding (fins c) it m =
  (let '(a, b, d) := sph_parameters (N := XR) (fins c) (fins (rgradient c)) (fins (rgradient (rgradient c))) in
   sph_spike_indices (fins c) (fins (rgradient c)) (fins (rgradient (rgradient c))) a b d).
Proof. exact spherical_angle_refuted. Qed.
Print Assumptions C142_refuted.
Example C142_nonvacuous : let c := map (wave (IZR 3)) (seq 0 (4 * 2 + 1)) in
  (2 <= length c)%nat /\ rmean c = 0 /\ nth 1 c 0 = 3 /\ nth 3 c 0 = -3 /\ regression_slope c (rgradient (rgradient c)) = -1.
Proof.
  cbn zeta. destruct (spherical_angle_refuted 3 2 1 (Fin 0)) as (H1 & H2 & _); [lia | lia |].
  split; [cbn; lia|]. split; [exact H1|]. split; [reflexivity|]. split; [cbn; lra | exact H2].
Qed.
Example C142_run : spherical_phasespace_thresholding (zs [0; 3; 0; -3; 0; 3; 0; -90; 0; 3; 0; -3; 90; 3; 0; -3; 0])%Z 1 (nofZ 0) = Ok [7; 12]%Z.
Proof. vm_compute. reflexivity. Qed.
