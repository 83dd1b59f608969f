(** Property theorems C163: acceleration thresholding on a raised block. *)
From Coq Require Import Reals Lra Lia List ZArith.
From Verif Require Import Num NpBase XR F64 F64ex Spec Spec34 M_detection P_block.
Import ListNotations.
Local Open Scope R_scope.

(** Only the first sample of the block can be flagged, and the height matters for the step only. *)
Theorem C163_block_refuted : forall c h a m b f g kg ks, (1 <= a)%nat -> (1 <= m)%nat -> 0 < h -> 0 <= kg * g -> 0 <= ks ->
  exists r, acceleration_thresholding (fins (raised c h a m b)) (Fin f) 1 (Fin g) (Fin kg) (Fin ks) = Ok r /\
    forall i, In i r <-> i = Z.of_nat a /\ kg * g < h * f /\ (1 + ks ^ 2) * INR m < INR (a + m + b).
Proof. exact accel_block. Qed.
Print Assumptions C163_block_refuted.
(** On every record, a flagged sample is higher than the sample before it. *)
Theorem C163_rising : forall (l : list R) f g kg ks r i, 0 < f -> 0 <= kg * g ->
  acceleration_thresholding (fins l) (Fin f) 1 (Fin g) (Fin kg) (Fin ks) = Ok r -> In i r ->
  (0 < i < zlen l)%Z /\ nth (Z.to_nat (i - 1)) l 0 < nth (Z.to_nat i) l 0.
Proof. exact accel_rising. Qed.
Print Assumptions C163_rising.
Example C163_nonvacuous : raised 0 90 2 2 8 = [0; 0; 0 + 90; 0 + 90; 0; 0; 0; 0; 0; 0; 0; 0] /\ (1 + 2 ^ 2) * INR 2 < INR (2 + 2 + 8) /\ 10 * 1 < 90 * 25.
Proof. split; [reflexivity|]. split; [cbn; lra | lra]. Qed.
(** In binary64: two raised samples, of which one is flagged; a longer block is not seen at all. *)
Example C163_run :
  let z := map (@nofZ (F64 libm_basic)) in let k := @nofZ (F64 libm_basic) in
  acceleration_thresholding (z [0; 0; 90; 90; 0; 0; 0; 0; 0; 0; 0; 0]%Z) (k 25%Z) 1 (k 10%Z) (k 1%Z) (k 2%Z) = Ok [2%Z] /\
  acceleration_thresholding (z [0; 0; 90; 90; 90; 0; 0; 0; 0; 0; 0; 0]%Z) (k 25%Z) 1 (k 10%Z) (k 1%Z) (k 2%Z) = Ok [].
Proof. vm_compute. repeat split. Qed.
