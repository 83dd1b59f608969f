(** Property theorems C154 (phase-space detection and the mean of the record). *)
From Coq Require Import Reals Lra.
From Flocq Require Import Core.Raux.
From Verif Require Import F64ex M_pipeline P_phmean.
Local Open Scope Z_scope.

Local Notation zs := (map (@nofZ (F64 libm_ex))).

(** ** C154 *)
Theorem C154_all_flagged : forall (l : list R),
  (2 <= length l)%nat -> rvar l <> 0%R -> rvar (rcentral (round_dec 4) l) <> 0%R ->
  (forall x, In x l -> (runiv (length l) * rstd l < Rabs x)%R) ->
  phasespace_thresholding DFloat (fins l) = Ok (zrange 0 (zlen l)).
Proof. exact phasespace_all. Qed.
Print Assumptions C154_all_flagged.
(** Whatever the record, a large enough offset of either sign makes every sample a spike. *)
Theorem C154_mean_refuted : forall (l : list R),
  (2 <= length l)%nat -> rvar l <> 0%R -> rvar (rcentral (round_dec 4) l) <> 0%R ->
  exists M0, forall M, (M0 <= Rabs M)%R ->
    phasespace_thresholding DFloat (fins (map (fun x => x + M)%R l)) = Ok (zrange 0 (zlen l)).
Proof. exact phasespace_offset. Qed.
Print Assumptions C154_mean_refuted.
(** The script subtracts the mean of each component first. *)
Theorem C154_script : forall (x y z : list R) (a b c : R),
  x <> [] -> y <> [] -> z <> [] ->
  @phase_detect XR (fins (map (fun v => v + a)%R x), fins (map (fun v => v + b)%R y), fins (map (fun v => v + c)%R z)) =
  @phase_detect XR (fins x, fins y, fins z).
Proof. exact phase_detect_shift. Qed.
Print Assumptions C154_script.
Example C154_nonvacuous : let l := [4; 0; 4; 8]%R in
  (2 <= length l)%nat /\ rvar l <> 0%R /\ rvar (rcentral (round_dec 4) l) <> 0%R.
Proof. exact offset_example. Qed.
Example C154_run : let u := [1; 2; 1; 3; 2; 1; 90; 2; 3; 1; 2; 1] in let v := map (fun x => x + 1000) u in
  phasespace_thresholding DFloat (zs u) = Ok [5; 6; 7] /\
  phasespace_thresholding DFloat (zs v) = Ok [0; 1; 2; 3; 4; 5; 6; 7; 8; 9; 10; 11] /\
  phase_detect (zs u, zs u, zs u) = Ok [5; 6; 7] /\ phase_detect (zs v, zs v, zs v) = Ok [5; 6; 7].
Proof. vm_compute. repeat split. Qed.
