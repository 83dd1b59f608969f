(** Property theorems C113-C115 (symmetries of the detectors). *)
From Coq Require Import Reals Lra.
From Flocq Require Import Core.Raux.
From Verif Require Import F64ex P_symm.
Local Open Scope Z_scope.

Local Notation zs := (map (@nofZ (F64 libm_ex))).

(** ** C113 *)
Theorem C113_sign : forall dt (c : list XR),
  phasespace_thresholding dt (map nopp c) = phasespace_thresholding dt c.
Proof. exact phasespace_sign. Qed.
Print Assumptions C113_sign.
Theorem C113_reverse : forall dt (c : list XR) r,
  phasespace_thresholding dt c = Ok r ->
  phasespace_thresholding dt (rev c) = Ok (rev (map (fun i => zlen c - 1 - i) r)).
Proof. exact phasespace_reverse. Qed.
Print Assumptions C113_reverse.
(** The record is used as it is: an offset beyond the universal threshold flags every sample. *)
Theorem C113_offset : forall (l : list R),
  (2 <= length l)%nat -> rvar l <> 0%R -> rvar (rcentral (round_dec 4) l) <> 0%R ->
  (forall x, In x l -> (runiv (length l) * rstd l < Rabs x)%R) ->
  phasespace_thresholding DFloat (fins l) = Ok (zrange 0 (zlen l)).
Proof. exact phasespace_offset. Qed.
Print Assumptions C113_offset.
Example C113_nonvacuous : let r l := phasespace_thresholding DFloat (zs l) in
  r [-1; -2; -1; -3; -2; -1; -90; -2; -3; -1] = Ok [5; 6; 7] /\
  r [101; 102; 101; 103; 102; 101; 190; 102; 103; 101] = Ok [0; 1; 2; 3; 4; 5; 6; 7; 8; 9].
Proof. vm_compute. repeat split. Qed.

Example C113_offset_nonvacuous : let l := [10; 10; 14; 12]%R in (2 <= length l)%nat /\ rvar l <> 0%R /\ rvar (rcentral (round_dec 4) l) <> 0%R /\
  (forall x, In x l -> (runiv (length l) * rstd l < Rabs x)%R).
Proof. exact offset_example. Qed.

(** ** C114 *)
Theorem C114_sign : forall (u v w : list XR),
  velocity_correlation (map nopp u) v w = velocity_correlation u v w /\
  velocity_correlation u (map nopp v) w = velocity_correlation u v w /\
  velocity_correlation u v (map nopp w) = velocity_correlation u v w.
Proof. exact correlation_sign. Qed.
Print Assumptions C114_sign.
Example C114_nonvacuous : let r u v w := velocity_correlation (zs u) (zs v) (zs w) in
  r [-3; 3; -3; 3; -3; 3; -30] [2; 2; -2; -2; 2; 2; -20] [-1; 1; 1; -1; -1; -1; -14] = Ok [6].
Proof. vm_compute. reflexivity. Qed.

(** ** C115 *)
Theorem C115_unused : forall (N : Num) (data : list N) i j (m k : N),
  spherical_phasespace_thresholding data i m = spherical_phasespace_thresholding data j k.
Proof. exact spherical_unused. Qed.
Print Assumptions C115_unused.
Theorem C115_sign : forall (data : list XR) i (m : XR),
  spherical_phasespace_thresholding (map nopp data) i m = spherical_phasespace_thresholding data i m.
Proof. exact spherical_sign. Qed.
Print Assumptions C115_sign.
Theorem C115_shift : forall (data : list XR) (k : R) i (m : XR),
  (forall s, ~ In (Inf s) data) ->
  spherical_phasespace_thresholding (map (fun x => nadd x (Fin k)) data) i m = spherical_phasespace_thresholding data i m.
Proof. exact spherical_shift. Qed.
Print Assumptions C115_shift.
Example C115_nonvacuous : let r l i m := spherical_phasespace_thresholding (zs l) i (nofZ m) in
  r [-1; -2; -1; -3; -2; -1; -90; -2; -3; -1] 2 50 = Ok [5; 6; 7] /\
  r [101; 102; 101; 103; 102; 101; 190; 102; 103; 101] 1 0 = Ok [5; 6; 7].
Proof. vm_compute. repeat split. Qed.
