(** Property theorems C128-C129 (change of unit). *)
From Coq Require Import Reals Lra.
From Flocq Require Import Core.Raux.
From Verif Require Import F64ex P_units.
Local Open Scope Z_scope.

Local Notation zs := (map (@nofZ (F64 libm_ex))).
Local Notation per k := (map (fun x => @ndiv (F64 libm_ex) (nofZ x) (nofZ k))).

(** ** C128 *)
Theorem C128_correlation : forall (c : R) (u v w : list XR),
  c <> 0%R -> (3 <= length u)%nat -> (3 <= length v)%nat -> (3 <= length w)%nat ->
  velocity_correlation (map (nmul (Fin c : XR)) u) (map (nmul (Fin c : XR)) v) (map (nmul (Fin c : XR)) w) = velocity_correlation u v w.
Proof. exact correlation_unit. Qed.
Print Assumptions C128_correlation.
Theorem C128_acceleration : forall (c : R) (v : list XR) (f : XR) tag (g kg ks : XR),
  (0 < c)%R ->
  acceleration_thresholding (map (nmul (Fin c : XR)) v) f tag (nmul (Fin c : XR) g) kg ks = acceleration_thresholding v f tag g kg ks.
Proof. exact acceleration_unit. Qed.
Print Assumptions C128_acceleration.
(** The two tags mirror each other. *)
Theorem C128_mirror : forall (v : list XR) (f g kg ks : XR),
  acceleration_thresholding (map nopp v) f 1 g kg ks = acceleration_thresholding v f 2 g kg ks.
Proof. exact acceleration_mirror. Qed.
Print Assumptions C128_mirror.
Example C128_nonvacuous : let r k := velocity_correlation (per k [3; -3; 3; -3; 3; -3; 30]) (per k [2; 2; -2; -2; 2; 2; -20]) (per k [1; -1; -1; 1; 1; 1; 14]) in
  let a v tag g := acceleration_thresholding (zs v) (nofZ 10) tag (nofZ g) (nofZ 1) (nofZ 1) in
  r (-1000) = Ok [6] /\
  a [1; 2; 1; 30; 2; 1; 1] 1 200 = Ok [3] /\ a [3; 6; 3; 90; 6; 3; 3] 1 600 = Ok [3] /\
  a [1; 2; 1; 30; 2; 1; 1] 1 600 = Ok [] /\ a [-1; -2; -1; -30; -2; -1; -1] 2 200 = Ok [3].
Proof. vm_compute. repeat split. Qed.

(** ** C129 *)
(** Rounded to four decimals, the differences of such a record vanish; all three ellipses degenerate. *)
Theorem C129_phasespace_still : forall dt (l : list R),
  l <> [] -> still l -> phasespace_thresholding dt (fins l) = Ok [].
Proof. exact phasespace_still. Qed.
Print Assumptions C129_phasespace_still.
Theorem C129_phasespace_large_unit : forall dt (l : list R),
  l <> [] ->
  exists c0, (0 < c0)%R /\ forall c, (0 < c <= c0)%R -> phasespace_thresholding dt (fins (map (Rmult c) l)) = Ok [].
Proof. exact phasespace_large_unit. Qed.
Print Assumptions C129_phasespace_large_unit.
Theorem C129_phasespace_refuted : 
  exists (l : list R) (c : R), (0 < c)%R /\
  phasespace_thresholding DFloat (fins l) = Ok [0; 1; 2; 3] /\ phasespace_thresholding DFloat (fins (map (Rmult c) l)) = Ok [].
Proof. exact phasespace_unit_refuted. Qed.
Print Assumptions C129_phasespace_refuted.
Theorem C129_spherical_faint : forall (l : list R) i (m : XR),
  (2 <= length l)%nat -> faint l -> spherical_phasespace_thresholding (fins l) i m = Ok [].
Proof. exact spherical_faint. Qed.
Print Assumptions C129_spherical_faint.
Theorem C129_spherical_large_unit : forall (l : list R) i (m : XR),
  (2 <= length l)%nat ->
  exists c0, (0 < c0)%R /\ forall c, (0 < c <= c0)%R -> spherical_phasespace_thresholding (fins (map (Rmult c) l)) i m = Ok [].
Proof. exact spherical_large_unit. Qed.
Print Assumptions C129_spherical_large_unit.
(** Where the rounding has nothing to do, the result is independent of the unit. *)
Theorem C129_phasespace_grid : forall (c : R) (l : list R),
  c <> 0%R -> grid_of (4 / 10000) l -> grid_of (4 / 10000) (map (Rmult c) l) ->
  phasespace_thresholding DFloat (fins (map (Rmult c) l)) = phasespace_thresholding DFloat (fins l).
Proof. exact phasespace_unit. Qed.
Print Assumptions C129_phasespace_grid.
Example C129_nonvacuous : let l := (map (fun k => IZR k / 10000000) [1; 2; 1; 3; 2; 1; 90; 2; 3; 1]%Z)%R in still l /\ faint l.
Proof. exact still_example. Qed.
Example C129_grid_nonvacuous : let l := [10; 10; 14; 12]%R in grid_of (4 / 10000) l /\ grid_of (4 / 10000) (map (Rmult (-7 / 2)) l) /\
  phasespace_thresholding DFloat (fins (map (Rmult (-7 / 2)) l)) = Ok [0; 1; 2; 3].
Proof. exact unit_example. Qed.
Example C129_runs : let l := [1; 2; 1; 3; 2; 1; 90; 2; 3; 1] in
  let p k := phasespace_thresholding DFloat (per k l) in
  let s k := spherical_phasespace_thresholding (per k l) 1 (nofZ 0) in
  p 10000 = Ok [5; 6; 7] /\ p 1000000 = Ok [] /\
  s 10000 = Ok [4; 5; 6; 7; 8] /\ s 10000000 = Ok [].
Proof. vm_compute. repeat split. Qed.
