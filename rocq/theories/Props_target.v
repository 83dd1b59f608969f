(** Property theorems C155 (the target of the bandwidth search) and further ones of C45 and C71. *)
From Coq Require Import Reals Lra Lia.
From Verif Require Import NpBase XR F64 F64ex M_series M_kernel Spec Spec2 Spec29 P_target P_evolve.
Local Open Scope Z_scope.

(** ** C155 *)
(** [a] is the time estimated from the guess [t], [g] the value of the target: [g] is not 0 where the estimate
    equals the guess, and at its zeros the estimate is t / (1 + t), below the guess by the fraction t. *)
Theorem C155_fixed_point_refuted : forall ic A m n t,
  length ic = m -> mshape A m m -> (1 <= m)%nat -> positive_mass ic A -> 1 <= n -> (0 <= t)%R ->
  exists e a g, (0 < a)%R /\ k_evolve (Fin t) n (fins ic) (finm A) = Ok (e, Fin a) /\
    k_target (fins ic) (finm A) n (Fin t) = Ok (Fin g) /\
    (g = 0 <-> a = t / (1 + t))%R /\ (g < 0 <-> a < t / (1 + t))%R /\
    (a = t -> g = t /\ 0 < g)%R /\ (g = 0 -> a < t /\ t - a = t * a)%R.
Proof. exact target_root. Qed.
Print Assumptions C155_fixed_point_refuted.
(** The target is 1 at the left end of every bracket, whatever the data. *)
Theorem C155_left_end : forall ic A m n,
  length ic = m -> mshape A m m -> (1 <= m)%nat -> positive_mass ic A -> 1 <= n ->
  k_target (fins ic) (finm A) n (Fin 0) = Ok (Fin 1).
Proof. exact target_start. Qed.
Print Assumptions C155_left_end.
Example C155_nonvacuous : positive_mass [0; 1]%R [[1; 2]; [0; 3]]%R /\ mshape [[1; 2]; [0; 3]]%R 2 2 /\
  k_target (fins [0; 1]%R) (finm [[1; 2]; [0; 3]]%R) 7 (Fin 0) = Ok (Fin 1).
Proof. exact target_example. Qed.

(** ** C71: the estimate in closed form. *)
Theorem C71_closed : forall ic A m n t,
  length ic = m -> mshape A m m -> (1 <= m)%nat -> positive_mass ic A -> 1 <= n ->
  exists f02 f20 f11, stages n t ic A 0 2 f02 /\ stages n t ic A 2 0 f20 /\ stages n t ic A 1 1 f11 /\
    (0 < f02 /\ 0 < f20 /\ 0 < f11)%R /\
    let a := Rpower (2 * PI * IZR n * (f02 + f20 + 2 * f11)) (-1 / 3) in
    k_evolve (Fin t) n (fins ic) (finm A) = Ok (Fin ((t - a) / a), Fin a).
Proof. exact evolve_closed. Qed.
Print Assumptions C71_closed.
Theorem C71_stages : forall n t ic A s0 s1, (s0 + s1 <= 5)%nat -> exists! v, stages n t ic A s0 s1 v.
Proof. exact stages_value. Qed.
Print Assumptions C71_stages.
Example C71_closed_nonvacuous : positive_mass [0; 1]%R [[1; 2]; [0; 3]]%R /\ mshape [[1; 2]; [0; 3]]%R 2 2.
Proof. split; apply target_example. Qed.

(** ** C45: the points of the grid vectors, every arithmetic. *)
Theorem C45_points : forall (N : Num) (start stop step : N) d,
  let q := ndiv (nsub stop start) step in
  (nisfin q = false -> arange start stop step = Raise ValueError) /\
  (nisfin q = true -> exists r, arange start stop step = Ok r /\ zlen r = Z.max 0 (nceilZ q) /\
     (1 <= zlen r -> nth 0 r d = start) /\ (2 <= zlen r -> nth 1 r d = nadd start step) /\
     forall i, 2 <= i < zlen r -> nth (Z.to_nat i) r d = nadd start (nmul (nofZ i) (nsub (nadd start step) start))).
Proof. exact arange_points. Qed.
Print Assumptions C45_points.
Example C45_points_run : let z := @nofZ (F64 libm_ex) in
  match arange (z 1) (z 8) (z 2) with Ok r => map nceilZ r | Raise _ => [] end = [1; 3; 5; 7] /\
  match arange (z 1) (z 8) (z 0) with Ok _ => None | Raise e => Some e end = Some ValueError.
Proof. vm_compute. split; reflexivity. Qed.
