(** Property theorems C130-C131 (the kernel detectors and the unit of velocity). *)
From Coq Require Import Reals Lra.
From Verif Require Import P_units2.
Local Open Scope R_scope.

(** ** C130 *)
Theorem C130_bivariate : forall kde c l,
  density_units kde -> 0 < c -> biv_detect kde (fins (map (Rmult c) l)) = biv_detect kde (fins l).
Proof. exact biv_unit. Qed.
Print Assumptions C130_bivariate.
Theorem C130_scott_units : density_units scott_kde.
Proof. exact scott_units. Qed.
Print Assumptions C130_scott_units.
Example C130_nonvacuous : exists l r, r <> [] /\ forall c, 0 < c -> biv_detect scott_kde (fins (map (Rmult c) l)) = Ok r.
Proof. exact biv_unit_example. Qed.

(** ** C131 *)
Theorem C131_limits : forall l (g : nat),
  in_general_position l -> (3 <= g)%nat -> let planes := three_planes l (rdc l) (rdc (rdc l)) in
  exists s0 s1 r0 r1, 0 < s0 /\ 0 < s1 /\ bounded_sorted (zlen l) r0 /\ bounded_sorted (zlen l) r1 /\
    (forall s, 0 < s <= s0 -> @three_dimensional_kernel_full XR scott_kde DFloat (fins (map (Rmult s) l)) (Z.of_nat g) = Ok r0) /\
    (forall s, s1 <= s -> @three_dimensional_kernel_full XR scott_kde DFloat (fins (map (Rmult s) l)) (Z.of_nat g) = Ok r1) /\
    (forall i, In i r0 <-> (0 <= i < zlen l)%Z /\ exists P, In P planes /\ off_whole (turned P) g i) /\
    ((forall P, In P planes -> inner_peak (turned P) g) ->
     forall i, In i r1 <-> (0 <= i < zlen l)%Z /\ exists P, In P planes /\ off_peak (turned P) g i).
Proof. exact three_limits. Qed.
Print Assumptions C131_limits.
Theorem C131_refuted : 
  let l := [-4; -40; 40; 0; 0; -40; 40; 4] in exists r r' s s', 0 < s /\ 0 < s' /\ r <> r' /\
  @three_dimensional_kernel_full XR scott_kde DFloat (fins (map (Rmult s) l)) 64 = Ok r /\
  @three_dimensional_kernel_full XR scott_kde DFloat (fins (map (Rmult s') l)) 64 = Ok r'.
Proof. exact three_unit_refuted. Qed.
Print Assumptions C131_refuted.
Example C131_nonvacuous : in_general_position [-4; -40; 40; 0; 0; -40; 40; 4] /\ exists P, In P (three_planes [-4; -40; 40; 0; 0; -40; 40; 4] [0; 22; 20; -20; -20; 20; 22; 0] [0; 10; -21; -20; 20; 21; -10; 0]) /\
  ~ off_whole (turned P) 64 0 /\ off_whole (turned P) 64 1.
Proof. exact limits_example. Qed.
