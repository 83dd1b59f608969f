(** Property theorems C156 (components of different lengths in the correlation detector). *)
From Coq Require Import Reals Lra Lia.
From Verif Require Import F64ex P_corrlen.
Local Open Scope Z_scope.

Local Notation zs := (map (@nofZ (F64 libm_ex))).

(** ** C156 *)
Theorem C156_rejected : forall (u v w : list R),
  u <> [] -> v <> [] -> w <> [] ->
  ~ (length v = length u /\ length w = length u) -> (3 <= length u \/ 3 <= length v \/ 3 <= length w)%nat ->
  velocity_correlation (fins u) (fins v) (fins w) = Raise ValueError.
Proof. exact correlation_lengths. Qed.
Print Assumptions C156_rejected.
(** Every arithmetic: two samples in u and w, one in v. *)
Theorem C156_two_samples_refuted : forall (N : Num) (x y v z t : N),
  exists r, velocity_correlation [x; y] [v] [z; t] = Ok r.
Proof. exact correlation_two. Qed.
Print Assumptions C156_two_samples_refuted.
Example C156_nonvacuous : let u := [1; 2; 4]%R in let v := [5]%R in
  velocity_correlation (fins u) (fins v) (fins u) = Raise ValueError.
Proof. cbv zeta. apply C156_rejected; try discriminate; [cbn; lia | left; cbn; lia]. Qed.
Example C156_run : let r u v w := velocity_correlation (zs u) (zs v) (zs w) in
  r [1; 2; 4] [5] [1; 3; 2] = Raise ValueError /\ r [1; 2; 4] [5; 6] [1; 3; 2] = Raise ValueError /\ r [1; 2] [5] [1; 3] = Ok [].
Proof. vm_compute. repeat split. Qed.
