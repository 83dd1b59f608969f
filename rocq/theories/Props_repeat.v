(** Property theorems C116-C118 (repeating a replacement with the same indices). *)
From Coq Require Import Reals Lra.
From Verif Require Import F64ex P_repeat.
Local Open Scope Z_scope.

Local Notation zs := (map (@nofZ (F64 libm_ex))).
Local Notation ints r := (match r with Ok l => map nfloorZ l | Raise _ => [] end).

(** ** C116 *)
Theorem C116_last_valid_twice : forall (N : Num) (v : list N) idx,
  StronglySorted Z.lt idx -> (forall i, In i idx -> 0 <= i < zlen v) ->
  ~ (In 0 idx /\ In (zlen v - 1) idx) ->
  forall r, last_valid_data v idx = Ok r -> last_valid_data r idx = Ok r.
Proof. exact last_valid_twice. Qed.
Print Assumptions C116_last_valid_twice.
Theorem C116_refuted : forall (N : Num) (a b c : N),
  last_valid_data [a; b; c] [0; 2] = Ok [c; b; b] /\ last_valid_data [c; b; b] [0; 2] = Ok [b; b; b].
Proof. exact last_valid_twice_refuted. Qed.
Print Assumptions C116_refuted.
Example C116_nonvacuous : ints (last_valid_data (zs [9; 1; 70; 80; 4; 90; 5]) [0; 2; 3; 5]) = [5; 1; 1; 1; 4; 4; 5] /\
  ints (last_valid_data (zs [5; 1; 1; 1; 4; 4; 5]) [0; 2; 3; 5]) = [5; 1; 1; 1; 4; 4; 5] /\ StronglySorted Z.lt [0; 2; 3; 5].
Proof. split; [|split]; [vm_compute; reflexivity | vm_compute; reflexivity | repeat constructor; lia]. Qed.

(** ** C117 *)
Theorem C117_interpolation_twice : forall (N : Num) (v : list N) idx dec d,
  idx <> [] -> StronglySorted Z.lt idx -> (forall i, In i idx -> 0 < i < zlen v - 1) ->
  (forall i, 0 <= i < zlen v -> ~ In i idx -> nisnan (nth (Z.to_nat i) v d) = false /\ around (nth (Z.to_nat i) v d) dec = nth (Z.to_nat i) v d) ->
  exists r, linear_interpolation DFloat v idx dec = Ok r /\ linear_interpolation DFloat r idx dec = Ok r.
Proof. exact interpolation_twice. Qed.
Print Assumptions C117_interpolation_twice.
Example C117_nonvacuous : let r := linear_interpolation DFloat (zs [2; 70; 80; 8; 90; 12]) [1; 2; 4] 0 in
  ints r = [2; 4; 6; 8; 10; 12] /\ ints (let* v := r in linear_interpolation DFloat v [1; 2; 4] 0) = [2; 4; 6; 8; 10; 12] /\
  map (fun x => nfloorZ (around x 0)) (zs [2; 8; 12]) = [2; 8; 12] /\ existsb nisnan (zs [2; 8; 12]) = false.
Proof. vm_compute. repeat split. Qed.

(** ** C118 *)
Theorem C118_mean_value_repeated : forall (l : list R) idx j,
  in_bounds (zlen l) idx -> others idx l <> [] -> hits idx l <> [] ->
  exists r, calls (fun v => @mean_value XR DFloat v idx) (S j) (fins l) = Ok (fins r) /\ length r = length l /\
    forall k, (k < length l)%nat -> nth k r 0%R =
      if hit (zlen l) idx k
      then (rmean (others idx l) + (INR (length (hits idx l)) / INR (length l)) ^ S j * (rmean (hits idx l) - rmean (others idx l)))%R
      else nth k l 0%R.
Proof. exact mean_value_repeated. Qed.
Print Assumptions C118_mean_value_repeated.
Theorem C118_mean_value_limit : forall (l : list R) idx,
  in_bounds (zlen l) idx -> others idx l <> [] -> hits idx l <> [] ->
  forall eps, (0 < eps)%R -> exists j0, forall j, (j0 <= j)%nat ->
  exists r, calls (fun v => @mean_value XR DFloat v idx) j (fins l) = Ok (fins r) /\
    forall k, (k < length l)%nat -> hit (zlen l) idx k = true -> (Rabs (nth k r 0 - rmean (others idx l)) < eps)%R.
Proof. exact mean_value_limit. Qed.
Print Assumptions C118_mean_value_limit.
Example C118_nonvacuous : let f v := mean_value DFloat v [1; -1] in
  ints (calls f 1 (zs [0; 64; 0; 64])) = [0; 32; 0; 32] /\ ints (calls f 2 (zs [0; 64; 0; 64])) = [0; 16; 0; 16] /\
  ints (calls f 4 (zs [0; 64; 0; 64])) = [0; 4; 0; 4] /\
  hits [1; -1] [0; 64; 0; 64]%R = [64; 64]%R /\ others [1; -1] [0; 64; 0; 64]%R = [0; 0]%R.
Proof. repeat split; vm_compute; reflexivity. Qed.
