(** Property theorem C150: linear interpolation in binary64 arithmetic. *)
From Coq Require Import Reals Lra Lia List ZArith Sorted.
From Flocq Require Import Core IEEE754.BinarySingleNaN.
From Verif Require Import Num NpBase F64 F64ex M_replacement P_float P_flin.
Import ListNotations.
Local Open Scope R_scope.

Local Existing Instance F64.prec_gt_0_53.
Local Existing Instance F64.prec_lt_emax_53.
Local Notation NF := (F64 libm_basic).

(** A run of replaced samples [a..b] between two neighbours of magnitude up to [2^900], 0 to 15 decimals: the values
    returned from [a-1] to [b+1] are finite and monotone, so every replaced sample lies between the returned
    neighbours; and it differs from the point of the chord by half a unit of the last decimal plus rounding errors. *)
Theorem C150_between : forall (L : Libm) (v : list (F64 L)) idx dec (d : F64 L) a b,
  StronglySorted Z.lt idx -> (forall i, In i idx -> (0 <= i < zlen v)%Z) ->
  (0 < a <= b)%Z -> (b < zlen v - 1)%Z -> (forall j, (a <= j <= b)%Z -> In j idx) -> ~ In (a - 1)%Z idx -> ~ In (b + 1)%Z idx ->
  (0 <= dec <= 15)%Z -> (b - a + 2 <= 2 ^ 50)%Z ->
  let vs := nth (Z.to_nat (a - 1)) v d : f64 in let ve := nth (Z.to_nat (b + 1)) v d : f64 in
  is_finite vs = true -> is_finite ve = true -> Rabs (B2R vs) <= pow2 900 -> Rabs (B2R ve) <= pow2 900 ->
  exists r, linear_interpolation DFloat v idx dec = Ok r /\ length r = length v /\
    (forall k, (a - 1 <= k <= b + 1)%Z -> is_finite (nth (Z.to_nat k) r d : f64) = true) /\
    (forall j k, (a - 1 <= j)%Z -> (j <= k)%Z -> (k <= b + 1)%Z ->
      (B2R vs <= B2R ve -> B2R (nth (Z.to_nat j) r d : f64) <= B2R (nth (Z.to_nat k) r d : f64)) /\
      (B2R ve <= B2R vs -> B2R (nth (Z.to_nat k) r d : f64) <= B2R (nth (Z.to_nat j) r d : f64))) /\
    ((Rabs (B2R vs) + Rabs (B2R ve)) * IZR (10 ^ dec) <= pow2 50 -> forall k, (a <= k <= b)%Z ->
      Rabs (B2R (nth (Z.to_nat k) r d : f64) - (B2R vs + (B2R ve - B2R vs) * (IZR (k - (a - 1)) / IZR (b + 1 - (a - 1))))) <=
      (/ 2 + pow2 (-49) * (1 + (Rabs (B2R vs) + Rabs (B2R ve)) * IZR (10 ^ dec))) / IZR (10 ^ dec)).
Proof. exact lin_float_all. Qed.
Print Assumptions C150_between.
(** Not for all finite doubles: with the default 4 decimals a record of finite samples comes back infinite. *)
Theorem C150_overflow_refuted : forall (L : Libm), exists (v : list (F64 L)) r,
  (forall x : F64 L, In x v -> is_finite (x : f64) = true) /\ linear_interpolation DFloat v [1%Z] 4 = Ok r /\
  r = [B754_infinity false; B754_infinity false; B754_infinity false].
Proof. exact lin_overflow. Qed.
Print Assumptions C150_overflow_refuted.
(** 1, spikes at 1 and 2, then 2: the replaced samples are 1.3333 and 1.6667. *)
Example C150_nonvacuous :
  let v := map f64_ofZ [1; 90; -90; 2]%Z : list NF in
  StronglySorted Z.lt [1; 2]%Z /\ (forall i, In i [1; 2]%Z -> (0 <= i < zlen v)%Z) /\ ~ In (1 - 1)%Z [1; 2]%Z /\ ~ In (2 + 1)%Z [1; 2]%Z /\
  is_finite (nth 0 v (f64_ofZ 0) : f64) = true /\ is_finite (nth 3 v (f64_ofZ 0) : f64) = true /\
  (Rabs (B2R (nth 0 v (f64_ofZ 0) : f64)) + Rabs (B2R (nth 3 v (f64_ofZ 0) : f64))) * IZR (10 ^ 4) <= pow2 50 /\
  match linear_interpolation DFloat v [1; 2]%Z 4 with
  | Ok r => map (fun y => nfloorZ (nadd (nmul y (nofZ 10000)) (ndiv (nofZ 1) (nofZ 2)))) r = [10000; 13333; 16667; 20000]%Z
  | Raise _ => False
  end.
Proof.
  cbv zeta. split; [repeat constructor|]. split; [intros i [<-|[<-|[]]]; vm_compute; split; congruence|].
  split; [cbn; lia|]. split; [cbn; lia|]. split; [reflexivity|]. split; [reflexivity|]. split; [|vm_compute; reflexivity].
  cbn [nth map]. rewrite (proj2 (ofZ_fl 1 ltac:(discriminate))), (proj2 (ofZ_fl 2 ltac:(discriminate))).
  rewrite !Rabs_pos_eq by lra. cbn. lra.
Qed.
