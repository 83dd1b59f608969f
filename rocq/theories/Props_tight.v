(** Property theorems C145 (statistic of the kurtosis test); C27 and C89 (values written by the replacement with
    singular spectrum analysis, NaN in integer records). *)
From Coq Require Import Reals Lra Lia List ZArith.
From Flocq Require Import Core.Raux.
From Verif Require Import F64ex P_kurtz P_ssarep P_intpoly.
Import ListNotations.
Local Open Scope R_scope.

Local Notation NF := (F64 libm_ex).
Local Definition ints (l : list Z) : list NF := map nofZ l.
Local Definition back (r : res (list NF)) : list Z := match r with Ok l => map nceilZ l | Raise _ => [] end.

(** ** C145 *)
Theorem C145_formula : forall n k,
  (5 <= n)%Z ->
  (0 < kt_denom (IZR n) k -> @kurt_z XR n (Fin k) = Some (Fin (kt_stat (IZR n) k))) /\
  (kt_denom (IZR n) k <= 0 -> @kurt_z XR n (Fin k) = None).
Proof. exact kurt_z_exact. Qed.
Print Assumptions C145_formula.
Theorem C145_increasing : forall n j k s t,
  (5 <= n)%Z -> j < k ->
  @kurt_z XR n (Fin j) = Some s -> @kurt_z XR n (Fin k) = t -> exists a b, s = Fin a /\ t = Some (Fin b) /\ a < b.
Proof. exact kurt_increasing. Qed.
Print Assumptions C145_increasing.
Theorem C145_exists : forall n k,
  (5 <= n)%Z -> 3 * (IZR n - 1) / (IZR n + 1) <= k -> exists z, @kurt_z XR n (Fin k) = Some (Fin z).
Proof. exact kurt_z_normal. Qed.
Print Assumptions C145_exists.
Theorem C145_refuted : forall p c m,
  c <> 0 -> (18 <= m)%nat -> let l := repeat (p - c) m ++ repeat (p + c) m in
  @moment_kurtosis XR (fins l) = Ok (Fin 1) /\ @kurt_z XR (zlen l) (Fin 1) = None.
Proof. exact kurtosis_two_valued. Qed.
Print Assumptions C145_refuted.
Example C145_nonvacuous : 3 * (IZR 5 - 1) / (IZR 5 + 1) <= 2 /\ (5 <= 5)%Z /\ 2 < 3 /\ 1 <> 0 /\ (18 <= 18)%nat.
Proof. repeat split; try lra; lia. Qed.
(** Eighteen samples at -1 and at 1; a record of five samples. *)
Example C145_run :
  (match moment_kurtosis (ints (repeat (-1)%Z 18 ++ repeat 1%Z 18)) with Ok k => (nceilZ k, match kurt_z 36 k with None => true | _ => false end) | Raise _ => (0%Z, false) end) = (1%Z, true) /\
  (match @kurt_z NF 5 (@nofZ NF 2), @kurt_z NF 5 (@nofZ NF 3) with Some a, Some b => nltb a b | _, _ => false end) = true.
Proof. split; vm_compute; reflexivity. Qed.

Local Open Scope Z_scope.

(** ** C27 *)
Theorem C27_spectrum : forall (N : Num) eigh dt (v xf : list N) idx fs f,
  ssa eigh v fs f = Ok xf -> length xf = length v -> in_bounds (zlen v) idx ->
  exists r, repl_ssa eigh dt v idx fs f = Ok r /\ length r = length v /\
    forall k d, (k < length v)%nat -> (flagged (zlen v) idx k -> nth k r d = store dt (nth k xf d)) /\ (~ flagged (zlen v) idx k -> nth k r d = nth k v d).
Proof. exact ssa_repl_value. Qed.
Print Assumptions C27_spectrum.
Theorem C27_spectrum_raises : forall (N : Num) eigh dt (v : list N) idx fs f e,
  ssa eigh v fs f = Raise e -> repl_ssa eigh dt v idx fs f = Raise e.
Proof. exact ssa_repl_raises. Qed.
Print Assumptions C27_spectrum_raises.
Theorem C27_spectrum_identity : forall (eigh : @matrix XR -> res (@matrix XR)) (x : list R) (fs f : R) (E : list (list R)) (L K : nat) idx,
  (f <> 0)%R -> (fs <> 0)%R -> Zceil (fs / f) = Z.of_nat L -> (2 <= L)%nat -> (1 <= K)%nat -> length x = (L + K - 1)%nat ->
  mshape E L L -> eigh (finm (rtrajcov x L K)) = Ok (finm E) -> orthonormal_cols E L -> rmob_den (rdummy fs f L) <> 0%R ->
  (forall i, (i < L)%nat -> rmob_den (mcol E i) <> 0%R /\ (rmobility (mcol E i) <= rmobility (rdummy fs f L))%R) -> in_bounds (zlen x) idx ->
  exists r, repl_ssa eigh DFloat (fins x) idx (Fin fs) (Fin f) = Ok (fins r) /\ length r = length x /\
    forall k, (k < length x)%nat -> (flagged (zlen x) idx k -> nth k r 0%R = round_dec 4 (nth k x 0%R)) /\ (~ flagged (zlen x) idx k -> nth k r 0%R = nth k x 0%R).
Proof. exact ssa_repl_identity. Qed.
Print Assumptions C27_spectrum_identity.
Example C27_spectrum_run : let eigh := fun _ => Ok (map ints [[1; 0]; [0; 1]]%Z) in
  back (repl_ssa eigh DFloat (ints [3; 9; 4; 6; 5]%Z) [1; -1]%Z (nofZ 3) (nofZ 2)) = [3; 9; 4; 6; 5]%Z /\
  (match repl_ssa eigh DFloat (ints [3; 9; 4; 6; 5]%Z) [1; -1]%Z (nofZ 2) (nofZ 3) with Raise ValueError => true | _ => false end) = true.
Proof. split; vm_compute; reflexivity. Qed.

(** ** C89 *)
Theorem C89_nan : forall (N : Num) regress (v : list N) i j rest window degree decimals,
  (forall a b s d, exists x, regress a b s d = Ok x /\ nisnan x = true) ->
  11 <= i < zlen v -> 1 <= window ->
  polynomial_replacement regress DInt v (i :: j :: rest) window degree decimals = Raise ValueError.
Proof. exact poly_nan_int. Qed.
Print Assumptions C89_nan.
Example C89_nan_nonvacuous : let regress := fun (_ : list NF) (_ : list Z) (_ _ : Z) => Ok (@nnan NF) in
  (match polynomial_replacement regress DInt (ints (repeat 1%Z 20)) [12; 15]%Z 5 2 4 with Raise ValueError => true | _ => false end) = true /\
  (match polynomial_replacement regress DFloat (ints (repeat 1%Z 20)) [12; 15]%Z 5 2 4 with Ok r => map nisnan r | Raise _ => [] end) =
    repeat false 12 ++ [true; false; false; true] ++ repeat false 4.
Proof. split; vm_compute; reflexivity. Qed.
(** Regression: unflagged samples are kept as they are, flagged ones get the prediction from the repaired integer
    samples before them, truncated. *)
Theorem C89_polynomial : forall (N : Num) regress (v : list N) idx window degree dec r, 0 < window -> 0 <= dec ->
  StronglySorted Z.lt idx -> (forall i, In i idx -> 11 <= i < zlen v) ->
  polynomial_replacement regress DInt v idx window degree dec = Ok r ->
  length r = length v /\
  (forall i, 0 <= i < zlen v -> ~ In i idx -> nth (Z.to_nat i) r nnan = nth (Z.to_nat i) v nnan) /\
  (forall i, In i idx -> let lo := if i <? window then 0 else i - window in
     exists x, regress (firstn (Z.to_nat (i - lo)) (skipn (Z.to_nat lo) r)) (zrange lo i) i degree = Ok x /\
       nisnan x = false /\ nth (Z.to_nat i) r nnan = ntrunc x).
Proof. exact poly_int. Qed.
Print Assumptions C89_polynomial.
(** Half of the last repaired sample plus one: 11 / 2 at 13 is cut to 5, then 6 / 2 at 14 and 4 / 2 at 15. *)
Example C89_polynomial_nonvacuous :
  let regress := fun (y : list NF) (_ : list Z) (_ _ : Z) => Ok (ndiv (nadd (last y nnan) (nofZ 1)) (nofZ 2)) in
  back (polynomial_replacement regress DInt (ints [0;1;2;3;4;5;6;7;8;9;10;11;10;99;98;97]%Z) [13; 14; 15]%Z 5 2 4)
    = [0;1;2;3;4;5;6;7;8;9;10;11;10;5;3;2]%Z.
Proof. vm_compute. reflexivity. Qed.
