(** Property theorems C01-C09 (descriptive.py, spread.py, moment.py, fluid.py). *)
From Coq Require Import Reals Lra.
From Flocq Require Import Core.Raux.
From Verif Require Import P_moment.
Local Open Scope R_scope.

(** ** C01 *)
Theorem C01_min : forall (N : Num), ord_laws N -> forall data : list (pyval N),
  ((exists s, In (PyStr s) data) -> desc_min data = Raise TypeError) /\
  (forall xs, Forall2 denotes data xs ->
    ((xs = [] \/ exists x, In x xs /\ nisnan x = true) -> desc_min data = Raise ValueError) /\
    (xs <> [] -> (forall x, In x xs -> nisnan x = false) ->
      exists m, desc_min data = Ok m /\ In m xs /\ forall x, In x xs -> nleb m x = true)).
Proof. exact @min_correct. Qed.
Print Assumptions C01_min.

Theorem C01_max : forall (N : Num), ord_laws N -> forall data : list (pyval N),
  ((exists s, In (PyStr s) data) -> desc_max data = Raise TypeError) /\
  (forall xs, Forall2 denotes data xs ->
    ((xs = [] \/ exists x, In x xs /\ nisnan x = true) -> desc_max data = Raise ValueError) /\
    (xs <> [] -> (forall x, In x xs -> nisnan x = false) ->
      exists m, desc_max data = Ok m /\ In m xs /\ forall x, In x xs -> nleb x m = true)).
Proof. exact @max_correct. Qed.
Print Assumptions C01_max.

(** The order laws hold of binary64 (any libm) and of exact arithmetic. *)
Theorem C01_order_laws_binary64 : forall L : Libm, ord_laws (F64 L).
Proof. exact F64_ord. Qed.
Print Assumptions C01_order_laws_binary64.
Theorem C01_order_laws_exact : ord_laws XR.
Proof. exact XR_ord. Qed.
Print Assumptions C01_order_laws_exact.

Example C01_nonvacuous : exists xs : list (F64 libm_basic),
  Forall2 denotes [PyInt 3; NpInt (-2); PyFloat (lit 15 1)] xs /\ xs <> [] /\ (forall x, In x xs -> nisnan x = false).
Proof.
  eexists. split; [repeat constructor|]. split; [discriminate|].
  intros x [<-|[<-|[<-|[]]]]; vm_compute; reflexivity.
Qed.

(** ** C02 *)
Theorem C02_mean_numeric : forall (N : Num) (parse : string -> option N) (data : list (pyval N)) (xs : list N),
  Forall2 denotes data xs -> xs <> [] ->
  desc_mean parse (ASeq data) = Ok (MVal (ndiv (nsum xs) (nofZ (zlen xs)))).
Proof. exact @mean_numeric. Qed.
Print Assumptions C02_mean_numeric.

Theorem C02_mean_exact : forall (parse : string -> option XR) (data : list (pyval XR)) (l : list R),
  Forall2 denotes data (fins l) -> l <> [] ->
  desc_mean parse (ASeq data) = Ok (MVal (Fin (Rsum l / INR (length l)))).
Proof. exact mean_exact. Qed.
Print Assumptions C02_mean_exact.

Theorem C02_mean_number : forall (N : Num) (parse : string -> option N) (v : pyval N),
  (exists z, v = PyInt z) \/ (exists x, v = PyFloat x) -> desc_mean parse (ANum v) = Ok (MSame v).
Proof. exact @mean_number. Qed.
Print Assumptions C02_mean_number.

Theorem C02_mean_empty : forall (N : Num) (parse : string -> option N), desc_mean parse (ASeq []) = Ok MInvalid.
Proof. exact @mean_empty. Qed.
Print Assumptions C02_mean_empty.

Example C02_nonvacuous : Forall2 denotes [PyInt 3; NpInt (-2); PyFloat (Fin (1/2))] (fins [3; -2; 1/2]).
Proof.
  constructor; [exact (den_int 3)|]. constructor; [exact (den_npint (-2))|]. constructor; [exact (den_float _)|]. constructor.
Qed.

(** ** C03 *)
Theorem C03_all_strings_parse : forall (N : Num) (parse : string -> option N) (data : list (pyval N)) (xs : list N),
  Forall2 (converted parse) data xs -> xs <> [] ->
  desc_mean parse (ASeq data) = Ok (MVal (ndiv (nsum xs) (nofZ (zlen xs)))).
Proof. exact @mean_all_parse. Qed.
Print Assumptions C03_all_strings_parse.

(** After the first unparseable string: NumPy integers and all later strings are dropped. *)
Theorem C03_first_unparseable : forall (N : Num) (parse : string -> option N) pre bad post xs ys,
  parse bad = None -> kept_pre parse pre xs -> kept_post post ys ->
  desc_mean parse (ASeq (pre ++ PyStr bad :: post)) = Ok (MVal (ndiv (nsum (xs ++ ys)) (nofZ (zlen (xs ++ ys))))).
Proof. exact @mean_fail. Qed.
Print Assumptions C03_first_unparseable.

(** The documented reading ("strings that are numbers are used, the others ignored") is violated:
    [mean([1, 'x', '5'])] is 1.0 although 'x' alone is to be ignored, and [mean(['x','5'])] is NaN. *)
Theorem C03_documented_refuted : exists (parse : string -> option XR) (bad good : string),
  parse bad = None /\ parse good = Some (Fin 5) /\
  desc_mean parse (ASeq [PyInt 1; PyStr bad; PyStr good]) = Ok (MVal (Fin 1)) /\
  desc_mean parse (ASeq [PyInt 1; PyStr good; PyStr bad]) = Ok (MVal (Fin 3)) /\
  desc_mean parse (ASeq [PyStr bad; PyStr good]) = Ok (MVal NaN) /\
  desc_mean parse (ASeq [NpInt 7; PyInt 1; PyStr bad]) = Ok (MVal (Fin 1)).
Proof. exact mean_documented_refuted. Qed.
Print Assumptions C03_documented_refuted.

Example C03_nonvacuous : exists parse : string -> option XR,
  kept_pre parse [PyInt 1; PyStr "2"; NpInt 9] [Fin 1; Fin 2] /\ kept_post [PyStr "3"; PyFloat (Fin 4)] [Fin 4] /\
  parse "x"%string = None.
Proof.
  exists (fun s => if String.eqb s "2" then Some (Fin 2) else None). split; [|split; [|reflexivity]].
  - exact (kp_int _ 1 _ _ (kp_str _ "2" (Fin 2) _ _ eq_refl (kp_npint _ 9 _ _ (kp_nil _)))).
  - apply kq_str. exact (kq_float (Fin 4) _ _ kq_nil).
Qed.

(** ** C04 *)
Theorem C04_median : forall l s : list R, l <> [] -> is_sorting s l ->
  @desc_median XR (farr (fins l)) = Ok (Fin (rmiddle s)).
Proof. exact median_correct. Qed.
Print Assumptions C04_median.

Theorem C04_median_halves : forall l : list R, l <> [] ->
  exists m, @desc_median XR (farr (fins l)) = Ok (Fin m) /\
    (length l <= 2 * rcount (fun x => Rle_bool x m) l)%nat /\
    (length l <= 2 * rcount (fun x => Rle_bool m x) l)%nat /\
    (exists x, In x l /\ x <= m) /\ (exists y, In y l /\ m <= y).
Proof. exact median_halves. Qed.
Print Assumptions C04_median_halves.

Theorem C04_median_order_free : forall l m : list R, l <> [] -> Permutation l m ->
  @desc_median XR (farr (fins l)) = @desc_median XR (farr (fins m)).
Proof. exact median_perm. Qed.
Print Assumptions C04_median_order_free.

Theorem C04_median_errors : forall (N : Num) (d : nda N),
  (nd_ndim d <> 1%Z -> desc_median d = Raise ValueError) /\
  (nd_ndim d = 1%Z -> (exists s, In (PyStr s) (nd_items d)) -> desc_median d = Raise TypeError) /\
  (nd_ndim d = 1%Z -> nd_items d = [] -> desc_median d = Raise ValueError).
Proof. exact @median_errors. Qed.
Print Assumptions C04_median_errors.

Example C04_nonvacuous : is_sorting [1; 2; 3; 7] [3; 1; 7; 2] /\ rmiddle [1; 2; 3; 7] = 5 / 2.
Proof.
  split; [split|].
  - apply perm_trans with [1; 3; 7; 2]; [apply perm_swap|]. apply perm_skip.
    apply perm_trans with [3; 2; 7]; [apply perm_skip, perm_swap | apply perm_swap].
  - repeat (constructor; try lra).
  - unfold rmiddle. cbn. lra.
Qed.

(** ** C05 *)
Theorem C05_mode : forall (N : Num), ord_laws N -> forall data : list N, data <> [] ->
  exists v k, desc_mode data = Ok (v, k) /\ In v data /\ k = vcount v data /\
    forall w, In w data -> (vcount w data <= k)%nat /\
      (vcount w data = k -> nisnan w = true \/ nleb v w = true).
Proof. exact @mode_correct. Qed.
Print Assumptions C05_mode.

Theorem C05_mode_empty : forall N : Num, @desc_mode N [] = Raise ValueError.
Proof. exact mode_empty. Qed.
Print Assumptions C05_mode_empty.

Example C05_nonvacuous :
  match @desc_mode (F64 libm_basic) (map (@nofZ (F64 libm_basic)) [7; 2; 3; 3; 2; 9]%Z) with
  | Ok (v, k) => f64_floorZ v = 2%Z /\ k = 2%nat
  | Raise _ => False
  end.
Proof. vm_compute. split; reflexivity. Qed.

(** ** C06 *)
Theorem C06_variance : forall l : list R, l <> [] ->
  @spread_variance XR (farr (fins l)) = Ok (Fin (rmean (map (fun x => (x - rmean l) ^ 2) l))) /\
  @spread_std XR (farr (fins l)) = Ok (Fin (sqrt (rmean (map (fun x => (x - rmean l) ^ 2) l)))) /\
  0 <= rmean (map (fun x => (x - rmean l) ^ 2) l) /\
  (rmean (map (fun x => (x - rmean l) ^ 2) l) = 0 <-> forall x y, In x l -> In y l -> x = y).
Proof. exact variance_std_correct. Qed.
Print Assumptions C06_variance.

Theorem C06_affine : forall (l : list R) (a b : R), l <> [] ->
  exists v s, @spread_variance XR (farr (fins l)) = Ok (Fin v) /\ @spread_std XR (farr (fins l)) = Ok (Fin s) /\
    @spread_variance XR (farr (fins (map (fun x => a * x + b) l))) = Ok (Fin (a ^ 2 * v)) /\
    @spread_std XR (farr (fins (map (fun x => a * x + b) l))) = Ok (Fin (Rabs a * s)).
Proof. exact variance_std_affine. Qed.
Print Assumptions C06_affine.

Theorem C06_errors : forall (N : Num) (d : nda N),
  (nd_ndim d <> 1%Z -> spread_variance d = Raise ValueError /\ spread_std d = Raise ValueError) /\
  (nd_ndim d = 1%Z -> (exists s, In (PyStr s) (nd_items d)) -> spread_variance d = Raise TypeError /\ spread_std d = Raise TypeError) /\
  (nd_ndim d = 1%Z -> nd_items d = [] -> spread_variance d = Raise ValueError /\ spread_std d = Raise ValueError).
Proof. exact @spread_errors. Qed.
Print Assumptions C06_errors.

Example C06_nonvacuous : rmean (map (fun x => (x - rmean [1; 2; 3; 6]) ^ 2) [1; 2; 3; 6]) = 7 / 2.
Proof. unfold rmean. cbn. lra. Qed.
Example C06_run : let d := farr (map (@nofZ (F64 libm_basic)) [1; 2; 3; 6; 3; 3]%Z) in
  match spread_variance d, spread_std d with Ok v, Ok s => nfloorZ (nmul v (nofZ 1000)) = 2333%Z /\ nfloorZ (nmul s (nofZ 1000)) = 1527%Z | _, _ => False end.
Proof. vm_compute. split; reflexivity. Qed.

(** ** C07 *)
Theorem C07_skewness : forall l : list R, l <> [] -> rvar l <> 0 ->
  @moment_skewness XR (fins l) = Ok (Fin (rmean (map (fun x => (x - rmean l) ^ 3) l) / sqrt (rvar l) ^ 3)).
Proof. exact skewness_correct. Qed.
Print Assumptions C07_skewness.

Theorem C07_skewness_affine : forall (l : list R) (a b : R), l <> [] -> rvar l <> 0 -> a <> 0 ->
  exists s, @moment_skewness XR (fins l) = Ok (Fin s) /\
    @moment_skewness XR (fins (map (fun x => a * x + b) l)) = Ok (Fin (if Rlt_bool a 0 then - s else s)).
Proof. exact skewness_affine. Qed.
Print Assumptions C07_skewness_affine.

Theorem C07_skewness_symmetric : forall (l : list R) (c : R), l <> [] -> rvar l <> 0 ->
  Permutation l (map (fun x => 2 * c - x) l) -> @moment_skewness XR (fins l) = Ok (Fin 0).
Proof. exact skewness_symmetric. Qed.
Print Assumptions C07_skewness_symmetric.

Theorem C07_skewness_constant : forall l : list R, l <> [] -> rvar l = 0 -> @moment_skewness XR (fins l) = Ok NaN.
Proof. exact skewness_constant. Qed.
Print Assumptions C07_skewness_constant.

Example C07_nonvacuous : rvar [0; 0; 3] = 2 /\ Permutation [0; 1; 2] (map (fun x => 2 * 1 - x) [0; 1; 2]).
Proof.
  split; [unfold rvar, rmoment, rmean; cbn; lra|]. cbn.
  replace (2 * 1 - 0) with 2 by ring. replace (2 * 1 - 1) with 1 by ring. replace (2 * 1 - 2) with 0 by ring.
  apply perm_trans with [1; 0; 2]; [apply perm_swap|]. apply perm_trans with [1; 2; 0]; [apply perm_skip, perm_swap | apply perm_swap].
Qed.

(** ** C08 *)
Theorem C08_kurtosis : forall l : list R, l <> [] -> rvar l <> 0 ->
  @moment_kurtosis XR (fins l) = Ok (Fin (rmean (map (fun x => (x - rmean l) ^ 4) l) / sqrt (rvar l) ^ 4)).
Proof. exact kurtosis_correct. Qed.
Print Assumptions C08_kurtosis.

Theorem C08_kurtosis_affine : forall (l : list R) (a b : R), l <> [] -> rvar l <> 0 -> a <> 0 ->
  @moment_kurtosis XR (fins (map (fun x => a * x + b) l)) = @moment_kurtosis XR (fins l).
Proof. exact kurtosis_affine. Qed.
Print Assumptions C08_kurtosis_affine.

Theorem C08_pearson : forall l : list R, l <> [] -> rvar l <> 0 ->
  exists s k, @moment_skewness XR (fins l) = Ok (Fin s) /\ @moment_kurtosis XR (fins l) = Ok (Fin k) /\ 1 + s ^ 2 <= k.
Proof. exact skew_kurt_pearson. Qed.
Print Assumptions C08_pearson.

Example C08_nonvacuous : [0; 0; 3] <> [] /\ rvar [0; 0; 3] <> 0.
Proof. split; [discriminate|]. unfold rvar, rmoment, rmean. cbn. lra. Qed.
Example C08_run : let l := map (@nofZ (F64 libm_basic)) [0; 0; 3; 1]%Z in
  match moment_skewness l, moment_kurtosis l with Ok a, Ok b => nfloorZ (nmul a (nofZ 1000)) = 816%Z /\ nfloorZ (nmul b (nofZ 1000)) = 2000%Z | _, _ => False end.
Proof. vm_compute. split; reflexivity. Qed.

(** ** C09 *)
Theorem C09_tke : forall u v w : list R, u <> [] -> v <> [] -> w <> [] ->
  @kinetic_turbulent_energy XR (fins u) (fins v) (fins w) = Ok (Fin ((rvar u + rvar v + rvar w) / 2)) /\
  0 <= (rvar u + rvar v + rvar w) / 2.
Proof. exact tke_nonneg. Qed.
Print Assumptions C09_tke.

Theorem C09_tke_mean_flow : forall (u v w : list R) (a b c : R), u <> [] -> v <> [] -> w <> [] ->
  @kinetic_turbulent_energy XR (fins (map (fun x => x + a) u)) (fins (map (fun x => x + b) v)) (fins (map (fun x => x + c) w)) =
  @kinetic_turbulent_energy XR (fins u) (fins v) (fins w).
Proof. exact tke_shift. Qed.
Print Assumptions C09_tke_mean_flow.

Theorem C09_reynolds : forall u v w : list R, u <> [] -> length u = length v -> length u = length w ->
  @reynolds_stresses XR (fins u) (fins v) (fins w) =
    Ok (Fin (rvar u), Fin (rvar v), Fin (rvar w), Fin (rcov u v), Fin (rcov u w), Fin (rcov v w)).
Proof. exact reynolds_correct. Qed.
Print Assumptions C09_reynolds.

Theorem C09_covariance : forall u v : list R, u <> [] -> length u = length v ->
  rcov u v = rcov v u /\ rcov u v ^ 2 <= rvar u * rvar v /\ rcov u u = rvar u.
Proof. exact rcov_props. Qed.
Print Assumptions C09_covariance.

Theorem C09_errors : forall (N : Num) (v w : list N),
  kinetic_turbulent_energy [] v w = Raise TypeError /\ reynolds_stresses [] v w = Raise TypeError.
Proof. exact fluid_empty. Qed.
Print Assumptions C09_errors.

Example C09_nonvacuous : rcov [0; 2; 4] [1; 5; 0] = - (2 / 3) /\ rvar [0; 2; 4] = 8 / 3.
Proof. unfold rcov, rvar, rmoment, rmean. cbn. lra. Qed.
Example C09_run : let f := map (@nofZ (F64 libm_basic)) in
  match kinetic_turbulent_energy (f [0; 2; 4]%Z) (f [1; 5; 0]%Z) (f [1; 1; 1]%Z) with Ok a => nfloorZ (nmul a (nofZ 1000)) = 3666%Z | _ => False end /\
  match reynolds_stresses (f [0; 2; 4]%Z) (f [1; 5; 0]%Z) (f [1; 1; 1]%Z) with
  | Ok (a, b, c, d, e, g) => map (fun x => nceilZ (nsub (nmul x (nofZ 100)) (ndiv (nofZ 1) (nofZ 2)))) [a; b; c; d; e; g] = [267; 467; 0; -67; 0; 0]%Z | _ => False end.
Proof. vm_compute. split; reflexivity. Qed.
