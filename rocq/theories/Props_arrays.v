(** Property theorems C109 to C111 (lists and arrays of any dimension, integer arrays, shapes in the Kalman filter). *)
From Coq Require Import Reals Lra Lia.
From Flocq Require Import Core IEEE754.BinarySingleNaN.
From Verif Require Import Num Lib XR F64 F64ex Spec Spec6 Spec9 Spec16 M_arrays M_kalman P_series P_fsum P_arrays P_intmean P_kalmannd P_arrays2.
Import ListNotations.
Local Open Scope R_scope.

Local Notation NF := (F64 libm_ex).

(** ** C109 *)
(** The flattening promised by the docstring does not take place. *)
Theorem C109_refuted : forall (N : Num) parse d (items : list (pyval N)),
  (2 <= d)%Z -> existsb is_str items = false ->
  kurtosis_c parse (CArr (NDA d items)) = Raise ValueError /\ skewness_c parse (CArr (NDA d items)) = Raise ValueError.
Proof. exact kurtosis_not_flattened. Qed.
Print Assumptions C109_refuted.
(** Where the documented array_like excludes Python lists. *)
Theorem C109_lists : forall (N : Num) parse (items : list (pyval N)),
  existsb is_str items = false ->
  variance_c (CList items) = Raise AttributeError /\ std_c (CList items) = Raise AttributeError /\
  median_c (CList items) = Raise AttributeError /\ skewness_c parse (CList items) = Raise AttributeError.
Proof. exact lists_rejected. Qed.
Print Assumptions C109_lists.
Theorem C109_kurtosis : forall (N : Num) parse (items : list (pyval N)) xs,
  items <> [] -> mapM to_num items = Ok xs ->
  kurtosis_c parse (CList items) = kurtosis_c parse (CArr (NDA 1 items)) /\ kurtosis_c parse (CList items) = moment_kurtosis xs.
Proof. exact kurtosis_accepts_lists. Qed.
Print Assumptions C109_kurtosis.
Theorem C109_nan : forall (N : Num) parse (l : list N),
  nan_laws N -> pow_nan N ->
  (exists x, In x l /\ nisnan x = true) ->
  exists v, kurtosis_c parse (CArr (farr l)) = Ok v /\ nisnan v = true.
Proof. exact kurtosis_nan. Qed.
Print Assumptions C109_nan.
(** On one-dimensional arrays it is the skewness of the method of moments of C05. *)
Theorem C109_skewness : forall (N : Num) parse (items : list (pyval N)) xs,
  items <> [] -> mapM to_num items = Ok xs ->
  skewness_c parse (CArr (NDA 1 items)) = moment_skewness xs.
Proof. exact skewness_values. Qed.
Print Assumptions C109_skewness.
(** The docstring's list, kurtosis 2.2 (rounded up from the binary64 value times ten), and the same numbers as two rows. *)
Example C109_nonvacuous : let l := map (@PyInt NF) [1; 2; 2; 3; 3; 3; 4; 4; 4; 4]%Z in
  (match kurtosis_c (fun _ => None) (CList l) with Ok v => Some (nceilZ (nmul v (@nofZ NF 10))) | Raise _ => None end) = Some 22%Z /\
  kurtosis_c (fun _ => None) (CArr (NDA 2 l)) = Raise ValueError /\ skewness_c (fun _ => None) (CList l) = Raise AttributeError.
Proof. vm_compute. repeat split. Qed.
Example C109_nan_nonvacuous : nan_laws XR /\ pow_nan XR /\ kurtosis_c (fun _ => None) (CArr (farr [Fin 1; NaN; Fin 2])) = @Ok XR NaN.
Proof.
  split; [|split].
  - exact XR_nan.
  - intros [r|b|] n H; try discriminate H. reflexivity.
  - reflexivity.
Qed.

(** ** C110 *)
Theorem C110_refuted : forall (L : Libm),
  exists zs (m : F64 L), (forall z, In z zs -> (0 < z < 2 ^ 63)%Z) /\ @int_mean (F64 L) zs = Ok (MVal m) /\ B2R (m : f64) = - IZR (2 ^ 62).
Proof. exact int_mean_refuted. Qed.
Print Assumptions C110_refuted.
Theorem C110_accurate : forall (L : Libm) (zs : list Z),
  zs <> [] -> (zlen zs <= 2 ^ 53)%Z -> (- 2 ^ 63 <= zsum zs < 2 ^ 63)%Z ->
  exists m : F64 L, @int_mean (F64 L) zs = Ok (MVal m) /\ is_finite m = true /\
    let exact := IZR (zsum zs) / IZR (zlen zs) in Rabs (B2R m - exact) <= bpow radix2 (-51) * Rabs exact.
Proof. exact int_mean_accurate. Qed.
Print Assumptions C110_accurate.
Theorem C110_range : forall (l : list Z) B,
  (forall z, In z l -> (Z.abs z <= B)%Z) -> (zlen l * B < 2 ^ 63)%Z -> (- 2 ^ 63 <= zsum l < 2 ^ 63)%Z.
Proof. exact int_mean_bound. Qed.
Print Assumptions C110_range.
Theorem C110_same : forall (L : Libm) (parse : string -> option (F64 L)) (zs : list Z),
  sums_somehow L -> zs <> [] -> (zsum (map Z.abs zs) <= 2 ^ 53)%Z ->
  exists m : F64 L, @int_mean (F64 L) zs = Ok (MVal m) /\ desc_mean parse (ASeq (map PyInt zs)) = Ok (MVal m).
Proof. exact int_mean_same. Qed.
Print Assumptions C110_same.
Theorem C110_empty : forall (N : Num) (parse : string -> option N),
  @int_mean N [] = Ok MInvalid /\ desc_mean parse (ASeq (map PyInt [])) = Ok MInvalid.
Proof. exact int_mean_empty. Qed.
Print Assumptions C110_empty.
(** A million samples of up to a trillion stay in range; 2, 3 and -9 have the mean -4/3, in (-2, -1]. *)
Example C110_nonvacuous : (1000000 * 10 ^ 12 < 2 ^ 63)%Z /\ sums_somehow libm_basic /\
  (match @int_mean NF [2; 3; -9]%Z with Ok (MVal m) => Some (nceilZ m) | _ => None end) = Some (-1)%Z /\ (zsum (map Z.abs [2; 3; -9]) <= 2 ^ 53)%Z.
Proof. split; [reflexivity|]. split; [exact libm_basic_sums|]. vm_compute. split; [reflexivity|discriminate]. Qed.

(** ** C111 *)
(** A state of two components with its 2x2 covariance cannot be filtered. *)
Theorem C111_refuted : forall (N : Num) inv data (st cv Q R : arr N),
  data <> [] -> ~ one_row st \/ ~ one_entry cv \/ ~ one_entry Q ->
  kalman_nd inv data st cv Q R = Raise ValueError.
Proof. exact kalman_value. Qed.
Print Assumptions C111_refuted.
Theorem C111_parallel : forall (N : Num) inv data (st cv Q R : arr N) l c q r,
  row st l -> single cv c -> single Q q -> single R r -> ~ is_vector cv \/ is_matrix Q \/ is_matrix R ->
  (exists outs, kalman_nd inv data st cv Q R = Ok outs /\ length outs = length data /\
     exists rows, Forall2 row outs rows /\ forall j x, nth_error l j = Some x ->
       exists ys, kalman_filter data x c q r = Ok ys /\ map (fun k => nth_error k j) rows = map Some ys) \/
  (kalman_nd inv data st cv Q R = Raise LinAlgError /\ forall x, kalman_filter data x c q r = Raise LinAlgError).
Proof. exact kalman_shapes. Qed.
Print Assumptions C111_parallel.
Theorem C111_vectors : forall (N : Num) inv data (st Q R : arr N) c,
  data <> [] -> one_row st -> one_entry Q -> one_entry R -> ~ is_matrix Q -> ~ is_matrix R ->
  kalman_nd inv data st (A1 [c]) Q R = Raise LinAlgError.
Proof. exact kalman_linalg. Qed.
Print Assumptions C111_vectors.
Theorem C111_noise : forall (N : Num) inv data (st cv Q R : arr N),
  data <> [] -> ~ one_entry R ->
  kalman_nd inv data st cv Q R = Raise ValueError \/ kalman_nd inv data st cv Q R = Raise LinAlgError.
Proof. exact kalman_noise. Qed.
Print Assumptions C111_noise.
(** The array operations the filter is made of. *)
Theorem C111_dot : 
  (forall l k, @np_dot XR (A1 (fins l)) (A1 (fins k)) = if (length l =? length k)%nat then Ok (A0 (Fin (rdot l k) : XR)) else Raise ValueError) /\
  (forall l c m, @np_dot XR (A1 (fins l)) (A2 (length m) c (finm m)) =
     if (length l =? length m)%nat then Ok (A1 (fins (map (fun j => rdot l (rcolumn j m)) (seq 0 c)))) else Raise ValueError) /\
  (forall m c l, (forall row, In row m -> length row = c) -> @np_dot XR (A2 (length m) c (finm m)) (A1 (fins l)) =
     if (c =? length l)%nat then Ok (A1 (fins (map (fun row => rdot row l) m))) else Raise ValueError) /\
  (forall m c k d, (forall row, In row m -> length row = c) -> @np_dot XR (A2 (length m) c (finm m)) (A2 (length k) d (finm k)) =
     if (c =? length k)%nat then Ok (A2 (length m) d (finm (map (fun row => map (fun j => rdot row (rcolumn j k)) (seq 0 d)) m))) else Raise ValueError) /\
  (forall (x : R) a, @np_dot XR (A0 (Fin x : XR)) a = Ok (amap (nmul (Fin x : XR)) a)) /\
  (forall (x : R) a, @np_dot XR a (A0 (Fin x : XR)) = Ok (amap (fun y => nmul y (Fin x : XR)) a)).
Proof. exact dot_exact. Qed.
Print Assumptions C111_dot.
Theorem C111_broadcast : forall (N : Num) (f : N -> N -> N) (a b : arr N),
  let '(ra, ca) := shape2 a in
  let '(rb, cb) := shape2 b in
  (~ (dims_fit ra rb /\ dims_fit ca cb) -> M_kalman.bcast f a b = Raise ValueError) /\
  (dims_fit ra rb -> dims_fit ca cb -> exists v, M_kalman.bcast f a b = Ok v /\ ndim v = Nat.max (ndim a) (ndim b) /\
     shape2 v = ((if (ra =? 1)%nat then rb else ra), (if (ca =? 1)%nat then cb else ca)) /\
     forall i j, (i < fst (shape2 v))%nat -> (j < snd (shape2 v))%nat ->
       at2 v i j = f (at2 a (i mod ra)%nat (j mod ca)%nat) (at2 b (i mod rb)%nat (j mod cb)%nat)).
Proof. exact broadcast_spec. Qed.
Print Assumptions C111_broadcast.
Theorem C111_parts : forall (N : Num) inv,
  (forall x : N, np_inv inv (A0 x) = Raise LinAlgError /\ np_len (A0 x) = Raise TypeError) /\
  (forall l : list N, np_inv inv (A1 l) = Raise LinAlgError /\ np_len (A1 l) = Ok (length l)) /\
  (forall r c (m : list (list N)), np_len (A2 r c m) = Ok r /\ (r <> c -> np_inv inv (A2 r c m) = Raise LinAlgError)) /\
  (forall x : N, np_inv inv (A2 1 1 [[x]]) = if neqb x (nofZ 0) then Raise LinAlgError else Ok (A2 1 1 [[ndiv (nofZ 1) x]])) /\
  (forall n (m : list (list N)), n <> 1%nat -> np_inv inv (A2 n n m) = match inv m with Some k => Ok (A2 n n k) | None => Raise LinAlgError end) /\
  (forall n, shape2 (@np_eye N n) = (n, n) /\ ndim (@np_eye N n) = 2%nat /\
     (forall i, (i < n)%nat -> at2 (@np_eye N n) i i = nofZ 1) /\ (forall i j, (i < n)%nat -> (j < n)%nat -> i <> j -> at2 (@np_eye N n) i j = nofZ 0)).
Proof. exact parts_spec. Qed.
Print Assumptions C111_parts.
(** Two measurements 4 and 2 filtered from the states 0 and 2 at once, with covariance 1, no process noise and noise 1: gains 1/2 and
    1/3. *)
Example C111_nonvacuous : let no := fun _ => None in
  (match kalman_nd no [@nofZ NF 4; nofZ 2] (A2 1 2 [[nofZ 0; nofZ 2]]) (A0 (nofZ 1)) (A1 [nofZ 0]) (A2 1 1 [[nofZ 1]]) with
   | Ok [A2 _ _ [[a; b]]; A2 _ _ [[c; d]]] => Some (map nceilZ [a; b; nmul c (nofZ 100); nmul d (nofZ 100)]) | _ => None end) = Some [2; 3; 200; 267]%Z /\
  kalman_nd no [@nofZ NF 4; nofZ 2] (A1 [nofZ 0; nofZ 2]) (A2 2 2 [[nofZ 1; nofZ 0]; [nofZ 0; nofZ 1]]) (A0 (nofZ 0)) (A0 (nofZ 1)) = Raise ValueError /\
  kalman_nd no [@nofZ NF 4] (A0 (nofZ 0)) (A1 [nofZ 1]) (A0 (nofZ 0)) (A0 (nofZ 1)) = Raise LinAlgError.
Proof.
  cbv zeta. split; [vm_compute; reflexivity|]. split.
  - apply kalman_value; [discriminate|]. left. intros H. discriminate H.
  - apply kalman_linalg; cbn [one_row one_entry is_matrix]; (discriminate || tauto).
Qed.
Example C109_skewness_nonvacuous : mapM to_num [PyInt 1; PyInt 1; @PyFloat XR (Fin 4)] = Ok [Fin 1; Fin 1; Fin 4] /\
  (match moment_skewness [@nofZ NF 1; nofZ 1; nofZ 4] with Ok v => Some (nceilZ (nmul v (@nofZ NF 100))) | Raise _ => None end) = Some 71%Z.
Proof. split; [reflexivity|]. vm_compute. reflexivity. Qed.
(** (1, 2) times the columns (3, 5) and (4, 6); a row plus a column is a table; lengths 2 and 3 do not fit. *)
Example C111_dot_nonvacuous : rdot [1; 2] (rcolumn 0 [[3; 4]; [5; 6]]) = 13 /\ rdot [1; 2] (rcolumn 1 [[3; 4]; [5; 6]]) = 16 /\
  (match M_kalman.bcast nadd (A1 [@nofZ NF 1; nofZ 2]) (A2 2 1 [[nofZ 10]; [nofZ 20]]) with Ok (A2 2 2 m) => map (map nceilZ) m | _ => [] end)
    = [[11; 12]; [21; 22]]%Z /\ ~ dims_fit 2 3.
Proof.
  split; [unfold rdot; cbn; ring|]. split; [unfold rdot; cbn; ring|]. split; [vm_compute; reflexivity|]. intros [H|[H|H]]; discriminate H.
Qed.
