(** Property theorem C112 (matrices of zeros and arrays of gains in butter.py xyz_to_ptf). *)
From Coq Require Import Reals Lra Lia.
From Coquelicot Require Import Complex.
From Verif Require Import Num Lib XR F64 F64ex M_butter M_ptf Spec3 Spec10 P_ptf.
Import ListNotations.
Local Open Scope R_scope.

Local Notation NF := (F64 libm_ex).

(** ** C112 *)
(** The second row has the zero i, the returned polynomial does not vanish there. *)
Theorem C112_refuted : 
  exists xs y g h z, @ptf_rows XR 1 (map cfs xs) (cfs y) (fins [1]) = Ok (map cfs g, h) /\
  nth_error xs 1 = Some [z] /\ exists g1, nth_error g 1 = Some g1 /\ polyval g1 z <> RtoC 0.
Proof. exact ptf_rows_refuted. Qed.
Print Assumptions C112_refuted.
(** First row closed under conjugation: every row is the gain times the polynomial of the row, without imaginary parts. *)
Theorem C112_rows : forall n (xs : list (list C)) y ks x0 rest,
  xs = x0 :: rest -> (1 <= n)%nat -> conj_closed x0 -> enough ks (length xs) ->
  exists gs h, @ptf_rows XR n (map cfs xs) (cfs y) (fins ks) = Ok (map cfs gs, cfs h) /\ length gs = length xs /\
    (forall s, polyval h s = from_roots y s) /\
    forall i x, nth_error xs i = Some x -> exists g, nth_error gs i = Some (map drop_im g) /\ length g = S (length x) /\
      (forall s, polyval g s = (RtoC (gain_of ks i) * from_roots x s)%C) /\ (conj_closed x -> map drop_im g = g).
Proof. exact ptf_rows_real. Qed.
Print Assumptions C112_rows.
Theorem C112_complex : forall n (xs : list (list C)) y ks x0 rest,
  xs = x0 :: rest -> (1 <= n)%nat -> ~ conj_closed x0 -> enough ks (length xs) ->
  @ptf_rows XR n (map cfs xs) (cfs y) (fins ks) = Raise ValueError.
Proof. exact ptf_rows_complex. Qed.
Print Assumptions C112_complex.
Theorem C112_errors : forall (N : Num) n (xs : list (list (N * N))) y (z : list N),
  (xs = [] -> ptf_rows n xs y z = Raise IndexError) /\
  (xs <> [] -> ptf_rows 0 xs y z = Raise AttributeError) /\
  ((1 <= n)%nat -> (length z < length xs)%nat -> length z <> 1%nat -> ptf_rows n xs y z = Raise IndexError).
Proof. exact ptf_rows_errors. Qed.
Print Assumptions C112_errors.
Theorem C112_gains : forall x y ks,
  length ks <> 1%nat -> x <> [] ->
  (length ks <> S (length x) -> @ptf_gains XR (cfs x) (cfs y) (fins ks) = Raise ValueError) /\
  (length ks = S (length x) -> exists p g h, @ptf_gains XR (cfs x) (cfs y) (fins ks) = Ok (cfs g, cfs h) /\
    length p = S (length x) /\ (forall s, polyval p s = from_roots x s) /\ (forall s, polyval h s = from_roots y s) /\
    g = map (fun q : R * C => (RtoC (fst q) * snd q)%C) (combine ks p)).
Proof. exact ptf_gains_law. Qed.
Print Assumptions C112_gains.
(** Two outputs with zeros 1, 2 and i, -i and gains 3 and 5; then the rows exchanged with i, i, rejected. *)
Example C112_nonvacuous : let z a b := (@nofZ NF a, @nofZ NF b) in
  let show r := match r with Ok (g, h) => Ok (map (map (fun c => nceilZ (fst c))) g, map (fun c => nceilZ (fst c)) h) | Raise e => Raise e end in
  show (@ptf_rows NF 2 [[z 1 0; z 2 0]; [z 0 1; z 0 (-1)]]%Z [z 7 0]%Z [nofZ 3; nofZ 5]) = Ok ([[3; -9; 6]; [5; 0; 5]], [1; -7])%Z /\
  show (@ptf_rows NF 2 [[z 0 1; z 0 1]; [z 1 0; z 2 0]]%Z [z 7 0]%Z [nofZ 3]) = Raise ValueError /\
  show (@ptf_rows NF 1 [[z 1 0]; [z 0 1]]%Z [] [nofZ 1]) = Ok ([[1; -1]; [1; 0]], [1])%Z.
Proof. vm_compute. repeat split. Qed.
