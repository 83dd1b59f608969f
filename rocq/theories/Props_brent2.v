(** Property theorems C121-C124 (the root finder: scale of the target, binary64). *)
From Coq Require Import Reals Lra List ZArith.
From Flocq Require Import Core IEEE754.BinarySingleNaN.
From Verif Require Import Num XR F64 F64ex M_optimize Spec13 P_float P_brent2 P_brent3 P_fbrent.
Import ListNotations.
Local Open Scope R_scope.

Local Existing Instance F64.prec_gt_0_53.
Local Existing Instance F64.prec_lt_emax_53.
Local Notation NF := (F64 libm_basic).

(** ** C121 *)
(** Exact arithmetic: the same result, report and sequence of calls for every multiple of the target. *)
Theorem C121_scale : forall npf (f h : XR -> XR) g c xa xb xtol rtol maxiter full,
  c <> 0 ->
  (forall x, xa <= x <= xb -> f (Fin x) = Fin (g x)) -> (forall x, xa <= x <= xb -> h (Fin x) = Fin (c * g x)) ->
  0 <= xtol -> 0 <= rtol ->
  brentq npf h (Fin xa : XR) (Fin xb : XR) (Fin xtol : XR) (Fin rtol : XR) maxiter full =
  brentq npf f (Fin xa : XR) (Fin xb : XR) (Fin xtol : XR) (Fin rtol : XR) maxiter full.
Proof. exact brent_scale. Qed.
Print Assumptions C121_scale.
(** Binary64, Python floats: the same cubic times 2^-360 ends in ZeroDivisionError. *)
Theorem C121_refuted : forall (L : Libm),
  fst (brentq false (cubic (half_pow 360 : F64 L)) (nofZ 0) (nofZ 2) (lit 148 10) (lit 148 10) 500 true) = Raise ZeroDivisionError /\
  (exists x tr, brentq false (cubic (half_pow 0 : F64 L)) (nofZ 0) (nofZ 2) (lit 148 10) (lit 148 10) 500 true = (Ok (BDict x 9 8 true), tr) /\
     nfloorZ (nmul x (nofZ 1000000000)) = 1259921049%Z).
Proof. exact brent_tiny. Qed.
Print Assumptions C121_refuted.
(** Multiples 1, -8 and 1024: same root, same calls. *)
Example C121_run : let f := fun c : NF => fun x : NF => nmul c (nsub (nmul x x) (nofZ 2)) in
  let go := fun c => brentq false (f c) (nofZ 0) (nofZ 2) (lit 148 10) (lit 148 10) 500 true in
  map (fun c => match go (nofZ c) with (Ok (BDict x calls iters conv), tr) => (nfloorZ (nmul x (nofZ 1000000000)), calls, iters, conv, length tr) | _ => (0, 0, 0, false, 0%nat)%Z end) [1; -8; 1024]%Z
  = repeat (1414213562, 9, 8, true, 9%nat)%Z 3.
Proof. vm_compute. reflexivity. Qed.

(** ** C122 *)
(** Every libm, Python floats or NumPy scalars: all points evaluated are finite doubles of the bracket. *)
Theorem C122_inside : 
  forall (L : Libm) npf (f : F64 L -> F64 L) (xa xb xtol rtol : f64) maxiter full,
  is_finite xa = true -> is_finite xb = true -> Rabs (B2R xa) <= pow2 1020 -> Rabs (B2R xb) <= pow2 1020 ->
  is_finite xtol = true -> pow2 (-1000) <= B2R xtol <= pow2 1000 -> is_finite rtol = true -> 0 <= B2R rtol <= 1 ->
  (forall x : f64, within xa xb x -> is_nan (f x : f64) = false) ->
  Forall (within xa xb) (snd (brentq npf f xa xb xtol rtol maxiter full)).
Proof. exact fbrent_inside. Qed.
Print Assumptions C122_inside.
(** What convergence guarantees about the computed values. *)
Theorem C122_root : 
  forall (L : Libm) npf (f : F64 L -> F64 L) (xa xb xtol rtol : f64) maxiter o tr,
  is_finite xa = true -> is_finite xb = true -> Rabs (B2R xa) <= pow2 1020 -> Rabs (B2R xb) <= pow2 1020 ->
  is_finite xtol = true -> pow2 (-1000) <= B2R xtol <= pow2 1000 -> is_finite rtol = true -> 0 <= B2R rtol <= 1 ->
  (forall x : f64, within xa xb x -> is_nan (f x : f64) = false) ->
  brentq npf f xa xb xtol rtol maxiter true = (Ok o, tr) -> match o with BDict _ _ _ c => c = true | _ => True end ->
  let x := match o with BRoot x | BTuple x _ _ _ | BDict x _ _ _ => x end in
  within xa xb x /\
  (Beqb (f x) (B754_zero false) = true \/
   exists y : f64, In (y : F64 L) tr /\ within xa xb y /\ opposite (f x) (f y) /\
     Rabs (B2R y - B2R x) < (B2R xtol + B2R rtol * Rabs (B2R x)) * (1 + pow2 (-52))).
Proof. exact fbrent_root. Qed.
Print Assumptions C122_root.
(** What it guarantees about the function that the target approximates. *)
Theorem C122_zero : 
  forall (L : Libm) npf (f : F64 L -> F64 L) (g : R -> R) eps (xa xb xtol rtol : f64) maxiter o tr,
  is_finite xa = true -> is_finite xb = true -> Rabs (B2R xa) <= pow2 1020 -> Rabs (B2R xb) <= pow2 1020 ->
  is_finite xtol = true -> pow2 (-1000) <= B2R xtol <= pow2 1000 -> is_finite rtol = true -> 0 <= B2R rtol <= 1 ->
  (forall t, B2R xa <= t <= B2R xb -> continuity_pt g t) ->
  (forall x : f64, within xa xb x -> is_finite (f x : f64) = true /\ Rabs (B2R (f x) - g (B2R x)) <= eps) ->
  brentq npf f xa xb xtol rtol maxiter true = (Ok o, tr) -> match o with BDict _ _ _ c => c = true | _ => True end ->
  let x := match o with BRoot x | BTuple x _ _ _ | BDict x _ _ _ => x end in
  exists z, B2R xa <= z <= B2R xb /\ Rabs (g z) <= eps /\
    Rabs (z - B2R x) <= (B2R xtol + B2R rtol * Rabs (B2R x)) * (1 + pow2 (-52)).
Proof. exact fbrent_zero. Qed.
Print Assumptions C122_zero.
(** Every number type: the only exceptions. *)
Theorem C122_raises : 
  forall (N : Num) npf (f : N -> N) xa xb xtol rtol maxiter full e,
  fst (brentq npf f xa xb xtol rtol maxiter full) = Raise e -> e = ValueError \/ npf = false /\ e = ZeroDivisionError.
Proof. exact brent_raises. Qed.
Print Assumptions C122_raises.
Example C122_nonvacuous : let xtol := @lit NF 148 10 : f64 in
  (forall t, B2R (f64_ofZ 0) <= t <= B2R (f64_ofZ 2) -> continuity_pt (fun u => u * u - 2) t) /\
  (forall x : f64, within (f64_ofZ 0) (f64_ofZ 2) x -> is_finite (@square2 NF x : f64) = true /\ Rabs (B2R (@square2 NF x : f64) - (B2R x * B2R x - 2)) <= pow2 (-50)) /\
  is_finite xtol = true /\
  match brentq false (@square2 NF) (nofZ 0) (nofZ 2) xtol xtol 500 true with
  | (Ok (BDict x calls iters conv), tr) => (nfloorZ (nmul x (nofZ 1000000000)), calls, iters, conv, length tr) = (1414213562, 9, 8, true, 9%nat)%Z
  | _ => False
  end.
Proof.
  cbv zeta. destruct (ofZ_fl 0 ltac:(discriminate)) as [_ E0]. destruct (ofZ_fl 2 ltac:(discriminate)) as [_ E2]. rewrite E0, E2. split; [|split; [|split]].
  - intros t _. apply derivable_continuous_pt. reg.
  - intros x [Fx Hx]. rewrite E0, E2 in Hx. apply square2_err; assumption.
  - vm_compute. reflexivity.
  - vm_compute. reflexivity.
Qed.

(** ** C123 *)
(** Tolerances below the spacing of doubles: no number of iterations is enough. *)
Theorem C123_refuted : 
  forall (L : Libm) npf maxiter, exists x calls iters tr,
  brentq npf square2 (nofZ 1 : F64 L) (nofZ 2) (half_pow 60) (nofZ 0) maxiter true = (Ok (BDict x calls iters false), tr).
Proof. exact fbrent_still. Qed.
Print Assumptions C123_refuted.
Example C123_run : match brentq true (@square2 NF) (nofZ 1) (nofZ 2) (half_pow 60) (nofZ 0) 40 true with
  | (Ok (BDict x calls iters conv), tr) => (nfloorZ (nmul x (nofZ 1000000000)), conv, map (fun y => neqb y x) (skipn 12 tr)) = (1414213562%Z, false, repeat true 30)
  | _ => False
  end.
Proof. vm_compute. reflexivity. Qed.

(** ** C124 *)
(** Exact arithmetic: about the square of the number of halvings of a bisection. *)
Theorem C124_iterations : 
  forall npf (f : XR -> XR) g xa xb xtol rtol n maxiter,
  (forall x, xa <= x <= xb -> f (Fin x) = Fin (g x)) ->
  0 < xtol -> 0 <= rtol -> xa < xb -> g xa * g xb < 0 -> xb - xa <= 2 ^ n * (xtol / 2) -> (Z.of_nat ((n + 1) * (n + 1)) <= maxiter)%Z ->
  exists x calls iters tr,
    brentq npf f (Fin xa : XR) (Fin xb : XR) (Fin xtol : XR) (Fin rtol : XR) maxiter true = (Ok (BDict x calls iters true), tr) /\
    (1 <= iters <= Z.of_nat ((n + 1) * (n + 1)))%Z.
Proof. exact brent_log. Qed.
Print Assumptions C124_iterations.
(** Binary64, relative tolerance of at least four machine epsilons: the same with ratio 3/2, unless a Python
    float is divided by zero. *)
Theorem C124_float : 
  forall (L : Libm) npf (f : F64 L -> F64 L) (xa xb xtol rtol : f64) n maxiter,
  is_finite xa = true -> is_finite xb = true -> Rabs (B2R xa) <= pow2 1020 -> Rabs (B2R xb) <= pow2 1020 ->
  is_finite xtol = true -> pow2 (-1000) <= B2R xtol <= pow2 1000 -> is_finite rtol = true -> pow2 (-50) <= B2R rtol <= 1 ->
  (forall x : f64, within xa xb x -> is_nan (f x : f64) = false) ->
  B2R xa < B2R xb -> opposite (f xa) (f xb) -> 101 / 100 * (B2R xb - B2R xa) <= (3 / 2) ^ n * (B2R xtol / 2) ->
  (Z.of_nat ((n + 1) * (n + 1)) <= maxiter)%Z ->
  match fst (brentq npf f xa xb xtol rtol maxiter true) with
  | Ok (BDict _ calls iters conv) => conv = true /\ calls = (iters + 1)%Z /\ (1 <= iters <= Z.of_nat ((n + 1) * (n + 1)))%Z
  | Ok _ => False
  | Raise e => npf = false /\ e = ZeroDivisionError
  end.
Proof. exact fbrent_log. Qed.
Print Assumptions C124_float.
(** (x - 3/10)^9 on [0, 1] with both tolerances 1.48e-8: 73 iterations where bisection needs 27; the bounds are
    29 * 29 = 841 (exact) and 48 * 48 = 2304 (binary64). *)
Example C124_run : let p9 := fun x : NF => let y := nsub x (lit 3 1) in let y3 := nmul y (nmul y y) in nmul y3 (nmul y3 y3) in
  match brentq true p9 (nofZ 0) (nofZ 1) (lit 148 10) (lit 148 10) 3000 true with
  | (Ok (BDict x calls iters conv), tr) => (nfloorZ (nmul x (nofZ 1000000)), calls, iters, conv) = (300000, 74, 73, true)%Z
  | _ => False
  end.
Proof. vm_compute. reflexivity. Qed.
Example C124_levels : let xtol := 148 / 10 ^ 10 in 1 - 0 <= 2 ^ 28 * (xtol / 2) /\ 101 / 100 * (1 - 0) <= (3 / 2) ^ 47 * (xtol / 2).
Proof. cbv zeta. split; lra. Qed.
