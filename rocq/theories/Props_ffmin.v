(** Property theorem C148: the bounded minimiser in binary64 arithmetic. *)
From Coq Require Import Reals Lra List ZArith.
From Flocq Require Import Core IEEE754.BinarySingleNaN.
From Verif Require Import Num F64 F64ex M_optimize Spec2 Spec13 P_float P_ffmin P_ffmin2.
Import ListNotations.
Local Open Scope R_scope.

Local Existing Instance F64.prec_gt_0_53.
Local Existing Instance F64.prec_lt_emax_53.
Local Notation NF := (F64 libm_basic).

(** Any target, NaN and infinities included: a result comes back, and every point tried is a finite double between
    the bounds. *)
Theorem C148_inside : forall (L : Libm) (f : F64 L -> F64 L) (lo hi tol : f64) limit,
  is_finite lo = true -> is_finite hi = true -> Rabs (B2R lo) <= pow2 1020 -> Rabs (B2R hi) <= pow2 1020 -> B2R lo <= B2R hi ->
  is_finite tol = true -> pow2 (-1000) <= B2R tol <= pow2 1000 ->
  exists x v fl n tr, fminbound f lo hi tol limit true = Some (Ok (FTuple x v fl n), tr) /\
    within lo hi x /\ Forall (fun y : f64 => within lo hi y) tr.
Proof. exact ffmin_inside. Qed.
Print Assumptions C148_inside.
(** No NaN between the bounds: the reported value is the least one computed; the flag is 0 when the limit is
    generous; flag 0 means that the best point is enclosed by tried points (or bounds) closer than 2.01 tolerances. *)
Theorem C148_result : forall (L : Libm) (f : F64 L -> F64 L) (lo hi tol : f64) limit,
  is_finite lo = true -> is_finite hi = true -> Rabs (B2R lo) <= pow2 1020 -> Rabs (B2R hi) <= pow2 1020 -> B2R lo <= B2R hi ->
  is_finite tol = true -> pow2 (-1000) <= B2R tol <= pow2 1000 ->
  (forall y : f64, within lo hi y -> is_nan (f y : f64) = false) ->
  exists x v fl n tr best, fminbound f lo hi tol limit true = Some (Ok (FTuple x v fl n), tr) /\
    In best tr /\ v = f best /\ Forall (fun y : f64 => Bleb (v : f64) (f y) = true) tr /\
    (fl = 0%Z \/ fl = 1%Z /\ (limit <= n)%Z) /\
    (4 * (B2R hi - B2R lo) < B2R tol * IZR (limit - 1) -> fl = 0%Z) /\
    (fl = 0%Z -> exists a b : f64, (a = lo \/ In (a : F64 L) tr /\ B2R a < B2R (best : f64)) /\ (b = hi \/ In (b : F64 L) tr /\ B2R (best : f64) < B2R b) /\
       B2R a <= B2R (best : f64) <= B2R b /\ B2R a <= B2R (x : f64) <= B2R b /\
       B2R (best : f64) - B2R a <= 201 / 100 * fmin_tol (B2R tol) (B2R (best : f64)) /\
       B2R b - B2R (best : f64) <= 201 / 100 * fmin_tol (B2R tol) (B2R (best : f64))).
Proof. exact ffmin_result. Qed.
Print Assumptions C148_result.
(** Computed values falling strictly up to [m] and rising strictly after it: the best point is within 2.01
    tolerances of [m], the returned one within 4.02. *)
Theorem C148_unimodal : forall (L : Libm) (f : F64 L -> F64 L) (lo hi tol : f64) limit (m : R),
  is_finite lo = true -> is_finite hi = true -> Rabs (B2R lo) <= pow2 1020 -> Rabs (B2R hi) <= pow2 1020 -> B2R lo <= m <= B2R hi ->
  is_finite tol = true -> pow2 (-1000) <= B2R tol <= pow2 1000 ->
  (forall y : f64, within lo hi y -> is_nan (f y : f64) = false) ->
  (forall y z : f64, within lo hi y -> within lo hi z -> B2R y < B2R z -> B2R z <= m -> Bltb (f z : f64) (f y) = true) ->
  (forall y z : f64, within lo hi y -> within lo hi z -> B2R y < B2R z -> m <= B2R y -> Bltb (f y : f64) (f z) = true) ->
  4 * (B2R hi - B2R lo) < B2R tol * IZR (limit - 1) ->
  exists x v n tr best, fminbound f lo hi tol limit true = Some (Ok (FTuple x v 0 n), tr) /\
    In best tr /\ v = f best /\
    Rabs (B2R (best : f64) - m) <= 201 / 100 * fmin_tol (B2R tol) (B2R (best : f64)) /\
    Rabs (B2R (x : f64) - m) <= 402 / 100 * fmin_tol (B2R tol) (B2R (best : f64)).
Proof. exact ffmin_unimodal. Qed.
Print Assumptions C148_unimodal.
(** [|x|] on [-1, 5] with tolerance 1 and limit 100 meets all the hypotheses; the search ends after 5 evaluations at
    -0.458 (best point -0.125). *)
Example C148_nonvacuous :
  let lo := f64_ofZ (-1) in let hi := f64_ofZ 5 in let tol := f64_ofZ 1 in let f := @nabs NF in
  (is_finite lo = true /\ is_finite hi = true /\ Rabs (B2R lo) <= pow2 1020 /\ Rabs (B2R hi) <= pow2 1020 /\ B2R lo <= 0 <= B2R hi /\
   is_finite tol = true /\ pow2 (-1000) <= B2R tol <= pow2 1000 /\
   (forall y : f64, within lo hi y -> is_nan (f y : f64) = false) /\
   (forall y z : f64, within lo hi y -> within lo hi z -> B2R y < B2R z -> B2R z <= 0 -> Bltb (f z : f64) (f y) = true) /\
   (forall y z : f64, within lo hi y -> within lo hi z -> B2R y < B2R z -> 0 <= B2R y -> Bltb (f y : f64) (f z) = true) /\
   4 * (B2R hi - B2R lo) < B2R tol * IZR (100 - 1)) /\
  match fminbound f lo hi tol 100 true with
  | Some (Ok (FTuple x v fl n), tr) =>
      (nfloorZ (nmul x (nofZ 1000)), nfloorZ (nmul v (nofZ 1000)), fl, n, map (fun y => nfloorZ (nmul y (nofZ 1000))) tr)
      = (-458, 124, 0, 5, [1291; 2708; 416; -125; -458])%Z
  | _ => False
  end.
Proof.
  cbv zeta. split; [|vm_compute; reflexivity].
  destruct (ofZ_fl (-1) ltac:(discriminate)) as [F1 E1]. destruct (ofZ_fl 5 ltac:(discriminate)) as [F2 E2]. destruct (ofZ_fl 1 ltac:(discriminate)) as [F3 E3].
  assert (A : forall y : f64, is_finite y = true -> is_finite (Babs y) = true) by (intros [| | |] H; try discriminate H; reflexivity).
  assert (B : forall y z : f64, is_finite y = true -> is_finite z = true -> Rabs (B2R y) < Rabs (B2R z) -> Bltb (Babs y) (Babs z) = true).
  { intros y z Fy Fz H. rewrite (Bltb_correct 53 1024 _ _ (A _ Fy) (A _ Fz)), !B2R_Babs. apply Rlt_bool_true. exact H. }
  assert (P : 8 <= pow2 1000) by (change 8 with (pow2 3); apply bpow_le; discriminate).
  assert (P' : pow2 1000 <= pow2 1020) by (apply bpow_le; discriminate).
  assert (P0 : pow2 (-1000) <= 1) by (change 1 with (pow2 0); apply bpow_le; discriminate).
  unfold within. rewrite E1, E2, E3. repeat (split; [first [exact F1 | exact F2 | exact F3 | apply Rabs_le; lra | lra]|]).
  split; [|split; [|split; [|change (100 - 1)%Z with 99%Z; lra]]].
  - intros y [Fy _]. apply A in Fy. change (is_nan (Babs y) = false). destruct (Babs y); try discriminate Fy; reflexivity.
  - intros y z [Fy Hy] [Fz Hz] H1 H2. apply B; [exact Fz | exact Fy|]. rewrite !Rabs_left1; lra.
  - intros y z [Fy Hy] [Fz Hz] H1 H2. apply B; [exact Fy | exact Fz|]. rewrite !Rabs_pos_eq; lra.
Qed.
