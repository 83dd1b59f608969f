(** Property theorems C97 to C102 (binary64 arithmetic: filters and the normal distribution). *)
From Coq Require Import Reals Lra Lia.
From Flocq Require Import Core IEEE754.BinarySingleNaN.
From Verif Require Import Num Lib XR F64 F64ex Spec Spec2 Spec6 Spec7 M_descriptive M_series M_normal
  P_float P_float2 P_fsum P_fkalman P_fseries P_fseries2 P_fnormal.
Import ListNotations.
Local Open Scope R_scope.

Local Existing Instance F64.prec_gt_0_53.
Local Existing Instance F64.prec_lt_emax_53.
Local Notation NF := (F64 libm_basic).
Local Notation NE := (F64 libm_ex).
Local Definition ints (l : list Z) : list NF := map nofZ l.
Local Definition centi (l : list NF) : list Z := map (fun x => nceilZ (nsub (nmul x (nofZ 100)) (ndiv (nofZ 1) (nofZ 2)))) l.

(** ** C97 *)
Theorem C97_gain : forall (L : Libm) (x c m Q R : f64),
  is_finite x = true -> is_finite m = true -> is_finite c = true -> is_finite Q = true -> is_finite R = true ->
  Rabs (B2R x) <= pow2 1000 -> Rabs (B2R m) <= pow2 1000 ->
  0 <= B2R c <= pow2 400 -> 0 <= B2R Q <= pow2 400 -> 0 <= B2R R <= pow2 400 -> pow2 (-400) <= B2R Q + B2R R ->
  exists y g, @kalman_filter (F64 L) [m] x c Q R = Ok [y] /\ is_finite y = true /\ 0 <= g <= 1 /\
    g = rnd (rnd (B2R c + B2R Q) * rnd (1 / rnd (rnd (B2R c + B2R Q) + B2R R))) /\
    B2R y = rnd (B2R x + rnd (g * rnd (B2R m - B2R x))).
Proof. exact kalman_gain_f64. Qed.
Print Assumptions C97_gain.
Theorem C97_range : forall (L : Libm) (data : list f64) (x0 c0 Q R : f64) M lo hi,
  is_finite c0 = true -> is_finite Q = true -> is_finite R = true ->
  0 <= B2R c0 <= pow2 400 -> 0 <= B2R Q <= pow2 400 -> 0 <= B2R R <= pow2 400 -> pow2 (-400) <= B2R Q + B2R R ->
  (forall m, In m (x0 :: data) -> is_finite m = true /\ lo <= B2R m <= hi) -> - M <= lo -> hi <= M -> M <= pow2 1000 ->
  exists r, @kalman_filter (F64 L) data x0 c0 Q R = Ok r /\ length r = length data /\
    forall y, In y r -> is_finite y = true /\ lo - pow2 (-50) * M <= B2R y <= hi + pow2 (-50) * M.
Proof. exact kalman_f64. Qed.
Print Assumptions C97_range.
Theorem C97_refuted : forall (L : Libm),
  exists (x0 m y : f64), is_finite x0 = true /\ is_finite m = true /\
  @kalman_filter (F64 L) [m] x0 (f64_ofZ 1) (f64_ofZ 1) (f64_ofZ 0) = Ok [y] /\ @nltb (F64 L) y m = true /\ @nltb (F64 L) m x0 = true.
Proof. exact kalman_leaves_range. Qed.
Print Assumptions C97_refuted.
Example C97_nonvacuous :
  match @kalman_filter NF (ints [4; 2; 8]%Z) (nofZ 1) (nofZ 1) (ndiv (nofZ 1) (nofZ 100)) (nofZ 15) with Ok r => centi r | Raise _ => [] end = [119; 124; 162]%Z.
Proof. vm_compute. reflexivity. Qed.

(** ** C98 *)
Theorem C98_accuracy : forall (L : Libm) (data : list f64) (a : f64) M,
  data <> [] -> is_finite a = true -> 0 < B2R a <= 1 ->
  (zlen data <= 2 ^ 48)%Z -> pow2 (-1000) <= M <= pow2 1000 -> (forall x, In x data -> is_finite x = true /\ Rabs (B2R x) <= M) ->
  exists r : list f64, @exponential_moving_average (F64 L) DFloat data a = Ok r /\ length r = length data /\
    forall i, (i < length data)%nat -> is_finite (nth i r B754_nan) = true /\
      Rabs (B2R (nth i r B754_nan) - Rsum (map (fun j => ema_weight (B2R a) i j * nth j (reals data) 0) (seq 0 (S i)))) <= Rmin (INR i) (/ B2R a) * (pow2 (-50) * M).
Proof. exact ema_f64. Qed.
Print Assumptions C98_accuracy.
Example C98_nonvacuous :
  match @exponential_moving_average NF DFloat (ints [4; 2; 8]%Z) (ndiv (nofZ 1) (nofZ 5)) with Ok r => centi r | Raise _ => [] end = [400; 360; 448]%Z.
Proof. vm_compute. reflexivity. Qed.

(** ** C99 *)
Theorem C99_accuracy : forall (L : Libm) (data : list f64) (w : Z) M,
  sums_somehow L -> (0 < w <= zlen data)%Z -> (zlen data <= 2 ^ 46)%Z ->
  pow2 (-1000) <= M <= pow2 900 -> (forall x, In x data -> is_finite x = true /\ Rabs (B2R x) <= M) ->
  exists r : list f64, @moving_average (F64 L) 1 data w = Ok r /\ length r = length data /\
    forall i, (i < length data)%nat -> is_finite (nth i r B754_nan) = true /\
      Rabs (B2R (nth i r B754_nan) - rmean (rwindow (reals data) (Z.to_nat w) i)) <= INR (S i) * (pow2 (-49) * M).
Proof. exact moving_average_f64. Qed.
Print Assumptions C99_accuracy.
Example C99_nonvacuous : sums_somehow libm_basic /\
  match @moving_average NF 1 (ints [4; 2; 8; 1]%Z) 3 with Ok r => centi r | Raise _ => [] end = [400; 300; 467; 367]%Z.
Proof. split; [exact libm_basic_sums | vm_compute; reflexivity]. Qed.

(** ** C100 *)
Theorem C100_accuracy : forall (L : Libm) (data : list f64) (p : Z) M,
  sums_somehow L -> (0 < p <= 2 ^ 26)%Z -> (p <= zlen data)%Z ->
  pow2 (-1000) <= M <= pow2 900 -> (forall x, In x data -> is_finite x = true /\ Rabs (B2R x) <= M) ->
  exists r : list f64, @weighted_moving_average (F64 L) data p = Ok ((p <? zlen data)%Z, r) /\ length r = (length data - Z.to_nat p)%nat /\
    forall k, (k < length data - Z.to_nat p)%nat -> is_finite (nth k r B754_nan) = true /\
      Rabs (B2R (nth k r B754_nan) - rwmean (firstn (Z.to_nat p) (skipn k (reals data)))) <= IZR p * (pow2 (-50) * M).
Proof. exact weighted_average_f64. Qed.
Print Assumptions C100_accuracy.
Example C100_nonvacuous : sums_somehow libm_basic /\
  match @weighted_moving_average NF (ints [4; 2; 8; 1]%Z) 3 with Ok (_, r) => centi r | Raise _ => [] end = [533]%Z.
Proof. split; [exact libm_basic_sums | vm_compute; reflexivity]. Qed.

(** ** C101 *)
Theorem C101_accuracy : forall (L : Libm) s (d : list f64),
  erf_accurate L -> d <> [] -> all_finite d ->
  exists c t : list f64, cdf (N := F64 L) DFloat (Arr (N := F64 L) s d) = Ok (Arr (N := F64 L) s c) /\
    sf (N := F64 L) DFloat (Arr (N := F64 L) s d) = Ok (Arr (N := F64 L) s t) /\ length c = length d /\ length t = length d /\
    forall i x, nth_error d i = Some x -> exists p q, nth_error c i = Some p /\ nth_error t i = Some q /\
      is_finite p = true /\ is_finite q = true /\ 0 <= B2R p <= 1 /\ 0 <= B2R q <= 1 /\
      Rabs (B2R p - Phi (B2R x)) <= pow2 (-49) /\ Rabs (B2R q - (1 - Phi (B2R x))) <= pow2 (-48).
Proof. exact cdf_f64. Qed.
Print Assumptions C101_accuracy.
(** A libm that rounds correctly is accurate enough. *)
Theorem C101_libm_exists : erf_accurate libm_round.
Proof. exact libm_round_accurate. Qed.
Print Assumptions C101_libm_exists.
Example C101_nonvacuous :
  match @cdf NE DFloat (@Arr NE [3%Z] (map nofZ [-1; 0; 2]%Z)) with Ok (Arr _ r) => centi r | _ => [] end = [16; 50; 98]%Z.
Proof. vm_compute. reflexivity. Qed.

(** ** C102 *)
Theorem C102_refuted : forall (L : Libm) s (d : list f64),
  erf_accurate L -> d <> [] -> all_finite d -> (forall x, In x d -> 9 <= B2R x) ->
  cdf (N := F64 L) DFloat (Arr (N := F64 L) s d) = Ok (Arr (N := F64 L) s (map (fun _ => f64_ofZ 1) d)) /\
  sf (N := F64 L) DFloat (Arr (N := F64 L) s d) = Ok (Arr (N := F64 L) s (map (fun _ => f64_ofZ 0) d)) /\
  log_sf (N := F64 L) DFloat (Arr (N := F64 L) s d) = Ok (Arr (N := F64 L) s (map (fun _ => l_log L (f64_ofZ 0)) d)) /\
  (forall x, In x d -> 0 < 1 - Phi (B2R x)).
Proof. exact sf_tail. Qed.
Print Assumptions C102_refuted.
Example C102_nonvacuous :
  match @sf NE DFloat (@Arr NE [2%Z] (map nofZ [9; 2]%Z)) with Ok (Arr _ r) => map (fun x => nceilZ (nmul x (nofZ 1000))) r | _ => [] end = [0; 23]%Z.
Proof. vm_compute. reflexivity. Qed.
