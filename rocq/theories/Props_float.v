(** Property theorems C90 to C95 (binary64 arithmetic, every libm). *)
From Coq Require Import Reals Lra Lia Sorted Permutation.
From Flocq Require Import Core IEEE754.BinarySingleNaN.
From Verif Require Import Num Lib F64 F64ex Spec Spec2 Spec5 Spec6 M_descriptive M_series M_replacement M_detection M_kernel M_pipeline
  P_float P_float2 P_float3 P_fsum P_fstat.
Import ListNotations.
Local Open Scope R_scope.

Local Existing Instance F64.prec_gt_0_53.
Local Existing Instance F64.prec_lt_emax_53.
Local Notation NF := (F64 libm_basic).
Local Definition ints (l : list Z) : list NF := map nofZ l.
Local Definition milli (l : list NF) : list Z := map (fun x => nceilZ (nmul x (nofZ 1000))) l.

(** ** C90 *)
(** Rounding twice is rounding once, the result is a float next to a multiple of 10^-d, and the error exceeds half a unit
    by at most the rounding errors of the product and the quotient. *)
Theorem C90_binary64 : forall (L : Libm) (x : F64 L) d,
  (0 <= d <= 15)%Z -> is_finite x = true -> Rabs (B2R x * IZR (10 ^ d)) <= pow2 50 ->
  let y := @around (F64 L) x d in
  is_finite y = true /\ @around (F64 L) y d = y /\
  Rabs (B2R y - B2R x) <= (/ 2 + pow2 (-52) + pow2 (-51) * Rabs (B2R x * IZR (10 ^ d))) / IZR (10 ^ d) /\
  exists k, Rabs (B2R y - IZR k / IZR (10 ^ d)) <= pow2 (-53) * Rabs (IZR k / IZR (10 ^ d)).
Proof. exact around_f64. Qed.
Print Assumptions C90_binary64.
(** Half a unit is exceeded and the multiple is not the nearest one: 2.675 becomes 2.68. *)
Theorem C90_refuted : forall (L : Libm),
  exists (x : f64) k, is_finite x = true /\
  let y := @around (F64 L) x 2 in
  Rabs (IZR k / 100 - B2R x) < / 200 < Rabs (B2R y - B2R x).
Proof. exact around_not_nearest. Qed.
Print Assumptions C90_refuted.
Example C90_nonvacuous :
  is_finite (@nofZ NF 5) = true /\ @nceilZ NF (nmul (around (ndiv (nofZ 22) (nofZ 7)) 2) (nofZ 1000)) = 3140%Z /\
  @nceilZ NF (nmul (around (ndiv (nofZ 2675) (nofZ 1000)) 2) (nofZ 1000)) = 2680%Z.
Proof. vm_compute. repeat split; reflexivity. Qed.

(** ** C91 *)
Theorem C91_acceleration : forall (L : Libm) (x y z x' y' z' : list (F64 L)),
  x <> [] -> length y = length x -> length z = length x ->
  accel_script (x, y, z) = Ok (x', y', z') ->
  exists hist, despiked (fun pass => accel_detect (if Nat.even pass then 2 else 1)) (replace3 (fun v idx => linear_interpolation DFloat v idx 3)) 10 (x, y, z) hist (x', y', z') /\
    kept_f64 L hist x x' /\ kept_f64 L hist y y' /\ kept_f64 L hist z z'.
Proof. exact accel_f64. Qed.
Print Assumptions C91_acceleration.
Theorem C91_phasespace : forall (L : Libm) (x y z x' y' z' : list (F64 L)),
  x <> [] -> length y = length x -> length z = length x ->
  phase_script (x, y, z) = Ok (x', y', z') ->
  exists hist, despiked (fun _ => phase_detect) (replace3 (fun v idx => linear_interpolation DFloat v idx 3)) 10 (x, y, z) hist (x', y', z') /\
    kept_f64 L hist x x' /\ kept_f64 L hist y y' /\ kept_f64 L hist z z'.
Proof. exact phase_f64. Qed.
Print Assumptions C91_phasespace.
Theorem C91_spherical : forall (L : Libm) (x y z x' y' z' : list (F64 L)),
  (2 <= length x)%nat -> length y = length x -> length z = length x ->
  sphere_script (x, y, z) = Ok (x', y', z') ->
  exists hist, despiked (fun pass => sphere_detect (Z.of_nat pass)) (replace3 (fun v idx => linear_interpolation DFloat v idx 3)) 3 (x, y, z) hist (x', y', z') /\
    kept_f64 L hist x x' /\ kept_f64 L hist y y' /\ kept_f64 L hist z z'.
Proof. exact sphere_f64. Qed.
Print Assumptions C91_spherical.
(** A falling spike of 900 is replaced; 22/7 is rounded to three decimals once. *)
Example C91_nonvacuous :
  match @accel_script NF (ints [1; 1; 0; -900; 0; 1]%Z ++ [ndiv (nofZ 22) (nofZ 7)], ints [1; 1; 2; 1; 2; 1; 2]%Z, ints [1; 1; 2; 1; 2; 1; 2]%Z) with
  | Ok (x, _, _) => milli x | Raise _ => [] end = [1000; 1000; 0; 0; 0; 1000; 3143]%Z.
Proof. vm_compute. reflexivity. Qed.

(** ** C92 *)
(** Whatever order numpy adds in. *)
Theorem C92_binary64 : forall (L : Libm) parse (data : list (pyval (F64 L))) (l : list f64),
  Forall2 denotes data l -> sums_somehow L -> (1 <= zlen l <= 2 ^ 53)%Z ->
  exists m : f64, desc_mean parse (ASeq data) = Ok (MVal (N := F64 L) m) /\
    (is_finite (l_sum L l) = true -> is_finite m = true /\
      Rabs (B2R m - rmean (reals l)) <= ((1 + pow2 (-53)) ^ length l - 1) * (Rsum (map Rabs (reals l)) / INR (length l)) + pow2 (-1075)).
Proof. exact desc_mean_error. Qed.
Print Assumptions C92_binary64.
(** Three equal samples whose mean is larger than the samples. *)
Theorem C92_refuted : forall (L : Libm) parse,
  sums_somehow L ->
  exists x m : f64, is_finite x = true /\ desc_mean parse (ASeq [PyFloat (N := F64 L) x; PyFloat (N := F64 L) x; PyFloat (N := F64 L) x]) = Ok (MVal (N := F64 L) m) /\ @nltb (F64 L) x m = true.
Proof. exact desc_mean_exceeds. Qed.
Print Assumptions C92_refuted.
(** Two finite samples with an infinite mean. *)
Theorem C92_overflow_refuted : forall (L : Libm) parse,
  sums_somehow L ->
  exists x : f64, is_finite x = true /\ exists b, desc_mean parse (ASeq [PyFloat (N := F64 L) x; PyFloat (N := F64 L) x]) = Ok (MVal (N := F64 L) (B754_infinity b)).
Proof. exact desc_mean_overflows. Qed.
Print Assumptions C92_overflow_refuted.
(** Left-to-right summation is one of the orders meant; the mean of 0.1, 0.1, 0.1 exceeds 0.1, that of 1, 2, 4 is finite. *)
Theorem C92_order_exists : sums_somehow libm_basic.
Proof. exact libm_basic_sums. Qed.
Print Assumptions C92_order_exists.
Example C92_nonvacuous :
  is_finite (l_sum libm_basic (ints [1; 2; 4]%Z)) = true /\ @nceilZ NF (np_mean (ints [1; 2; 4]%Z)) = 3%Z /\
  @nltb NF tenth (@np_mean NF [tenth; tenth; tenth]) = true.
Proof. vm_compute. repeat split; reflexivity. Qed.

(** ** C93 *)
Theorem C93_binary64 : forall (L : Libm) (l : list f64),
  sums_somehow L -> (1 <= zlen l <= 2 ^ 53)%Z -> is_finite (l_sum L l) = true ->
  exists v s, @spread_variance (F64 L) (@farr (F64 L) l) = Ok v /\ @spread_std (F64 L) (@farr (F64 L) l) = Ok s /\
    @nleb (F64 L) (nofZ 0) v = true /\ @nleb (F64 L) (nofZ 0) s = true.
Proof. exact variance_f64. Qed.
Print Assumptions C93_binary64.
Theorem C93_refuted : forall (L : Libm),
  sums_somehow L ->
  exists x v : f64, is_finite x = true /\ @spread_variance (F64 L) (@farr (F64 L) [x; x; x]) = Ok v /\ @nltb (F64 L) (nofZ 0) v = true.
Proof. exact variance_constant. Qed.
Print Assumptions C93_refuted.
Example C93_nonvacuous :
  is_finite (l_sum libm_basic (ints [1; 2; 4]%Z)) = true /\
  match @spread_variance NF (@farr NF (ints [1; 2; 4]%Z)) with Ok v => nceilZ (nmul v (nofZ 9)) | Raise _ => 0%Z end = 14%Z /\
  match @spread_variance NF (@farr NF [tenth; tenth; tenth]) with Ok v => nltb (nofZ 0) v | Raise _ => false end = true.
Proof. vm_compute. repeat split; reflexivity. Qed.

(** ** C94 *)
Theorem C94_median : forall (L : Libm) (l : list f64) (s : list R),
  sums_somehow L -> l <> [] -> all_finite l -> is_sorting s (reals l) ->
  let n := length l in let lo := nth ((n - 1) / 2) s 0 in let hi := nth (n / 2) s 0 in
  exists m, @desc_median (F64 L) (@farr (F64 L) l) = Ok m /\
    (Nat.odd n = true -> is_finite m = true /\ B2R m = hi) /\
    (Nat.even n = true -> Rabs (rnd (lo + hi)) < pow2 1024 -> is_finite m = true /\ lo <= B2R m <= hi /\ B2R m = rnd (rnd (lo + hi) / 2)) /\
    (Nat.even n = true -> pow2 1024 <= Rabs (rnd (lo + hi)) -> exists b, m = B754_infinity b).
Proof. exact median_f64. Qed.
Print Assumptions C94_median.
Example C94_nonvacuous :
  match @desc_median NF (@farr NF (ints [7; 1; 5; 2]%Z)) with Ok v => nceilZ (nmul v (nofZ 10)) | Raise _ => 0%Z end = 35%Z /\
  match @desc_median NF (@farr NF (ints [7; 1; 5]%Z)) with Ok v => nceilZ v | Raise _ => 0%Z end = 5%Z /\
  match @desc_median NF (@farr NF (ints [2 ^ 1023; 2 ^ 1023]%Z)) with Ok v => is_finite v | Raise _ => true end = false.
Proof. vm_compute. repeat split; reflexivity. Qed.

(** ** C95 *)
Theorem C95_scaling : forall (L : Libm) (l : list f64),
  l <> [] -> all_finite l ->
  exists mx mn sc : f64, @k_scaling (F64 L) l = Ok (mx, mn, sc) /\ In mx l /\ In mn l /\ (forall x, In x l -> B2R mn <= B2R x <= B2R mx) /\
    (B2R mn < B2R mx -> Rabs (rnd (B2R mx - B2R mn)) < pow2 1024 ->
       forall x, In x l -> let y := @ndiv (F64 L) (@nsub (F64 L) x mn) sc in
         In y (@k_transform (F64 L) l mn sc) /\ is_finite y = true /\ 0 <= B2R y <= 1 /\ (B2R x = B2R mn -> B2R y = 0) /\ (B2R x = B2R mx -> B2R y = 1)) /\
    (pow2 1024 <= Rabs (rnd (B2R mx - B2R mn)) -> In B754_nan (@k_transform (F64 L) l mn sc)).
Proof. exact scaling_f64. Qed.
Print Assumptions C95_scaling.
Theorem C95_refuted : forall (L : Libm),
  exists (l : list f64) mx mn sc, all_finite l /\ @k_scaling (F64 L) l = Ok (mx, mn, sc) /\
  In B754_nan (@k_transform (F64 L) l mn sc).
Proof. exact scaling_overflow. Qed.
Print Assumptions C95_refuted.
Example C95_nonvacuous :
  match @k_scaling NF (ints [3; 7; 4]%Z) with Ok (mx, mn, sc) => map (fun x => nceilZ (nmul x (nofZ 100))) (k_transform (ints [3; 7; 4]%Z) mn sc) | Raise _ => [] end = [0; 100; 25]%Z.
Proof. vm_compute. reflexivity. Qed.

(** ** C96 *)
(** The average of a constant record leaves the record's value and stays above it, for every length and every libm. *)
Theorem C96_refuted : forall (L : Libm),
  exists (x a above : f64), @nltb (F64 L) x above = true /\
  forall n, @exponential_moving_average (F64 L) DFloat (repeat x (S n)) a = Ok (x :: repeat above n).
Proof. exact ema_constant. Qed.
Print Assumptions C96_refuted.
Example C96_nonvacuous :
  match @exponential_moving_average NF DFloat (ints [3; 3; 3]%Z) (ndiv (nofZ 1) (nofZ 5)) with
  | Ok (a :: b :: _) => nltb a b | _ => false end = true.
Proof. vm_compute. reflexivity. Qed.
