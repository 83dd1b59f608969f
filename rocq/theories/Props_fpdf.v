(** Property theorems C137-C138 (normal density in binary64). *)
From Coq Require Import Reals Lra Lia List ZArith.
From Flocq Require Import Core IEEE754.BinarySingleNaN.
From Verif Require Import Num Lib XR F64 Spec Spec2 Spec6 Spec7 Spec19 M_normal P_fpdf.
Import ListNotations.
Local Open Scope R_scope.

(** ** C137 *)
(** Absolute error everywhere; relative error until half the squared distance plus the logarithm of the standard deviation is 500. *)
Theorem C137_accuracy : 
  forall (L : Libm) sh (d : list f64) (s m : f64), exp_accurate L -> d <> [] -> all_finite d ->
  is_finite s = true -> is_finite m = true -> pow2 (-100) <= B2R s <= pow2 100 -> Rabs (B2R m) <= pow2 400 ->
  (forall a, In a d -> Rabs (B2R a) <= pow2 400) ->
  exists r : list f64, pdf (N := F64 L) (Arr (N := F64 L) sh d) s m = Ok (Arr (N := F64 L) sh r) /\ length r = length d /\
    forall i a, nth_error d i = Some a -> exists p, nth_error r i = Some p /\ is_finite p = true /\
      Rabs (B2R p - gauss (B2R m) (B2R s) (B2R a)) <= pow2 (-45) * (1 + Rabs (ln (B2R s))) / B2R s /\
      (half_dist (B2R m) (B2R s) (B2R a) + ln (B2R s) <= 500 ->
       Rabs (B2R p - gauss (B2R m) (B2R s) (B2R a)) <=
       pow2 (-46) * (1 + Rabs (ln (B2R s)) + half_dist (B2R m) (B2R s) (B2R a)) * gauss (B2R m) (B2R s) (B2R a)).
Proof. exact density_f64. Qed.
Print Assumptions C137_accuracy.
(** The hypotheses on exp and log can be met. *)
Theorem C137_libm : exists L, exp_accurate L /\ log_zero L.
Proof. exact libm_exists. Qed.
Print Assumptions C137_libm.
Example C137_nonvacuous : exists r : list f64,
  pdf (N := F64 libm_round0) (Arr (N := F64 libm_round0) [1%Z] [f64_ofZ 3]) (f64_ofZ 1) (f64_ofZ 2) = Ok (Arr (N := F64 libm_round0) [1%Z] r) /\
  exists p, nth_error r 0 = Some p /\ Rabs (B2R p - exp (- (1 / 2)) / sqrt (2 * PI)) <= pow2 (-45).
Proof. exact pdf_example. Qed.

(** ** C138 *)
(** Default parameters: from 39 standard deviations on the density is zero and its logarithm minus infinity, although the logarithm of the density is finite. *)
Theorem C138_refuted : 
  forall (L : Libm) (x : f64), exp_accurate L -> log_zero L -> is_finite x = true -> 39 <= Rabs (B2R x) <= pow2 400 ->
  (exists b, pdf (N := F64 L) (Arr (N := F64 L) [1%Z] [x]) (f64_ofZ 1) (f64_ofZ 0) = Ok (Arr (N := F64 L) [1%Z] [B754_zero b : f64])) /\
  log_pdf (N := F64 L) (Arr (N := F64 L) [1%Z] [x]) (f64_ofZ 1) (f64_ofZ 0) = Ok (Arr (N := F64 L) [1%Z] [B754_infinity true : f64]) /\
  ln (gauss 0 1 (B2R x)) = - (1 / 2) * ln (2 * PI) - B2R x * B2R x / 2.
Proof. exact log_pdf_minus_infinity. Qed.
Print Assumptions C138_refuted.
(** Error where the density does not underflow, and where it does. *)
Theorem C138_error : 
  forall (L : Libm) sh (d : list f64) (s m : f64), exp_accurate L -> log_zero L -> d <> [] -> all_finite d ->
  is_finite s = true -> is_finite m = true -> pow2 (-100) <= B2R s <= pow2 100 -> Rabs (B2R m) <= pow2 400 ->
  (forall a, In a d -> Rabs (B2R a) <= pow2 400) ->
  exists r : list f64, log_pdf (N := F64 L) (Arr (N := F64 L) sh d) s m = Ok (Arr (N := F64 L) sh r) /\ length r = length d /\
    forall i a, nth_error d i = Some a -> exists p, nth_error r i = Some p /\
      (half_dist (B2R m) (B2R s) (B2R a) + ln (B2R s) <= 500 ->
       is_finite p = true /\ Rabs (B2R p - ln (gauss (B2R m) (B2R s) (B2R a))) <=
                             pow2 (-45) * (1 + Rabs (ln (B2R s)) + half_dist (B2R m) (B2R s) (B2R a))) /\
      (760 <= half_dist (B2R m) (B2R s) (B2R a) + ln (B2R s) -> p = B754_infinity true).
Proof. exact log_density_f64. Qed.
Print Assumptions C138_error.
Example C138_nonvacuous : exists r : list f64,
  log_pdf (N := F64 libm_round0) (Arr (N := F64 libm_round0) [2%Z] [f64_ofZ 40; f64_ofZ 2]) (f64_ofZ 1) (f64_ofZ 0) = Ok (Arr (N := F64 libm_round0) [2%Z] r) /\
  nth_error r 0 = Some (B754_infinity true) /\
  exists p, nth_error r 1 = Some p /\ Rabs (B2R p - (- (1 / 2) * ln (2 * PI) - 2)) <= pow2 (-43).
Proof. exact log_pdf_example. Qed.
