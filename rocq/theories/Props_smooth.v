(** Property theorems C132-C136 (causality, consistency of the statistics, thresholds, units, rotation of the axes). *)
From Coq Require Import Reals Lra Lia.
From Verif Require Import F64 P_causal P_ineq P_equi P_fluid2.
Local Open Scope R_scope.
Local Notation NF := (F64 libm_basic).
Local Definition ints (l : list Z) : list NF := map nofZ l.
Local Definition centi (r : res (list NF)) : list Z := match r with Ok l => map (fun x => nceilZ (nmul x (nofZ 100))) l | Raise _ => [] end.

(** ** C132 *)
Local Open Scope nat_scope.
Theorem C132_moving_average : forall (N : Num) (data data' : list N) (w : Z) (k : nat) r r',
  (0 < w <= zlen data)%Z -> (w <= zlen data')%Z -> k < length data -> k < length data' ->
  firstn (S k) data = firstn (S k) data' ->
  moving_average 1 data w = Ok r -> moving_average 1 data' w = Ok r' -> nth k r nnan = nth k r' nnan.
Proof. exact ma_causal. Qed.
Print Assumptions C132_moving_average.
Theorem C132_exponential : forall (N : Num) (dt : dtype) (data data' : list N) (alpha : N) (k : nat) r r',
  k < length data -> k < length data' -> firstn (S k) data = firstn (S k) data' ->
  exponential_moving_average dt data alpha = Ok r -> exponential_moving_average dt data' alpha = Ok r' ->
  nth k r nnan = nth k r' nnan.
Proof. exact ema_causal. Qed.
Print Assumptions C132_exponential.
Theorem C132_kalman : forall (N : Num) (Q R : N) (k : nat),
  forall (data data' : list N) (x p : N) r r',
  k < length data -> k < length data' -> firstn (S k) data = firstn (S k) data' ->
  kalman_filter data x p Q R = Ok r -> kalman_filter data' x p Q R = Ok r' -> nth k r nnan = nth k r' nnan.
Proof. exact kalman_causal. Qed.
Print Assumptions C132_kalman.
Theorem C132_kalman_prefix : forall (N : Num) (Q R : N),
  forall (data more : list N) (x p : N) r,
  kalman_filter (data ++ more) x p Q R = Ok r -> kalman_filter data x p Q R = Ok (firstn (length data) r).
Proof. exact kalman_prefix. Qed.
Print Assumptions C132_kalman_prefix.
Theorem C132_weighted_refuted : forall (p k : nat),
  2 <= p -> exists (l l' : list R) r r',
  firstn (S k) l = firstn (S k) l' /\ length l = length l' /\
  @weighted_moving_average XR (fins l) (Z.of_nat p) = Ok (true, fins r) /\
  @weighted_moving_average XR (fins l') (Z.of_nat p) = Ok (true, fins r') /\
  k < length r /\ k < length r' /\ (nth k r 0 < nth k r' 0)%R.
Proof. exact wma_acausal. Qed.
Print Assumptions C132_weighted_refuted.
Example C132_nonvacuous :
  centi (moving_average 1 (ints [4; 2; 8; 1]%Z) 3) = [400; 300; 467; 367]%Z /\ centi (moving_average 1 (ints [4; 2; 8; 70; 5]%Z) 3) = [400; 300; 467; 2667; 2767]%Z /\
  centi (kalman_filter (ints [4; 2; 8]%Z) (nofZ 1) (nofZ 1) (nofZ 1) (nofZ 15)) <> [] /\ centi (exponential_moving_average DInt (ints [4; 2; 8; -9]%Z) (lit 2 1)) = [400; 300; 400; 100]%Z.
Proof. vm_compute. repeat split; discriminate. Qed.

(** ** C133 *)
Local Open Scope R_scope.
Theorem C133_mean_median_std : forall (parse : string -> option XR) (l : list R),
  l <> [] ->
  exists m md s, desc_mean parse (ASeq (map PyFloat (fins l))) = Ok (MVal (Fin m)) /\
    @desc_median XR (farr (fins l)) = Ok (Fin md) /\ @spread_std XR (farr (fins l)) = Ok (Fin s) /\
    Rabs (m - md) <= s /\
    (forall x, In x l -> Rabs (x - m) <= sqrt (INR (length l) - 1) * s) /\
    (forall a b, (forall x, In x l -> a <= x <= b) -> s <= (b - a) / 2).
Proof. exact statistics_consistent. Qed.
Print Assumptions C133_mean_median_std.
Theorem C133_skewness_kurtosis : forall (l : list R),
  l <> [] -> rvar l <> 0 ->
  exists s k, @moment_skewness XR (fins l) = Ok (Fin s) /\ @moment_kurtosis XR (fins l) = Ok (Fin k) /\
    1 <= k <= INR (length l) - 1 /\ s ^ 2 <= INR (length l) - 2.
Proof. exact moments_bounded. Qed.
Print Assumptions C133_skewness_kurtosis.
Example C133_nonvacuous : rmean [0; 10; 0; 0; 0; 0; 0; 0; 0; 0] = 1 /\ rvar [0; 10; 0; 0; 0; 0; 0; 0; 0; 0] = 9.
Proof. exact spike_var. Qed.
Example C133_attained : Rabs (10 - 1) = sqrt (INR 10 - 1) * sqrt 9.
Proof. replace (INR 10 - 1) with (3 * 3) by (cbn; lra). replace 9 with (3 * 3) by lra. rewrite sqrt_square by lra. rewrite Rabs_pos_eq; lra. Qed.

(** ** C134 *)
Theorem C134_rare : forall (l : list R) (f g kg ks : R) tag r,
  0 <= ks ->
  acceleration_thresholding (fins l) (Fin f) tag (Fin g) (Fin kg) (Fin ks) = Ok r ->
  (1 + ks ^ 2) * INR (length r) <= INR (length l).
Proof. exact acceleration_rare. Qed.
Print Assumptions C134_rare.
Theorem C134_monotone : forall (l : list R) (f g g' kg kg' ks ks' : R) tag r r',
  kg * g <= kg' * g' -> ks <= ks' ->
  @acceleration_thresholding XR (fins l) (Fin f) tag (Fin g) (Fin kg) (Fin ks) = Ok r ->
  @acceleration_thresholding XR (fins l) (Fin f) tag (Fin g') (Fin kg') (Fin ks') = Ok r' -> incl r' r.
Proof. exact acceleration_monotone. Qed.
Print Assumptions C134_monotone.
Example C134_nonvacuous : acceleration_thresholding (fins [0; 10; 0; 0; 0; 0; 0; 0; 0; 0]) (Fin 25) 1 (Fin 10) (Fin 1) (Fin 2) = Ok [1%Z].
Proof. exact rare_example. Qed.

(** ** C135 *)
Local Open Scope Z_scope.
Theorem C135_last_valid : forall (N M : Num) (f : N -> M) (v : list N) (idx : list Z),
  last_valid_data (map f v) idx = each f (last_valid_data v idx).
Proof. exact last_valid_natural. Qed.
Print Assumptions C135_last_valid.
Theorem C135_averages : forall (a b : R) (l : list R) (idx : list Z),
  l <> [] ->
  let u := fins l in let v := fins (map (fun x => a * x + b)%R l) in
  @mean_value XR DFloat v idx = each (affine a b) (@mean_value XR DFloat u idx) /\
  @median_value XR DFloat v idx = each (affine a b) (@median_value XR DFloat u idx) /\
  (forall w, 0 < w <= zlen l -> @repl_sma XR DFloat v idx w = each (affine a b) (@repl_sma XR DFloat u idx w)) /\
  (forall p, 0 < p <= zlen l -> @repl_wma XR DFloat v idx p = each (affine a b) (@repl_wma XR DFloat u idx p)) /\
  (forall al, (0 < al <= 1)%R -> @repl_ema XR DFloat v idx (Fin al) = each (affine a b) (@repl_ema XR DFloat u idx (Fin al))).
Proof. exact replacements_affine. Qed.
Print Assumptions C135_averages.
Theorem C135_interpolation : forall (a b : R) (l : list R) (idx : list Z),
  l <> [] -> exists raw : res (list XR), forall d,
  @linear_interpolation XR DFloat (fins l) idx d = each (fun x => around x d) raw /\
  @linear_interpolation XR DFloat (fins (map (fun x => a * x + b)%R l)) idx d = each (fun x => around (affine a b x) d) raw.
Proof. exact interpolation_affine. Qed.
Print Assumptions C135_interpolation.
Theorem C135_interpolation_refuted : 
  exists (l : list R) (idx : list Z) r r',
  @linear_interpolation XR DFloat (fins l) idx 4 = Ok (fins r) /\
  @linear_interpolation XR DFloat (fins (map (fun x => 10 * x + 0)%R l)) idx 4 = Ok (fins r') /\
  nth 1 r 0%R = 0%R /\ (nth 1 r' 0 > 0)%R.
Proof. exact li_unit_refuted. Qed.
Print Assumptions C135_interpolation_refuted.
Local Open Scope R_scope.
Example C135_nonvacuous : mean_value DFloat (fins [1; 2; 9]) [2%Z] = Ok (fins [1; 2; 4]) /\
  each (affine 2 3) (mean_value DFloat (fins [1; 2; 9]) [2%Z]) = Ok (fins [2 * 1 + 3; 2 * 2 + 3; 2 * 4 + 3]).
Proof. rewrite mean_value_example. split; reflexivity. Qed.

(** ** C136 *)
Theorem C136_reynolds : forall (u v w : list R) q11 q12 q13 q21 q22 q23 q31 q32 q33,
  u <> [] -> length u = length v -> length u = length w ->
  exists uu vv ww uv uw vw, @reynolds_stresses XR (fins u) (fins v) (fins w) = Ok (Fin uu, Fin vv, Fin ww, Fin uv, Fin uw, Fin vw) /\
    let T a b c a' b' c' := a * a' * uu + b * b' * vv + c * c' * ww + (a * b' + b * a') * uv + (a * c' + c * a') * uw + (b * c' + c * b') * vw in
    (forall a b c, 0 <= T a b c a b c) /\
    @reynolds_stresses XR (fins (mix q11 q12 q13 u v w)) (fins (mix q21 q22 q23 u v w)) (fins (mix q31 q32 q33 u v w)) =
      Ok (Fin (T q11 q12 q13 q11 q12 q13), Fin (T q21 q22 q23 q21 q22 q23), Fin (T q31 q32 q33 q31 q32 q33),
          Fin (T q11 q12 q13 q21 q22 q23), Fin (T q11 q12 q13 q31 q32 q33), Fin (T q21 q22 q23 q31 q32 q33)).
Proof. exact reynolds_rotated. Qed.
Print Assumptions C136_reynolds.
Theorem C136_energy : forall (u v w : list R) q11 q12 q13 q21 q22 q23 q31 q32 q33,
  u <> [] -> length u = length v -> length u = length w ->
  q11 ^ 2 + q21 ^ 2 + q31 ^ 2 = 1 -> q12 ^ 2 + q22 ^ 2 + q32 ^ 2 = 1 -> q13 ^ 2 + q23 ^ 2 + q33 ^ 2 = 1 ->
  q11 * q12 + q21 * q22 + q31 * q32 = 0 -> q11 * q13 + q21 * q23 + q31 * q33 = 0 -> q12 * q13 + q22 * q23 + q32 * q33 = 0 ->
  @kinetic_turbulent_energy XR (fins (mix q11 q12 q13 u v w)) (fins (mix q21 q22 q23 u v w)) (fins (mix q31 q32 q33 u v w)) =
  @kinetic_turbulent_energy XR (fins u) (fins v) (fins w).
Proof. exact tke_rotated. Qed.
Print Assumptions C136_energy.
Example C136_nonvacuous : let c := sqrt 2 / 2 in
  c ^ 2 + (- c) ^ 2 + 0 ^ 2 = 1 /\ c ^ 2 + c ^ 2 + 0 ^ 2 = 1 /\ c * c + - c * c + 0 * 0 = 0 /\
  mix c c 0 [1; 3] [5; 1] [0; 2] = [c * 1 + c * 5 + 0 * 0; c * 3 + c * 1 + 0 * 2].
Proof. exact rotation_example. Qed.
