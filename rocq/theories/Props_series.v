(** Property theorems C10-C17 (series.py). *)
From Coq Require Import Reals Lra.
From Flocq Require Import Core.Raux.
From Verif Require Import P_series P_kalman P_ssa2.
Local Open Scope R_scope.

Local Notation NF := (F64 libm_basic).
Local Definition ints (l : list Z) : list NF := map nofZ l.
Local Definition centi (r : res (list NF)) : list Z :=
  match r with Ok l => map (fun x => nceilZ (nsub (nmul x (nofZ 100)) (ndiv (nofZ 1) (nofZ 2)))) l | Raise _ => [] end.

(** ** C10 *)
Theorem C10_moving_average : forall (l : list R) (w : Z), (0 < w <= zlen l)%Z ->
  @moving_average XR 1 (fins l) w =
  Ok (fins (map (fun i => rmean (rwindow l (Z.to_nat w) i)) (seq 0 (length l)))).
Proof. exact moving_average_correct. Qed.
Print Assumptions C10_moving_average.

Theorem C10_errors : forall (N : Num) (ndim : Z) (data : list N) (w : Z),
  ((w <= 0)%Z -> moving_average ndim data w = Raise ValueError) /\
  ((0 < w)%Z -> data = [] -> moving_average ndim data w = Ok []) /\
  ((0 < w)%Z -> data <> [] -> ndim <> 1%Z \/ (zlen data < w)%Z -> moving_average ndim data w = Raise ValueError).
Proof. exact moving_average_errors. Qed.
Print Assumptions C10_errors.

(** In binary64 the incremental update drifts: the last window of [1e17; 1; 0; 0] holds only zeros, yet
    the average reported there is -0.5. *)
Theorem C10_binary64_drift_refuted : exists (data : list (F64 libm_basic)) (w : Z) r,
  (0 < w <= zlen data)%Z /\ moving_average 1 data w = Ok r /\
  forallb (fun x => neqb x (nofZ 0)) (rwindow data (Z.to_nat w) 3) = true /\
  neqb (nth 3 r nnan) (lit (-5) 1) = true.
Proof. exact moving_average_drift. Qed.
Print Assumptions C10_binary64_drift_refuted.

Example C10_nonvacuous : (0 < 2 <= zlen [1; 5; 3; -2])%Z. Proof. unfold zlen; cbn; lia. Qed.
Example C10_run : centi (moving_average 1 (ints [4; 2; 8; 1]%Z) 3) = [400; 300; 467; 367]%Z.
Proof. vm_compute. reflexivity. Qed.

(** ** C11 *)
Theorem C11_nan_spreads_refuted : forall (N : Num), nan_laws N -> forall (data : list N) (w : Z) (j : nat) r,
  (j < length data)%nat -> nisnan (nth j data nnan) = true ->
  moving_average 1 data w = Ok r ->
  length r = length data /\ forall i, (j <= i < length data)%nat -> nisnan (nth i r nnan) = true.
Proof. exact moving_average_nan. Qed.
Print Assumptions C11_nan_spreads_refuted.

Theorem C11_refuted : exists (data : list XR) (w : Z) r i,
  moving_average 1 data w = Ok r /\ (i < length data)%nat /\
  existsb nisnan (rwindow data (Z.to_nat w) i) = false /\ nisnan (nth i r nnan) = true.
Proof. exact moving_average_nan_witness. Qed.
Print Assumptions C11_refuted.

Theorem C11_nan_laws_exact : nan_laws XR.
Proof. exact XR_nan. Qed.
Print Assumptions C11_nan_laws_exact.
Theorem C11_nan_laws_binary64 : forall L : Libm,
  (forall l, (exists x, In x l /\ BinarySingleNaN.is_nan x = true) -> BinarySingleNaN.is_nan (l_sum L l) = true) ->
  nan_laws (F64 L).
Proof. exact F64_nan. Qed.
Print Assumptions C11_nan_laws_binary64.
Example C11_nonvacuous : nan_laws (F64 libm_basic). Proof. exact (F64_nan libm_basic libm_basic_nan_sum). Qed.

(** ** C12 *)
Theorem C12_recurrence : forall (N : Num) (data : list N) (alpha : N),
  nleb alpha (nofZ 0) || nltb (nofZ 1) alpha = false -> data <> [] ->
  exists r, exponential_moving_average DFloat data alpha = Ok r /\ length r = length data /\
    nth 0 r nnan = nth 0 data nnan /\
    forall i, (0 < i < length data)%nat ->
      nth i r nnan = nadd (nmul alpha (nth i data nnan)) (nmul (nsub (nofZ 1) alpha) (nth (i - 1) r nnan)).
Proof. exact (fun N => ema_recurrence N DFloat). Qed.
Print Assumptions C12_recurrence.

Theorem C12_closed_form_and_range : forall (l : list R) (a : R), 0 < a <= 1 -> l <> [] ->
  exists r, @exponential_moving_average XR DFloat (fins l) (Fin a) = Ok (fins r) /\ length r = length l /\
    (forall i, (i < length l)%nat ->
       nth i r 0 = Rsum (map (fun j => ema_weight a i j * nth j l 0) (seq 0 (S i))) /\
       Rsum (map (ema_weight a i) (seq 0 (S i))) = 1 /\
       (forall j, 0 <= ema_weight a i j) /\
       forall lo hi, (forall j, (j <= i)%nat -> lo <= nth j l 0 <= hi) -> lo <= nth i r 0 <= hi).
Proof. exact ema_summary. Qed.
Print Assumptions C12_closed_form_and_range.

Theorem C12_alpha_rejected : forall (dt : dtype) (l : list XR) (a : R), ~ (0 < a <= 1) ->
  @exponential_moving_average XR dt l (Fin a) = Raise ValueError.
Proof. exact ema_alpha_bad. Qed.
Print Assumptions C12_alpha_rejected.
Theorem C12_alpha_rejected_any_number : forall (N : Num) (dt : dtype) (data : list N) (alpha : N),
  nleb alpha (nofZ 0) = true \/ nltb (nofZ 1) alpha = true ->
  exponential_moving_average dt data alpha = Raise ValueError.
Proof. exact ema_alpha_gen. Qed.
Print Assumptions C12_alpha_rejected_any_number.
Theorem C12_empty : forall (N : Num) (dt : dtype) (alpha : N),
  nleb alpha (nofZ 0) || nltb (nofZ 1) alpha = false ->
  exponential_moving_average dt (@nil N) alpha = Raise IndexError.
Proof. exact ema_empty. Qed.
Print Assumptions C12_empty.
Example C12_nonvacuous :
  nleb (lit 3 1 : F64 libm_basic) (nofZ 0) || nltb (nofZ 1) (lit 3 1 : F64 libm_basic) = false /\ 0 < 3 / 10 <= 1.
Proof. split; [vm_compute; reflexivity | lra]. Qed.
Example C12_run : centi (exponential_moving_average DFloat (ints [4; 2; 8]%Z) (lit 2 1)) = [400; 360; 448]%Z.
Proof. vm_compute. reflexivity. Qed.

(** ** C13 *)
Theorem C13_integer_truncation : forall (N : Num) (data : list N) (alpha : N),
  nleb alpha (nofZ 0) || nltb (nofZ 1) alpha = false -> data <> [] ->
  exists r, exponential_moving_average DInt data alpha = Ok r /\ length r = length data /\
    nth 0 r nnan = ntrunc (nth 0 data nnan) /\
    forall i, (0 < i < length data)%nat ->
      nth i r nnan = ntrunc (nadd (nmul alpha (nth i data nnan)) (nmul (nsub (nofZ 1) alpha) (nth (i - 1) r nnan))).
Proof. exact (fun N => ema_recurrence N DInt). Qed.
Print Assumptions C13_integer_truncation.

(** On 0, 1, 1, 1, ... with alpha = 1/2 the integer record gives 0 for ever, the float record 1 - 2^-i. *)
Theorem C13_refuted : forall n : nat, exists r rf,
  @exponential_moving_average XR DInt (fins (0 :: repeat 1 (S n))) (Fin (/ 2)) = Ok (fins r) /\
  @exponential_moving_average XR DFloat (fins (0 :: repeat 1 (S n))) (Fin (/ 2)) = Ok (fins rf) /\
  forall i, (i <= S n)%nat -> nth i r 0 = 0 /\ nth i rf 0 = 1 - (/ 2) ^ i.
Proof. exact ema_int_stuck. Qed.
Print Assumptions C13_refuted.
Example C13_nonvacuous : 1 - (/ 2) ^ 3 = 7 / 8. Proof. lra. Qed.
Example C13_run : centi (exponential_moving_average DInt (ints [4; 2; 8; -9]%Z) (lit 2 1)) = [400; 300; 400; 100]%Z.
Proof. vm_compute. reflexivity. Qed.

(** ** C14 *)
Theorem C14_weighted_moving_average : forall (l : list R) (p : Z), (0 < p)%Z -> (p <= zlen l)%Z ->
  exists r, @weighted_moving_average XR (fins l) p = Ok ((p <? zlen l)%Z, fins r) /\
    length r = (length l - Z.to_nat p)%nat /\
    forall k, (k < length l - Z.to_nat p)%nat ->
      nth k r 0 = rwmean (firstn (Z.to_nat p) (skipn k l)) /\
      forall lo hi, (forall j, (k <= j < k + Z.to_nat p)%nat -> lo <= nth j l 0 <= hi) -> lo <= nth k r 0 <= hi.
Proof. exact wma_summary. Qed.
Print Assumptions C14_weighted_moving_average.
Theorem C14_errors : forall (N : Num) (data : list N) (p : Z), (p <= 0 \/ zlen data < p)%Z ->
  weighted_moving_average data p = Raise ValueError.
Proof. exact wma_errors. Qed.
Print Assumptions C14_errors.
Theorem C14_last_sample_ignored : forall (N : Num) (l : list N) (x y : N) (p : Z),
  weighted_moving_average (l ++ [x]) p = weighted_moving_average (l ++ [y]) p.
Proof. exact wma_last_irrelevant. Qed.
Print Assumptions C14_last_sample_ignored.
Example C14_nonvacuous : rwmean [1; 2; 6] = (1 * 1 + 2 * 2 + 3 * 6) / 6. Proof. unfold rwmean. cbn. lra. Qed.
Example C14_run : (match weighted_moving_average (ints [1; 2; 6; 0; 50]%Z) 3 with Ok (_, r) => centi (Ok r) | Raise _ => [] end) = [383; 233]%Z.
Proof. vm_compute. reflexivity. Qed.

(** ** C15 *)
Theorem C15_diagonal_average : forall (rows : list (list R)) (L K : nat),
  (1 <= L)%nat -> (1 <= K)%nat -> mshape rows L K ->
  diagonal_average (finm rows) K (Z.of_nat L) (Z.of_nat (L + K - 1)) =
  Ok (fins (map (fun t => round_dec 4 (rmean (antidiag rows L K t))) (seq 0 (L + K - 1)))).
Proof. exact diagonal_average_correct. Qed.
Print Assumptions C15_diagonal_average.
Example C15_nonvacuous : mshape [[1; 2; 3]; [4; 5; 6]] 2 3 /\ antidiag [[1; 2; 3]; [4; 5; 6]] 2 3 1 = [2; 4].
Proof. split; [split; [reflexivity | intros r [<-|[<-|[]]]; reflexivity] | reflexivity]. Qed.

(** ** C16 *)
Theorem C16_ssa_projection : forall (eigh : @matrix XR -> res (@matrix XR)) (x : list R) (fs f : R)
    (E : list (list R)) (L K : nat),
  f <> 0 -> fs <> 0 -> Zceil (fs / f) = Z.of_nat L -> (2 <= L)%nat -> (1 <= K)%nat -> length x = (L + K - 1)%nat ->
  mshape E L L -> eigh (finm (rtrajcov x L K)) = Ok (finm E) ->
  exists sel : list nat,
    ssa eigh (fins x) (Fin fs) (Fin f) =
      Ok (fins (map (fun t => round_dec 4 (rmean (antidiag (rproject E sel x L K) L K t))) (seq 0 (L + K - 1)))) /\
    StronglySorted lt sel /\ (forall i, In i sel -> (i < L)%nat) /\
    (rmob_den (rdummy fs f L) <> 0 ->
      forall i, (i < L)%nat -> rmob_den (mcol E i) <> 0 ->
        (In i sel <-> rmobility (mcol E i) <= rmobility (rdummy fs f L))).
Proof. exact ssa_general. Qed.
Print Assumptions C16_ssa_projection.

Theorem C16_ssa_identity : forall (eigh : @matrix XR -> res (@matrix XR)) (x : list R) (fs f : R)
    (E : list (list R)) (L K : nat),
  f <> 0 -> fs <> 0 -> Zceil (fs / f) = Z.of_nat L -> (2 <= L)%nat -> (1 <= K)%nat -> length x = (L + K - 1)%nat ->
  mshape E L L -> eigh (finm (rtrajcov x L K)) = Ok (finm E) ->
  orthonormal_cols E L ->
  rmob_den (rdummy fs f L) <> 0 ->
  (forall i, (i < L)%nat -> rmob_den (mcol E i) <> 0 /\ rmobility (mcol E i) <= rmobility (rdummy fs f L)) ->
  ssa eigh (fins x) (Fin fs) (Fin f) = Ok (fins (map (round_dec 4) x)).
Proof. exact ssa_identity. Qed.
Print Assumptions C16_ssa_identity.

Theorem C16_window_too_long : forall (N : Num) (eigh : @matrix N -> res (@matrix N)) (x : list N) (fs f : N),
  (neqb f (nofZ 0) = true -> ssa eigh x fs f = Raise ZeroDivisionError) /\
  (neqb f (nofZ 0) = false ->
    (nisnan (ndiv fs f) = true -> ssa eigh x fs f = Raise ValueError) /\
    (nisnan (ndiv fs f) = false ->
      (nisfin (ndiv fs f) = false -> ssa eigh x fs f = Raise OverflowError) /\
      (nisfin (ndiv fs f) = true -> (nceilZ (ndiv fs f) < 0 \/ zlen x + 1 < nceilZ (ndiv fs f))%Z -> ssa eigh x fs f = Raise ValueError))).
Proof. exact ssa_too_short. Qed.
Print Assumptions C16_window_too_long.
Theorem C16_window_zero : forall (N : Num) (eigh : @matrix N -> res (@matrix N)) (x : list N) (fs f : N) E,
  neqb f (nofZ 0) = false -> nisnan (ndiv fs f) = false -> nisfin (ndiv fs f) = true -> nceilZ (ndiv fs f) = 0%Z ->
  eigh [] = Ok E -> ssa eigh x fs f = Raise ValueError.
Proof. exact ssa_window_zero. Qed.
Print Assumptions C16_window_zero.
Theorem C16_window_one_too_long : forall (N : Num) (eigh : @matrix N -> res (@matrix N)) (x : list N) (fs f : N),
  neqb f (nofZ 0) = false -> nisnan (ndiv fs f) = false -> nisfin (ndiv fs f) = true -> nceilZ (ndiv fs f) = (zlen x + 1)%Z -> x <> [] ->
  (forall c, exists E, eigh c = Ok E /\ length E = S (length x)) ->
  ssa eigh x fs f = Raise IndexError.
Proof. exact ssa_window_succ. Qed.
Print Assumptions C16_window_one_too_long.
Theorem C16_window_one : forall (eigh : @matrix XR -> res (@matrix XR)) (x : list R) (fs f : R) e,
  Zceil (fs / f) = 1%Z -> f <> 0 -> x <> [] ->
  (forall c, eigh c = Ok [[e]]) -> ssa eigh (fins x) (Fin fs) (Fin f) = Raise ValueError.
Proof. exact ssa_window_one. Qed.
Print Assumptions C16_window_one.

Example C16_nonvacuous :
  let x := [0; 0; 1; 0; 0] in let E := [[1; 0; 0]; [0; 1; 0]; [0; 0; 1]] in
  Zceil (3 / 1) = Z.of_nat 3 /\ mshape E 3 3 /\ orthonormal_cols E 3 /\ length x = (3 + 3 - 1)%nat /\
  rtrajcov x 3 3 = E /\
  rmob_den (rdummy 3 1 3) <> 0 /\
  (forall i, (i < 3)%nat -> rmob_den (mcol E i) <> 0 /\ rmobility (mcol E i) <= rmobility (rdummy 3 1 3)).
Proof. exact ssa_example. Qed.

(** ** C17 *)
Theorem C17_kalman : forall Q R0 (l : list R) x0 p0, 0 < Q -> 0 < R0 -> 0 <= p0 ->
  exists est gain, @kalman_filter XR (fins l) (Fin x0) (Fin p0) (Fin Q) (Fin R0) = Ok (fins est) /\
    length est = length l /\
    gain O = (p0 + Q) / (p0 + Q + R0) /\
    (forall i, gain (S i) = (R0 * gain i + Q) / (R0 * gain i + Q + R0)) /\
    (forall i, 0 < gain i < 1) /\
    (forall i, (i < length l)%nat ->
      let prev := nth i (x0 :: est) 0 in
      nth i est 0 = prev + gain i * (nth i l 0 - prev)) /\
    (forall lo hi i, (i < length l)%nat -> lo <= x0 <= hi -> (forall j, (j <= i)%nat -> lo <= nth j l 0 <= hi) ->
      lo <= nth i est 0 <= hi).
Proof. exact kalman_summary. Qed.
Print Assumptions C17_kalman.
Theorem C17_affine : forall Q R0 (l : list R) x0 p0 a b, 0 < Q -> 0 < R0 -> 0 <= p0 ->
  exists est, @kalman_filter XR (fins l) (Fin x0) (Fin p0) (Fin Q) (Fin R0) = Ok (fins est) /\
    @kalman_filter XR (fins (map (fun x => a * x + b) l)) (Fin (a * x0 + b)) (Fin p0) (Fin Q) (Fin R0)
      = Ok (fins (map (fun x => a * x + b) est)).
Proof. exact kalman_affine. Qed.
Print Assumptions C17_affine.
Theorem C17_gain_converges : forall Q R0 (l : list R) x0 p0, 0 < Q -> 0 < R0 -> 0 <= p0 ->
  exists est gain g, @kalman_filter XR (fins l) (Fin x0) (Fin p0) (Fin Q) (Fin R0) = Ok (fins est) /\
    (forall i, (i < length l)%nat -> nth i est 0 = nth i (x0 :: est) 0 + gain i * (nth i l 0 - nth i (x0 :: est) 0)) /\
    0 < g < 1 /\ R0 * g ^ 2 + Q * g = Q /\ forall i, Rabs (gain i - g) <= (R0 / (Q + R0)) ^ i.
Proof. exact kalman_gain_limit. Qed.
Print Assumptions C17_gain_converges.
Theorem C17_singular : forall (l : list R) z x0 p0 Q R0, p0 + Q + R0 = 0 ->
  @kalman_filter XR (fins (z :: l)) (Fin x0) (Fin p0) (Fin Q) (Fin R0) = Raise LinAlgError.
Proof. exact kalman_singular. Qed.
Print Assumptions C17_singular.
Example C17_nonvacuous : 0 < / 100 /\ 0 < / 10 /\ 0 <= 1. Proof. lra. Qed.
Example C17_run : centi (kalman_filter (ints [4; 2; 8]%Z) (nofZ 1) (nofZ 1) (lit 1 2) (nofZ 15)) = [119; 124; 162]%Z.
Proof. vm_compute. reflexivity. Qed.
