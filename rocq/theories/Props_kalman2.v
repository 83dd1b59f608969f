(** Property theorems C139-C141 (Kalman filter: least squares, stationary form, limits). *)
From Coq Require Import Reals Lra Lia List ZArith.
From Flocq Require Import Core.Raux.
From Verif Require Import P_kalman2.
Import ListNotations.
Local Open Scope R_scope.

Local Notation NF := (F64 libm_basic).
Local Definition ints (l : list Z) : list NF := map nofZ l.
Local Definition centi (r : res (list NF)) : list Z :=
  match r with Ok l => map (fun x => nceilZ (nsub (nmul x (nofZ 100)) (ndiv (nofZ 1) (nofZ 2)))) l | Raise _ => [] end.

(** ** C139 *)
Theorem C139_least_squares : forall (l : list R) x0 p0 Q R0,
  0 < Q -> 0 < R0 -> 0 < p0 ->
  exists est, @kalman_filter XR (fins l) (Fin x0) (Fin p0) (Fin Q) (Fin R0) = Ok (fins est) /\ length est = length l /\
    forall k, (k < length l)%nat ->
      (exists start y, length y = S k /\ last y 0 = nth k est 0 /\
         forall start' y', length y' = S k ->
           prior_cost Q R0 x0 p0 (firstn (S k) l) start y <= prior_cost Q R0 x0 p0 (firstn (S k) l) start' y') /\
      (forall start y, length y = S k ->
         (forall start' y', length y' = S k ->
           prior_cost Q R0 x0 p0 (firstn (S k) l) start y <= prior_cost Q R0 x0 p0 (firstn (S k) l) start' y') ->
         last y 0 = nth k est 0).
Proof. exact kalman_least_squares. Qed.
Print Assumptions C139_least_squares.
Example C139_nonvacuous : exists est, @kalman_filter XR (fins [3; 8]) (Fin 0) (Fin 1) (Fin 1) (Fin 1) = Ok (fins est) /\
  est = [2; 5 + 3 / 4] /\ prior_cost 1 1 0 1 [3] 1 [2] = 3 /\ prior_cost 1 1 0 1 [3] 1 [1] = 5 /\
  0 < 1 /\ (1 < length [3; 8])%nat.
Proof.
  exists [2; 5 + 3 / 4]. split; [|split; [reflexivity | unfold prior_cost; cbn; repeat split; try lra; lia]].
  rewrite kalman_cons by lra. rewrite kalman_cons by lra. cbn. do 2 f_equal; [f_equal; lra|]. f_equal. f_equal. lra.
Qed.

(** ** C140 *)
Theorem C140_steady : forall (l : list R) x0 p0 Q R0 lo hi,
  0 < Q -> 0 < R0 -> 0 <= p0 -> l <> [] ->
  lo <= x0 <= hi -> (forall j, (j < length l)%nat -> lo <= nth j l 0 <= hi) ->
  exists est ema, @kalman_filter XR (fins l) (Fin x0) (Fin p0) (Fin Q) (Fin R0) = Ok (fins est) /\
    @exponential_moving_average XR DFloat (fins l) (Fin (steady_gain Q R0)) = Ok (fins ema) /\
    0 < steady_gain Q R0 < 1 /\
    length est = length l /\ length ema = length l /\
    forall i, (i < length l)%nat -> Rabs (nth i est 0 - nth i ema 0) <= INR (S i) * (R0 / (Q + R0)) ^ i * (hi - lo).
Proof. exact kalman_to_ema. Qed.
Print Assumptions C140_steady.
Theorem C140_forgets : forall (l : list R) x0 p0 x0' p0' Q R0 lo hi,
  0 < Q -> 0 < R0 -> 0 <= p0 -> 0 <= p0' ->
  lo <= x0 <= hi -> lo <= x0' <= hi -> (forall j, (j < length l)%nat -> lo <= nth j l 0 <= hi) ->
  exists est est', @kalman_filter XR (fins l) (Fin x0) (Fin p0) (Fin Q) (Fin R0) = Ok (fins est) /\
    @kalman_filter XR (fins l) (Fin x0') (Fin p0') (Fin Q) (Fin R0) = Ok (fins est') /\
    length est = length l /\ length est' = length l /\
    forall i, (i < length l)%nat ->
      Rabs (nth i est 0 - nth i est' 0) <= 2 * INR (S i) * (R0 / (Q + R0)) ^ i * (hi - lo).
Proof. exact kalman_forgets. Qed.
Print Assumptions C140_forgets.
Example C140_nonvacuous : steady_gain 1 2 = 1 / 2 /\ 0 < 1 /\ 0 < 2 /\ 0 <= 0 <= 10 /\
  (forall j, (j < length [4; 10; 0])%nat -> 0 <= nth j [4; 10; 0] 0 <= 10).
Proof.
  split.
  - unfold steady_gain. replace (1 ^ 2 + 4 * 1 * 2) with (3 * 3) by ring. rewrite sqrt_square by lra. field.
  - repeat split; try lra; intros; destruct j as [|[|[|j]]]; cbn; try lra; cbn in *; lia.
Qed.
Example C140_run :
  centi (kalman_filter (ints [4; 10; 0; 6; 8; 2]%Z) (nofZ 0) (nofZ 1) (nofZ 1) (nofZ 2)) = [200; 600; 300; 450; 625; 412]%Z /\
  centi (kalman_filter (ints [4; 10; 0; 6; 8; 2]%Z) (nofZ 9) (nofZ 7) (nofZ 1) (nofZ 2)) = [500; 783; 379; 490; 645; 423]%Z /\
  centi (exponential_moving_average DFloat (ints [4; 10; 0; 6; 8; 2]%Z) (ndiv (nofZ 1) (nofZ 2))) = [400; 700; 350; 475; 637; 419]%Z.
Proof. repeat split; vm_compute; reflexivity. Qed.

(** ** C141 *)
Theorem C141_limits : forall (l : list R) x0 p0,
  0 <= p0 ->
  (forall R0, 0 < R0 ->
     exists est, @kalman_filter XR (fins l) (Fin x0) (Fin p0) (Fin 0) (Fin R0) = Ok (fins est) /\ length est = length l /\
       forall k, (k < length l)%nat ->
         nth k est 0 = (R0 * x0 + p0 * Rsum (firstn (S k) l)) / (R0 + INR (S k) * p0)) /\
  (forall Q, 0 < Q -> @kalman_filter XR (fins l) (Fin x0) (Fin p0) (Fin Q) (Fin 0) = Ok (fins l)) /\
  (0 < p0 -> @kalman_filter XR (fins l) (Fin x0) (Fin p0) (Fin 0) (Fin 0) =
     (if (length l <=? 1)%nat then Ok (fins l) else Raise LinAlgError)) /\
  (p0 = 0 -> @kalman_filter XR (fins l) (Fin x0) (Fin p0) (Fin 0) (Fin 0) =
     (if (length l <=? 0)%nat then Ok (fins l) else Raise LinAlgError)).
Proof. exact kalman_limits. Qed.
Print Assumptions C141_limits.
Example C141_nonvacuous :
  (2 * 1 + 3 * Rsum (firstn 2 [3; 8; 4])) / (2 + INR 2 * 3) = 4 + 3 / 8 /\ (length [3; 8; 4] <=? 1)%nat = false.
Proof. split; [cbn; lra | reflexivity]. Qed.
Example C141_run :
  centi (kalman_filter (ints [3; 8; 4]%Z) (nofZ 1) (nofZ 3) (nofZ 0) (nofZ 2)) = [220; 437; 427]%Z /\
  centi (kalman_filter (ints [3; 8; 4]%Z) (nofZ 1) (nofZ 3) (nofZ 2) (nofZ 0)) = [300; 800; 400]%Z /\
  (match kalman_filter (ints [3; 8; 4]%Z) (nofZ 1) (nofZ 3) (nofZ 0) (nofZ 0) with Raise LinAlgError => true | _ => false end) = true.
Proof. repeat split; vm_compute; reflexivity. Qed.
