(** Property theorems C146 (selectivity of the Butterworth designs) and C60_blocked. *)
From Coq Require Import Reals Lra Lia.
From Coquelicot Require Import Complex.
From Verif Require Import P_bwsel.
Local Open Scope R_scope.

Theorem C60_blocked : forall (argsort : list XR -> list nat) (s o : string) (Ho : lower o = "zps"%string) b n v zs ps k,
  (0 < n)%nat -> digital_ok b -> lower s = band_name b -> -1 < v < 1 ->
  butterworth argsort (Fin (INR n)) (fins (band_freqs b)) s false o (@SrNone XR) = Ok (Zps (cfs zs, cfs ps, Fin k)) ->
  ~ band_regular (band_map plain_tan b) (plain_tan v) -> tf zs ps k (Ei (PI * v)) = RtoC 0.
Proof. exact @digital_blocked. Qed.
Print Assumptions C60_blocked.
(** A band-pass design at frequency 0. *)
Example C60_blocked_nonvacuous : digital_ok (BP (1 / 5) (2 / 5)) /\ ~ band_regular (band_map plain_tan (BP (1 / 5) (2 / 5))) (plain_tan 0).
Proof.
  split.
  - split; [cbn; lra|]. intros w [<-|[<-|[]]]; lra.
  - cbn. intros H. apply H. unfold plain_tan. replace (PI * 0 / 2) with 0 by field. apply tan_0.
Qed.
Theorem C146_selective : forall (argsort : list XR -> list nat) (s o : string) (Ho : lower o = "zps"%string) b n ag v zs ps k,
  (0 < n)%nat -> design_ok ag b -> lower s = band_name b -> freq_ok ag v ->
  butterworth argsort (Fin (INR n)) (fins (band_freqs b)) s ag o (@SrNone XR) = Ok (Zps (cfs zs, cfs ps, Fin k)) ->
  0 <= mag2 (tf zs ps k (point ag v)) <= 1 /\
  (passed b v -> 1 / 2 < mag2 (tf zs ps k (point ag v))) /\
  (rejected b v -> mag2 (tf zs ps k (point ag v)) < 1 / 2).
Proof. exact @selective. Qed.
Print Assumptions C146_selective.
Theorem C146_order : forall (argsort : list XR -> list nat) (s o : string) (Ho : lower o = "zps"%string) b n m ag v zs ps k zs' ps' k',
  (0 < n < m)%nat -> design_ok ag b -> lower s = band_name b ->
  freq_ok ag v ->
  butterworth argsort (Fin (INR n)) (fins (band_freqs b)) s ag o (@SrNone XR) = Ok (Zps (cfs zs, cfs ps, Fin k)) ->
  butterworth argsort (Fin (INR m)) (fins (band_freqs b)) s ag o (@SrNone XR) = Ok (Zps (cfs zs', cfs ps', Fin k')) ->
  (passed b v -> mag2 (tf zs ps k (point ag v)) < mag2 (tf zs' ps' k' (point ag v)) \/
                 mag2 (tf zs ps k (point ag v)) = 1 /\ mag2 (tf zs' ps' k' (point ag v)) = 1) /\
  (rejected b v -> mag2 (tf zs' ps' k' (point ag v)) < mag2 (tf zs ps k (point ag v)) \/
                 mag2 (tf zs ps k (point ag v)) = 0 /\ mag2 (tf zs' ps' k' (point ag v)) = 0).
Proof. exact @order_sharper. Qed.
Print Assumptions C146_order.
Theorem C146_limit : forall (argsort : list XR -> list nat) (s o : string) (Ho : lower o = "zps"%string) b ag v eps,
  design_ok ag b -> lower s = band_name b -> freq_ok ag v -> 0 < eps ->
  exists n0, forall n zs ps k, (n0 <= n)%nat ->
  butterworth argsort (Fin (INR n)) (fins (band_freqs b)) s ag o (@SrNone XR) = Ok (Zps (cfs zs, cfs ps, Fin k)) ->
  (passed b v -> 1 - eps < mag2 (tf zs ps k (point ag v))) /\
  (rejected b v -> mag2 (tf zs ps k (point ag v)) < eps).
Proof. exact @brick_wall. Qed.
Print Assumptions C146_limit.
Theorem C146_monotone : forall (argsort : list XR -> list nat) (s o : string) (Ho : lower o = "zps"%string) b n ag u v zs ps k,
  (0 < n)%nat -> design_ok ag b -> lower s = band_name b ->
  freq_ok ag u -> freq_ok ag v -> 0 <= u < v ->
  butterworth argsort (Fin (INR n)) (fins (band_freqs b)) s ag o (@SrNone XR) = Ok (Zps (cfs zs, cfs ps, Fin k)) ->
  match b with
  | LP _ => mag2 (tf zs ps k (point ag v)) < mag2 (tf zs ps k (point ag u))
  | HP _ => mag2 (tf zs ps k (point ag u)) < mag2 (tf zs ps k (point ag v))
  | _ => True
  end.
Proof. exact @monotone. Qed.
Print Assumptions C146_monotone.
Theorem C146_unimodal : forall (argsort : list XR -> list nat) (s o : string) (Ho : lower o = "zps"%string) w1 w2 n ag u v c zs ps k,
  (0 < n)%nat -> design_ok ag (BP w1 w2) -> lower s = "bp"%string ->
  freq_ok ag u -> freq_ok ag v -> freq_ok ag c -> 0 <= u < v -> 0 < c ->
  (afreq ag c) ^ 2 = afreq ag w1 * afreq ag w2 ->
  butterworth argsort (Fin (INR n)) (fins [w1; w2]) s ag o (@SrNone XR) = Ok (Zps (cfs zs, cfs ps, Fin k)) ->
  (v <= c -> mag2 (tf zs ps k (point ag u)) < mag2 (tf zs ps k (point ag v))) /\
  (c <= u -> mag2 (tf zs ps k (point ag v)) < mag2 (tf zs ps k (point ag u))).
Proof. exact @unimodal. Qed.
Print Assumptions C146_unimodal.

(** The hypotheses are met by a digital band-pass of order 3 and one of order 5; 2/5 is kept and 1/5
    is not; the gain at 0 is zero. *)
Example C146_nonvacuous : design_ok false (BP (1 / 4) (1 / 2)) /\ freq_ok false (2 / 5) /\ freq_ok false (1 / 5) /\
  passed (BP (1 / 4) (1 / 2)) (2 / 5) /\ rejected (BP (1 / 4) (1 / 2)) (1 / 5) /\
  ~ band_regular (band_map plain_tan (BP (1 / 4) (1 / 2))) (plain_tan 0) /\
  forall n, exists zs ps k, butterworth ins_argsort (Fin (INR n)) (fins [1 / 4; 1 / 2]) "bp" false "zps" (@SrNone XR)
    = Ok (Zps (cfs zs, cfs ps, Fin k)).
Proof.
  assert (D : digital_ok (BP (1 / 4) (1 / 2))) by (split; [cbn; lra|intros w [<-|[<-|[]]]; lra]).
  split; [exact D|]. split; [right; lra|]. split; [right; lra|].
  split; [cbn [passed]; rewrite Rabs_pos_eq; lra|]. split; [cbn [rejected]; rewrite Rabs_pos_eq; lra|].
  split; [rewrite plain_tan_0; cbn; lra|]. intros n.
  destruct (digital_design ins_argsort "bp" "zps" eq_refl (BP (1 / 4) (1 / 2)) n D eq_refl) as (zs & ps & k & E & _).
  exists zs, ps, k. exact E.
Qed.
(** The analog band-pass from 1 to 4 has its centre at 2. *)
Example C146_nonvacuous_centre : design_ok true (BP 1 4) /\ freq_ok true 3 /\ freq_ok true 5 /\
  afreq true 2 ^ 2 = afreq true 1 * afreq true 4 /\
  exists zs ps k, butterworth ins_argsort (Fin (INR 2)) (fins [1; 4]) "bp" true "zps" (@SrNone XR)
    = Ok (Zps (cfs zs, cfs ps, Fin k)).
Proof.
  assert (D : band_ok (BP 1 4)) by (cbn; lra).
  split; [exact D|]. split; [now left|]. split; [now left|]. split; [cbn; lra|].
  destruct (analog_design ins_argsort "bp" "zps" eq_refl (BP 1 4) 2 D eq_refl) as (zs & ps & k & E & _).
  exists zs, ps, k. exact E.
Qed.
