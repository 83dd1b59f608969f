(** Selectivity of the Butterworth designs. *)
From Coq Require Import Reals Lra Psatz.
From Coquelicot Require Import Complex.
From Verif Require Export Num NpBase Lib XR M_butter Spec3 Spec23 P_cx P_butter P_buttap P_design P_bwfun P_bwprops P_poly P_cxr P_sop P_sop2 P_sop3 P_bwfinal.
Local Open Scope R_scope.

(** ** Digital designs at the frequencies where the prototype is not finite *)
Lemma ddesign_stop b n v : (0 < n)%nat -> digital_ok b -> -1 < v < 1 ->
  ~ band_regular (band_map plain_tan b) (plain_tan v) ->
  tf (fst (fst (ddesign b n))) (snd (fst (ddesign b n))) (snd (ddesign b n)) (Ei (PI * v)) = RtoC 0.
Proof.
  intros Hn Hb Hv HR. pose proof (warp_ok b Hb) as Hw. pose proof PI_RGT_0.
  assert (RR : ~ band_regular (band_map warp b) (warp v)).
  { intros C. apply HR. revert C. unfold warp, plain_tan.
    destruct b; cbn [band_map band_regular]; intros C; nra. }
  assert (HC : cos (PI * v / 2) <> 0).
  { assert (0 < cos (PI * v / 2)); [apply cos_gt_0; nra|lra]. }
  destruct (circle_point v HC) as [N1 E1].
  rewrite <- (stop_analog (band_map warp b) n (warp v)) by easy. rewrite <- E1.
  destruct (adesign_no4 _ n Hw) as [Z P]. destruct (adesign_conj (band_map warp b) n) as [CZ CP].
  destruct (adesign_lengths (band_map warp b) n) as [L1 L2].
  cbn [ddesign fst snd]. apply bilinear_tf; try easy; [rewrite L1; easy|].
  apply (circle_not_pole b n (PI * v) Hb).
Qed.

(** ** The squared ratio compared with 1 *)
Lemma abs_lt_sq a b : 0 <= b -> (Rabs a < b <-> a ^ 2 < b ^ 2).
Proof.
  intros H. rewrite <- (pow2_abs a). pose proof (Rabs_pos a). split; intros E; nra.
Qed.
Lemma lt_abs_sq a b : 0 <= b -> (b < Rabs a <-> b ^ 2 < a ^ 2).
Proof.
  intros H. rewrite <- (pow2_abs a). pose proof (Rabs_pos a). split; intros E; nra.
Qed.
Lemma quot_sq_lt a b : b <> 0 -> a ^ 2 < b ^ 2 -> (a / b) ^ 2 < 1.
Proof.
  intros Hb H. assert (P : 0 < b ^ 2) by nra.
  apply (Rmult_lt_reg_r (b ^ 2)); [easy|]. replace ((a / b) ^ 2 * b ^ 2) with (a ^ 2) by (field; easy). lra.
Qed.
Lemma quot_sq_gt a b : b <> 0 -> b ^ 2 < a ^ 2 -> 1 < (a / b) ^ 2.
Proof.
  intros Hb H. assert (P : 0 < b ^ 2) by nra.
  apply (Rmult_lt_reg_r (b ^ 2)); [easy|]. replace ((a / b) ^ 2 * b ^ 2) with (a ^ 2) by (field; easy). lra.
Qed.

Lemma Rmult_neg_neg a b : a < 0 -> b < 0 -> 0 < a * b.
Proof. intros. nra. Qed.
Lemma band_id W w1 w2 : (W ^ 2 - w1 * w2) ^ 2 - ((w2 - w1) * W) ^ 2 = (W ^ 2 - w1 ^ 2) * (W ^ 2 - w2 ^ 2).
Proof. ring. Qed.

Lemma passed_ratio b W : band_ok b -> passed b W -> band_regular b W /\ (band_ratio b W) ^ 2 < 1.
Proof.
  destruct b as [w|w|w1 w2|w1 w2]; cbn [band_ok passed band_regular band_ratio]; intros Hb HP.
  - split; [easy|]. apply abs_lt_sq in HP; [|lra]. apply quot_sq_lt; lra.
  - apply lt_abs_sq in HP; [|lra]. assert (W <> 0) by nra. split; [easy|]. now apply quot_sq_lt.
  - destruct HP as [H1 H2]. apply lt_abs_sq in H1; [|lra]. apply abs_lt_sq in H2; [|lra].
    assert (W <> 0) by nra. split; [easy|]. apply quot_sq_lt; [nra|].
    pose proof (band_id W w1 w2). nra.
  - assert (D : 0 < (W ^ 2 - w1 ^ 2) * (W ^ 2 - w2 ^ 2) /\ W ^ 2 <> w1 * w2).
    { destruct HP as [H|H].
      - apply abs_lt_sq in H; [|lra]. assert (w1 ^ 2 < w1 * w2) by nra. assert (w1 * w2 < w2 ^ 2) by nra.
        split; [|lra]. apply Rmult_neg_neg; lra.
      - apply lt_abs_sq in H; [|lra]. assert (w1 ^ 2 < w1 * w2) by nra. assert (w1 * w2 < w2 ^ 2) by nra.
        split; [|lra]. apply Rmult_lt_0_compat; lra. }
    destruct D as [D1 D2]. split; [easy|]. apply quot_sq_lt; [lra|].
    pose proof (band_id W w1 w2). lra.
Qed.
Lemma rejected_ratio b W : band_ok b -> rejected b W -> band_regular b W -> 1 < (band_ratio b W) ^ 2.
Proof.
  destruct b as [w|w|w1 w2|w1 w2]; cbn [band_ok rejected band_regular band_ratio]; intros Hb HP HR.
  - apply lt_abs_sq in HP; [|lra]. apply quot_sq_gt; lra.
  - apply abs_lt_sq in HP; [|lra]. now apply quot_sq_gt.
  - apply quot_sq_gt; [nra|]. pose proof (band_id W w1 w2).
    enough (0 < (W ^ 2 - w1 ^ 2) * (W ^ 2 - w2 ^ 2)) by lra. destruct HP as [HP|HP].
    + apply abs_lt_sq in HP; [|lra]. assert (w1 ^ 2 < w2 ^ 2) by nra. apply Rmult_neg_neg; lra.
    + apply lt_abs_sq in HP; [|lra]. assert (w1 ^ 2 < w2 ^ 2) by nra. apply Rmult_lt_0_compat; lra.
  - destruct HP as [H1 H2]. apply lt_abs_sq in H1; [|lra]. apply abs_lt_sq in H2; [|lra].
    apply quot_sq_gt; [lra|]. pose proof (band_id W w1 w2). nra.
Qed.

(** ** The response as a function of the squared ratio *)
Lemma butter_sq n r : butter_mag2 n r = 1 / (1 + (r ^ 2) ^ n).
Proof. unfold butter_mag2. now rewrite pow_mult. Qed.
Lemma inv_lt a b : 0 <= a -> a < b -> 1 / (1 + b) < 1 / (1 + a).
Proof.
  intros Ha H. unfold Rdiv. rewrite !Rmult_1_l. apply Rinv_lt_contravar; [|lra]. apply Rmult_lt_0_compat; lra.
Qed.
Lemma pow_lt_1 t n : (0 < n)%nat -> 0 <= t < 1 -> 0 <= t ^ n < 1.
Proof.
  intros Hn Ht. split; [apply pow_le; lra|]. destruct n; [lia|]. cbn [pow].
  assert (t ^ n <= 1) by (rewrite <- (pow1 n); apply pow_incr; lra).
  assert (0 <= t ^ n) by (apply pow_le; lra). nra.
Qed.
Lemma pow_gt_1 t n : (0 < n)%nat -> 1 < t -> 1 < t ^ n.
Proof. intros Hn Ht. now apply Rlt_pow_R1. Qed.
Lemma pow_order_lt t n m : (n < m)%nat -> 0 < t < 1 -> t ^ m < t ^ n.
Proof.
  intros Hn Ht. replace m with (n + (m - n))%nat by lia. rewrite pow_add.
  assert (0 < t ^ n) by (apply pow_lt; lra). destruct (pow_lt_1 t (m - n) ltac:(lia) ltac:(lra)). nra.
Qed.
Lemma pow_order_gt t n m : (n < m)%nat -> 1 < t -> t ^ n < t ^ m.
Proof. intros. now apply Rlt_pow. Qed.
Lemma pow_base_lt a b n : (0 < n)%nat -> 0 <= a < b -> a ^ n < b ^ n.
Proof.
  intros Hn H. destruct n as [|n]; [lia|]. clear Hn. induction n as [|n IH]; [cbn; lra|].
  rewrite <- (tech_pow_Rmult a), <- (tech_pow_Rmult b).
  assert (0 <= a ^ S n) by (apply pow_le; lra).
  apply Rle_lt_trans with (a * b ^ S n); [apply Rmult_le_compat_l; lra|].
  apply Rmult_lt_compat_r; lra.
Qed.

(** ** The frequency warping is odd and increasing *)
Lemma plain_tan_incr u v : -1 < u -> u < v -> v < 1 -> plain_tan u < plain_tan v.
Proof.
  intros. pose proof PI_RGT_0. unfold plain_tan. apply tan_increasing; nra.
Qed.
Lemma plain_tan_odd v : plain_tan (- v) = - plain_tan v.
Proof. unfold plain_tan. rewrite <- tan_neg. f_equal. field. Qed.
Lemma plain_tan_abs v : -1 < v < 1 -> Rabs (plain_tan v) = plain_tan (Rabs v).
Proof.
  intros H. unfold Rabs at 2. destruct (Rcase_abs v) as [C|C].
  - rewrite plain_tan_odd. apply Rabs_left. rewrite <- plain_tan_0. apply plain_tan_incr; lra.
  - apply Rabs_pos_eq. rewrite <- plain_tan_0. destruct (Req_dec v 0) as [-> |]; [lra|].
    left. apply plain_tan_incr; lra.
Qed.
Lemma plain_tan_lt u v : -1 < u < 1 -> -1 < v < 1 -> (u < v <-> plain_tan u < plain_tan v).
Proof.
  intros Hu Hv. split; intros H; [now apply plain_tan_incr|].
  destruct (Rtotal_order u v) as [C|[-> |C]]; [easy|lra|].
  pose proof (plain_tan_incr v u ltac:(lra) C ltac:(lra)). lra.
Qed.
Lemma plain_passed b v : digital_ok b -> -1 < v < 1 ->
  (passed b v <-> passed (band_map plain_tan b) (plain_tan v)) /\
  (rejected b v <-> rejected (band_map plain_tan b) (plain_tan v)).
Proof.
  intros [Hb Hf] Hv. assert (A : -1 < Rabs v < 1).
  { pose proof (Rabs_pos v). split; [lra|]. apply Rabs_def1; lra. }
  destruct b as [w|w|w1 w2|w1 w2]; cbn [band_ok band_freqs In passed rejected band_map] in *;
    rewrite plain_tan_abs by easy.
  1,2: assert (Hw : -1 < w < 1) by (specialize (Hf w); split; [lra|apply Hf; auto]);
    rewrite <- !plain_tan_lt by easy; tauto.
  1,2: assert (Hw1 : -1 < w1 < 1) by (specialize (Hf w1); split; [lra|apply Hf; auto]);
    assert (Hw2 : -1 < w2 < 1) by (specialize (Hf w2); split; [lra|apply Hf; auto]);
    rewrite <- !plain_tan_lt by easy; tauto.
Qed.

(** ** Both kinds of design *)
Section B.
Variable argsort : list XR -> list nat.
Variables (s o : string).
Hypothesis Ho : lower o = "zps"%string.

Definition aband (ag : bool) b := if ag then b else band_map plain_tan b.

Lemma regular_dec b W : band_regular b W \/ ~ band_regular b W.
Proof.
  destruct b as [w|w|w1 w2|w1 w2]; cbn.
  - tauto.
  - destruct (Req_dec W 0); tauto.
  - destruct (Req_dec W 0); tauto.
  - destruct (Req_dec (W * (W * 1)) (w1 * w2)); tauto.
Qed.

Lemma gain_char b n ag v zs ps k : (0 < n)%nat -> design_ok ag b -> lower s = band_name b -> freq_ok ag v ->
  butterworth argsort (Fin (INR n)) (fins (band_freqs b)) s ag o (@SrNone XR) = Ok (Zps (cfs zs, cfs ps, Fin k)) ->
  (band_regular (aband ag b) (afreq ag v) ->
     mag2 (tf zs ps k (point ag v)) = butter_mag2 n (band_ratio (aband ag b) (afreq ag v))) /\
  (~ band_regular (aband ag b) (afreq ag v) -> mag2 (tf zs ps k (point ag v)) = 0).
Proof.
  intros Hn Hb Hs Hv E. destruct ag; cbn [design_ok aband afreq point] in *.
  - destruct (analog_response argsort s o Ho b n v zs ps k Hn Hb Hs E) as [H1 H2].
    split; [exact H1|]. intros HR. rewrite H2 by easy. unfold mag2. cbn. ring.
  - destruct Hv as [|Hv]; [easy|]. split; intros HR.
    + now apply (digital_response argsort s o Ho b n v zs ps k).
    + rewrite (butter_zps_digital argsort b n Hb s o Hs Ho) in E. apply zps_inj in E as (<- & <- & <-).
      rewrite ddesign_stop by easy. unfold mag2. cbn. ring.
Qed.
(** Digital designs have a zero response where the prototype is not finite. *)
Lemma digital_blocked b n v zs ps k : (0 < n)%nat -> digital_ok b -> lower s = band_name b -> -1 < v < 1 ->
  butterworth argsort (Fin (INR n)) (fins (band_freqs b)) s false o (@SrNone XR) = Ok (Zps (cfs zs, cfs ps, Fin k)) ->
  ~ band_regular (band_map plain_tan b) (plain_tan v) -> tf zs ps k (Ei (PI * v)) = RtoC 0.
Proof.
  intros Hn Hb Hs Hv E HR. rewrite (butter_zps_digital argsort b n Hb s o Hs Ho) in E.
  apply zps_inj in E as (<- & <- & <-). now apply ddesign_stop.
Qed.
Lemma aband_ok ag b : design_ok ag b -> band_ok (aband ag b).
Proof. destruct ag; cbn; [easy|apply plain_ok]. Qed.
Lemma aband_passed ag b v : design_ok ag b -> freq_ok ag v ->
  (passed b v <-> passed (aband ag b) (afreq ag v)) /\ (rejected b v <-> rejected (aband ag b) (afreq ag v)).
Proof. intros Hb Hv. destruct ag; cbn in *; [easy|]. destruct Hv as [|Hv]; [easy|]. now apply plain_passed. Qed.
Lemma afreq_lt ag u v : freq_ok ag u -> freq_ok ag v -> u < v -> afreq ag u < afreq ag v.
Proof.
  intros Hu Hv H. destruct ag; [easy|]. destruct Hu as [|Hu], Hv as [|Hv]; try easy. apply plain_tan_incr; lra.
Qed.
Lemma afreq_0 ag : afreq ag 0 = 0.
Proof. destruct ag; cbn; [easy|apply plain_tan_0]. Qed.

(** The gain never exceeds 1, exceeds one half exactly in the kept band and is below one half
    outside. *)
Lemma selective b n ag v zs ps k : (0 < n)%nat -> design_ok ag b -> lower s = band_name b -> freq_ok ag v ->
  butterworth argsort (Fin (INR n)) (fins (band_freqs b)) s ag o (@SrNone XR) = Ok (Zps (cfs zs, cfs ps, Fin k)) ->
  0 <= mag2 (tf zs ps k (point ag v)) <= 1 /\
  (passed b v -> 1 / 2 < mag2 (tf zs ps k (point ag v))) /\
  (rejected b v -> mag2 (tf zs ps k (point ag v)) < 1 / 2).
Proof.
  intros Hn Hb Hs Hv E. destruct (gain_char b n ag v zs ps k Hn Hb Hs Hv E) as [G1 G2].
  destruct (aband_passed ag b v Hb Hv) as [P1 P2]. pose proof (aband_ok ag b Hb) as Hok.
  destruct (regular_dec (aband ag b) (afreq ag v)) as [HR|HR].
  - rewrite G1 by easy. rewrite butter_sq. set (t := (band_ratio (aband ag b) (afreq ag v)) ^ 2) in *.
    assert (T : 0 <= t) by (unfold t; apply pow2_ge_0). assert (TN : 0 <= t ^ n) by now apply pow_le.
    assert (E0 : 1 / (1 + 0) = 1) by field. assert (E1 : 1 / (1 + 1) = 1 / 2) by field.
    split; [|split].
    + split; [apply Rlt_le, Rdiv_lt_0_compat; lra|].
      destruct TN as [TN|TN]; [pose proof (inv_lt 0 (t ^ n)); lra|rewrite <- TN; lra].
    + intros HP. apply P1 in HP. destruct (passed_ratio _ _ Hok HP) as [_ HT]. fold t in HT.
      rewrite <- E1. apply inv_lt; [easy|]. now apply pow_lt_1.
    + intros HP. apply P2 in HP. pose proof (rejected_ratio _ _ Hok HP HR) as HT. fold t in HT.
      rewrite <- E1. apply inv_lt; [lra|]. now apply pow_gt_1.
  - rewrite G2 by easy. split; [lra|]. split; [|lra].
    intros HP. apply P1 in HP. destruct (passed_ratio _ _ Hok HP) as [C _]. easy.
Qed.

(** A higher order is closer to the ideal filter at every frequency off the band edges. *)
Lemma order_sharper b n m ag v zs ps k zs' ps' k' : (0 < n < m)%nat -> design_ok ag b -> lower s = band_name b ->
  freq_ok ag v ->
  butterworth argsort (Fin (INR n)) (fins (band_freqs b)) s ag o (@SrNone XR) = Ok (Zps (cfs zs, cfs ps, Fin k)) ->
  butterworth argsort (Fin (INR m)) (fins (band_freqs b)) s ag o (@SrNone XR) = Ok (Zps (cfs zs', cfs ps', Fin k')) ->
  (passed b v -> mag2 (tf zs ps k (point ag v)) < mag2 (tf zs' ps' k' (point ag v)) \/
                 mag2 (tf zs ps k (point ag v)) = 1 /\ mag2 (tf zs' ps' k' (point ag v)) = 1) /\
  (rejected b v -> mag2 (tf zs' ps' k' (point ag v)) < mag2 (tf zs ps k (point ag v)) \/
                 mag2 (tf zs ps k (point ag v)) = 0 /\ mag2 (tf zs' ps' k' (point ag v)) = 0).
Proof.
  intros Hn Hb Hs Hv E E'. destruct (gain_char b n ag v zs ps k ltac:(lia) Hb Hs Hv E) as [G1 G2].
  destruct (gain_char b m ag v zs' ps' k' ltac:(lia) Hb Hs Hv E') as [G1' G2'].
  destruct (aband_passed ag b v Hb Hv) as [P1 P2]. pose proof (aband_ok ag b Hb) as Hok.
  split; intros HP.
  - apply P1 in HP. destruct (passed_ratio _ _ Hok HP) as [HR HT]. rewrite G1, G1', !butter_sq by easy.
    set (t := (band_ratio (aband ag b) (afreq ag v)) ^ 2) in *.
    assert (T : 0 <= t) by (unfold t; apply pow2_ge_0). destruct T as [T|T].
    + left. apply inv_lt; [apply pow_le; lra|]. apply pow_order_lt; [lia|lra].
    + right. rewrite <- T. rewrite !pow_i by lia. split; field.
  - apply P2 in HP. destruct (regular_dec (aband ag b) (afreq ag v)) as [HR|HR].
    + pose proof (rejected_ratio _ _ Hok HP HR) as HT. rewrite G1, G1', !butter_sq by easy.
      left. apply inv_lt; [apply pow_le; lra|]. apply pow_order_gt; [lia|easy].
    + right. rewrite G2, G2' by easy. easy.
Qed.

(** As the order grows the gain tends to 1 in the kept band and to 0 outside. *)
Lemma brick_wall b ag v eps : design_ok ag b -> lower s = band_name b -> freq_ok ag v -> 0 < eps ->
  exists n0, forall n zs ps k, (n0 <= n)%nat ->
  butterworth argsort (Fin (INR n)) (fins (band_freqs b)) s ag o (@SrNone XR) = Ok (Zps (cfs zs, cfs ps, Fin k)) ->
  (passed b v -> 1 - eps < mag2 (tf zs ps k (point ag v))) /\
  (rejected b v -> mag2 (tf zs ps k (point ag v)) < eps).
Proof.
  intros Hb Hs Hv He. destruct (aband_passed ag b v Hb Hv) as [P1 P2]. pose proof (aband_ok ag b Hb) as Hok.
  set (t := (band_ratio (aband ag b) (afreq ag v)) ^ 2).
  assert (T : 0 <= t) by (unfold t; apply pow2_ge_0).
  destruct (Rlt_dec t 1) as [H1|H1].
  - destruct (pow_lt_1_zero t ltac:(rewrite Rabs_pos_eq; lra) eps He) as [n0 H0].
    exists (S n0). intros n zs ps k Hn E.
    destruct (gain_char b n ag v zs ps k ltac:(lia) Hb Hs Hv E) as [G1 G2]. split; intros HP.
    + apply P1 in HP. destruct (passed_ratio _ _ Hok HP) as [HR _]. rewrite G1, butter_sq by easy. fold t.
      specialize (H0 n ltac:(lia)). assert (TN : 0 <= t ^ n) by now apply pow_le.
      rewrite Rabs_pos_eq in H0 by easy.
      apply (Rmult_lt_reg_r (1 + t ^ n)); [lra|]. unfold Rdiv. rewrite Rmult_assoc, Rinv_l by lra. nra.
    + apply P2 in HP. destruct (regular_dec (aband ag b) (afreq ag v)) as [HR|HR]; [|rewrite G2; easy].
      pose proof (rejected_ratio _ _ Hok HP HR) as C. fold t in C. lra.
  - destruct (Req_dec t 1) as [H2|H2].
    + exists 1%nat. intros n zs ps k Hn E.
      destruct (gain_char b n ag v zs ps k ltac:(lia) Hb Hs Hv E) as [G1 G2]. split; intros HP.
      * apply P1 in HP. destruct (passed_ratio _ _ Hok HP) as [_ C]. fold t in C. lra.
      * apply P2 in HP. destruct (regular_dec (aband ag b) (afreq ag v)) as [HR|HR]; [|rewrite G2; easy].
        pose proof (rejected_ratio _ _ Hok HP HR) as C. fold t in C. lra.
    + assert (HI : Rabs (/ t) < 1).
      { rewrite Rabs_pos_eq by (apply Rlt_le, Rinv_0_lt_compat; lra).
        rewrite <- Rinv_1. apply Rinv_lt_contravar; lra. }
      destruct (pow_lt_1_zero (/ t) HI eps He) as [n0 H0].
      exists (S n0). intros n zs ps k Hn E.
      destruct (gain_char b n ag v zs ps k ltac:(lia) Hb Hs Hv E) as [G1 G2]. split; intros HP.
      * apply P1 in HP. destruct (passed_ratio _ _ Hok HP) as [_ C]. fold t in C. lra.
      * apply P2 in HP. destruct (regular_dec (aband ag b) (afreq ag v)) as [HR|HR]; [|rewrite G2; easy].
        rewrite G1, butter_sq by easy. fold t. specialize (H0 n ltac:(lia)).
        assert (TN : 0 < t ^ n) by (apply pow_lt; lra).
        rewrite pow_inv in H0 by lra. rewrite Rabs_pos_eq in H0 by (apply Rlt_le, Rinv_0_lt_compat; lra).
        apply Rlt_trans with (/ t ^ n); [|easy]. unfold Rdiv. rewrite Rmult_1_l.
        apply Rinv_lt_contravar; [|lra]. apply Rmult_lt_0_compat; lra.
Qed.

(** Low-pass gains decrease and high-pass gains increase with the frequency. *)
Lemma monotone b n ag u v zs ps k : (0 < n)%nat -> design_ok ag b -> lower s = band_name b ->
  freq_ok ag u -> freq_ok ag v -> 0 <= u < v ->
  butterworth argsort (Fin (INR n)) (fins (band_freqs b)) s ag o (@SrNone XR) = Ok (Zps (cfs zs, cfs ps, Fin k)) ->
  match b with
  | LP _ => mag2 (tf zs ps k (point ag v)) < mag2 (tf zs ps k (point ag u))
  | HP _ => mag2 (tf zs ps k (point ag u)) < mag2 (tf zs ps k (point ag v))
  | _ => True
  end.
Proof.
  intros Hn Hb Hs Hu Hv Huv E. destruct (gain_char b n ag u zs ps k Hn Hb Hs Hu E) as [U1 U2].
  destruct (gain_char b n ag v zs ps k Hn Hb Hs Hv E) as [V1 V2].
  pose proof (aband_ok ag b Hb) as Hok. pose proof (afreq_lt ag u v Hu Hv (proj2 Huv)) as HL.
  assert (HU : 0 <= afreq ag u).
  { destruct (proj1 Huv) as [C| <-]; [|rewrite afreq_0; lra].
    rewrite <- (afreq_0 ag). left. apply afreq_lt; try easy. right. lra. }
  set (x := afreq ag u) in *. set (y := afreq ag v) in *. clearbody x y.
  destruct b as [w|w| | ]; [| |easy|easy].
  - rewrite U1, V1 by (destruct ag; easy). rewrite !butter_sq.
    apply inv_lt; [apply pow_le, pow2_ge_0|]. apply pow_base_lt; [easy|]. split; [apply pow2_ge_0|].
    assert (HW : exists W, 0 < W /\ aband ag (LP w) = LP W) by (destruct ag; cbn in *; eauto).
    destruct HW as (W & HW & EW). rewrite EW. cbn [band_ratio].
    assert (0 < / W) by now apply Rinv_0_lt_compat.
    assert (x / W < y / W) by (unfold Rdiv; nra). assert (0 <= x / W) by (unfold Rdiv; nra). nra.
  - assert (HW : exists W, 0 < W /\ aband ag (HP w) = HP W) by (destruct ag; cbn in *; eauto).
    destruct HW as (W & HW & EW). rewrite EW in *. cbn [band_ratio band_regular] in *.
    rewrite V1 by lra. destruct HU as [HU| <-].
    + rewrite U1 by lra. rewrite !butter_sq.
      apply inv_lt; [apply pow_le, pow2_ge_0|]. apply pow_base_lt; [easy|]. split; [apply pow2_ge_0|].
      assert (0 < / y) by (apply Rinv_0_lt_compat; lra).
      assert (/ y < / x) by (apply Rinv_lt_contravar; nra).
      assert (W / y < W / x) by (unfold Rdiv; nra). assert (0 < W / y) by (unfold Rdiv; nra). nra.
    + rewrite U2 by lra. rewrite butter_sq. apply Rdiv_lt_0_compat; [lra|].
      assert (0 <= ((W / y) ^ 2) ^ n) by (apply pow_le, pow2_ge_0). lra.
Qed.

(** A band-pass gain rises up to the centre of the band and falls beyond; the centre is the geometric
    mean of the warped edges. *)
Lemma unimodal w1 w2 n ag u v c zs ps k : (0 < n)%nat -> design_ok ag (BP w1 w2) -> lower s = "bp"%string ->
  freq_ok ag u -> freq_ok ag v -> freq_ok ag c -> 0 <= u < v -> 0 < c ->
  (afreq ag c) ^ 2 = afreq ag w1 * afreq ag w2 ->
  butterworth argsort (Fin (INR n)) (fins [w1; w2]) s ag o (@SrNone XR) = Ok (Zps (cfs zs, cfs ps, Fin k)) ->
  (v <= c -> mag2 (tf zs ps k (point ag u)) < mag2 (tf zs ps k (point ag v))) /\
  (c <= u -> mag2 (tf zs ps k (point ag v)) < mag2 (tf zs ps k (point ag u))).
Proof.
  intros Hn Hb Hs Hu Hv Hc Huv Hc0 Ec E.
  destruct (gain_char (BP w1 w2) n ag u zs ps k Hn Hb Hs Hu E) as [U1 U2].
  destruct (gain_char (BP w1 w2) n ag v zs ps k Hn Hb Hs Hv E) as [V1 V2].
  pose proof (aband_ok ag _ Hb) as Hok. pose proof (afreq_lt ag u v Hu Hv (proj2 Huv)) as HL.
  assert (F0 : freq_ok ag 0) by (right; lra).
  assert (HU : 0 <= afreq ag u).
  { destruct (proj1 Huv) as [C| <-]; [|rewrite afreq_0; lra].
    rewrite <- (afreq_0 ag). left. now apply afreq_lt. }
  assert (HC : 0 < afreq ag c) by (rewrite <- (afreq_0 ag); now apply afreq_lt).
  assert (HW : aband ag (BP w1 w2) = BP (afreq ag w1) (afreq ag w2)) by now destruct ag.
  rewrite HW in *. set (x := afreq ag u) in *. set (y := afreq ag v) in *. set (z := afreq ag c) in *.
  assert (HVC : v <= c -> y <= z).
  { intros [C| ->]; [left; now apply afreq_lt|unfold y, z; lra]. }
  assert (HCU : c <= u -> z <= x).
  { intros [C| <-]; [left; now apply afreq_lt|unfold x, z; lra]. }
  set (a := afreq ag w1) in *. set (b := afreq ag w2) in *. clearbody x y z a b.
  cbn [band_ok band_regular band_ratio] in *. rewrite <- Ec in *.
  assert (R : forall p q, 0 < p -> p < q ->
    (p ^ 2 - z ^ 2) / ((b - a) * p) < (q ^ 2 - z ^ 2) / ((b - a) * q)).
  { intros p q Hp Hpq.
    replace ((q ^ 2 - z ^ 2) / ((b - a) * q))
      with ((p ^ 2 - z ^ 2) / ((b - a) * p) + (q - p) * (p * q + z ^ 2) * / ((b - a) * (p * q))) by (field; lra).
    assert (0 < (q - p) * (p * q + z ^ 2) * / ((b - a) * (p * q))); [|lra].
    assert (0 < p * q) by nra.
    apply Rmult_lt_0_compat; [apply Rmult_lt_0_compat; nra|apply Rinv_0_lt_compat; nra]. }
  assert (Rz : (z ^ 2 - z ^ 2) / ((b - a) * z) = 0) by (field; lra).
  split; intros H.
  - specialize (HVC H). rewrite V1 by lra. destruct HU as [HU| <-].
    + rewrite U1 by lra. rewrite !butter_sq. apply inv_lt; [apply pow_le, pow2_ge_0|].
      apply pow_base_lt; [easy|]. split; [apply pow2_ge_0|].
      pose proof (R x y HU HL) as R1.
      assert (R2 : (y ^ 2 - z ^ 2) / ((b - a) * y) <= 0).
      { rewrite <- Rz. destruct HVC as [C| ->]; [left; apply R; lra|lra]. }
      set (f := (x ^ 2 - z ^ 2) / ((b - a) * x)) in *. set (g := (y ^ 2 - z ^ 2) / ((b - a) * y)) in *. nra.
    + rewrite U2 by lra. rewrite butter_sq. apply Rdiv_lt_0_compat; [lra|].
      match goal with |- 0 < 1 + ?t ^ n => assert (0 <= t ^ n) by (apply pow_le, pow2_ge_0) end. lra.
  - specialize (HCU H). rewrite V1, U1 by lra. rewrite !butter_sq. apply inv_lt; [apply pow_le, pow2_ge_0|].
    apply pow_base_lt; [easy|]. split; [apply pow2_ge_0|].
    pose proof (R x y ltac:(lra) HL) as R1.
    assert (R2 : 0 <= (x ^ 2 - z ^ 2) / ((b - a) * x)).
    { rewrite <- Rz. destruct HCU as [C| <-]; [left; apply R; lra|lra]. }
    set (f := (x ^ 2 - z ^ 2) / ((b - a) * x)) in *. set (g := (y ^ 2 - z ^ 2) / ((b - a) * y)) in *. nra.
Qed.
End B.
