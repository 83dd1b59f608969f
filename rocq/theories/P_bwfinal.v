(** Final forms of the filter-design theorems (C56-C63). *)
From Coq Require Import Reals Lra Psatz Permutation.
From Coquelicot Require Import Complex.
From Flocq Require Import Core.Raux.
From Verif Require Import Num NpBase Lib XR M_butter Spec3 P_cx P_butter P_buttap P_design P_bwfun P_bwprops
  P_poly P_cxr P_sop P_sop2 P_sop3.
Local Open Scope R_scope.

(** ** C56 *)
Lemma low_to_low_spec zs ps k w : (length zs <= length ps)%nat ->
  exists zs' ps' k', @low_to_low XR (cfs zs) (cfs ps) (Fin k) (Fin w) = Ok (cfs zs', cfs ps', Fin k') /\
    length zs' = length zs /\ length ps' = length ps /\
    (conj_closed zs -> conj_closed zs') /\ (conj_closed ps -> conj_closed ps') /\
    (w <> 0 -> forall s, ~ In s ps' -> tf zs' ps' k' s = tf zs ps k (s / RtoC w)%C).
Proof.
  intros H. eexists _, _, _. split; [now apply low_to_low_cfs|].
  split; [apply map_length|]. split; [apply map_length|].
  assert (HC : forall l, conj_closed l -> conj_closed (map (Cmult (RtoC w)) l)).
  { intros l. apply conj_closed_map. intros. now rewrite Cconj_mul, Cconj_real. }
  split; [apply HC|]. split; [apply HC|]. intros Hw s Hs. now apply low_to_low_tf.
Qed.

Lemma low_to_high_spec zs ps k w : (length zs <= length ps)%nat -> ~ In (RtoC 0) zs -> ~ In (RtoC 0) ps ->
  exists zs' ps' k', @low_to_high XR (cfs zs) (cfs ps) (Fin k) (Fin w) = Ok (cfs zs', cfs ps', Fin k') /\
    length zs' = length ps /\ length ps' = length ps /\
    (conj_closed zs -> conj_closed ps -> conj_closed zs' /\ conj_closed ps' /\
     forall s, s <> RtoC 0 -> ~ In s ps' -> tf zs' ps' k' s = tf zs ps k (RtoC w / s)%C).
Proof.
  intros H Hz Hp. eexists _, _, _. split; [now apply low_to_high_cfs|].
  split; [rewrite app_length, map_length, repeat_length; lia|]. split; [apply map_length|].
  intros Cz Cp.
  assert (HC : forall l, conj_closed l -> conj_closed (map (Cdiv (RtoC w)) l)).
  { intros l. apply conj_closed_map. intros. now rewrite Cconj_div, Cconj_real. }
  split; [apply conj_closed_app; [now apply HC|apply conj_closed_repeat_real]|].
  split; [now apply HC|]. intros s Hs0 Hs. now apply low_to_high_tf.
Qed.

Lemma half_mul_conj bw l : conj_closed l -> conj_closed (map (half_mul bw) l).
Proof.
  apply conj_closed_map. intros r. unfold half_mul. now rewrite Cconj_div, Cconj_mul, !Cconj_real.
Qed.
Lemma half_div_conj bw l : conj_closed l -> conj_closed (map (half_div bw) l).
Proof.
  apply conj_closed_map. intros r. unfold half_div. now rewrite Cconj_div, ?Cconj_mul, !Cconj_real.
Qed.

Lemma low_to_band_spec zs ps k w0 bw : (length zs <= length ps)%nat ->
  exists zs' ps' k', @low_to_band XR (cfs zs) (cfs ps) (Fin k) (Fin w0) (Fin bw) = Ok (cfs zs', cfs ps', Fin k') /\
    length zs' = (length zs + length ps)%nat /\ length ps' = (2 * length ps)%nat /\
    (conj_closed zs -> conj_closed zs') /\ (conj_closed ps -> conj_closed ps') /\
    (bw <> 0 -> forall s, s <> RtoC 0 -> ~ In s ps' ->
      tf zs' ps' k' s = tf zs ps k ((s * s + RtoC (w0 * w0)) / (RtoC bw * s))%C).
Proof.
  intros H. eexists _, _, _. split; [now apply low_to_band_cfs|].
  split; [rewrite app_length, split_length, map_length, repeat_length; lia|].
  split; [now rewrite split_length, map_length|].
  split.
  { intros Cz. apply conj_closed_app; [now apply split_conj_closed, half_mul_conj|apply conj_closed_repeat_real]. }
  split; [intros Cp; now apply split_conj_closed, half_mul_conj|].
  intros Hb s Hs0 Hs. now apply low_to_band_tf.
Qed.

Lemma low_to_stop_spec zs ps k w0 bw : (length zs <= length ps)%nat -> ~ In (RtoC 0) zs -> ~ In (RtoC 0) ps ->
  exists zs' ps' k', @low_to_stop XR (cfs zs) (cfs ps) (Fin k) (Fin w0) (Fin bw) = Ok (cfs zs', cfs ps', Fin k') /\
    length zs' = (2 * length ps)%nat /\ length ps' = (2 * length ps)%nat /\
    (conj_closed zs -> conj_closed ps -> conj_closed zs' /\ conj_closed ps' /\
     forall s, (s * s + RtoC (w0 * w0) <> RtoC 0)%C -> ~ In s ps' ->
       tf zs' ps' k' s = tf zs ps k (RtoC bw * s / (s * s + RtoC (w0 * w0)))%C).
Proof.
  intros H Hz Hp. eexists _, _, _. split; [now apply low_to_stop_cfs|].
  split; [rewrite !app_length, split_length, map_length, !repeat_length; lia|].
  split; [now rewrite split_length, map_length|].
  intros Cz Cp. split.
  { rewrite <- app_assoc. apply conj_closed_app; [now apply split_conj_closed, half_div_conj|].
    unfold conj_closed. rewrite map_app.
    assert (E : forall a m, map Cconj (repeat (ipt a) m) = repeat (ipt (- a)) m).
    { intros a m. induction m; cbn [repeat map]; [easy|]. rewrite IHm. f_equal. }
    rewrite !E, Ropp_involutive. apply Permutation_app_comm. }
  split; [now apply split_conj_closed, half_div_conj|]. intros s Hs0 Hs. now apply low_to_stop_tf.
Qed.

Lemma improper_all {N : Num} (zs ps : list (cx N)) (k w bw s : N) : (length ps < length zs)%nat ->
  low_to_low zs ps k w = Raise ValueError /\ low_to_high zs ps k w = Raise ValueError /\
  low_to_band zs ps k w bw = Raise ValueError /\ low_to_stop zs ps k w bw = Raise ValueError /\
  bilinear zs ps k (SrScalar s) = Raise ValueError.
Proof.
  intros H. pose proof (improper_raises zs ps H) as E.
  unfold low_to_low, low_to_high, low_to_band, low_to_stop, bilinear. rewrite E. cbn [valid_g bind].
  repeat split; reflexivity.
Qed.

(** ** C57 *)
Lemma bilinear_spec zs ps k fs : (length zs <= length ps)%nat ->
  ~ In (RtoC (2 * fs)) zs -> ~ In (RtoC (2 * fs)) ps ->
  exists zs' ps' k', @bilinear XR (cfs zs) (cfs ps) (Fin k) (@SrScalar XR (Fin fs)) = Ok (cfs zs', cfs ps', Fin k') /\
    length zs' = length ps /\ length ps' = length ps /\
    (0 < fs -> (forall p, In p ps -> fst p < 0) -> forall p, In p ps' -> Cmod p < 1) /\
    (conj_closed zs -> conj_closed ps -> conj_closed zs' /\ conj_closed ps' /\
     forall z, (z + RtoC 1 <> RtoC 0)%C -> ~ In z ps' ->
       tf zs' ps' k' z = tf zs ps k (RtoC (2 * fs) * (z - RtoC 1) / (z + RtoC 1))%C).
Proof.
  intros H Hz Hp. eexists _, _, _. split; [now apply bilinear_cfs|].
  split; [rewrite app_length, map_length, repeat_length; lia|]. split; [apply map_length|]. split.
  { intros Hf HS p Hin. apply in_map_iff in Hin as [q [<- Hq]]. apply tustin_stable; [lra|auto]. }
  intros Cz Cp.
  assert (HC : forall l, conj_closed l -> conj_closed (map (tustin (2 * fs)) l)).
  { intros l. apply conj_closed_map. intros r. unfold tustin.
    now rewrite Cconj_div, Cconj_add, Cconj_sub, !Cconj_real. }
  split; [apply conj_closed_app; [now apply HC|apply conj_closed_repeat_real]|].
  split; [now apply HC|]. intros z Hz0 Hz'. now apply bilinear_tf.
Qed.
Lemma bilinear_sr {N : Num} (zs ps : list (cx N)) k :
  bilinear zs ps k SrNone = Raise ValueError /\ bilinear zs ps k SrArray = Raise ValueError.
Proof. split; reflexivity. Qed.

(** ** C58 *)
Lemma buttap_spec n : exists ps, @buttap XR (Fin (INR n)) = Ok ([], cfs ps, Fin 1) /\ length ps = n /\
  conj_closed ps /\ (forall p, In p ps -> Cmod p = 1 /\ fst p < 0) /\
  ((0 < n)%nat -> forall w, mag2 (tf [] ps 1 (0, w)) = butter_mag2 n w).
Proof.
  exists (proto_poles n). split; [apply buttap_ok|]. split; [apply proto_length|]. split; [apply proto_conj|].
  split; [intros p Hp; split; [now apply (proto_unit n)|now apply (proto_lhp n)]|].
  intros Hn w. now apply proto_tf.
Qed.
Lemma buttap_special : @buttap XR NaN = Raise ValueError /\ forall s, @buttap XR (Inf s) = Raise OverflowError.
Proof. split; [reflexivity|intros []; reflexivity]. Qed.

(** ** C59, C60 *)
Section B.
Variable argsort : list XR -> list nat.
Variables (s o : string).
Hypothesis Ho : lower o = "zps"%string.

Lemma analog_design b n : band_ok b -> lower s = band_name b ->
  exists zs ps k, butterworth argsort (Fin (INR n)) (fins (band_freqs b)) s true o (@SrNone XR)
                  = Ok (Zps (cfs zs, cfs ps, Fin k)) /\
    length ps = band_order b n /\ (length zs <= band_order b n)%nat /\ conj_closed zs /\ conj_closed ps /\
    forall p, In p ps -> fst p < 0.
Proof.
  intros Hb Hs. eexists _, _, _. split; [now apply butter_zps_analog|].
  destruct (adesign_lengths b n). destruct (adesign_conj b n). repeat split; auto. now apply adesign_poles.
Qed.
Lemma digital_design b n : digital_ok b -> lower s = band_name b ->
  exists zs ps k, butterworth argsort (Fin (INR n)) (fins (band_freqs b)) s false o (@SrNone XR)
                  = Ok (Zps (cfs zs, cfs ps, Fin k)) /\
    length ps = band_order b n /\ length zs = band_order b n /\ conj_closed zs /\ conj_closed ps /\
    forall p, In p ps -> Cmod p < 1.
Proof.
  intros Hb Hs. eexists _, _, _. split; [now apply butter_zps_digital|].
  destruct (ddesign_lengths b n). destruct (ddesign_conj b n). repeat split; auto. now apply ddesign_poles.
Qed.
(** A sampling rate only rescales the critical frequencies. *)
Lemma digital_design_sr b n fs o' : fs <> 0 -> digital_ok (band_map (fun w => 2 * w / fs) b) ->
  lower s = band_name b -> In (lower o') ["nd"; "zps"; "sop"]%string ->
  butterworth argsort (Fin (INR n)) (fins (band_freqs b)) s false o' (@SrScalar XR (Fin fs))
  = butterworth argsort (Fin (INR n)) (fins (band_freqs (band_map (fun w => 2 * w / fs) b))) s false o' (@SrNone XR).
Proof.
  intros Hf Hb Hs Ho'. rewrite butterworth_digital_sr by easy.
  rewrite butterworth_digital; try easy. rewrite Hs. now destruct b.
Qed.

Lemma analog_response b n W zs ps k : (0 < n)%nat -> band_ok b -> lower s = band_name b ->
  butterworth argsort (Fin (INR n)) (fins (band_freqs b)) s true o (@SrNone XR) = Ok (Zps (cfs zs, cfs ps, Fin k)) ->
  (band_regular b W -> mag2 (tf zs ps k (0, W)) = butter_mag2 n (band_ratio b W)) /\
  (~ band_regular b W -> tf zs ps k (0, W) = RtoC 0).
Proof.
  intros Hn Hb Hs E. rewrite (butter_zps_analog argsort b n Hb s o Hs Ho) in E.
  apply zps_inj in E as (<- & <- & <-). split; intros HR.
  - now apply adesign_response.
  - now apply stop_analog.
Qed.
Lemma digital_response b n v zs ps k : (0 < n)%nat -> digital_ok b -> lower s = band_name b -> -1 < v < 1 ->
  butterworth argsort (Fin (INR n)) (fins (band_freqs b)) s false o (@SrNone XR) = Ok (Zps (cfs zs, cfs ps, Fin k)) ->
  band_regular (band_map plain_tan b) (plain_tan v) ->
  mag2 (tf zs ps k (Ei (PI * v))) = butter_mag2 n (band_ratio (band_map plain_tan b) (plain_tan v)).
Proof.
  intros Hn Hb Hs Hv E HR. rewrite (butter_zps_digital argsort b n Hb s o Hs Ho) in E.
  apply zps_inj in E as (<- & <- & <-). now apply ddesign_response.
Qed.
Lemma half_power b n w ag zs ps k : (0 < n)%nat -> (if ag : bool then band_ok b else digital_ok b) ->
  lower s = band_name b -> In w (band_freqs b) ->
  butterworth argsort (Fin (INR n)) (fins (band_freqs b)) s ag o (@SrNone XR) = Ok (Zps (cfs zs, cfs ps, Fin k)) ->
  mag2 (tf zs ps k (if ag then (0, w) else Ei (PI * w))) = 1 / 2.
Proof.
  intros Hn Hb Hs Hw E. destruct ag.
  - rewrite (butter_zps_analog argsort b n Hb s o Hs Ho) in E.
    apply zps_inj in E as (<- & <- & <-). now apply half_power_analog.
  - rewrite (butter_zps_digital argsort b n Hb s o Hs Ho) in E.
    apply zps_inj in E as (<- & <- & <-). now apply half_power_digital.
Qed.
Lemma unit_gain_analog b n zs ps k : (0 < n)%nat -> band_ok b -> lower s = band_name b ->
  butterworth argsort (Fin (INR n)) (fins (band_freqs b)) s true o (@SrNone XR) = Ok (Zps (cfs zs, cfs ps, Fin k)) ->
  match b with
  | LP _ | BS _ _ => mag2 (tf zs ps k (0, 0)) = 1
  | BP w1 w2 => mag2 (tf zs ps k (0, sqrt (w1 * w2))) = 1
  | HP w => forall eps, 0 < eps -> exists W0, forall W, W0 < W -> 1 - eps < mag2 (tf zs ps k (0, W)) < 1
  end.
Proof.
  intros Hn Hb Hs E. pose proof E as E'. rewrite (butter_zps_analog argsort b n Hb s o Hs Ho) in E.
  apply zps_inj in E as (E1 & E2 & E3).
  destruct b as [w|w|w1 w2|w1 w2]; cbn [band_ok] in Hb.
  - rewrite <- E1, <- E2, <- E3. now apply pass_lp_analog.
  - intros eps He. set (W0 := w * (1 + / eps)).
    assert (HI : 0 < / eps) by now apply Rinv_0_lt_compat.
    exists W0. intros W HW. assert (HwW : w < W) by (unfold W0 in HW; nra).
    destruct (analog_response (HP w) n W zs ps k Hn Hb Hs E') as [R _]. rewrite R by (cbn; lra).
    unfold butter_mag2. cbn [band_ratio]. set (x := w / W).
    assert (Hx : 0 < x < 1).
    { unfold x. split; [apply Rdiv_lt_0_compat; lra|]. apply (Rmult_lt_reg_r W); [lra|].
      unfold Rdiv. rewrite Rmult_assoc, Rinv_l by lra. lra. }
    assert (Hxe : x < eps).
    { unfold x. apply (Rmult_lt_reg_r W); [lra|]. unfold Rdiv. rewrite Rmult_assoc, Rinv_l, Rmult_1_r by lra.
      apply Rlt_le_trans with (eps * W0); [|apply Rmult_le_compat_l; lra]. unfold W0.
      replace (eps * (w * (1 + / eps))) with (eps * w + w) by (field; lra). nra. }
    assert (Hp : 0 < x ^ (2 * n)) by (apply pow_lt; lra).
    assert (Hq : x ^ (2 * n) <= x).
    { replace (2 * n)%nat with (S (2 * n - 1)) by lia. cbn [pow].
      assert (x ^ (2 * n - 1) <= 1) by (rewrite <- (pow1 (2 * n - 1)); apply pow_incr; lra). nra. }
    set (y := x ^ (2 * n)) in *. split.
    + apply (Rmult_lt_reg_r (1 + y)); [lra|]. unfold Rdiv. rewrite Rmult_assoc, Rinv_l by lra. nra.
    + apply (Rmult_lt_reg_r (1 + y)); [lra|]. unfold Rdiv. rewrite Rmult_assoc, Rinv_l by lra. lra.
  - rewrite <- E1, <- E2, <- E3. now apply pass_bp_analog.
  - rewrite <- E1, <- E2, <- E3. now apply pass_bs_analog.
Qed.
Lemma unit_gain_digital b n zs ps k : (0 < n)%nat -> digital_ok b -> lower s = band_name b ->
  butterworth argsort (Fin (INR n)) (fins (band_freqs b)) s false o (@SrNone XR) = Ok (Zps (cfs zs, cfs ps, Fin k)) ->
  match b with
  | LP _ => mag2 (tf zs ps k (RtoC 1)) = 1 /\ tf zs ps k (RtoC (-1)) = RtoC 0
  | HP _ => mag2 (tf zs ps k (RtoC (-1))) = 1
  | BP _ _ => tf zs ps k (RtoC (-1)) = RtoC 0
  | BS _ _ => mag2 (tf zs ps k (RtoC 1)) = 1 /\ mag2 (tf zs ps k (RtoC (-1))) = 1
  end.
Proof.
  intros Hn Hb Hs E. rewrite (butter_zps_digital argsort b n Hb s o Hs Ho) in E.
  apply zps_inj in E as (<- & <- & <-).
  destruct b as [w|w|w1 w2|w1 w2]; pose proof Hb as Hb'; destruct Hb' as [B1 B2]; cbn [band_ok band_freqs In] in *.
  - split; [apply pass_lp_digital; [easy|]; split; [easy|]; apply B2; auto|now apply stop_nyquist].
  - now apply pass_nyquist.
  - now apply stop_nyquist.
  - split; [apply pass_bs_digital; try easy; apply B2; auto|now apply pass_nyquist].
Qed.
(** DC is blocked by digital high-pass and band-pass designs. *)
End B.

(** ** C63 *)
Lemma sop_spec_nr argsort x y k pg : is_argsort argsort -> conj_closed x -> conj_closed y ->
  pg = None \/ pg = Some "nr"%string -> x <> [] \/ y <> [] ->
  let n := Nat.div (Nat.max (length x) (length y) + 1) 2 in
  exists rows, @xyz_to_sop XR argsort (cfs x) (cfs y) (Fin k) pg false = Ok (map fins rows) /\ length rows = n /\
    sections_of rows k (map snap x) (map snap y) (2 * n - length x) (2 * n - length y).
Proof.
  intros Hs CX CY Hp Hne n.
  destruct (sop_nrkd argsort Hs x y k PNr pg CX CY (or_introl (conj eq_refl Hp)) Hne) as (rows & E & L & L6 & NN & DD).
  exists rows. split; [exact E|]. split; [exact L|]. now split.
Qed.
Lemma sop_spec_kd argsort x y k : is_argsort argsort -> conj_closed x -> conj_closed y ->
  Nat.Even (Nat.max (length x) (length y)) \/ reals (map snap x) \/ lone_real (map snap y ++ repeat (RtoC 0) (length x - length y)) -> x <> [] \/ y <> [] ->
  let n := Nat.div (Nat.max (length x) (length y) + 1) 2 in
  exists rows, @xyz_to_sop XR argsort (cfs x) (cfs y) (Fin k) (Some "kd"%string) false = Ok (map fins rows) /\
    length rows = n /\ sections_of rows k (map snap x) (map snap y) (2 * n - length x) (2 * n - length y).
Proof.
  intros Hs CX CY Hp Hne n.
  destruct (sop_nrkd argsort Hs x y k PKd (Some "kd"%string) CX CY (or_intror (conj eq_refl (conj eq_refl Hp))) Hne)
    as (rows & E & L & L6 & NN & DD).
  exists rows. split; [exact E|]. split; [exact L|]. now split.
Qed.
Lemma sop_spec_ml argsort x y k pg ag : is_argsort argsort -> conj_closed x -> conj_closed y ->
  pg = Some "ml"%string \/ (pg = None /\ ag = true) -> (length x <= length y)%nat -> y <> [] ->
  (Nat.Even (length y) /\ Nat.Even (length x)) \/ reals (map snap x) \/ (lone_real (map snap y) /\ length x = length y) ->
  exists rows, @xyz_to_sop XR argsort (cfs x) (cfs y) (Fin k) pg ag = Ok (map fins rows) /\
    length rows = Nat.div (length y + 1) 2 /\ sections_of rows k (map snap x) (map snap y) 0 0.
Proof.
  intros Hs CX CY Hp HL Hne HE.
  destruct (sop_ml argsort Hs x y k pg ag CX CY Hp HL Hne HE) as (rows & E & L & L6 & NN & DD).
  exists rows. split; [exact E|]. split; [exact L|]. now split.
Qed.
(** Sections as a rational function. *)
Lemma sections_of_tf rows k x y e z : sections_of rows k x y e e -> e = 0%nat \/ z <> RtoC 0 -> ~ In z y ->
  sections_at rows z = tf x y k z.
Proof.
  intros (L6 & NN & DD) Hz Hy.
  destruct (sop_result_tf (length rows) k x y e (fun z => e = 0%nat \/ z <> RtoC 0) (Ok (map fins rows)))
    as (rows' & E & _ & _ & H); [auto|exists rows; repeat split; auto|].
  assert (rows' = rows) as ->.
  { injection E as E. clear - E. revert rows' E. induction rows as [|r rows IH]; intros [|r' rows'] E; try easy.
    cbn [map] in E. injection E as E1 E2. f_equal; [|now apply IH]. symmetry.
    clear - E1. revert r' E1. induction r as [|a r IH]; intros [|b r'] E; try easy. cbn in E.
    injection E as E1 E2. subst. f_equal. now apply IH. }
  now apply H.
Qed.
Lemma butter_sop argsort b n s o o' ag zs ps k : is_argsort argsort -> (0 < n)%nat ->
  (if ag : bool then band_ok b else digital_ok b) -> lower s = band_name b ->
  lower o = "zps"%string -> lower o' = "sop"%string ->
  butterworth argsort (Fin (INR n)) (fins (band_freqs b)) s ag o (@SrNone XR) = Ok (Zps (cfs zs, cfs ps, Fin k)) ->
  real_or_apart zs -> real_or_apart ps ->
  exists rows, butterworth argsort (Fin (INR n)) (fins (band_freqs b)) s ag o' (@SrNone XR) = Ok (Sop (map fins rows)) /\
    length rows = Nat.div (band_order b n + 1) 2 /\
    forall z, ~ In z ps -> ag = true \/ z <> RtoC 0 -> sections_at rows z = tf zs ps k z.
Proof.
  intros Ha Hn Hb Hs Ho Ho' E Az Ap.
  assert (HX : forall r rows, is_sop r = Ok (map fins rows) -> r = Ok (Sop (map fins rows))).
  { intros r rows. destruct r as [[| |]|]; cbn; intros H; congruence. }
  destruct ag.
  - destruct (butter_sop_analog argsort Ha b n s o o' zs ps k Hn Hb Hs Ho Ho' E Az Ap) as (rows & E1 & L & _ & H).
    exists rows. split; [now apply HX|]. split; [exact L|]. intros z Hz _. now apply H.
  - destruct (butter_sop_digital argsort Ha b n s o o' zs ps k Hn Hb Hs Ho Ho' E Az Ap) as (rows & E1 & L & _ & H).
    exists rows. split; [now apply HX|]. split; [exact L|]. intros z Hz [?|Hz0]; [easy|]. now apply H.
Qed.
Lemma sop_empty argsort k : @xyz_to_sop XR argsort [] [] (Fin k) None false = Ok [fins [k; 0; 0; 1; 0; 0]] /\
  @xyz_to_sop XR argsort [] [] (Fin k) None true = Ok [fins [0; 0; k; 0; 0; 1]].
Proof. split; reflexivity. Qed.
Lemma sop_raises {N : Num} argsort (x y : list (cx N)) k pg ag :
  (~ In pg ["nr"; "kd"; "ml"]%string -> xyz_to_sop argsort x y k (Some pg) ag = Raise ValueError) /\
  (pg <> "ml"%string -> xyz_to_sop argsort x y k (Some pg) true = Raise ValueError) /\
  ((length y < length x)%nat -> xyz_to_sop argsort x y k (Some "ml"%string) ag = Raise ValueError).
Proof.
  repeat split.
  - intros H. unfold xyz_to_sop.
    destruct (String.eqb_spec pg "nr"%string) as [-> |]; [exfalso; apply H; cbn; tauto|].
    destruct (String.eqb_spec pg "kd"%string) as [-> |]; [exfalso; apply H; cbn; tauto|].
    destruct (String.eqb_spec pg "ml"%string) as [-> |]; [exfalso; apply H; cbn; tauto|]. reflexivity.
  - intros H. unfold xyz_to_sop.
    destruct (String.eqb_spec pg "nr"%string); [reflexivity|].
    destruct (String.eqb_spec pg "kd"%string); [reflexivity|].
    destruct (String.eqb_spec pg "ml"%string); [easy|reflexivity].
  - intros H. unfold xyz_to_sop. cbn [String.eqb Ascii.eqb Bool.eqb bind is_ml negb]. rewrite andb_false_r.
    destruct (Nat.eqb_spec (length x) 0); [lia|]. cbn [andb].
    destruct (Nat.ltb_spec (length y) (length x)); [reflexivity|lia].
Qed.

(** A stable insertion argsort: one function satisfying [is_argsort], used by the examples. *)
Fixpoint ins_pos {N : Num} (d : list N) (i : nat) (l : list nat) : list nat :=
  match l with
  | [] => [i]
  | j :: l' => if nltb (nth i d nnan) (nth j d nnan) then i :: l else j :: ins_pos d i l'
  end.
Definition ins_argsort {N : Num} (d : list N) : list nat :=
  fold_left (fun l i => ins_pos d i l) (seq 0 (length d)) [].
Lemma ins_pos_perm {N : Num} (d : list N) i l : Permutation (ins_pos d i l) (i :: l).
Proof.
  induction l as [|j l IH]; cbn [ins_pos]; [reflexivity|].
  destruct (nltb _ _); [reflexivity|]. rewrite IH. apply perm_swap.
Qed.
Lemma ins_argsort_ok {N : Num} : is_argsort (@ins_argsort N).
Proof.
  intros d. unfold ins_argsort.
  assert (H : forall s acc, Permutation (fold_left (fun l i => ins_pos d i l) s acc) (s ++ acc)).
  { induction s as [|i s IH]; intros acc; [reflexivity|]. cbn [fold_left]. rewrite IH, ins_pos_perm.
    symmetry. apply Permutation_middle. }
  rewrite H, app_nil_r. reflexivity.
Qed.

(** The coefficient form of a design is that of its zeros, poles and gain. *)
Lemma butter_nd argsort b n s o o' ag zs ps k :
  (if ag : bool then band_ok b else digital_ok b) -> lower s = band_name b ->
  lower o = "zps"%string -> lower o' = "nd"%string ->
  butterworth argsort (Fin (INR n)) (fins (band_freqs b)) s ag o (@SrNone XR) = Ok (Zps (cfs zs, cfs ps, Fin k)) ->
  exists g h, butterworth argsort (Fin (INR n)) (fins (band_freqs b)) s ag o' (@SrNone XR) = Ok (Nd (cfs g) (cfs h)) /\
    length g = S (length zs) /\ length h = S (length ps) /\
    (forall c, In c (g ++ h) -> snd c = 0) /\
    forall z, ~ In z ps -> (polyval g z / polyval h z)%C = tf zs ps k z.
Proof.
  intros Hb Hs Ho Ho' E.
  assert (HC : conj_closed zs /\ conj_closed ps).
  { destruct ag.
    - rewrite (butter_zps_analog argsort b n Hb s o Hs Ho) in E. apply zps_inj in E as (<- & <- & <-). apply adesign_conj.
    - rewrite (butter_zps_digital argsort b n Hb s o Hs Ho) in E. apply zps_inj in E as (<- & <- & <-). apply ddesign_conj. }
  assert (F : butterworth argsort (Fin (INR n)) (fins (band_freqs b)) s ag o' (@SrNone XR)
              = let '(g, h) := @xyz_to_ptf XR (cfs zs) (cfs ps) (Fin k) in Ok (Nd g h)).
  { assert (G2 : good_output o') by (red; rewrite Ho'; cbn; tauto).
    destruct ag.
    - rewrite (butter_zps_analog argsort b n Hb s o Hs Ho) in E. apply zps_inj in E as (<- & <- & <-).
      rewrite butterworth_analog by easy. unfold finish. now rewrite Ho'.
    - rewrite (butter_zps_digital argsort b n Hb s o Hs Ho) in E. apply zps_inj in E as (<- & <- & <-).
      rewrite butterworth_digital by easy. unfold finish. now rewrite Ho'. }
  destruct (ptf_spec zs ps k) as (g & h & P & Lg & Lh & _ & _ & Pg & Ph & Rg & Rh).
  exists g, h. rewrite F, P. split; [reflexivity|]. split; [easy|]. split; [easy|]. split.
  - intros c Hc. apply in_app_or in Hc as [Hc|Hc]; [now apply Rg|now apply Rh].
  - intros z _. unfold tf. now rewrite Pg, Ph.
Qed.

(** ** C61 *)
Lemma butter_checks_final {N : Num} argsort q w btype ag output (sr : sr_arg N) :
  match first_failed (butter_checks q (scaled w sr) (lower btype) (lower output) ag
                        (sr_given sr) (sr_scalar sr)) with
  | Some e => butterworth argsort q w btype ag output sr = Raise e
  | None => lower output = "zps"%string \/ lower output = "nd"%string ->
            exists d, butterworth argsort q w btype ag output sr = Ok d
  end.
Proof.
  pose proof (butter_checks_spec argsort q w btype ag output sr) as H.
  destruct (first_failed _); [exact H|]. destruct H as [f ->]. apply finish_isok.
Qed.
