(** Property theorems C56-C63 and C75-C78 (statistics/signal/butter). *)
From Coq Require Import Reals Lra Lia Permutation.
From Coquelicot Require Import Complex.
From Verif Require Import NpBase XR F64 F64ex M_butter Spec3 P_cx P_butter P_buttap P_design P_bwfun P_bwprops
  P_poly P_cxr P_sop P_sop3 P_bwfinal.
Local Open Scope R_scope.

Local Notation NF := (F64 libm_ex).
(** First eight decimals, rounded to nearest. *)
Local Notation dec8 x := (nfloorZ (nadd (nmul x (@nofZ NF (10 ^ 8))) (lit 5 1))).
Local Definition raised {A} (r : res A) : option exn := match r with Ok _ => None | Raise e => Some e end.
Local Definition dec8s (l : list (NF * NF)) : list (Z * Z) := map (fun c => (dec8 (fst c), dec8 (snd c))) l.
Local Definition run_zpk (r : res (list (NF * NF) * list (NF * NF) * NF)) :=
  match r with Ok (z, p, k) => Some (dec8s z, dec8s p, dec8 k) | Raise _ => None end.
Local Definition q4 {L} (n m : Z) : F64 L * F64 L := (ndiv (@nofZ (F64 L) n) (nofZ 4), ndiv (@nofZ (F64 L) m) (nofZ 4)).

(** ** C56 *)
Theorem C56_low_to_low : forall zs ps k w,
  (length zs <= length ps)%nat ->
  exists zs' ps' k', @low_to_low XR (cfs zs) (cfs ps) (Fin k) (Fin w) = Ok (cfs zs', cfs ps', Fin k') /\
    length zs' = length zs /\ length ps' = length ps /\
    (conj_closed zs -> conj_closed zs') /\ (conj_closed ps -> conj_closed ps') /\
    (w <> 0 -> forall s, ~ In s ps' -> tf zs' ps' k' s = tf zs ps k (s / RtoC w)%C).
Proof. exact low_to_low_spec. Qed.
Print Assumptions C56_low_to_low.
Theorem C56_low_to_high : forall zs ps k w,
  (length zs <= length ps)%nat -> ~ In (RtoC 0) zs -> ~ In (RtoC 0) ps ->
  exists zs' ps' k', @low_to_high XR (cfs zs) (cfs ps) (Fin k) (Fin w) = Ok (cfs zs', cfs ps', Fin k') /\
    length zs' = length ps /\ length ps' = length ps /\
    (conj_closed zs -> conj_closed ps -> conj_closed zs' /\ conj_closed ps' /\
     forall s, s <> RtoC 0 -> ~ In s ps' -> tf zs' ps' k' s = tf zs ps k (RtoC w / s)%C).
Proof. exact low_to_high_spec. Qed.
Print Assumptions C56_low_to_high.
Theorem C56_low_to_band : forall zs ps k w0 bw,
  (length zs <= length ps)%nat ->
  exists zs' ps' k', @low_to_band XR (cfs zs) (cfs ps) (Fin k) (Fin w0) (Fin bw) = Ok (cfs zs', cfs ps', Fin k') /\
    length zs' = (length zs + length ps)%nat /\ length ps' = (2 * length ps)%nat /\
    (conj_closed zs -> conj_closed zs') /\ (conj_closed ps -> conj_closed ps') /\
    (bw <> 0 -> forall s, s <> RtoC 0 -> ~ In s ps' ->
      tf zs' ps' k' s = tf zs ps k ((s * s + RtoC (w0 * w0)) / (RtoC bw * s))%C).
Proof. exact low_to_band_spec. Qed.
Print Assumptions C56_low_to_band.
Theorem C56_low_to_stop : forall zs ps k w0 bw,
  (length zs <= length ps)%nat -> ~ In (RtoC 0) zs -> ~ In (RtoC 0) ps ->
  exists zs' ps' k', @low_to_stop XR (cfs zs) (cfs ps) (Fin k) (Fin w0) (Fin bw) = Ok (cfs zs', cfs ps', Fin k') /\
    length zs' = (2 * length ps)%nat /\ length ps' = (2 * length ps)%nat /\
    (conj_closed zs -> conj_closed ps -> conj_closed zs' /\ conj_closed ps' /\
     forall s, (s * s + RtoC (w0 * w0) <> RtoC 0)%C -> ~ In s ps' ->
       tf zs' ps' k' s = tf zs ps k (RtoC bw * s / (s * s + RtoC (w0 * w0)))%C).
Proof. exact low_to_stop_spec. Qed.
Print Assumptions C56_low_to_stop.
Theorem C56_raises : forall (N : Num) (zs ps : list (cx N)) (k w bw s : N),
  (length ps < length zs)%nat ->
  low_to_low zs ps k w = Raise ValueError /\ low_to_high zs ps k w = Raise ValueError /\
  low_to_band zs ps k w bw = Raise ValueError /\ low_to_stop zs ps k w bw = Raise ValueError /\
  bilinear zs ps k (SrScalar s) = Raise ValueError.
Proof. exact @improper_all. Qed.
Print Assumptions C56_raises.
Example C56_nonvacuous : (length [RtoC 3] <= length [((-1, 1)%R : C); (-1, -1)%R])%nat /\
  ~ In (RtoC 0) [RtoC 3] /\ ~ In (RtoC 0) [(-1, 1); (-1, -1)] /\ conj_closed [RtoC 3] /\ conj_closed [(-1, 1); (-1, -1)].
Proof.
  split; [cbn; lia|]. split; [|split; [|split]].
  - intros [H|[]]. injection H. lra.
  - intros [H|[H|[]]]; injection H; lra.
  - red. cbn. replace (Cconj (RtoC 3)) with (RtoC 3) by (apply injective_projections; cbn; lra). apply Permutation_refl.
  - replace ((-1, -1) : C) with (Cconj (-1, 1)) by (apply injective_projections; cbn; lra). apply conj_closed_pair.
Qed.
(** H(s) = 3 (s - 3) / ((s+1)^2 + 1) with w = 2, and band-pass with w0 = 2, bandwidth 3. *)
Example C56_run :
  run_zpk (@low_to_low NF [q4 12 0] [q4 (-4) 4; q4 (-4) (-4)] (nofZ 3) (nofZ 2)) =
    Some ([(600000000, 0)], [(-200000000, 200000000); (-200000000, -200000000)], 600000000)%Z /\
  run_zpk (@low_to_high NF [q4 12 0] [q4 (-4) 4; q4 (-4) (-4)] (nofZ 3) (nofZ 2)) =
    Some ([(66666667, 0); (0, 0)], [(-100000000, -100000000); (-100000000, 100000000)], -450000000)%Z /\
  run_zpk (@low_to_band NF [q4 12 0] [q4 (-20) 0; q4 (-20) 0] (nofZ 1) (nofZ 2) (nofZ 1)) =
    Some ([(150000000, 132287566); (150000000, -132287566); (0, 0)],
          [(-100000000, 0); (-100000000, 0); (-400000000, 0); (-400000000, 0)], 100000000)%Z.
Proof. vm_compute. repeat split. Qed.
Example C56_run_raises : raised (@low_to_low NF [q4 1 0] [] (nofZ 3) (nofZ 2)) = Some ValueError.
Proof. vm_compute. reflexivity. Qed.

(** ** C57 *)
Theorem C57_tustin : forall zs ps k fs,
  (length zs <= length ps)%nat ->
  ~ In (RtoC (2 * fs)) zs -> ~ In (RtoC (2 * fs)) ps ->
  exists zs' ps' k', @bilinear XR (cfs zs) (cfs ps) (Fin k) (@SrScalar XR (Fin fs)) = Ok (cfs zs', cfs ps', Fin k') /\
    length zs' = length ps /\ length ps' = length ps /\
    (0 < fs -> (forall p, In p ps -> fst p < 0) -> forall p, In p ps' -> Cmod p < 1) /\
    (conj_closed zs -> conj_closed ps -> conj_closed zs' /\ conj_closed ps' /\
     forall z, (z + RtoC 1 <> RtoC 0)%C -> ~ In z ps' ->
       tf zs' ps' k' z = tf zs ps k (RtoC (2 * fs) * (z - RtoC 1) / (z + RtoC 1))%C).
Proof. exact bilinear_spec. Qed.
Print Assumptions C57_tustin.
Theorem C57_raises : forall (N : Num) (zs ps : list (cx N)) k,
  bilinear zs ps k SrNone = Raise ValueError /\ bilinear zs ps k SrArray = Raise ValueError.
Proof. exact @bilinear_sr. Qed.
Print Assumptions C57_raises.
Example C57_nonvacuous : (length ([] : list C) <= length [RtoC (-1)%R])%nat /\ ~ In (RtoC (2 * 1)) [] /\
  ~ In (RtoC (2 * 1)) [RtoC (-1)] /\ 0 < 1 /\ (forall p, In p [RtoC (-1)] -> fst p < 0).
Proof.
  split; [cbn; lia|]. split; [easy|]. split; [|split; [lra|]].
  - intros [H|[]]. injection H. lra.
  - intros p [<-|[]]. cbn. lra.
Qed.
Example C57_run : run_zpk (@bilinear NF [] [q4 (-4) 0] (nofZ 1) (SrScalar (nofZ 1))) =
  Some ([(-100000000, 0)], [(33333333, 0)], 33333333)%Z.
Proof. vm_compute. reflexivity. Qed.

(** ** C58 *)
Theorem C58_prototype : forall n,
  exists ps, @buttap XR (Fin (INR n)) = Ok ([], cfs ps, Fin 1) /\ length ps = n /\
  conj_closed ps /\ (forall p, In p ps -> Cmod p = 1 /\ fst p < 0) /\
  ((0 < n)%nat -> forall w, mag2 (tf [] ps 1 (0, w)) = butter_mag2 n w).
Proof. exact buttap_spec. Qed.
Print Assumptions C58_prototype.
Theorem C58_raises : forall (x : R),
  (forall n : nat, x <> INR n) -> @buttap XR (Fin x) = Raise ValueError.
Proof. exact buttap_bad. Qed.
Print Assumptions C58_raises.
Theorem C58_raises_special : @buttap XR NaN = Raise ValueError /\ forall s, @buttap XR (Inf s) = Raise OverflowError.
Proof. exact buttap_special. Qed.
Print Assumptions C58_raises_special.
Example C58_nonvacuous : (0 < 3)%nat /\ (forall n : nat, 1 / 2 <> INR n) /\ (forall n : nat, -2 <> INR n).
Proof.
  split; [lia|]. split; intros n H.
  - rewrite INR_IZR_INZ in H. assert (E : (2 * Z.of_nat n = 1)%Z) by (apply eq_IZR; rewrite mult_IZR, <- H; lra). lia.
  - pose proof (pos_INR n). lra.
Qed.
Example C58_run : run_zpk (@buttap NF (nofZ 3)) =
  Some ([], [(-50000000, 86602540); (-100000000, 0); (-50000000, -86602540)], 100000000)%Z /\
  raised (@buttap NF (lit 5 1)) = Some ValueError /\ raised (@buttap NF nnan) = Some ValueError.
Proof. vm_compute. repeat split. Qed.

(** ** C59 *)
Theorem C59_analog : forall (argsort : list XR -> list nat) (s o : string) (Ho : lower o = "zps"%string) b n,
  band_ok b -> lower s = band_name b ->
  exists zs ps k, butterworth argsort (Fin (INR n)) (fins (band_freqs b)) s true o (@SrNone XR)
                  = Ok (Zps (cfs zs, cfs ps, Fin k)) /\
    length ps = band_order b n /\ (length zs <= band_order b n)%nat /\ conj_closed zs /\ conj_closed ps /\
    forall p, In p ps -> fst p < 0.
Proof. exact @analog_design. Qed.
Print Assumptions C59_analog.
Theorem C59_digital : forall (argsort : list XR -> list nat) (s o : string) (Ho : lower o = "zps"%string) b n,
  digital_ok b -> lower s = band_name b ->
  exists zs ps k, butterworth argsort (Fin (INR n)) (fins (band_freqs b)) s false o (@SrNone XR)
                  = Ok (Zps (cfs zs, cfs ps, Fin k)) /\
    length ps = band_order b n /\ length zs = band_order b n /\ conj_closed zs /\ conj_closed ps /\
    forall p, In p ps -> Cmod p < 1.
Proof. exact @digital_design. Qed.
Print Assumptions C59_digital.
(** A sampling rate fs is the design for 2 w / fs, in all output forms. *)
Theorem C59_sampling_rate : forall (argsort : list XR -> list nat) (s : string) b n fs o',
  fs <> 0 -> digital_ok (band_map (fun w => 2 * w / fs) b) ->
  lower s = band_name b -> In (lower o') ["nd"; "zps"; "sop"]%string ->
  butterworth argsort (Fin (INR n)) (fins (band_freqs b)) s false o' (@SrScalar XR (Fin fs))
  = butterworth argsort (Fin (INR n)) (fins (band_freqs (band_map (fun w => 2 * w / fs) b))) s false o' (@SrNone XR).
Proof. exact @digital_design_sr. Qed.
Print Assumptions C59_sampling_rate.
Example C59_nonvacuous : band_ok (BP 10 20) /\ lower "BP" = band_name (BP 10 20) /\ lower "ZPS" = "zps"%string /\
  digital_ok (band_map (fun w => 2 * w / 100) (BP 10 20)).
Proof.
  split; [cbn; lra|]. split; [reflexivity|]. split; [reflexivity|]. split; [cbn; lra|].
  intros w [<-|[<-|[]]]; lra.
Qed.

(** ** C60 *)
Theorem C60_response_analog : forall (argsort : list XR -> list nat) (s o : string) (Ho : lower o = "zps"%string) b n W zs ps k,
  (0 < n)%nat -> band_ok b -> lower s = band_name b ->
  butterworth argsort (Fin (INR n)) (fins (band_freqs b)) s true o (@SrNone XR) = Ok (Zps (cfs zs, cfs ps, Fin k)) ->
  (band_regular b W -> mag2 (tf zs ps k (0, W)) = butter_mag2 n (band_ratio b W)) /\
  (~ band_regular b W -> tf zs ps k (0, W) = RtoC 0).
Proof. exact @analog_response. Qed.
Print Assumptions C60_response_analog.
Theorem C60_response_digital : forall (argsort : list XR -> list nat) (s o : string) (Ho : lower o = "zps"%string) b n v zs ps k,
  (0 < n)%nat -> digital_ok b -> lower s = band_name b -> -1 < v < 1 ->
  butterworth argsort (Fin (INR n)) (fins (band_freqs b)) s false o (@SrNone XR) = Ok (Zps (cfs zs, cfs ps, Fin k)) ->
  band_regular (band_map plain_tan b) (plain_tan v) ->
  mag2 (tf zs ps k (Ei (PI * v))) = butter_mag2 n (band_ratio (band_map plain_tan b) (plain_tan v)).
Proof. exact @digital_response. Qed.
Print Assumptions C60_response_digital.
Theorem C60_half_power : forall (argsort : list XR -> list nat) (s o : string) (Ho : lower o = "zps"%string) b n w ag zs ps k,
  (0 < n)%nat -> (if ag : bool then band_ok b else digital_ok b) ->
  lower s = band_name b -> In w (band_freqs b) ->
  butterworth argsort (Fin (INR n)) (fins (band_freqs b)) s ag o (@SrNone XR) = Ok (Zps (cfs zs, cfs ps, Fin k)) ->
  mag2 (tf zs ps k (if ag then (0, w) else Ei (PI * w))) = 1 / 2.
Proof. exact @half_power. Qed.
Print Assumptions C60_half_power.
Theorem C60_unit_gain_analog : forall (argsort : list XR -> list nat) (s o : string) (Ho : lower o = "zps"%string) b n zs ps k,
  (0 < n)%nat -> band_ok b -> lower s = band_name b ->
  butterworth argsort (Fin (INR n)) (fins (band_freqs b)) s true o (@SrNone XR) = Ok (Zps (cfs zs, cfs ps, Fin k)) ->
  match b with
  | LP _ | BS _ _ => mag2 (tf zs ps k (0, 0)) = 1
  | BP w1 w2 => mag2 (tf zs ps k (0, sqrt (w1 * w2))) = 1
  | HP w => forall eps, 0 < eps -> exists W0, forall W, W0 < W -> 1 - eps < mag2 (tf zs ps k (0, W)) < 1
  end.
Proof. exact @unit_gain_analog. Qed.
Print Assumptions C60_unit_gain_analog.
Theorem C60_unit_gain_digital : forall (argsort : list XR -> list nat) (s o : string) (Ho : lower o = "zps"%string) b n zs ps k,
  (0 < n)%nat -> digital_ok b -> lower s = band_name b ->
  butterworth argsort (Fin (INR n)) (fins (band_freqs b)) s false o (@SrNone XR) = Ok (Zps (cfs zs, cfs ps, Fin k)) ->
  match b with
  | LP _ => mag2 (tf zs ps k (RtoC 1)) = 1 /\ tf zs ps k (RtoC (-1)) = RtoC 0
  | HP _ => mag2 (tf zs ps k (RtoC (-1))) = 1
  | BP _ _ => tf zs ps k (RtoC (-1)) = RtoC 0
  | BS _ _ => mag2 (tf zs ps k (RtoC 1)) = 1 /\ mag2 (tf zs ps k (RtoC (-1))) = 1
  end.
Proof. exact @unit_gain_digital. Qed.
Print Assumptions C60_unit_gain_digital.
Example C60_nonvacuous : (0 < 4)%nat /\ digital_ok (HP (1 / 4)) /\ band_ok (HP (1 / 4)) /\
  In (1 / 4) (band_freqs (HP (1 / 4))) /\ -1 < 1 / 3 < 1 /\ band_regular (HP 1) 2 /\
  exists zs ps k, butterworth ins_argsort (Fin (INR 4)) (fins (band_freqs (HP (1 / 4)))) "hp" false "zps" (@SrNone XR)
    = Ok (Zps (cfs zs, cfs ps, Fin k)).
Proof.
  split; [lia|]. assert (D : digital_ok (HP (1 / 4))) by (split; [cbn; lra|intros w [<-|[]]; lra]).
  split; [exact D|]. split; [cbn; lra|]. split; [now left|]. split; [lra|]. split; [cbn; lra|].
  destruct (digital_design ins_argsort "hp" "zps" eq_refl (HP (1 / 4)) 4 D eq_refl) as (zs & ps & k & E & _).
  exists zs, ps, k. exact E.
Qed.

(** ** C61 *)
Theorem C61_checks : forall (N : Num) argsort q w btype ag output (sr : sr_arg N),
  match first_failed (butter_checks q (scaled w sr) (lower btype) (lower output) ag
                        (sr_given sr) (sr_scalar sr)) with
  | Some e => butterworth argsort q w btype ag output sr = Raise e
  | None => lower output = "zps"%string \/ lower output = "nd"%string ->
            exists d, butterworth argsort q w btype ag output sr = Ok d
  end.
Proof. exact @butter_checks_final. Qed.
Print Assumptions C61_checks.
Example C61_run :
  let b q w t ag o sr := raised (@butterworth NF ins_argsort q w t ag o sr) in
  [ b (nofZ 2) [lit 5 1] "lp" false "nd" SrNone; b (nofZ 2) [nofZ 10] "LP" false "nd" (SrScalar (nofZ 100));
    b (nofZ 2) [nofZ 10] "lp" true "nd" (SrScalar (nofZ 100)); b (nofZ 2) [nofZ 0] "lp" false "nd" SrNone;
    b (nofZ 2) [nofZ 1] "lp" false "nd" SrNone; b (nofZ 2) [nofZ 1] "lp" true "nd" SrNone;
    b (nofZ 2) [lit 5 1] "bp" false "nd" SrNone; b (nofZ 2) [lit 5 1; lit 4 1] "bp" false "nd" SrNone;
    b (nofZ 2) [lit 4 1; lit 5 1] "bp" false "nd" SrNone; b (nofZ 2) [lit 4 1; lit 5 1] "lp" false "nd" SrNone;
    b (nofZ 2) [lit 5 1] "lowpass" false "nd" SrNone; b (nofZ 2) [lit 5 1] "lp" false "ba" SrNone;
    b (lit 5 1) [lit 5 1] "lp" false "nd" SrNone; b (nofZ 2) [lit 5 1] "lp" false "nd" SrArray ] %string =
  [ None; None; Some ValueError; Some ValueError; Some ValueError; None; Some ValueError; Some ValueError; None;
    Some ValueError; Some NotImplementedError; Some ValueError; Some ValueError; Some ValueError ].
Proof. vm_compute. reflexivity. Qed.

(** ** C62 *)
Theorem C62_expand : forall x y k,
  exists g h,
  @xyz_to_ptf XR (cfs x) (cfs y) (Fin k) = (cfs g, cfs h) /\
  length g = S (length x) /\ length h = S (length y) /\
  hd (RtoC 0) g = RtoC k /\ hd (RtoC 0) h = RtoC 1 /\
  (forall s, polyval g s = (RtoC k * from_roots x s)%C) /\
  (forall s, polyval h s = from_roots y s) /\
  (conj_closed x -> forall c, In c g -> snd c = 0) /\
  (conj_closed y -> forall c, In c h -> snd c = 0).
Proof. exact ptf_spec. Qed.
Print Assumptions C62_expand.
(** The coefficient form of a design. *)
Theorem C62_butterworth : forall argsort b n s o o' ag zs ps k,
  (if ag : bool then band_ok b else digital_ok b) -> lower s = band_name b ->
  lower o = "zps"%string -> lower o' = "nd"%string ->
  butterworth argsort (Fin (INR n)) (fins (band_freqs b)) s ag o (@SrNone XR) = Ok (Zps (cfs zs, cfs ps, Fin k)) ->
  exists g h, butterworth argsort (Fin (INR n)) (fins (band_freqs b)) s ag o' (@SrNone XR) = Ok (Nd (cfs g) (cfs h)) /\
    length g = S (length zs) /\ length h = S (length ps) /\
    (forall c, In c (g ++ h) -> snd c = 0) /\
    forall z, ~ In z ps -> (polyval g z / polyval h z)%C = tf zs ps k z.
Proof. exact butter_nd. Qed.
Print Assumptions C62_butterworth.
Example C62_nonvacuous : band_ok (LP 3) /\ lower "lp" = band_name (LP 3) /\
  exists zs ps k, butterworth ins_argsort (Fin (INR 2)) (fins (band_freqs (LP 3))) "lp" true "zps" (@SrNone XR)
    = Ok (Zps (cfs zs, cfs ps, Fin k)).
Proof.
  split; [cbn; lra|]. split; [reflexivity|].
  destruct (analog_design ins_argsort "lp" "zps" eq_refl (LP 3) 2) as (zs & ps & k & E & _); [cbn; lra|reflexivity|].
  exists zs, ps, k. exact E.
Qed.
(** Order 2, cut-off at half the Nyquist frequency: 0.29289322 (1 + 2/z + 1/z^2) / (1 + 0.17157288/z^2). *)
Example C62_run : match @butterworth NF ins_argsort (nofZ 2) [lit 5 1] "lp" false "nd" SrNone with
  | Ok (Nd g h) => (dec8s g, dec8s h) = ([(29289322, 0); (58578644, 0); (29289322, 0)], [(100000000, 0); (0, 0); (17157288, 0)])%Z
  | _ => False end.
Proof. vm_compute. reflexivity. Qed.

(** ** C63 *)
(** The default pairing of digital filters, whatever argsort does with ties: no exception, ceil(n/2) sections,
    numerators and denominators multiply to the (snapped) polynomials, both padded to even degree. *)
Theorem C63_nr : forall argsort x y k pg,
  is_argsort argsort -> conj_closed x -> conj_closed y ->
  pg = None \/ pg = Some "nr"%string -> x <> [] \/ y <> [] ->
  let n := Nat.div (Nat.max (length x) (length y) + 1) 2 in
  exists rows, @xyz_to_sop XR argsort (cfs x) (cfs y) (Fin k) pg false = Ok (map fins rows) /\ length rows = n /\
    sections_of rows k (map snap x) (map snap y) (2 * n - length x) (2 * n - length y).
Proof. exact sop_spec_nr. Qed.
Print Assumptions C63_nr.
(** 'kd': for an even number of roots, for real zeros, or for one real pole; see C76. *)
Theorem C63_kd : forall argsort x y k,
  is_argsort argsort -> conj_closed x -> conj_closed y ->
  Nat.Even (Nat.max (length x) (length y)) \/ reals (map snap x) \/ lone_real (map snap y ++ repeat (RtoC 0) (length x - length y)) -> x <> [] \/ y <> [] ->
  let n := Nat.div (Nat.max (length x) (length y) + 1) 2 in
  exists rows, @xyz_to_sop XR argsort (cfs x) (cfs y) (Fin k) (Some "kd"%string) false = Ok (map fins rows) /\
    length rows = n /\ sections_of rows k (map snap x) (map snap y) (2 * n - length x) (2 * n - length y).
Proof. exact sop_spec_kd. Qed.
Print Assumptions C63_kd.
(** 'ml': for even numbers of poles and zeros, for real zeros, or for one real pole and as many zeros as poles; see C77. *)
Theorem C63_ml : forall argsort x y k pg ag,
  is_argsort argsort -> conj_closed x -> conj_closed y ->
  pg = Some "ml"%string \/ (pg = None /\ ag = true) -> (length x <= length y)%nat -> y <> [] ->
  (Nat.Even (length y) /\ Nat.Even (length x)) \/ reals (map snap x) \/ (lone_real (map snap y) /\ length x = length y) ->
  exists rows, @xyz_to_sop XR argsort (cfs x) (cfs y) (Fin k) pg ag = Ok (map fins rows) /\
    length rows = Nat.div (length y + 1) 2 /\ sections_of rows k (map snap x) (map snap y) 0 0.
Proof. exact sop_spec_ml. Qed.
Print Assumptions C63_ml.
(** As rational functions. *)
Theorem C63_quotient : forall rows k x y e z,
  sections_of rows k x y e e -> e = 0%nat \/ z <> RtoC 0 -> ~ In z y ->
  sections_at rows z = tf x y k z.
Proof. exact sections_of_tf. Qed.
Print Assumptions C63_quotient.
(** Roots that are real or further from the axis than the tolerance are not moved. *)
Theorem C63_exact : forall l,
  real_or_apart l -> map snap l = l.
Proof. exact snap_apart. Qed.
Print Assumptions C63_exact.
(** The designs of butterworth. *)
Theorem C63_butterworth : forall argsort b n s o o' ag zs ps k,
  is_argsort argsort -> (0 < n)%nat ->
  (if ag : bool then band_ok b else digital_ok b) -> lower s = band_name b ->
  lower o = "zps"%string -> lower o' = "sop"%string ->
  butterworth argsort (Fin (INR n)) (fins (band_freqs b)) s ag o (@SrNone XR) = Ok (Zps (cfs zs, cfs ps, Fin k)) ->
  real_or_apart zs -> real_or_apart ps ->
  exists rows, butterworth argsort (Fin (INR n)) (fins (band_freqs b)) s ag o' (@SrNone XR) = Ok (Sop (map fins rows)) /\
    length rows = Nat.div (band_order b n + 1) 2 /\
    forall z, ~ In z ps -> ag = true \/ z <> RtoC 0 -> sections_at rows z = tf zs ps k z.
Proof. exact butter_sop. Qed.
Print Assumptions C63_butterworth.
Theorem C63_empty : forall argsort k,
  @xyz_to_sop XR argsort [] [] (Fin k) None false = Ok [fins [k; 0; 0; 1; 0; 0]] /\
  @xyz_to_sop XR argsort [] [] (Fin k) None true = Ok [fins [0; 0; k; 0; 0; 1]].
Proof. exact sop_empty. Qed.
Print Assumptions C63_empty.
Theorem C63_raises : forall (N : Num) argsort (x y : list (cx N)) k pg ag,
  (~ In pg ["nr"; "kd"; "ml"]%string -> xyz_to_sop argsort x y k (Some pg) ag = Raise ValueError) /\
  (pg <> "ml"%string -> xyz_to_sop argsort x y k (Some pg) true = Raise ValueError) /\
  ((length y < length x)%nat -> xyz_to_sop argsort x y k (Some "ml"%string) ag = Raise ValueError).
Proof. exact @sop_raises. Qed.
Print Assumptions C63_raises.
Example C63_nonvacuous : is_argsort (@ins_argsort XR) /\ conj_closed [(1, 1); (1, -1)] /\ reals (map snap [RtoC 0]) /\
  real_or_apart [(1, 1); (1, -1)].
Proof.
  split; [apply ins_argsort_ok|]. split; [|split].
  - replace ((1, -1) : C) with (Cconj (1, 1)) by (apply injective_projections; cbn; lra). apply conj_closed_pair.
  - intros v [<-|[]]. unfold snap. cbn [fst snd RtoC]. now destruct (Rle_dec _ _).
  - assert (M : forall e, e * e = 1 -> 100 / 2 ^ 52 * Cmod (1, e) < Rabs e).
    { intros e He. unfold Cmod. cbn [fst snd]. replace (1 ^ 2 + e ^ 2) with 2 by (cbn; lra).
      assert (1 <= Rabs e).
      { destruct (Rle_lt_dec 1 (Rabs e)); [easy|]. pose proof (Rabs_pos e).
        assert (Rabs e * Rabs e = 1) by (rewrite <- Rabs_mult, He; apply Rabs_R1). nra. }
      assert (sqrt 2 <= 2) by (rewrite <- (sqrt_square 2) at 2 by lra; apply sqrt_le_1_alt; lra).
      assert (100 / 2 ^ 52 < 1 / 4) by (cbn [pow]; lra). pose proof (sqrt_pos 2). nra. }
    intros v [<-|[<-|[]]]; right; cbn [snd]; apply M; lra.
Qed.
(** Order 4 low-pass at half the Nyquist frequency: two sections. *)
Example C63_run : match @butterworth NF ins_argsort (nofZ 4) [lit 5 1] "lp" false "sop" SrNone with
  | Ok (Sop rows) => map (map (fun x => dec8 x)) rows =
     [[9398085; 18796170; 9398085; 100000000; 0; 3956613]; [100000000; 200000000; 100000000; 100000000; 0; 44646269]]%Z
  | _ => False end.
Proof. vm_compute. reflexivity. Qed.

(** Three zeros and three poles, one of each real: the complex pair of zeros goes with the complex pair of poles although
    the real zero is nearer. *)
Example C63_lone_real :
  match @xyz_to_sop NF ins_argsort [(nofZ 1, nofZ 0); (nofZ 9, nofZ 2); (nofZ 9, nofZ (-2))]
          [(nofZ 2, nofZ 0); (nofZ 1, ndiv (nofZ 1) (nofZ 8)); (nofZ 1, ndiv (nofZ (-1)) (nofZ 8))] (nofZ 1) (Some "ml"%string) true with
  | Ok rows => map (map (fun x => dec8 x)) rows =
      [[0; 100000000; -100000000; 0; 100000000; -200000000]; [100000000; -1800000000; 8500000000; 100000000; -200000000; 101562500]]%Z
  | Raise _ => False end.
Proof. vm_compute. reflexivity. Qed.

(** ** C75: refuted for every order: a NaN critical frequency is accepted and all poles are NaN. *)
Theorem C75_refuted : forall (argsort : list XR -> list nat) n,
  exists z p k,
  butterworth argsort (Fin (INR n)) [NaN] "lp" false "zps" (@SrNone XR) = Ok (Zps (z, p, k)) /\
  length p = n /\ forall v, In v p -> fst v = NaN /\ snd v = NaN.
Proof. exact nan_accepted. Qed.
Print Assumptions C75_refuted.
Example C75_run : raised (@butterworth NF ins_argsort (nofZ 2) [nnan] "lp" false "zps" SrNone) = None.
Proof. vm_compute. reflexivity. Qed.

(** ** C76: refuted: five zeros and five poles, both closed under conjugation, make 'kd' raise IndexError
    (in binary64, whatever the transcendental functions); 'nr' handles the same filter. *)
Theorem C76_refuted : forall L : Libm,
  let x := [q4 3 0; q4 1 4; q4 1 (-4); q4 2 5; q4 2 (-5)] in
  let y := [q4 3 0; q4 2 0; q4 1 0; q4 1 1; q4 1 (-1)] in
  raised (@xyz_to_sop (F64 L) ins_argsort x y (nofZ 1) (Some "kd"%string) false) = Some IndexError /\
  raised (@xyz_to_sop (F64 L) ins_argsort x y (nofZ 1) (Some "nr"%string) false) = None.
Proof. intros L. vm_compute. split; reflexivity. Qed.
Print Assumptions C76_refuted.
(** Without one pair of poles and one pair of zeros, 'kd' succeeds. *)
Example C76_run : raised (@xyz_to_sop NF ins_argsort [q4 3 0; q4 1 4; q4 1 (-4)] [q4 3 0; q4 1 1; q4 1 (-1)] (nofZ 1) (Some "kd"%string) false) = None.
Proof. vm_compute. reflexivity. Qed.

(** ** C77: refuted: a proper analog filter with three zeros and four poles makes 'ml' raise IndexError. *)
Theorem C77_refuted : forall L : Libm,
  let x := [q4 0 12; q4 0 (-12); q4 (-4) 0] in
  let y := [q4 (-4) 4; q4 (-4) (-4); q4 (-8) 4; q4 (-8) (-4)] in
  raised (@xyz_to_sop (F64 L) ins_argsort x y (nofZ 1) (Some "ml"%string) true) = Some IndexError.
Proof. intros L. vm_compute. reflexivity. Qed.
Print Assumptions C77_refuted.
(** Without the real zero, 'ml' succeeds. *)
Example C77_run : raised (@xyz_to_sop NF ins_argsort [q4 0 12; q4 0 (-12)] [q4 (-4) 4; q4 (-4) (-4); q4 (-8) 4; q4 (-8) (-4)] (nofZ 1) (Some "ml"%string) true) = None.
Proof. vm_compute. reflexivity. Qed.

(** ** C78: refuted: a pair 1 +- ie with e at most 100 machine epsilons becomes a double real pole. *)
Theorem C78_refuted : forall (argsort : list XR -> list nat) (Hsort : is_argsort argsort) e k,
  0 < e <= 100 / 2 ^ 52 ->
  exists rows, @xyz_to_sop XR argsort (cfs []) (cfs [(1, e); (1, - e)]) (Fin k) None false = Ok (map fins rows) /\
    forall z, dens_at rows z = ((z - 1) * (z - 1))%C /\ dens_at rows z <> from_roots [(1, e); (1, - e)] z.
Proof. exact @flattened. Qed.
Print Assumptions C78_refuted.
Example C78_nonvacuous : 0 < / 2 ^ 52 <= 100 / 2 ^ 52.
Proof. cbn [pow]. lra. Qed.
