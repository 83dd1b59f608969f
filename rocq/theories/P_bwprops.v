(** Half-power points, pass and stop frequencies, argument checks (C60, C61, C75). *)
From Coq Require Import Reals Lra Psatz Permutation.
From Coquelicot Require Import Complex.
From Flocq Require Import Core.Raux.
From Verif Require Import Num NpBase Lib XR M_butter Spec3 P_cx P_butter P_buttap P_design P_bwfun.
Local Open Scope R_scope.

Lemma butter_mag2_sq1 n x : x * x = 1 -> butter_mag2 n x = 1 / 2.
Proof.
  intros H. unfold butter_mag2. rewrite pow_mult. replace (x ^ 2) with 1 by lra. rewrite pow1. field.
Qed.
Lemma butter_mag2_0 n : (0 < n)%nat -> butter_mag2 n 0 = 1.
Proof.
  intros H. unfold butter_mag2. rewrite pow_i by lia. field.
Qed.

Lemma ratio_critical b w : band_ok b -> In w (band_freqs b) ->
  band_regular b w /\ band_ratio b w * band_ratio b w = 1.
Proof.
  intros Hb Hw.
  destruct b as [x|x|w1 w2|w1 w2]; cbn [band_ok band_freqs In band_regular band_ratio] in *.
  - destruct Hw as [<- |[]]. split; [easy|]. field. lra.
  - destruct Hw as [<- |[]]. split; [lra|]. field. lra.
  - destruct Hw as [<- |[<- |[]]]; (split; [lra|]); field; lra.
  - destruct Hw as [<- |[<- |[]]]; (split; [nra|]); field; nra.
Qed.

Lemma half_power_analog b n w : (0 < n)%nat -> band_ok b -> In w (band_freqs b) ->
  mag2 (tf (fst (fst (adesign b n))) (snd (fst (adesign b n))) (snd (adesign b n)) (jw w)) = 1 / 2.
Proof.
  intros Hn Hb Hw. destruct (ratio_critical b w Hb Hw) as [R S].
  rewrite adesign_response by easy. now apply butter_mag2_sq1.
Qed.

Lemma plain_ok b : digital_ok b -> band_ok (band_map plain_tan b).
Proof.
  intros H. apply warp_ok in H. unfold warp in H.
  destruct b as [w|w|w1 w2|w1 w2]; cbn [band_map band_ok] in *; unfold plain_tan; lra.
Qed.

Lemma half_power_digital b n w : (0 < n)%nat -> digital_ok b -> In w (band_freqs b) ->
  mag2 (tf (fst (fst (ddesign b n))) (snd (fst (ddesign b n))) (snd (ddesign b n)) (Ei (PI * w))) = 1 / 2.
Proof.
  intros Hn Hb Hw.
  assert (Hw' : In (plain_tan w) (band_freqs (band_map plain_tan b)))
    by (rewrite band_freqs_map; now apply in_map).
  destruct (ratio_critical _ _ (plain_ok b Hb) Hw') as [R S].
  rewrite ddesign_response; try easy; [now apply butter_mag2_sq1|].
  destruct Hb as [Hb H1]. pose proof (band_pos b Hb w Hw). pose proof (H1 w Hw). lra.
Qed.

(** ** Gain at the frequencies that are passed *)
Lemma pass_lp_analog w n : (0 < n)%nat -> 0 < w ->
  mag2 (tf (fst (fst (adesign (LP w) n))) (snd (fst (adesign (LP w) n))) (snd (adesign (LP w) n)) (jw 0)) = 1.
Proof.
  intros Hn Hw. rewrite adesign_response by easy. cbn [band_ratio].
  replace (0 / w) with 0 by (field; lra). now apply butter_mag2_0.
Qed.
Lemma pass_bp_analog w1 w2 n : (0 < n)%nat -> 0 < w1 -> w1 < w2 ->
  mag2 (tf (fst (fst (adesign (BP w1 w2) n))) (snd (fst (adesign (BP w1 w2) n)))
           (snd (adesign (BP w1 w2) n)) (jw (sqrt (w1 * w2)))) = 1.
Proof.
  intros Hn Hw H2. assert (0 < w1 * w2) by nra. pose proof (sqrt_lt_R0 _ H).
  rewrite adesign_response; cbn; try easy; [|lra].
  pose proof (sqrt_sqrt (w1 * w2) ltac:(lra)) as S.
  replace ((sqrt (w1 * w2) * (sqrt (w1 * w2) * 1) - w1 * w2) / ((w2 - w1) * sqrt (w1 * w2))) with 0.
  - now apply butter_mag2_0.
  - rewrite Rmult_1_r, S. field. lra.
Qed.
Lemma pass_bs_analog w1 w2 n : (0 < n)%nat -> 0 < w1 -> w1 < w2 ->
  mag2 (tf (fst (fst (adesign (BS w1 w2) n))) (snd (fst (adesign (BS w1 w2) n)))
           (snd (adesign (BS w1 w2) n)) (jw 0)) = 1.
Proof.
  intros Hn Hw H2. assert (0 < w1 * w2) by nra.
  rewrite adesign_response; cbn; try easy; [|lra].
  replace ((w2 - w1) * 0 / (0 * (0 * 1) - w1 * w2)) with 0 by (field; nra).
  now apply butter_mag2_0.
Qed.

Lemma plain_tan_0 : plain_tan 0 = 0.
Proof. unfold plain_tan. replace (PI * 0 / 2) with 0 by field. apply tan_0. Qed.
Lemma Ei_0 : Ei (PI * 0) = RtoC 1.
Proof. rewrite Rmult_0_r. apply C_eq; cbn; [apply cos_0|apply sin_0]. Qed.

Lemma pass_lp_digital w n : (0 < n)%nat -> 0 < w < 1 ->
  mag2 (tf (fst (fst (ddesign (LP w) n))) (snd (fst (ddesign (LP w) n))) (snd (ddesign (LP w) n)) (RtoC 1)) = 1.
Proof.
  intros Hn Hw. rewrite <- Ei_0.
  assert (D : digital_ok (LP w)) by (split; cbn; [lra|intros x [<- |[]]; lra]).
  rewrite ddesign_response; try easy; [|lra]. rewrite plain_tan_0. cbn [band_map band_ratio].
  pose proof (plain_ok _ D) as P. cbn in P.
  replace (0 / plain_tan w) with 0 by (field; lra). now apply butter_mag2_0.
Qed.
Lemma pass_bs_digital w1 w2 n : (0 < n)%nat -> 0 < w1 -> w1 < w2 -> w2 < 1 ->
  mag2 (tf (fst (fst (ddesign (BS w1 w2) n))) (snd (fst (ddesign (BS w1 w2) n)))
           (snd (ddesign (BS w1 w2) n)) (RtoC 1)) = 1.
Proof.
  intros Hn Hw H2 H3. rewrite <- Ei_0.
  assert (D : digital_ok (BS w1 w2)) by (split; cbn; [lra|intros x [<- |[<- |[]]]; lra]).
  pose proof (plain_ok _ D) as P. cbn in P. assert (0 < plain_tan w1 * plain_tan w2) by nra.
  rewrite ddesign_response; try easy; [|lra|]; rewrite plain_tan_0; cbn [band_map band_ratio band_regular].
  - replace ((plain_tan w2 - plain_tan w1) * 0 / (0 ^ 2 - plain_tan w1 * plain_tan w2)) with 0 by (field; nra).
    now apply butter_mag2_0.
  - lra.
Qed.

(** Nyquist: with as many zeros as poles the digital gain at z = -1 is the analog gain at infinity. *)
Lemma Cpown_m (z : C) n : z <> RtoC 0 -> Cpown z n <> RtoC 0. Proof. apply Cpown_nz. Qed.

Lemma bilinear_nyquist zs ps k c : c <> 0 -> length zs = length ps ->
  ~ In (RtoC c) zs -> ~ In (RtoC c) ps -> conj_closed zs -> conj_closed ps ->
  tf (map (tustin c) zs) (map (tustin c) ps) (k * bgain c zs ps) (RtoC (-1)) = RtoC k.
Proof.
  intros Hc HL Hz Hp Cz Cp. unfold tf. rewrite !from_roots_map, RtoC_mult, bgain_ok by easy.
  assert (E : forall l, ~ In (RtoC c) l ->
    (Cprodl (map (Cminus (RtoC c)) l) * Cprodl (map (fun r => RtoC (-1) - tustin c r) l)
     = Cpown (RtoC (- (2 * c))) (length l))%C).
  { intros l Hl. rewrite <- Cprodl_map_mul, <- Cprodl_map_const. apply Cprodl_ext. intros r Hr.
    unfold tustin. assert (RtoC c - r <> RtoC 0)%C
      by (intros E; apply (proj1 (Cminus_0 _ _)) in E; rewrite <- E in Hr; easy).
    replace (RtoC (- (2 * c))) with (- (RtoC c + RtoC c))%C by (apply C_eq; cbn; ring).
    replace (RtoC (-1)) with (- RtoC 1)%C by (apply C_eq; cbn; ring). field. easy. }
  pose proof (E zs Hz) as Ez. pose proof (E ps Hp) as Ep.
  assert (NC : Cpown (RtoC (- (2 * c))) (length ps) <> RtoC 0) by (apply Cpown_nz, RtoC_nz; lra).
  rewrite HL in Ez. pose proof (prodl_sub_nz c ps Hp) as N1.
  assert (N2 : Cprodl (map (fun r => RtoC (-1) - tustin c r)%C ps) <> RtoC 0).
  { intros E0. rewrite E0 in Ep. apply NC. rewrite <- Ep. ring. }
  set (A := Cprodl (map (Cminus (RtoC c)) zs)) in *. set (B := Cprodl (map (Cminus (RtoC c)) ps)) in *.
  set (A' := Cprodl (map (fun r => RtoC (-1) - tustin c r)%C zs)) in *.
  set (B' := Cprodl (map (fun r => RtoC (-1) - tustin c r)%C ps)) in *.
  transitivity (RtoC k * (A * A') / (B * B'))%C; [field; easy|].
  rewrite Ez, Ep. field. easy.
Qed.

Lemma gain_proto n : (0 < n)%nat -> mag2 (RtoC (1 * gain_real [] (proto_poles n))) = 1.
Proof.
  intros Hn. rewrite Rmult_1_l. rewrite gain_real_ok; [|constructor|apply proto_conj|apply proto_nz].
  rewrite mag2_div by (apply prodl_opp_nz, proto_nz). cbn [map Cprodl]. rewrite mag2_real.
  pose proof (proto_mag2 n 0 Hn) as M. rewrite pow_i in M by lia.
  replace (from_roots (proto_poles n) (0, 0)) with (Cprodl (map Copp (proto_poles n))) in M.
  - rewrite M. field.
  - unfold from_roots. f_equal. apply map_ext. intros p. apply C_eq; cbn; ring.
Qed.

Lemma pass_nyquist b n : (0 < n)%nat -> digital_ok b ->
  match b with HP _ | BS _ _ => True | _ => False end ->
  mag2 (tf (fst (fst (ddesign b n))) (snd (fst (ddesign b n))) (snd (ddesign b n)) (RtoC (-1))) = 1.
Proof.
  intros Hn Hb HB. pose proof (warp_ok b Hb) as Hw. destruct (adesign_no4 _ n Hw) as [Z P].
  destruct (adesign_conj (band_map warp b) n) as [CZ CP].
  assert (HL : length (fst (fst (adesign (band_map warp b) n)))
             = length (snd (fst (adesign (band_map warp b) n)))).
  { pose proof (proto_length n) as E. destruct b; try easy;
    cbn [band_map adesign fst snd map split_roots app];
    rewrite ?split_length, ?app_length, ?repeat_length, ?map_length, ?E; lia. }
  cbn [ddesign fst snd]. rewrite HL, Nat.sub_diag. cbn [repeat]. rewrite app_nil_r.
  rewrite bilinear_nyquist; try easy; try lra.
  destruct b; try easy; cbn [band_map adesign snd]; now apply gain_proto.
Qed.

(** ** Frequencies that are blocked *)
Lemma tf_zero zs ps k s : In s zs -> tf zs ps k s = RtoC 0.
Proof.
  intros H. unfold tf. replace (from_roots zs s) with (RtoC 0).
  - unfold Cdiv. ring.
  - symmetry. destruct (Ceq_dec (from_roots zs s) 0) as [E|E]; [easy|]. now apply from_roots_nz in E.
Qed.
Lemma in_repeat_pos {A} (x : A) n : (0 < n)%nat -> In x (repeat x n).
Proof. destruct n; [lia|]. now left. Qed.

Lemma stop_analog b n W : (0 < n)%nat -> band_ok b -> ~ band_regular b W ->
  tf (fst (fst (adesign b n))) (snd (fst (adesign b n))) (snd (adesign b n)) (jw W) = RtoC 0.
Proof.
  intros Hn Hb HR. pose proof (proto_length n) as HL. apply tf_zero.
  destruct b as [w|w|w1 w2|w1 w2]; cbn [adesign fst snd map split_roots app band_regular band_ok] in *.
  - tauto.
  - assert (W = 0) as -> by lra. apply in_repeat_pos. lia.
  - assert (W = 0) as -> by lra. apply in_repeat_pos. lia.
  - assert (E : W ^ 2 = w1 * w2) by lra. assert (0 < w1 * w2) by nra.
    pose proof (sqrt_lt_R0 _ H). pose proof (sqrt_sqrt (w1 * w2) ltac:(lra)) as S.
    assert (D : (W - sqrt (w1 * w2)) * (W + sqrt (w1 * w2)) = 0) by nra.
    apply in_app_iff. apply Rmult_integral in D as [D|D].
    + left. assert (W = sqrt (w1 * w2)) as -> by lra. apply in_repeat_pos. lia.
    + right. assert (W = - sqrt (w1 * w2)) as -> by lra. apply in_repeat_pos. lia.
Qed.

Lemma stop_nyquist b n : (0 < n)%nat -> digital_ok b ->
  match b with LP _ | BP _ _ => True | _ => False end ->
  tf (fst (fst (ddesign b n))) (snd (fst (ddesign b n))) (snd (ddesign b n)) (RtoC (-1)) = RtoC 0.
Proof.
  intros Hn Hb HB. pose proof (proto_length n) as HL. apply tf_zero.
  cbn [ddesign fst snd]. apply in_app_iff. right. apply in_repeat_pos.
  destruct b; try easy; cbn [band_map adesign fst snd map split_roots app];
    rewrite ?split_length, ?app_length, ?repeat_length, ?map_length, ?HL; cbn [length]; lia.
Qed.

(** ** Argument checks *)
Definition scaled {N : Num} (w : list N) (sr : sr_arg N) : list N :=
  match sr with SrScalar s => map (fun v => ndiv (nmul (nofZ 2) v) s) w | _ => w end.
Definition sr_given {N : Num} (sr : sr_arg N) : bool := match sr with SrNone => false | _ => true end.
Definition sr_scalar {N : Num} (sr : sr_arg N) : bool := match sr with SrScalar _ => true | _ => false end.

Lemma relative_scale_nil {N : Num} (ps : list (cx N)) : relative_scale [] ps = Ok (length ps).
Proof.
  unfold relative_scale, zlen. cbn [length].
  destruct (Z.ltb_spec (Z.of_nat (length ps) - Z.of_nat 0) 0); [lia|]. f_equal. lia.
Qed.

Lemma bilinear_isok {N : Num} (zs ps : list (cx N)) k s : (length zs <= length ps)%nat ->
  exists f, bilinear zs ps k (SrScalar s) = Ok f.
Proof.
  intros H. unfold bilinear. cbn [valid_g bind]. unfold relative_scale, zlen.
  destruct (Z.ltb_spec (Z.of_nat (length ps) - Z.of_nat (length zs)) 0); [lia|]. cbn [bind]. eauto.
Qed.

Lemma butter_checks_spec {N : Num} argsort q w btype ag output (sr : sr_arg N) :
  match first_failed (butter_checks q (scaled w sr) (lower btype) (lower output) ag
                        (sr_given sr) (sr_scalar sr)) with
  | Some e => butterworth argsort q w btype ag output sr = Raise e
  | None => exists f, butterworth argsort q w btype ag output sr = finish argsort output ag f
  end.
Proof.
  unfold butterworth, butter_checks, first_failed.
  assert (SI : forall s l, existsb (String.eqb s) l = str_in s l) by reflexivity.
  destruct sr as [|s|]; cbn [valid_g bind sr_given sr_scalar negb andb filter fst]; [| |easy].
  2: destruct ag; cbn [filter fst andb]; [easy|].
  all: cbn [scaled bind].
  2: set (w' := map _ w); clearbody w'; clear w; rename w' into w.
  all: destruct (existsb (fun v => nleb v (nofZ 0)) w) eqn:E1; cbn [fst]; [easy|].
  all: set (unord := match w with w0 :: w1 :: _ => negb (nltb w0 w1) | _ => false end);
    destruct unord eqn:E2; cbn [fst]; [easy|].
  all: rewrite SI; destruct (str_in (lower output) ["nd"; "zps"; "sop"]%string); cbn [negb fst]; [|easy].
  all: unfold buttap; destruct (nisnan q); cbn [fst bind]; [easy|].
  all: destruct (nisfin q); cbn [negb fst bind]; [|easy].
  all: destruct (neqb (nabs (ntrunc q)) q); cbn [negb fst bind]; [|easy].
  all: set (P := map _ (map _ _)).
  all: try (destruct ag; cbn [negb andb fst bind orb]).
  all: try (destruct (existsb (fun v => nleb (nofZ 1) v) w) eqn:E3; cbn [fst negb andb orb bind]; [easy|]).
  all: unfold str_in; cbn [existsb orb].
  all: generalize (lower btype); intros lb.
  all: destruct (String.eqb_spec lb "lp"%string) as [-> |B1];
    [|destruct (String.eqb_spec lb "hp"%string) as [-> |B2];
      [|destruct (String.eqb_spec lb "bp"%string) as [-> |B3];
        [|destruct (String.eqb_spec lb "bs"%string) as [-> |B4]]]].
  all: cbn [String.eqb Ascii.eqb Bool.eqb andb fst orb negb bind]; try reflexivity.
  all: destruct w as [|w0 [|w1 w]]; cbn [length Nat.eqb Nat.ltb Nat.leb negb fst map bind]; try reflexivity.
  all: unfold low_to_low, low_to_high, low_to_band, low_to_stop; rewrite relative_scale_nil; cbn [bind].
  all: try (match goal with |- context [Ok (Zps ?t)] => exists t; reflexivity end).
  all: match goal with |- context [bilinear ?z ?p ?k (SrScalar ?s)] =>
    destruct (bilinear_isok z p k s) as [f Ef];
    [ unfold catenate; rewrite ?app_length, ?repeat_length, ?map_length; cbn [length app]; lia
    | rewrite Ef; exists f; destruct f as [[? ?] ?]; reflexivity ] end.
Qed.

Lemma finish_isok {N : Num} argsort o ag (f : zpk N) :
  lower o = "zps"%string \/ lower o = "nd"%string -> exists d, finish argsort o ag f = Ok d.
Proof.
  intros [H|H]; unfold finish; rewrite H; destruct f as [[z p] k]; cbn; [eauto|].
  destruct (xyz_to_ptf z p k); eauto.
Qed.

(** NaN passes every check. *)
Lemma nan_accepted (argsort : list XR -> list nat) n : exists z p k,
  butterworth argsort (Fin (INR n)) [NaN] "lp" false "zps" (@SrNone XR) = Ok (Zps (z, p, k)) /\
  length p = n /\ forall v, In v p -> fst v = NaN /\ snd v = NaN.
Proof.
  unfold butterworth.
  change (lower "zps") with "zps"%string. change (lower "lp") with "lp"%string.
  cbn [valid_g bind existsb String.eqb Ascii.eqb Bool.eqb orb negb].
  change (@nleb XR NaN (@nofZ XR 0)) with false. change (@nleb XR (@nofZ XR 1) NaN) with false.
  cbn [orb]. rewrite buttap_ok.
  cbn [String.eqb Ascii.eqb Bool.eqb orb negb existsb bind map].
  match goal with |- context [@low_to_low XR _ _ _ ?d] => change d with (NaN : XR) end.
  unfold low_to_low. rewrite relative_scale_nil. cbn [bind].
  unfold bilinear. cbn [valid_g bind map]. rewrite relative_scale_nil. cbn [bind].
  eexists _, _, _. split; [reflexivity|]. split.
  - rewrite !map_length, cfs_length. apply proto_length.
  - intros v Hv. apply in_map_iff in Hv as [u [<- Hu]]. apply in_map_iff in Hu as [p [<- Hp]].
    unfold cfs in Hp. apply in_map_iff in Hp as [c [<- _]].
    unfold cdiv, cadd, csub, cmul, cre, cf. cbn. split; reflexivity.
Qed.
