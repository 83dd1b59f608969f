(** Power spectra: short blocks, the number of blocks, the line of the example script, an example. *)
From Coq Require Import Reals Lra Lia Bool.
From Flocq Require Import Core.Raux.
From Verif Require Import Num Lib LibR XR Spec Spec2 Spec8 M_spectrum P_spectrum P_spectrum2.
Import ListNotations.
Local Open Scope R_scope.

Lemma rhann_ends B : (2 <= B)%nat -> rhann B 0 = 0 /\ rhann B (B - 1) = 0.
Proof.
  intros H. pose proof (INR_1 B H) as P. unfold rhann. split.
  - replace (2 * PI * INR 0 / INR (B - 1)) with 0 by (cbn [INR]; field; lra). rewrite cos_0. lra.
  - replace (2 * PI * INR (B - 1) / INR (B - 1)) with (2 * PI) by (field; lra). rewrite cos_2PI. lra.
Qed.
Lemma xmul_nan_r a : @nmul XR a NaN = NaN. Proof. destruct a; reflexivity. Qed.
Lemma nsum_nan (l : list XR) : In NaN l -> @nsum XR l = NaN.
Proof.
  induction l as [|a l IH]; intros H; [destruct H|]. change (@nadd XR a (@nsum XR l) = NaN). destruct H as [->|H]; [reflexivity|]. rewrite IH by exact H. destruct a; reflexivity.
Qed.
(** A block of two samples: the window vanishes. *)
Lemma hann_2 : @hann XR 2 = Ok [Fin 0; Fin 0].
Proof.
  change 2%Z with (Z.of_nat 2). rewrite hann_fin by lia. destruct (rhann_ends 2 ltac:(lia)) as [E1 E2]. cbn [Nat.sub] in E2. cbn [seq map fins]. rewrite E1, E2. reflexivity.
Qed.
Lemma seg_power_2 fft a b s : exact_fft fft -> seg_power fft [Fin 0; Fin 0] (Inf s) [Fin a; Fin b] = [NaN; NaN].
Proof.
  intros HF. unfold seg_power. change [Fin a; Fin b] with (fins [a; b]). rewrite xsum_fins, xofZ_fin, xdiv_fin by (cbn; lra).
  cbn [fins map zipwith combine fst snd]. rewrite !xsub_fin, !xmul_fin, !Rmult_0_l. change [Fin 0; Fin 0] with (fins [0; 0]). rewrite HF.
  unfold dft. cbn [length seq map fst snd Rsum fold_right nth]. rewrite !Rmult_0_l, !Rplus_0_l, Ropp_0, !xmul_fin, !xadd_fin.
  unfold nmul. cbn [XR xmul]. rewrite Req_bool_true by ring. reflexivity.
Qed.
Lemma seg_mean_nan (rows : list (list XR)) k : rows <> [] -> (forall r, In r rows -> nth (Z.to_nat k) r NaN = NaN) -> @seg_mean XR rows k = NaN.
Proof.
  intros Hr H. unfold seg_mean. assert (E : map (fun r => nth (Z.to_nat k) r (@nnan XR)) rows = repeat NaN (length rows)).
  { clear Hr. induction rows as [|r t IH]; [reflexivity|]. cbn [map length repeat]. f_equal; [apply H; left; reflexivity|]. apply IH. intros q Hq. apply H. right. exact Hq. }
  rewrite E. destruct rows as [|r [|r2 t]]; [congruence|reflexivity|].
  change (@ndiv XR (@nsum XR (repeat NaN (length (r :: r2 :: t)))) (@nofZ XR (zlen (repeat NaN (length (r :: r2 :: t))))) = NaN).
  rewrite nsum_nan by (left; reflexivity). reflexivity.
Qed.
Theorem spectra_block_2 fft l fs ov os : exact_fft fft -> (2 <= length l)%nat -> (ov < 2)%Z -> fs <> 0 ->
  exists f, power_spectra fft (fins l) (Fin fs) ov 2 os = Ok (f, [NaN; NaN]).
Proof.
  intros HF HL Hov Hfs. unfold power_spectra. rewrite hann_2. cbn [bind].
  assert (Z1 : zlen (fins l) = zlen l) by apply zlen_map. assert (Z2 : (2 <= zlen l)%Z) by (unfold zlen; lia).
  change (zlen [Fin 0; Fin 0]) with 2%Z. rewrite Z1. replace (zlen l =? 0)%Z with false by (symmetry; apply Z.eqb_neq; lia).
  replace (zlen l <? 2)%Z with false by (symmetry; apply Z.ltb_ge; lia). replace (2 <=? ov)%Z with false by (symmetry; apply Z.leb_gt; lia).
  assert (SC : exists s, @ndiv XR (@nofZ XR 1) (@nmul XR (Fin fs) (@nsum XR (map sq [Fin 0; Fin 0]))) = Inf s).
  { cbn [map]. unfold sq. rewrite !xmul_fin. change [Fin (0 * 0); Fin (0 * 0)] with (fins [0 * 0; 0 * 0]). rewrite xsum_fins, xofZ_fin, xmul_fin.
    replace (fs * Rsum [0 * 0; 0 * 0]) with 0 by (cbn; ring). rewrite xdiv_x0 by lra. eexists. reflexivity. }
  destruct SC as [s ->]. rewrite xofZ_fin, xeqb_fin, Req_bool_false by exact Hfs. cbn [orb Z.eqb]. cbv zeta. rewrite xofZ_fin.
  assert (LF : zlen (if os then @rfftfreq XR 2 (@ndiv XR (Fin 1) (Fin fs)) else @fftfreq XR 2 (@ndiv XR (Fin 1) (Fin fs))) = 2%Z) by (destruct os; reflexivity).
  rewrite LF. eexists. f_equal. f_equal.
  set (n := ((zlen l - ov) / (2 - ov))%Z). assert (N1 : (1 <= n)%Z) by (apply Z.div_le_lower_bound; lia).
  pose proof (Z.mul_div_le (zlen l - ov) (2 - ov) ltac:(lia)) as NU. fold n in NU.
  assert (R2 : zrange 0 2 = [0; 1]%Z) by reflexivity. rewrite R2. cbn [map].
  assert (ROW : forall r, In r (map (fun sg => if os then fold_sides 2 (seg_power fft [Fin 0; Fin 0] (Inf s) sg) else seg_power fft [Fin 0; Fin 0] (Inf s) sg)
     (map (fun i => firstn (Z.to_nat 2) (skipn (Z.to_nat (i * (2 - ov))) (fins l))) (zrange 0 n))) -> r = [NaN; NaN]).
  { intros r Hr. apply in_map_iff in Hr. destruct Hr as (sg & <- & Hs). apply in_map_iff in Hs. destruct Hs as (i & <- & Hi). apply in_zrange in Hi.
    assert (I1 : (i * (2 - ov) <= (n - 1) * (2 - ov))%Z) by (apply Z.mul_le_mono_nonneg_r; lia).
    assert (I0 : (0 <= i * (2 - ov))%Z) by (apply Z.mul_nonneg_nonneg; lia).
    rewrite skipn_fins, firstn_fins. change (Z.to_nat 2) with 2%nat.
    assert (LS : length (firstn 2 (skipn (Z.to_nat (i * (2 - ov))) l)) = 2%nat) by (rewrite firstn_length, skipn_length; unfold zlen in *; nia).
    destruct (firstn 2 (skipn (Z.to_nat (i * (2 - ov))) l)) as [|a [|b [|]]]; try discriminate. cbn [fins map]. rewrite seg_power_2 by exact HF. destruct os; reflexivity. }
  assert (NE : map (fun sg => if os then fold_sides 2 (seg_power fft [Fin 0; Fin 0] (Inf s) sg) else seg_power fft [Fin 0; Fin 0] (Inf s) sg)
     (map (fun i => firstn (Z.to_nat 2) (skipn (Z.to_nat (i * (2 - ov))) (fins l))) (zrange 0 n)) <> []).
  { intros Q. apply (f_equal (@length _)) in Q. rewrite !map_length in Q. unfold zrange in Q. rewrite map_length, seq_length in Q. cbn in Q. lia. }
  rewrite !seg_mean_nan; [reflexivity|exact NE| |exact NE|]; intros r Hr; rewrite (ROW r Hr); reflexivity.
Qed.

(** The line of the example script. *)
Lemma fold_min_fin t x : exists a, fold_left (@nmin2 XR) (fins t) (Fin x) = Fin a /\ is_min (x :: t) a.
Proof.
  revert x. induction t as [|y t IH]; intros x; cbn [fins map fold_left].
  - exists x. split; [reflexivity|]. split; [left; reflexivity|]. intros z [<-|[]]; lra.
  - unfold nmin2 at 2. rewrite xltb_fin. destruct (Rlt_bool_spec y x) as [L|L].
    + destruct (IH y) as (a & E & I & M). exists a. split; [exact E|]. split; [right; exact I|]. intros z [<-|Hz]; [specialize (M y (or_introl eq_refl)); lra|apply M, Hz].
    + destruct (IH x) as (a & E & I & M). exists a. split; [exact E|]. split; [destruct I; [left|right; right]; assumption|].
      intros z [<-|[<-|Hz]]; [apply M; left; reflexivity | specialize (M x (or_introl eq_refl)); lra | apply M; right; exact Hz].
Qed.
Lemma fold_max_fin t x : exists a, fold_left (@nmax2 XR) (fins t) (Fin x) = Fin a /\ is_max (x :: t) a.
Proof.
  revert x. induction t as [|y t IH]; intros x; cbn [fins map fold_left].
  - exists x. split; [reflexivity|]. split; [left; reflexivity|]. intros z [<-|[]]; lra.
  - unfold nmax2 at 2. rewrite xltb_fin. destruct (Rlt_bool_spec x y) as [L|L].
    + destruct (IH y) as (a & E & I & M). exists a. split; [exact E|]. split; [right; exact I|]. intros z [<-|Hz]; [specialize (M y (or_introl eq_refl)); lra|apply M, Hz].
    + destruct (IH x) as (a & E & I & M). exists a. split; [exact E|]. split; [destruct I; [left|right; right]; assumption|].
      intros z [<-|[<-|Hz]]; [apply M; left; reflexivity | specialize (M x (or_introl eq_refl)); lra | apply M; right; exact Hz].
Qed.
Lemma existsb_fins l : existsb (@nisnan XR) (fins l) = false.
Proof. induction l as [|x l IH]; [reflexivity|]. exact IH. Qed.
Lemma extreme_min l : l <> [] -> exists a, @extreme XR nmin2 (fins l) = Ok (Fin a) /\ is_min l a.
Proof.
  destruct l as [|x t]; [congruence|]. intros _. unfold extreme. change (fins (x :: t)) with (Fin x :: fins t).
  change (existsb (@nisnan XR) (Fin x :: fins t)) with (existsb (@nisnan XR) (fins t)). rewrite existsb_fins. destruct (fold_min_fin t x) as (a & -> & H). exists a. split; [reflexivity|exact H].
Qed.
Lemma extreme_max l : l <> [] -> exists a, @extreme XR nmax2 (fins l) = Ok (Fin a) /\ is_max l a.
Proof.
  destruct l as [|x t]; [congruence|]. intros _. unfold extreme. change (fins (x :: t)) with (Fin x :: fins t).
  change (existsb (@nisnan XR) (Fin x :: fins t)) with (existsb (@nisnan XR) (fins t)). rewrite existsb_fins. destruct (fold_max_fin t x) as (a & -> & H). exists a. split; [reflexivity|exact H].
Qed.
Theorem slope_line_law f p fmax : is_max f fmax -> 0 < fmax -> p <> [] -> (forall v, In v p -> 0 < v) ->
  exists x1 y1 x2 y2 pmin pmax, slope_line (fins f) (fins p) = Ok ((Fin x1, Fin y1), (Fin x2, Fin y2)) /\
    is_min p pmin /\ is_max p pmax /\ exp x1 = 1 /\ exp x2 = fmax /\
    exp y2 / exp y1 = Rpower (exp x2 / exp x1) (- 5 / 3) /\ exp y1 * exp y2 = pmin * pmax.
Proof.
  intros [Hi Hm] H0 Hp Hpos. destruct (extreme_min p Hp) as (a & Ea & Ia). destruct (extreme_max p Hp) as (b & Eb & Ib).
  destruct (extreme_max f) as (c & Ec & [Ic Mc]); [intros ->; destruct Hi|]. assert (c = fmax) by (apply Rle_antisym; [apply Hm, Ic | apply Mc, Hi]). subst c.
  assert (Pa : 0 < a) by (apply Hpos, Ia). assert (Pb : 0 < b) by (apply Hpos, Ib).
  unfold slope_line. rewrite Ea, Eb, Ec. cbn [bind]. rewrite !xlog_fin by assumption. rewrite !xofZ_fin, xopp_fin, !xadd_fin, !xdiv_fin by lra.
  rewrite !xsub_fin, !xmul_fin, !xadd_fin. do 6 eexists. split; [reflexivity|]. split; [exact Ia|]. split; [exact Ib|].
  split; [apply exp_0|]. split; [apply exp_ln; assumption|]. split.
  - unfold Rpower, Rdiv. rewrite exp_0, Rinv_1, Rmult_1_r, ln_exp, <- exp_Ropp, <- exp_plus. f_equal. field.
  - transitivity (exp (ln a) * exp (ln b)); [|rewrite !exp_ln by assumption; reflexivity]. rewrite <- !exp_plus. f_equal. field.
Qed.
(** With a zero somewhere in the density the line has no finite ordinate. *)
Theorem slope_line_zero f p fmax : is_max f fmax -> 0 < fmax -> In 0 p -> (forall v, In v p -> 0 <= v) ->
  exists x1 x2, slope_line (fins f) (fins p) = Ok ((Fin x1, Inf true), (Fin x2, Inf true)).
Proof.
  intros [Hi Hm] H0 Hz Hpos. assert (Hp : p <> []) by (intros ->; destruct Hz).
  destruct (extreme_min p Hp) as (a & Ea & Ia). destruct (extreme_max p Hp) as (b & Eb & Ib).
  destruct (extreme_max f) as (c & Ec & [Ic Mc]); [intros ->; destruct Hi|]. assert (c = fmax) by (apply Rle_antisym; [apply Hm, Ic | apply Mc, Hi]). subst c.
  assert (a = 0) by (apply Rle_antisym; [apply Ia, Hz | apply Hpos, Ia]). subst a. assert (Pb : 0 <= b) by (apply Hpos, Ib).
  unfold slope_line. rewrite Ea, Eb, Ec. cbn [bind]. rewrite (xlog_fin fmax) by assumption.
  assert (L0 : @nlog XR (Fin 0) = Inf true) by (cbn; rewrite Rlt_bool_false by lra; rewrite Req_bool_true by reflexivity; reflexivity). rewrite L0.
  assert (S : @nadd XR (Inf true) (@nlog XR (Fin b)) = Inf true).
  { destruct (Req_dec b 0) as [->|]; [rewrite L0; reflexivity|]. rewrite xlog_fin by lra. reflexivity. }
  rewrite S, !xofZ_fin, xopp_fin, xadd_fin, !xdiv_fin by lra. rewrite !xsub_fin, !xmul_fin.
  assert (D : @ndiv XR (Inf true) (Fin 2) = Inf true) by (unfold ndiv; cbn [XR xdiv]; unfold xneg; rewrite Rlt_bool_false by lra; reflexivity).
  rewrite D. do 2 eexists. reflexivity.
Qed.

(** The documented default overlap (half of a block) averages more blocks than the number passed on. *)
Lemma default_blocks n : (2048 <= n)%Z -> ((n - 50) / (2048 - 50) <= (n - 1024) / (2048 - 1024))%Z /\ ((4096 <= n)%Z -> ((n - 50) / (2048 - 50) < (n - 1024) / (2048 - 1024))%Z).
Proof.
  intros H. change (2048 - 50)%Z with 1998%Z. change (2048 - 1024)%Z with 1024%Z.
  pose proof (Z.div_mod (n - 50) 1998 ltac:(lia)). pose proof (Z.mod_pos_bound (n - 50) 1998 ltac:(lia)).
  pose proof (Z.div_mod (n - 1024) 1024 ltac:(lia)). pose proof (Z.mod_pos_bound (n - 1024) 1024 ltac:(lia)). lia.
Qed.

(** A record of three samples in one block: the window is 0, 1, 0. *)
Lemma spectrum_example fft : exact_fft fft -> power_spectra fft (fins [0; 3; 0]) (Fin 1) 0 3 true = Ok (fins [0; 1 / 3], fins [4; 8]).
Proof.
  intros HF. change 3%Z with (Z.of_nat 3). rewrite (spectra_exact fft [0; 3; 0] 1 0 3 HF); [|cbn; lia|lia|lra].
  assert (E : forall k, rwelch 3 (Z.to_nat (Z.of_nat 3 - 0)) (Z.to_nat ((zlen [0; 3; 0] - 0) / (Z.of_nat 3 - 0))) 1 [0; 3; 0] k = 4).
  { intros k. change (Z.to_nat (Z.of_nat 3 - 0)) with 3%nat. change (Z.to_nat ((zlen [0; 3; 0] - 0) / (Z.of_nat 3 - 0))) with 1%nat.
    unfold rwelch. cbn [seq map]. unfold segment. cbn [Nat.mul skipn firstn]. unfold rmean at 1. cbn [length Rsum fold_right].
    unfold periodogram, sumn. cbn [seq map Rsum fold_right]. unfold tapered. destruct (rhann_ends 3 ltac:(lia)) as [-> E2]. cbn [Nat.sub] in E2. rewrite E2.
    assert (R1 : rhann 3 1 = 1). { unfold rhann. cbn [Nat.sub INR]. replace (2 * PI * 1 / (1 + 1)) with PI by field. rewrite cos_PI. lra. }
    rewrite R1. cbn [nth]. unfold rmean. cbn [length Rsum fold_right]. replace (INR 3) with 3 by (cbn; lra). replace (INR 1) with 1 by reflexivity.
    set (t := 2 * PI * INR k * 1 / 3). pose proof (sin2_cos2 t) as SC. unfold Rsqr in SC.
    match goal with |- ?x = 4 => replace x with (4 * (sin t * sin t + cos t * cos t)) by field end. rewrite SC. ring. }
  change (3 / 2 + 1)%nat with 2%nat. cbn [seq map]. rewrite !E. unfold sides. cbn [Nat.eqb Nat.mul Nat.add].
  replace (INR 0 * 1 / INR 3) with 0 by (cbn; field). replace (INR 1 * 1 / INR 3) with (1 / 3) by (cbn; field).
  replace (1 * 4) with 4 by ring. replace (2 * 4) with 8 by ring. reflexivity.
Qed.

(** The closed statements. *)
Theorem spectra_welch fft l fs ov B (os : bool) : exact_fft fft -> (3 <= B <= length l)%nat -> (ov < Z.of_nat B)%Z -> fs <> 0 ->
  power_spectra fft (fins l) (Fin fs) ov (Z.of_nat B) os =
  Ok (fins (map (fun k => (if os then INR k else signed_freq B k) * fs / INR B) (seq 0 (if os then B / 2 + 1 else B))),
      fins (map (fun k => (if os then sides B k else 1) * rwelch B (Z.to_nat (Z.of_nat B - ov)) (Z.to_nat ((zlen l - ov) / (Z.of_nat B - ov))) fs l k)
                (seq 0 (if os then B / 2 + 1 else B)))).
Proof. intros HF HB Hov Hfs. exact (spectra_exact fft l fs ov B HF HB Hov Hfs os). Qed.
(** The blocks: every one is complete, and there is no room for one more. *)
Theorem spectra_blocks (l : list R) ov B : (3 <= B <= length l)%nat -> (ov < Z.of_nat B)%Z ->
  let n := Z.to_nat ((zlen l - ov) / (Z.of_nat B - ov)) in let st := Z.to_nat (Z.of_nat B - ov) in
  (1 <= n)%nat /\ (forall i, (i < n)%nat <-> (i * st + B <= length l)%nat).
Proof.
  intros HB Hov n st. destruct (n_pos l ov B HB Hov) as [Hn Hl]. fold n st in Hn, Hl. split; [exact Hn|]. intros i.
  assert (Hs : (1 <= st)%nat) by (unfold st; lia). split; intros Hi.
  - assert (i * st <= (n - 1) * st)%nat by (apply Nat.mul_le_mono_r; lia). lia.
  - unfold n, st, zlen in *. set (s := (Z.of_nat B - ov)%Z) in *. assert (P : (0 < s)%Z) by (unfold s; lia).
    pose proof (Z.mul_succ_div_gt (Z.of_nat (length l) - ov) s P) as G. set (q := ((Z.of_nat (length l) - ov) / s)%Z) in *.
    apply Nat2Z.inj_lt. rewrite Z2Nat.id by lia.
    assert (E : (Z.of_nat i * s + Z.of_nat B <= Z.of_nat (length l))%Z).
    { apply inj_le in Hi. rewrite Nat2Z.inj_add, Nat2Z.inj_mul, Z2Nat.id in Hi by lia. exact Hi. }
    unfold s in *. nia.
Qed.
Theorem default_overlap_blocks (l : list R) fft fs : exact_fft fft -> (4096 <= zlen l)%Z -> fs <> 0 ->
  let n := Z.to_nat ((zlen l - 50) / (2048 - 50)) in
  (exists f, power_spectra fft (fins l) (Fin fs) 50 2048 false = Ok (f, fins (map (rwelch 2048 1998 n fs l) (seq 0 2048)))) /\
  (Z.of_nat n < (zlen l - 1024) / (2048 - 1024))%Z.
Proof.
  intros HF HL Hfs n. split.
  - change 2048%Z with (Z.of_nat 2048) at 1. rewrite (spectra_welch fft l fs 50 2048 false HF); [|unfold zlen in HL; lia|lia|exact Hfs].
    eexists. f_equal. f_equal. f_equal. change (Z.to_nat (Z.of_nat 2048 - 50)) with 1998%nat. change (Z.of_nat 2048) with 2048%Z. fold n. apply map_ext. intros k. apply Rmult_1_l.
  - destruct (default_blocks (zlen l) ltac:(lia)) as [_ H]. specialize (H HL). unfold n. rewrite Z2Nat.id; [exact H|]. apply Z.div_pos; lia.
Qed.
Lemma slope_line_empty (N : Num) (f p : list N) : f = [] \/ p = [] -> slope_line f p = Raise ValueError.
Proof. intros [-> | ->]; [|reflexivity]. unfold slope_line. destruct p; reflexivity. Qed.
Lemma existsb_nan (l : list XR) : In (NaN : xr) l -> existsb (@nisnan XR) l = true.
Proof. intros H. apply existsb_exists. exists (NaN : xr). split; [exact H | reflexivity]. Qed.
Lemma slope_line_nan (f p : list XR) : f <> [] -> p <> [] -> In (NaN : xr) f \/ In (NaN : xr) p ->
  exists x2 : XR, slope_line f p = Ok ((Fin 0 : XR, NaN : XR), (x2, NaN : XR)) /\ (In (NaN : xr) f -> x2 = NaN).
Proof.
  intros Hf Hp HN. destruct f as [|f0 f]; [congruence|]. destruct p as [|p0 p]; [congruence|]. unfold slope_line, extreme. cbn [bind].
  assert (A1 : forall a : xr, xadd a NaN = NaN) by (intros [|[]|]; reflexivity).
  assert (A2 : forall a : xr, xadd NaN a = NaN) by reflexivity. assert (A3 : forall a : xr, xsub a NaN = NaN) by (intros [|[]|]; reflexivity).
  assert (A4 : forall a : xr, xmul a NaN = NaN) by (intros [|[]|]; reflexivity).
  destruct HN as [H|H].
  - rewrite (existsb_nan _ H). exists (NaN : xr). split; [|reflexivity]. refine (f_equal (@Ok _) (f_equal2 pair (f_equal2 pair eq_refl _) (f_equal2 pair eq_refl _)));
      cbn [nlog nadd nsub nmul ndiv XR nnan xlog]; rewrite A1; cbn [xdiv]; rewrite A3, A4; reflexivity.
  - rewrite (existsb_nan _ H). eexists. split.
    + refine (f_equal (@Ok _) (f_equal2 pair (f_equal2 pair eq_refl _) (f_equal2 pair eq_refl _))); cbn [nlog nadd nsub nmul ndiv XR nnan xlog]; cbn [xadd xdiv]; apply A1.
    + intros H'. rewrite (existsb_nan _ H'). reflexivity.
Qed.
