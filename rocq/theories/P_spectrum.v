(** The power spectra in exact arithmetic. *)
From Coq Require Import Reals Lra Lia Bool.
From Flocq Require Import Core.Raux.
From Verif Require Import Num Lib LibR XR Spec Spec2 Spec8 M_spectrum.
Import ListNotations.
Local Open Scope R_scope.

Lemma cos_lt_1 t : 0 < t < 2 * PI -> cos t < 1.
Proof.
  intros H. replace t with (2 * (t / 2)) by field. rewrite cos_2a_sin. assert (S : 0 < sin (t / 2)) by (apply sin_gt_0; lra).
  pose proof (Rmult_lt_0_compat _ _ S S). lra.
Qed.
Lemma INR_1 n : (2 <= n)%nat -> 1 <= INR (n - 1).
Proof. intros H. change 1 with (INR 1). apply le_INR. lia. Qed.
Lemma wsum_pos B : (3 <= B)%nat -> 0 < sumn B (fun j => rhann B j ^ 2).
Proof.
  intros H. unfold sumn.
  assert (P : forall j, 0 <= rhann B j ^ 2) by (intros j; apply pow2_ge_0).
  assert (L : forall l, In 1%nat l -> 0 < Rsum (map (fun j => rhann B j ^ 2) l)).
  { induction l as [|a l IH]; intros Hi; [destruct Hi|]. cbn [map Rsum fold_right].
    assert (0 <= Rsum (map (fun j => rhann B j ^ 2) l)) by (apply Rsum_map_nonneg; intros; apply P).
    destruct Hi as [->|Hi]; [|pose proof (IH Hi); pose proof (P a); change (fold_right Rplus 0 (map (fun j => rhann B j ^ 2) l)) with (Rsum (map (fun j => rhann B j ^ 2) l)); lra].
    assert (0 < rhann B 1 ^ 2).
    { apply pow_lt. unfold rhann. assert (E : 2 <= INR (B - 1)) by (change 2 with (INR 2); apply le_INR; lia).
      pose proof PI_RGT_0 as Pi. cbn [INR]. assert (C : cos (2 * PI * 1 / INR (B - 1)) < 1); [|lra].
      apply cos_lt_1. split; [apply Rdiv_lt_0_compat; lra|]. apply Rmult_lt_reg_r with (INR (B - 1)); [lra|].
      replace (2 * PI * 1 / INR (B - 1) * INR (B - 1)) with (2 * PI) by (field; lra). 
      assert (2 * PI * 2 <= 2 * PI * INR (B - 1)) by (apply Rmult_le_compat_l; lra). lra. }
    change (fold_right Rplus 0 (map (fun j => rhann B j ^ 2) l)) with (Rsum (map (fun j => rhann B j ^ 2) l)). lra. }
  apply L. apply in_seq. lia.
Qed.
Lemma zrange_seq n : zrange 0 (Z.of_nat n) = map Z.of_nat (seq 0 n).
Proof.
  induction n as [|n IH]; [reflexivity|]. rewrite Nat2Z.inj_succ. unfold Z.succ. rewrite zrange_snoc by lia. rewrite IH, seq_S, map_app. reflexivity.
Qed.
Lemma hann_fin B : (2 <= B)%nat -> @hann XR (Z.of_nat B) = Ok (fins (map (rhann B) (seq 0 B))).
Proof.
  intros H. unfold hann. replace (Z.of_nat B <? 0)%Z with false by (symmetry; apply Z.ltb_ge; lia).
  replace (Z.of_nat B <=? 1)%Z with false by (symmetry; apply Z.leb_gt; lia). f_equal. unfold fins. rewrite zrange_seq, !map_map.
  apply map_ext. intros k. rewrite lit_fin by lia. rewrite !xofZ_fin. change (@npi XR) with (Fin PI).
  pose proof (INR_1 B H) as H1. assert (E : IZR (Z.of_nat B - 1) = INR (B - 1)) by (rewrite INR_IZR_INZ; f_equal; lia).
  rewrite E, xopp_fin, !xmul_fin, xdiv_fin by lra. rewrite xmul_fin, xadd_fin. cbn [ncos XR xlift]. rewrite xmul_fin, xadd_fin. f_equal.
  unfold rhann. rewrite <- INR_IZR_INZ. replace (- PI + INR k * (2 * PI / INR (B - 1))) with (2 * PI * INR k / INR (B - 1) - PI) by (field; lra).
  rewrite cos_minus, cos_PI, sin_PI. change (10 ^ 1)%Z with 10%Z. lra.
Qed.
Lemma fins_length l : length (fins l) = length l. Proof. apply map_length. Qed.
Lemma combine_map_seq {A B} (f : nat -> A) (l : list B) d : combine (map f (seq 0 (length l))) l = map (fun j => (f j, nth j l d)) (seq 0 (length l)).
Proof.
  revert f. induction l as [|x l IH]; intros f; [reflexivity|]. cbn [length seq map combine nth]. f_equal. rewrite <- seq_shift, !map_map. rewrite (IH (fun j => f (S j))). reflexivity.
Qed.
Lemma map_nth_seq (l : list R) : map (fun j => nth j l 0) (seq 0 (length l)) = l.
Proof.
  induction l as [|x l IH]; [reflexivity|]. cbn [length seq map nth]. f_equal. rewrite <- seq_shift, map_map. exact IH.
Qed.
Lemma tapered_fin B s : length s = B -> (1 <= B)%nat ->
  zipwith (@nmul XR) (fins (map (rhann B) (seq 0 B))) (map (fun x => @nsub XR x (@ndiv XR (@nsum XR (fins s)) (@nofZ XR (zlen (fins s))))) (fins s)) =
  fins (map (tapered B s) (seq 0 B)).
Proof.
  intros E H. rewrite xsum_fins, xofZ_fin, xdiv_fin by (rewrite IZR_zlen, fins_length, E; apply not_0_INR; lia).
  rewrite IZR_zlen, fins_length. fold (rmean s). unfold fins, zipwith. subst B. rewrite !map_map.
  assert (M : forall g : R -> XR, map g s = map (fun j => g (nth j s 0)) (seq 0 (length s))) by (intros g; rewrite <- (map_nth_seq s) at 1; apply map_map).
  rewrite M.
  assert (C : forall (f g : nat -> XR) n, combine (map f n) (map g n) = map (fun j => (f j, g j)) n) by (intros f g n; induction n as [|a n IH]; cbn [map combine]; [reflexivity | f_equal; exact IH]).
  rewrite C, map_map. apply map_ext. intros j. cbn [fst snd]. rewrite xsub_fin, xmul_fin. reflexivity.
Qed.

Lemma periodogram_fin fft B fs s : exact_fft fft -> length s = B -> (3 <= B)%nat -> fs <> 0 ->
  seg_power fft (fins (map (rhann B) (seq 0 B))) (Fin (1 / (fs * sumn B (fun j => rhann B j ^ 2)))) (fins s) =
  fins (map (periodogram B fs s) (seq 0 B)).
Proof.
  intros HF E H Hfs. unfold seg_power. rewrite tapered_fin by (assumption || lia). rewrite HF, map_map. unfold fins, dft.
  rewrite !map_map, map_length, seq_length. apply map_ext. intros k. cbn [fst snd]. rewrite !xmul_fin, xadd_fin, xmul_fin. f_equal.
  pose proof (wsum_pos B H) as W. unfold periodogram, sumn in *.
  assert (N : forall g : nat -> R, Rsum (map (fun j => nth j (map (tapered B s) (seq 0 B)) 0 * g (k * j)%nat) (seq 0 B)) =
                       Rsum (map (fun j => tapered B s j * g (k * j)%nat) (seq 0 B))).
  { intros g. apply Rsum_ext. intros j Hj. apply in_seq in Hj. rewrite (nth_map_in _ _ _ O) by (rewrite seq_length; lia). rewrite seq_nth by lia. reflexivity. }
  rewrite (N (fun m => cos (2 * PI * INR m / INR B))), (N (fun m => sin (2 * PI * INR m / INR B))).
  assert (G : forall (t : R -> R), Rsum (map (fun j => tapered B s j * t (2 * PI * INR (k * j) / INR B)) (seq 0 B)) =
                       Rsum (map (fun j => tapered B s j * t (2 * PI * INR k * INR j / INR B)) (seq 0 B))).
  { intros t. apply Rsum_ext. intros j _. rewrite mult_INR. do 2 f_equal. unfold Rdiv. ring. }
  rewrite (G cos), (G sin). field. lra.
Qed.
Lemma fold_fin B (f : nat -> R) : (1 <= B)%nat -> @fold_sides XR (Z.of_nat B) (fins (map f (seq 0 B))) = fins (map (fun k => sides B k * f k) (seq 0 (B / 2 + 1))).
Proof.
  intros H. unfold fold_sides. assert (HB : (B / 2 + 1 <= B)%nat \/ B = 1%nat).
  { destruct (Nat.eq_dec B 1) as [->|]; [right; reflexivity|]. left. pose proof (Nat.div_mod B 2 ltac:(lia)). lia. }
  replace (Z.of_nat B / 2 + 1)%Z with (Z.of_nat (B / 2 + 1)) by (rewrite Nat2Z.inj_add, Nat2Z.inj_div; reflexivity).
  rewrite zrange_seq. set (n := (B / 2 + 1)%nat). assert (Hn : (n <= B)%nat) by (destruct HB as [HB | ->]; [exact HB | unfold n; cbn; lia]).
  assert (C : forall (g : nat -> Z) (h : nat -> XR) b m a, (a <= b)%nat -> combine (map g (seq m a)) (map h (seq m b)) = map (fun j => (g j, h j)) (seq m a)).
  { intros g h b. induction b as [|b IH]; intros m a Ha; destruct a as [|a]; cbn; try reflexivity; try lia. f_equal. apply IH. lia. }
  unfold fins. rewrite map_map, C by exact Hn. rewrite !map_map. apply map_ext. intros k. cbn [fst snd]. unfold sides.
  destruct (Nat.eqb_spec k 0) as [->|H0].
  - cbn [Z.of_nat Z.eqb orb]. f_equal. ring.
  - replace (Z.of_nat k =? 0)%Z with false by (symmetry; apply Z.eqb_neq; lia). cbn [orb].
    destruct (Nat.eqb_spec (2 * k) B) as [E|E].
    + replace (2 * Z.of_nat k =? Z.of_nat B)%Z with true by (symmetry; apply Z.eqb_eq; lia). f_equal. ring.
    + replace (2 * Z.of_nat k =? Z.of_nat B)%Z with false by (symmetry; apply Z.eqb_neq; lia). rewrite xofZ_fin, xmul_fin. f_equal. ring.
Qed.
Lemma skipn_fins n l : skipn n (fins l) = fins (skipn n l). Proof. unfold fins. apply skipn_map. Qed.
Lemma firstn_fins n l : firstn n (fins l) = fins (firstn n l). Proof. unfold fins. apply firstn_map. Qed.

Section Exact.
Variables (fft : list XR -> list (XR * XR)) (l : list R) (fs : R) (ov : Z) (B : nat).
Hypotheses (HF : exact_fft fft) (HB : (3 <= B <= length l)%nat) (Hov : (ov < Z.of_nat B)%Z) (Hfs : fs <> 0).
Let step : nat := Z.to_nat (Z.of_nat B - ov).
Let n : nat := Z.to_nat ((zlen l - ov) / (Z.of_nat B - ov)).

Lemma n_pos : (1 <= n)%nat /\ ((n - 1) * step + B <= length l)%nat.
Proof.
  unfold n, step, zlen. set (st := (Z.of_nat B - ov)%Z). assert (Hs : (0 < st)%Z) by (unfold st; lia).
  set (q := ((Z.of_nat (length l) - ov) / st)%Z).
  pose proof (Z.mul_div_le (Z.of_nat (length l) - ov) st Hs) as Hq. fold q in Hq.
  assert (Q1 : (1 <= q)%Z) by (apply Z.div_le_lower_bound; unfold st in *; lia).
  split; [lia|]. apply Nat2Z.inj_le. rewrite Nat2Z.inj_add, Nat2Z.inj_mul, Nat2Z.inj_sub by lia. rewrite !Z2Nat.id by lia. unfold st in *. nia.
Qed.
Lemma seg_length i : (i < n)%nat -> length (segment l B step i) = B.
Proof.
  intros Hi. destruct n_pos as [_ H]. unfold segment. rewrite firstn_length, skipn_length.
  assert ((i * step <= (n - 1) * step)%nat) by (apply Nat.mul_le_mono_r; lia). lia.
Qed.
Lemma seg_mean_fin (f : nat -> nat -> R) m k : (1 <= n)%nat -> (k < m)%nat ->
  @seg_mean XR (map (fun i => fins (map (f i) (seq 0 m))) (seq 0 n)) (Z.of_nat k) = Fin (rmean (map (fun i => f i k) (seq 0 n))).
Proof.
  intros Hn Hk. unfold seg_mean. rewrite Nat2Z.id, map_map.
  assert (E : map (fun i => nth k (fins (map (f i) (seq 0 m))) (@nnan XR)) (seq 0 n) = fins (map (fun i => f i k) (seq 0 n))).
  { unfold fins. rewrite !map_map. apply map_ext. intros i. rewrite map_map.
    rewrite (nth_map_in _ _ _ O) by (rewrite seq_length; lia). rewrite seq_nth by lia. reflexivity. }
  rewrite E. destruct (map (fun i => f i k) (seq 0 n)) as [|x [|y t]] eqn:D.
  - assert (length (map (fun i => f i k) (seq 0 n)) = 0)%nat by (rewrite D; reflexivity). rewrite map_length, seq_length in *. lia.
  - cbn [fins map]. f_equal. unfold rmean. cbn. field.
  - change (match fins (x :: y :: t) with [x0] => x0 | _ => @ndiv XR (@nsum XR (fins (x :: y :: t))) (@nofZ XR (zlen (fins (x :: y :: t)))) end)
      with (@ndiv XR (@nsum XR (fins (x :: y :: t))) (@nofZ XR (zlen (fins (x :: y :: t))))).
    rewrite xsum_fins, xofZ_fin, IZR_zlen, fins_length. apply xdiv_fin. apply not_0_INR. cbn. lia.
Qed.
Lemma rows_fin (os : bool) :
  map (fun s => let p := seg_power fft (fins (map (rhann B) (seq 0 B))) (Fin (1 / (fs * sumn B (fun j => rhann B j ^ 2)))) s in
                if os then fold_sides (Z.of_nat B) p else p)
      (map (fun i => firstn (Z.to_nat (Z.of_nat B)) (skipn (Z.to_nat (i * (Z.of_nat B - ov))) (fins l))) (zrange 0 ((zlen (fins l) - ov) / (Z.of_nat B - ov)))) =
  map (fun i => fins (map (fun k => (if os then sides B k else 1) * periodogram B fs (segment l B step i) k) (seq 0 (if os then B / 2 + 1 else B)))) (seq 0 n).
Proof.
  destruct n_pos as [Hn _]. unfold zlen. rewrite fins_length. fold (zlen l).
  assert (Q : ((zlen l - ov) / (Z.of_nat B - ov))%Z = Z.of_nat n) by (unfold n in *; lia).
  rewrite Q, zrange_seq, !map_map. apply map_ext_in. intros i Hi. apply in_seq in Hi.
  rewrite Nat2Z.id. replace (Z.to_nat (Z.of_nat i * (Z.of_nat B - ov))) with (i * step)%nat by (unfold step; rewrite Z2Nat.inj_mul, Nat2Z.id by lia; reflexivity).
  rewrite skipn_fins, firstn_fins. fold (segment l B step i).
  rewrite (periodogram_fin fft B fs) by (first [exact HF | exact Hfs | apply seg_length; lia | lia]).
  destruct os; [apply fold_fin; lia|]. f_equal. apply map_ext. intros k. ring.
Qed.
Lemma freqs_fin : @rfftfreq XR (Z.of_nat B) (@ndiv XR (@nofZ XR 1) (Fin fs)) = fins (map (fun k => INR k * fs / INR B) (seq 0 (B / 2 + 1))) /\
  @fftfreq XR (Z.of_nat B) (@ndiv XR (@nofZ XR 1) (Fin fs)) = fins (map (fun k => signed_freq B k * fs / INR B) (seq 0 B)).
Proof.
  assert (PB : 0 < INR B) by (apply lt_0_INR; lia). rewrite xofZ_fin, xdiv_fin by exact Hfs. split.
  - unfold rfftfreq. replace (Z.of_nat B / 2 + 1)%Z with (Z.of_nat (B / 2 + 1)) by (rewrite Nat2Z.inj_add, Nat2Z.inj_div; reflexivity).
    rewrite zrange_seq. unfold fins. rewrite !map_map. apply map_ext. intros k. rewrite !xofZ_fin, <- !INR_IZR_INZ, xmul_fin, xdiv_fin, xmul_fin.
    + f_equal. field. lra.
    + apply Rmult_integral_contrapositive_currified; [lra|]. apply Rmult_integral_contrapositive_currified; [lra|]. apply Rinv_neq_0_compat, Hfs.
  - unfold fftfreq. set (h := ((B - 1) / 2 + 1)%nat).
    assert (Hh : (2 * h <= B + 1 /\ B <= 2 * h)%nat) by (unfold h; pose proof (Nat.div_mod (B - 1) 2 ltac:(lia)); pose proof (Nat.mod_upper_bound (B - 1) 2 ltac:(lia)); lia).
    replace ((Z.of_nat B - 1) / 2 + 1)%Z with (Z.of_nat h) by (unfold h; rewrite Nat2Z.inj_add, Nat2Z.inj_div, Nat2Z.inj_sub by lia; reflexivity).
    replace (Z.of_nat B / 2)%Z with (Z.of_nat (B - h)).
    2:{ pose proof (Z.div_mod (Z.of_nat B) 2 ltac:(lia)). pose proof (Z.mod_pos_bound (Z.of_nat B) 2 ltac:(lia)). lia. }
    assert (E : zrange (- Z.of_nat (B - h)) 0 = map (fun j => Z.of_nat j - Z.of_nat B)%Z (seq h (B - h))).
    { unfold zrange. replace (Z.to_nat (0 - - Z.of_nat (B - h))) with (B - h)%nat by lia.
      assert (S : seq h (B - h) = map (fun j => (h + j)%nat) (seq 0 (B - h))).
      { clear -h. generalize (B - h)%nat as m. intros m. induction m as [|m IH]; [reflexivity|]. rewrite !seq_S, map_app, IH. reflexivity. }
      rewrite S, map_map. apply map_ext. intros j. lia. }
    rewrite E, zrange_seq. replace (seq 0 B) with (seq 0 h ++ seq h (B - h)).
    2:{ change (seq 0 h ++ seq (0 + h) (B - h) = seq 0 B). rewrite <- seq_app. f_equal. lia. }
    unfold fins. rewrite !map_app, !map_map.
    assert (NZ : INR B * (1 / fs) <> 0) by (apply Rmult_integral_contrapositive_currified; [lra|]; apply Rmult_integral_contrapositive_currified; [lra|]; apply Rinv_neq_0_compat, Hfs).
    f_equal; apply map_ext_in; intros k Hk; apply in_seq in Hk; rewrite !xofZ_fin, xmul_fin, <- (INR_IZR_INZ B), xdiv_fin by exact NZ; rewrite xmul_fin; f_equal; unfold signed_freq.
    + replace (Nat.ltb (2 * k) B) with true by (symmetry; apply Nat.ltb_lt; lia). rewrite <- INR_IZR_INZ. field. lra.
    + replace (Nat.ltb (2 * k) B) with false by (symmetry; apply Nat.ltb_ge; lia). rewrite minus_IZR, <- !INR_IZR_INZ. field. lra.
Qed.
Lemma spectra_exact (os : bool) :
  power_spectra fft (fins l) (Fin fs) ov (Z.of_nat B) os =
  Ok (fins (map (fun k => (if os then INR k else signed_freq B k) * fs / INR B) (seq 0 (if os then B / 2 + 1 else B))),
      fins (map (fun k => (if os then sides B k else 1) * rwelch B step n fs l k) (seq 0 (if os then B / 2 + 1 else B)))).
Proof.
  unfold power_spectra. rewrite hann_fin by lia. cbn [bind].
  assert (Z1 : zlen (fins l) = zlen l) by (unfold zlen; rewrite fins_length; reflexivity).
  assert (Z2 : zlen (fins (map (rhann B) (seq 0 B))) = Z.of_nat B) by (unfold zlen; rewrite fins_length, map_length, seq_length; reflexivity).
  rewrite Z2. replace (zlen (fins l) =? 0)%Z with false by (symmetry; apply Z.eqb_neq; rewrite Z1; unfold zlen; lia).
  replace (zlen (fins l) <? Z.of_nat B)%Z with false by (symmetry; apply Z.ltb_ge; rewrite Z1; unfold zlen; lia).
  replace (Z.of_nat B <=? ov)%Z with false by (symmetry; apply Z.leb_gt; lia).
  pose proof (wsum_pos B ltac:(lia)) as W.
  assert (SC : @ndiv XR (@nofZ XR 1) (@nmul XR (Fin fs) (@nsum XR (map sq (fins (map (rhann B) (seq 0 B)))))) = Fin (1 / (fs * sumn B (fun j => rhann B j ^ 2)))).
  { assert (E : map sq (fins (map (rhann B) (seq 0 B))) = fins (map (fun j => rhann B j ^ 2) (seq 0 B))).
    { unfold fins. rewrite !map_map. apply map_ext. intros j. unfold sq. rewrite xmul_fin. f_equal. ring. }
    rewrite E, xsum_fins, xofZ_fin, xmul_fin. fold (sumn B (fun j => rhann B j ^ 2)). apply xdiv_fin.
    apply Rmult_integral_contrapositive_currified; lra. }
  rewrite SC. replace (Z.of_nat B =? 0)%Z with false by (symmetry; apply Z.eqb_neq; lia).
  rewrite xofZ_fin, xeqb_fin, Req_bool_false by exact Hfs. cbn [orb]. cbv zeta. rewrite rows_fin. f_equal.
  destruct freqs_fin as [F1 F2]. destruct n_pos as [Hn _].
  assert (FR : (if os then @rfftfreq XR (Z.of_nat B) (@ndiv XR (Fin 1) (Fin fs)) else @fftfreq XR (Z.of_nat B) (@ndiv XR (Fin 1) (Fin fs))) =
          fins (map (fun k => (if os then INR k else signed_freq B k) * fs / INR B) (seq 0 (if os then B / 2 + 1 else B))))
    by (destruct os; [exact F1 | exact F2]).
  rewrite !xofZ_fin, FR. f_equal. unfold zlen at 1. rewrite fins_length, map_length, seq_length, zrange_seq, map_map. unfold fins. rewrite map_map.
  apply map_ext_in. intros k Hk. apply in_seq in Hk. fold (fins). 
  pose proof (seg_mean_fin (fun i k => (if os then sides B k else 1) * periodogram B fs (segment l B step i) k) (if os then B / 2 + 1 else B) k Hn ltac:(lia)) as SM.
  unfold fins in SM. rewrite SM. f_equal. unfold rwelch, rmean. rewrite Rsum_map_scal, !map_length. unfold Rdiv. ring.
Qed.
End Exact.
