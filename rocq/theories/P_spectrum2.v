(** Consequences for the power spectra: energy, invariance, errors, degenerate blocks. *)
From Coq Require Import Reals Lra Lia Bool.
From Flocq Require Import Core.Raux.
From Verif Require Import Num Lib LibR XR Spec Spec2 Spec8 M_spectrum P_spectrum.
Import ListNotations.
Local Open Scope R_scope.

(** Sums over an initial segment of the naturals. *)
Lemma sumn_S n f : sumn (S n) f = sumn n f + f n.
Proof. unfold sumn. rewrite seq_S, map_app, Rsum_app. cbn. lra. Qed.
Lemma sumn_add a b f : sumn (a + b) f = sumn a f + sumn b (fun k => f (a + k)%nat).
Proof. induction b as [|b IH]; [rewrite Nat.add_0_r; unfold sumn; cbn; lra|]. rewrite Nat.add_succ_r, !sumn_S, IH. lra. Qed.
Lemma sumn_ext n f g : (forall k, (k < n)%nat -> f k = g k) -> sumn n f = sumn n g.
Proof. intros H. apply Rsum_ext. intros k Hk. apply in_seq in Hk. apply H. lia. Qed.
Lemma sumn_scal n c f : sumn n (fun k => c * f k) = c * sumn n f.
Proof. apply Rsum_map_scal. Qed.
Lemma sumn_plus n f g : sumn n (fun k => f k + g k) = sumn n f + sumn n g.
Proof. apply Rsum_map_add. Qed.
Lemma sumn_zero n : sumn n (fun _ => 0) = 0.
Proof. induction n as [|n IH]; [reflexivity|]. rewrite sumn_S, IH. lra. Qed.
Lemma sumn_rev n f : sumn n (fun k => f (n - 1 - k)%nat) = sumn n f.
Proof.
  revert f. induction n as [|n IH]; intros f; [reflexivity|].
  change (sumn (1 + n) (fun k => f (S n - 1 - k)%nat) = sumn (S n) f). rewrite sumn_add, (sumn_S n f). change (sumn 1 (fun k => f (S n - 1 - k)%nat)) with (f (S n - 1 - 0)%nat + 0).
  rewrite (sumn_ext n (fun k => f (S n - 1 - (1 + k))%nat) (fun k => f (n - 1 - k)%nat)) by (intros k Hk; f_equal; lia). rewrite IH.
  replace (S n - 1 - 0)%nat with n by lia. lra.
Qed.
Lemma sumn_swap a b f : sumn a (fun i => sumn b (fun j => f i j)) = sumn b (fun j => sumn a (fun i => f i j)).
Proof.
  induction a as [|a IH]; [unfold sumn at 1; cbn; symmetry; apply sumn_zero|].
  rewrite sumn_S, IH, <- sumn_plus. apply sumn_ext. intros j _. rewrite sumn_S. reflexivity.
Qed.
Lemma sumn_mult a b f g : sumn a f * sumn b g = sumn a (fun i => sumn b (fun j => f i * g j)).
Proof.
  rewrite Rmult_comm, <- sumn_scal. apply sumn_ext. intros i _. rewrite sumn_scal. ring.
Qed.
Lemma sumn_one n i f : (i < n)%nat -> sumn n (fun j => if Nat.eqb i j then f j else 0) = f i.
Proof.
  induction n as [|n IH]; intros H; [lia|]. rewrite sumn_S. destruct (Nat.eq_dec i n) as [->|Hn].
  - rewrite Nat.eqb_refl, (sumn_ext n _ (fun _ => 0)), sumn_zero; [lra|]. intros k Hk. replace (Nat.eqb n k) with false by (symmetry; apply Nat.eqb_neq; lia). reflexivity.
  - rewrite IH by lia. replace (Nat.eqb i n) with false by (symmetry; apply Nat.eqb_neq; lia). lra.
Qed.

(** The characters of a finite cyclic group are orthogonal. *)
Lemma cos_sum n a : 2 * sin (a / 2) * sumn n (fun k => cos (INR k * a)) = sin (INR n * a - a / 2) + sin (a / 2).
Proof.
  induction n as [|n IH].
  - unfold sumn. cbn. replace (0 * a - a / 2) with (- (a / 2)) by lra. rewrite sin_neg. lra.
  - rewrite sumn_S, Rmult_plus_distr_l, IH, S_INR. replace ((INR n + 1) * a - a / 2) with (INR n * a + a / 2) by lra.
    rewrite sin_minus, sin_plus. lra.
Qed.
Lemma sin_per (x : R) (m : nat) : sin (2 * PI * INR m - x) = - sin x.
Proof. replace (2 * PI * INR m - x) with (- x + 2 * INR m * PI) by ring. rewrite sin_period, sin_neg. reflexivity. Qed.
Lemma cos_per (x : R) (m : nat) : cos (2 * PI * INR m - x) = cos x.
Proof. replace (2 * PI * INR m - x) with (- x + 2 * INR m * PI) by ring. rewrite cos_period, cos_neg. reflexivity. Qed.
Lemma char_sum B d : (0 < d < B)%nat -> sumn B (fun k => cos (INR k * (2 * PI * INR d / INR B))) = 0.
Proof.
  intros H. set (a := 2 * PI * INR d / INR B). assert (PB : 0 < INR B) by (apply lt_0_INR; lia). assert (PD : 0 < INR d) by (apply lt_0_INR; lia).
  assert (LT : INR d < INR B) by (apply lt_INR; lia). pose proof PI_RGT_0 as Pi.
  assert (S : 0 < sin (a / 2)).
  { replace (a / 2) with (PI * (INR d / INR B)) by (unfold a; field; lra). assert (0 < INR d / INR B) by (apply Rdiv_lt_0_compat; lra).
    assert (INR d / INR B < 1) by (apply Rmult_lt_reg_r with (INR B); [lra|]; replace (INR d / INR B * INR B) with (INR d) by (field; lra); lra).
    apply sin_gt_0; [apply Rmult_lt_0_compat; lra|]. assert (PI * (INR d / INR B) < PI * 1) by (apply Rmult_lt_compat_l; lra). lra. }
  pose proof (cos_sum B a) as E. replace (INR B * a - a / 2) with (2 * PI * INR d - a / 2) in E by (unfold a; field; lra).
  rewrite sin_per in E. assert (Z : 2 * sin (a / 2) * sumn B (fun k => cos (INR k * a)) = 0) by lra.
  apply Rmult_integral in Z. destruct Z; [lra|assumption].
Qed.
Lemma char_sum2 B i j : (i < B)%nat -> (j < B)%nat -> sumn B (fun k => cos (2 * PI * INR k * INR i / INR B - 2 * PI * INR k * INR j / INR B)) = if Nat.eqb i j then INR B else 0.
Proof.
  intros Hi Hj. assert (PB : 0 < INR B) by (apply lt_0_INR; lia). destruct (Nat.eqb_spec i j) as [->|Hn].
  - rewrite (sumn_ext B _ (fun _ => 1)); [unfold sumn; rewrite Rsum_map_const, seq_length; ring|]. intros k _. rewrite Rminus_diag_eq by reflexivity. apply cos_0.
  - destruct (Nat.lt_ge_cases i j) as [L|L].
    + rewrite (sumn_ext B _ (fun k => cos (INR k * (2 * PI * INR (j - i) / INR B)))); [apply char_sum; lia|].
      intros k _. rewrite <- cos_neg. f_equal. rewrite minus_INR by lia. field. lra.
    + rewrite (sumn_ext B _ (fun k => cos (INR k * (2 * PI * INR (i - j) / INR B)))); [apply char_sum; lia|].
      intros k _. f_equal. rewrite minus_INR by lia. field. lra.
Qed.
Lemma parseval B (x : nat -> R) :
  sumn B (fun k => sumn B (fun j => x j * cos (2 * PI * INR k * INR j / INR B)) ^ 2 + sumn B (fun j => x j * sin (2 * PI * INR k * INR j / INR B)) ^ 2)
  = INR B * sumn B (fun j => x j ^ 2).
Proof.
  rewrite (sumn_ext B _ (fun k => sumn B (fun i => sumn B (fun j => x i * x j * cos (2 * PI * INR k * INR i / INR B - 2 * PI * INR k * INR j / INR B))))).
  - rewrite sumn_swap, <- sumn_scal. apply sumn_ext. intros i Hi. rewrite sumn_swap.
    rewrite (sumn_ext B _ (fun j => if Nat.eqb i j then INR B * x j ^ 2 else 0)).
    + apply (sumn_one B i (fun j => INR B * x j ^ 2) Hi).
    + intros j Hj. rewrite sumn_scal, char_sum2 by assumption. destruct (Nat.eqb_spec i j) as [->|]; ring.
  - intros k _. rewrite <- !Rsqr_pow2. unfold Rsqr. rewrite !sumn_mult, <- sumn_plus. apply sumn_ext. intros i _. rewrite <- sumn_plus.
    apply sumn_ext. intros j _. rewrite cos_minus. ring.
Qed.

(** Folding the negative frequencies loses nothing. *)
Lemma fold_sum B (f : nat -> R) : (1 <= B)%nat -> (forall k, (0 < k < B)%nat -> f (B - k)%nat = f k) ->
  sumn (B / 2 + 1) (fun k => sides B k * f k) = sumn B f.
Proof.
  intros HB Hf. destruct (Nat.Even_or_Odd B) as [[m Hm]|[m Hm]].
  - destruct m as [|p]; [lia|]. assert (D : (B / 2 = S p)%nat) by (rewrite Hm, Nat.mul_comm; apply Nat.div_mul; lia).
    assert (EL : forall g, sumn (B / 2 + 1) g = g 0%nat + (sumn p (fun k => g (1 + k)%nat) + g (1 + p)%nat)).
    { intros g. replace (B / 2 + 1)%nat with (S (1 + p))%nat by lia. rewrite sumn_S, sumn_add. change (sumn 1 g) with (g 0%nat + 0). lra. }
    assert (ER : sumn B f = f 0%nat + (sumn p (fun k => f (1 + k)%nat) + (f (1 + p)%nat + sumn p (fun k => f (2 + p + k)%nat)))).
    { replace B with (S (1 + p) + p)%nat by lia. rewrite sumn_add, sumn_S, sumn_add. change (sumn 1 f) with (f 0%nat + 0). change (S (1 + p)) with (2 + p)%nat. lra. }
    assert (E1 : sumn p (fun k => sides B (1 + k) * f (1 + k)%nat) = 2 * sumn p (fun k => f (1 + k)%nat)).
    { rewrite <- sumn_scal. apply sumn_ext. intros k Hk. unfold sides. replace (Nat.eqb (1 + k) 0) with false by reflexivity.
      replace (Nat.eqb (2 * (1 + k)) B) with false by (symmetry; apply Nat.eqb_neq; lia). reflexivity. }
    assert (E2 : sumn p (fun k => f (2 + p + k)%nat) = sumn p (fun k => f (1 + k)%nat)).
    { rewrite <- (sumn_rev p (fun k => f (1 + k)%nat)). apply sumn_ext. intros k Hk. rewrite <- (Hf (2 + p + k)%nat) by lia. f_equal. lia. }
    rewrite EL, ER, E1, E2. assert (S0 : sides B 0 = 1) by reflexivity.
    assert (S1 : sides B (1 + p) = 1) by (unfold sides; replace (Nat.eqb (2 * (1 + p)) B) with true by (symmetry; apply Nat.eqb_eq; lia); reflexivity).
    rewrite S0, S1. lra.
  - assert (D : (B / 2 = m)%nat) by (symmetry; apply (Nat.div_unique B 2 m 1); lia).
    assert (EL : forall g, sumn (B / 2 + 1) g = g 0%nat + sumn m (fun k => g (1 + k)%nat)).
    { intros g. replace (B / 2 + 1)%nat with (1 + m)%nat by lia. rewrite sumn_add. change (sumn 1 g) with (g 0%nat + 0). lra. }
    assert (ER : sumn B f = f 0%nat + (sumn m (fun k => f (1 + k)%nat) + sumn m (fun k => f (1 + m + k)%nat))).
    { replace B with ((1 + m) + m)%nat by lia. rewrite (sumn_add (1 + m) m), (sumn_add 1 m). change (sumn 1 f) with (f 0%nat + 0). lra. }
    assert (E1 : sumn m (fun k => sides B (1 + k) * f (1 + k)%nat) = 2 * sumn m (fun k => f (1 + k)%nat)).
    { rewrite <- sumn_scal. apply sumn_ext. intros k Hk. unfold sides. replace (Nat.eqb (1 + k) 0) with false by reflexivity.
      replace (Nat.eqb (2 * (1 + k)) B) with false by (symmetry; apply Nat.eqb_neq; lia). reflexivity. }
    assert (E2 : sumn m (fun k => f (1 + m + k)%nat) = sumn m (fun k => f (1 + k)%nat)).
    { rewrite <- (sumn_rev m (fun k => f (1 + k)%nat)). apply sumn_ext. intros k Hk. rewrite <- (Hf (1 + m + k)%nat) by lia. f_equal. lia. }
    rewrite EL, ER, E1, E2. assert (S0 : sides B 0 = 1) by reflexivity. rewrite S0. lra.
Qed.
Lemma periodogram_sym B fs s k : (0 < k < B)%nat -> periodogram B fs s (B - k) = periodogram B fs s k.
Proof.
  intros H. assert (PB : 0 < INR B) by (apply lt_0_INR; lia). unfold periodogram. f_equal. f_equal.
  - f_equal. apply sumn_ext. intros j _. f_equal. rewrite minus_INR by lia. rewrite <- (cos_per (2 * PI * INR k * INR j / INR B) j). f_equal. field. lra.
  - rewrite (sumn_ext B _ (fun j => -1 * (tapered B s j * sin (2 * PI * INR k * INR j / INR B)))); [rewrite sumn_scal; ring|].
    intros j _. replace (2 * PI * INR (B - k) * INR j / INR B) with (2 * PI * INR j - 2 * PI * INR k * INR j / INR B) by (rewrite minus_INR by lia; field; lra).
    rewrite sin_per. ring.
Qed.
Lemma periodogram_energy B fs s : (3 <= B)%nat -> fs <> 0 -> sumn B (periodogram B fs s) * (fs / INR B) = windowed_var B s.
Proof.
  intros HB Hfs. pose proof (wsum_pos B HB) as W. assert (PB : 0 < INR B) by (apply lt_0_INR; lia). unfold windowed_var.
  rewrite (sumn_ext B (periodogram B fs s) (fun k => / (fs * sumn B (fun j => rhann B j ^ 2)) *
    (sumn B (fun j => tapered B s j * cos (2 * PI * INR k * INR j / INR B)) ^ 2 + sumn B (fun j => tapered B s j * sin (2 * PI * INR k * INR j / INR B)) ^ 2)))
    by (intros k _; unfold periodogram, Rdiv; ring).
  rewrite sumn_scal, parseval, (sumn_ext B (fun j => tapered B s j ^ 2) (fun j => rhann B j ^ 2 * (nth j s 0 - rmean s) ^ 2)) by (intros j _; unfold tapered; ring).
  field. lra.
Qed.
Lemma periodogram_nonneg B fs s k : (3 <= B)%nat -> 0 < fs -> 0 <= periodogram B fs s k.
Proof.
  intros HB Hfs. pose proof (wsum_pos B HB) as W. unfold periodogram. apply Rmult_le_pos.
  - apply Rplus_le_le_0_compat; apply pow2_ge_0.
  - left. apply Rinv_0_lt_compat, Rmult_lt_0_compat; lra.
Qed.
Lemma rmean_nonneg {A} (f : A -> R) l : l <> [] -> (forall x, In x l -> 0 <= f x) -> 0 <= rmean (map f l).
Proof.
  intros Hl H. unfold rmean. apply Rmult_le_pos; [apply Rsum_map_nonneg, H|]. left. apply Rinv_0_lt_compat, lt_0_INR. rewrite map_length. destruct l; [congruence|cbn; lia].
Qed.
Lemma welch_nonneg B step n fs l k : (3 <= B)%nat -> 0 < fs -> (1 <= n)%nat -> 0 <= rwelch B step n fs l k.
Proof.
  intros HB Hfs Hn. unfold rwelch. apply rmean_nonneg; [destruct n; [lia|discriminate]|]. intros i _. apply periodogram_nonneg; assumption.
Qed.
Lemma welch_sym B step n fs l k : (0 < k < B)%nat -> rwelch B step n fs l (B - k) = rwelch B step n fs l k.
Proof. intros H. unfold rwelch. f_equal. apply map_ext. intros i. apply periodogram_sym, H. Qed.
Lemma welch_energy B step n fs l : (3 <= B)%nat -> fs <> 0 ->
  sumn B (rwelch B step n fs l) * (fs / INR B) = rmean (map (fun i => windowed_var B (segment l B step i)) (seq 0 n)).
Proof.
  intros HB Hfs. unfold rwelch, rmean. rewrite !map_length.
  rewrite (sumn_ext B _ (fun k => / INR (length (seq 0 n)) * sumn n (fun i => periodogram B fs (segment l B step i) k))).
  2:{ intros k _. rewrite map_length. unfold sumn, Rdiv. ring. }
  rewrite sumn_scal, sumn_swap. change (Rsum (map (fun i => windowed_var B (segment l B step i)) (seq 0 n))) with (sumn n (fun i => windowed_var B (segment l B step i))).
  rewrite (sumn_ext n (fun i => windowed_var B (segment l B step i)) (fun i => (fs / INR B) * sumn B (fun k => periodogram B fs (segment l B step i) k))).
  - rewrite sumn_scal. unfold Rdiv. ring.
  - intros i _. rewrite <- (periodogram_energy B fs) by assumption. apply Rmult_comm.
Qed.

Theorem spectra_energy fft l fs ov B (os : bool) : exact_fft fft -> (3 <= B <= length l)%nat -> (ov < Z.of_nat B)%Z -> fs <> 0 ->
  exists f p, power_spectra fft (fins l) (Fin fs) ov (Z.of_nat B) os = Ok (fins f, fins p) /\
    Rsum p * (fs / INR B) = rmean (map (fun i => windowed_var B (segment l B (Z.to_nat (Z.of_nat B - ov)) i)) (seq 0 (Z.to_nat ((zlen l - ov) / (Z.of_nat B - ov))))) /\
    (0 < fs -> forall v, In v p -> 0 <= v).
Proof.
  intros HF HB Hov Hfs. rewrite (spectra_exact fft l fs ov B HF HB Hov Hfs os). do 2 eexists. split; [reflexivity|].
  destruct (n_pos l ov B HB Hov) as [Hn _]. set (n := Z.to_nat ((zlen l - ov) / (Z.of_nat B - ov))) in *. set (st := Z.to_nat (Z.of_nat B - ov)) in *.
  split.
  - rewrite <- (welch_energy B st n fs l) by (assumption || lia). f_equal. destruct os.
    + apply (fold_sum B (rwelch B st n fs l)); [lia|]. intros k Hk. apply welch_sym, Hk.
    + apply Rsum_ext. intros k _. ring.
  - intros Pf v Hv. apply in_map_iff in Hv. destruct Hv as (k & <- & _). apply Rmult_le_pos; [|apply welch_nonneg; lia || assumption].
    destruct os; [|lra]. unfold sides. destruct (Nat.eqb k 0); [lra|]. destruct (Nat.eqb (2 * k) B); lra.
Qed.
Lemma segment_map (g : R -> R) l B st i : segment (map g l) B st i = map g (segment l B st i).
Proof. unfold segment. rewrite skipn_map, firstn_map. reflexivity. Qed.
Lemma periodogram_affine B fs s c d k : length s = B -> (3 <= B)%nat -> periodogram B fs (map (fun x => c * x + d) s) k = c ^ 2 * periodogram B fs s k.
Proof.
  intros E H. assert (T : forall j, (j < B)%nat -> tapered B (map (fun x => c * x + d) s) j = c * tapered B s j).
  { intros j Hj. unfold tapered. rewrite rmean_map_affine by (destruct s; cbn in E; [lia|discriminate]).
    rewrite (nth_map_in (fun x => c * x + d) s j 0 0) by lia. ring. }
  unfold periodogram.
  rewrite (sumn_ext B (fun j => tapered B (map (fun x => c * x + d) s) j * cos (2 * PI * INR k * INR j / INR B)) (fun j => c * (tapered B s j * cos (2 * PI * INR k * INR j / INR B)))) by (intros j Hj; rewrite T by exact Hj; ring).
  rewrite (sumn_ext B (fun j => tapered B (map (fun x => c * x + d) s) j * sin (2 * PI * INR k * INR j / INR B)) (fun j => c * (tapered B s j * sin (2 * PI * INR k * INR j / INR B)))) by (intros j Hj; rewrite T by exact Hj; ring).
  rewrite !sumn_scal. unfold Rdiv. ring.
Qed.
Theorem spectra_affine fft l fs ov B (os : bool) c d : exact_fft fft -> (3 <= B <= length l)%nat -> (ov < Z.of_nat B)%Z -> fs <> 0 ->
  exists f p, power_spectra fft (fins l) (Fin fs) ov (Z.of_nat B) os = Ok (fins f, fins p) /\
    power_spectra fft (fins (map (fun x => c * x + d) l)) (Fin fs) ov (Z.of_nat B) os = Ok (fins f, fins (map (fun v => c ^ 2 * v) p)).
Proof.
  intros HF HB Hov Hfs. rewrite (spectra_exact fft l fs ov B HF HB Hov Hfs os).
  rewrite (spectra_exact fft (map (fun x => c * x + d) l) fs ov B HF ltac:(rewrite map_length; exact HB) Hov Hfs os).
  do 2 eexists. split; [reflexivity|]. f_equal. f_equal. f_equal. rewrite map_map. apply map_ext. intros k.
  assert (ZL : zlen (map (fun x => c * x + d) l) = zlen l) by apply zlen_map. rewrite ZL.
  destruct (n_pos l ov B HB Hov) as [Hn _]. set (n := Z.to_nat ((zlen l - ov) / (Z.of_nat B - ov))) in *.
  rewrite <- Rmult_assoc, (Rmult_comm (c ^ 2)), Rmult_assoc. f_equal. unfold rwelch, rmean. rewrite !map_length.
  rewrite (Rsum_ext _ (fun i => c ^ 2 * periodogram B fs (segment l B (Z.to_nat (Z.of_nat B - ov)) i) k)).
  - rewrite Rsum_map_scal. unfold Rdiv. ring.
  - intros i Hi. apply in_seq in Hi. rewrite segment_map. apply periodogram_affine; [|lia]. apply (seg_length l ov B HB Hov). fold n. lia.
Qed.

(** For every number type. *)
Lemma hann_zlen (N : Num) m w : @hann N m = Ok w -> zlen w = m.
Proof.
  unfold hann. destruct (m <? 0)%Z eqn:E1; [discriminate|]. apply Z.ltb_ge in E1. destruct (m <=? 1)%Z eqn:E2; intros H; injection H as <-.
  - unfold zlen. rewrite repeat_length. lia.
  - rewrite zlen_map. replace m with (Z.of_nat (Z.to_nat m)) at 1 by lia. rewrite zrange_seq, zlen_map. unfold zlen. rewrite seq_length. lia.
Qed.
Lemma hann_ok (N : Num) m : (0 <= m)%Z -> exists w, @hann N m = Ok w.
Proof. intros H. unfold hann. replace (m <? 0)%Z with false by (symmetry; apply Z.ltb_ge; lia). destruct (m <=? 1)%Z; eexists; reflexivity. Qed.
Theorem spectra_errors (N : Num) (fft : list N -> list (N * N)) data fs ov block os :
  ((block < 0)%Z -> power_spectra fft data fs ov block os = Raise ValueError) /\
  ((0 <= block)%Z -> data = [] -> power_spectra fft data fs ov block os = Ok ([], [])) /\
  ((0 < zlen data < block)%Z -> power_spectra fft data fs ov block os = Raise ValueError) /\
  ((0 <= block <= ov)%Z -> data <> [] -> power_spectra fft data fs ov block os = Raise ValueError) /\
  ((ov < block <= zlen data)%Z -> (0 < block)%Z -> neqb fs (@nofZ N 0) = true -> power_spectra fft data fs ov block os = Raise ZeroDivisionError) /\
  ((ov < block <= zlen data)%Z -> (0 < block)%Z -> neqb fs (@nofZ N 0) = false -> exists f p, power_spectra fft data fs ov block os = Ok (f, p) /\ zlen f = zlen p /\
     zlen f = if os then (block / 2 + 1)%Z else block).
Proof.
  unfold power_spectra. split; [|split; [|split; [|split; [|split]]]].
  - intros H. unfold hann. replace (block <? 0)%Z with true by (symmetry; apply Z.ltb_lt; lia). reflexivity.
  - intros H ->. destruct (hann_ok N block H) as [w ->]. reflexivity.
  - intros H. destruct (hann_ok N block ltac:(lia)) as [w E]. rewrite E. pose proof (hann_zlen N block w E) as L. cbn [bind]. rewrite L.
    replace (zlen data =? 0)%Z with false by (symmetry; apply Z.eqb_neq; lia). replace (zlen data <? block)%Z with true by (symmetry; apply Z.ltb_lt; lia). reflexivity.
  - intros H Hd. destruct (hann_ok N block ltac:(lia)) as [w E]. rewrite E. cbn [bind].
    assert (0 < zlen data)%Z by (destruct data; [congruence|unfold zlen; cbn; lia]).
    replace (zlen data =? 0)%Z with false by (symmetry; apply Z.eqb_neq; lia). destruct (zlen data <? zlen w)%Z; [reflexivity|].
    replace (block <=? ov)%Z with true by (symmetry; apply Z.leb_le; lia). reflexivity.
  - intros H H0 F. destruct (hann_ok N block ltac:(lia)) as [w E]. rewrite E. pose proof (hann_zlen N block w E) as L. cbn [bind]. rewrite L.
    replace (zlen data =? 0)%Z with false by (symmetry; apply Z.eqb_neq; lia). replace (zlen data <? block)%Z with false by (symmetry; apply Z.ltb_ge; lia).
    replace (block <=? ov)%Z with false by (symmetry; apply Z.leb_gt; lia). rewrite F. reflexivity.
  - intros H H0 F. destruct (hann_ok N block ltac:(lia)) as [w E]. rewrite E. pose proof (hann_zlen N block w E) as L. cbn [bind]. rewrite L.
    replace (zlen data =? 0)%Z with false by (symmetry; apply Z.eqb_neq; lia). replace (zlen data <? block)%Z with false by (symmetry; apply Z.ltb_ge; lia).
    replace (block <=? ov)%Z with false by (symmetry; apply Z.leb_gt; lia). rewrite F. replace (block =? 0)%Z with false by (symmetry; apply Z.eqb_neq; lia).
    cbn [orb]. cbv zeta. do 2 eexists. split; [reflexivity|].
    assert (ZR : forall a b, (a <= b)%Z -> zlen (zrange a b) = (b - a)%Z) by (intros a b Hab; unfold zlen, zrange; rewrite map_length, seq_length; lia).
    assert (LF : zlen (if os then rfftfreq block (@ndiv N (@nofZ N 1) fs) else fftfreq block (@ndiv N (@nofZ N 1) fs)) = if os then (block / 2 + 1)%Z else block).
    { destruct os; [unfold rfftfreq; rewrite zlen_map, ZR by (pose proof (Z.div_pos block 2); lia); lia|].
      unfold fftfreq. rewrite zlen_map. unfold zlen at 1. rewrite app_length, Nat2Z.inj_add. fold (zlen (zrange 0 ((block - 1) / 2 + 1))). fold (zlen (zrange (- (block / 2)) 0)).
      pose proof (Z.div_pos block 2). pose proof (Z.div_pos (block - 1) 2). rewrite !ZR by lia.
      pose proof (Z.div_mod block 2). pose proof (Z.div_mod (block - 1) 2). pose proof (Z.mod_pos_bound block 2). pose proof (Z.mod_pos_bound (block - 1) 2). lia. }
    split; [|exact LF]. rewrite zlen_map, ZR; [lia|]. apply zlen_nonneg.
Qed.
Lemma skipn_app_l {A} k (l t : list A) : (k <= length l)%nat -> skipn k (l ++ t) = skipn k l ++ t.
Proof. intros H. rewrite skipn_app. replace (k - length l)%nat with O by lia. reflexivity. Qed.
Theorem spectra_trailing (N : Num) (fft : list N -> list (N * N)) data t fs ov block os :
  (0 < block <= zlen data)%Z -> (ov < block)%Z -> ((zlen data - block) mod (block - ov) = 0)%Z -> (zlen t < block - ov)%Z ->
  power_spectra fft (data ++ t) fs ov block os = power_spectra fft data fs ov block os.
Proof.
  intros HB Hov Hm Ht. unfold power_spectra. destruct (hann_ok N block ltac:(lia)) as [w E]. rewrite E. pose proof (hann_zlen N block w E) as L. cbn [bind]. rewrite L.
  assert (ZA : zlen (data ++ t) = (zlen data + zlen t)%Z) by (unfold zlen; rewrite app_length; lia). pose proof (zlen_nonneg t) as T0. rewrite ZA.
  replace (zlen data + zlen t =? 0)%Z with false by (symmetry; apply Z.eqb_neq; lia). replace (zlen data =? 0)%Z with false by (symmetry; apply Z.eqb_neq; lia).
  replace (zlen data + zlen t <? block)%Z with false by (symmetry; apply Z.ltb_ge; lia). replace (zlen data <? block)%Z with false by (symmetry; apply Z.ltb_ge; lia).
  destruct (block <=? ov)%Z; [reflexivity|]. destruct (neqb fs (@nofZ N 0) || (block =? 0)%Z); [reflexivity|]. cbv zeta.
  set (st := (block - ov)%Z) in *. apply Z_div_exact_full_2 in Hm; [|unfold st; lia]. set (q := ((zlen data - block) / st)%Z) in *.
  assert (Q0 : (0 <= q)%Z) by (apply Z.div_pos; unfold st; lia).
  assert (D1 : ((zlen data - ov) / st = q + 1)%Z) by (symmetry; apply (Z.div_unique _ _ _ 0); unfold st in *; nia).
  assert (D2 : ((zlen data + zlen t - ov) / st = q + 1)%Z) by (symmetry; apply (Z.div_unique _ _ _ (zlen t)); unfold st in *; nia).
  rewrite D1, D2.
  assert (SE : map (fun i => firstn (Z.to_nat block) (skipn (Z.to_nat (i * st)) (data ++ t))) (zrange 0 (q + 1)) =
               map (fun i => firstn (Z.to_nat block) (skipn (Z.to_nat (i * st)) data)) (zrange 0 (q + 1))).
  { apply map_ext_in. intros i Hi. apply in_zrange in Hi. unfold zlen in *.
    assert (i * st <= q * st)%Z by (apply Z.mul_le_mono_nonneg_r; unfold st; lia).
    assert (0 <= i * st)%Z by (apply Z.mul_nonneg_nonneg; unfold st; lia).
    rewrite skipn_app_l by nia. rewrite firstn_app, skipn_length. replace (Z.to_nat block - (length data - Z.to_nat (i * st)))%nat with O by nia.
    rewrite firstn_O, app_nil_r. reflexivity. }
  rewrite SE. reflexivity.
Qed.
