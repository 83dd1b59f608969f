(** The smoothing scripts. (C165) *)
From Coq Require Import Reals Lra Psatz.
From Flocq Require Import Core.Raux.
From Verif Require Import Num NpBase Lib XR LibR Spec Spec35 M_descriptive M_series M_signal M_curves P_series P_kalman P_ssa P_ssa2 P_order P_signal P_replacement P_moment P_noise P_noisemean.
Local Open Scope R_scope.

Lemma combine_seq (l : list R) : forall a,
  combine (map (fun k => (Z.of_nat a + Z.of_nat k)%Z) (seq 0 (length l))) (fins l) =
  map (fun i => (Z.of_nat (a + i), Fin (nth i l 0))) (seq 0 (length l)).
Proof.
  induction l as [|x l IH]; intros a; [reflexivity|].
  cbn [length seq map combine fins nth]. f_equal; [f_equal; lia|].
  rewrite <- !seq_shift, !map_map. specialize (IH (S a)).
  etransitivity; [|etransitivity; [exact IH|]].
  - f_equal. apply map_ext. intros k. lia.
  - apply map_ext. intros k. f_equal. f_equal. lia.
Qed.

Lemma drawn_fins (l : list R) : @drawn XR (fins l) = curve (length l) (fun i => nth i l 0).
Proof.
  unfold drawn, curve, zrange. rewrite zlen_fins. unfold zlen. rewrite Z.sub_0_r, Nat2Z.id.
  exact (combine_seq l O).
Qed.
Lemma drawn_map n (f : nat -> R) : @drawn XR (fins (map f (seq 0 n))) = curve n f.
Proof.
  rewrite drawn_fins, map_length, seq_length. unfold curve. apply map_ext_in. intros i Hi. apply in_seq in Hi.
  rewrite (nth_map_in f (seq 0 n) i O) by (rewrite seq_length; lia). rewrite seq_nth by lia. reflexivity.
Qed.

Lemma simple_drawn (l : list R) : (30 <= length l)%nat ->
  @simple_curves XR (fins l) = Ok (curve (length l) (fun i => nth i l 0), curve (length l) (fun i => rmean (rwindow l 30 i))).
Proof.
  intros H. unfold simple_curves. rewrite moving_average_correct by (unfold zlen; lia). cbn [bind].
  rewrite drawn_fins, drawn_map. reflexivity.
Qed.
Lemma exponential_drawn (l : list R) : l <> [] ->
  @exponential_curves XR (fins l) = Ok (curve (length l) (fun i => nth i l 0), curve (length l) (rema (8 / 100) l)).
Proof.
  intros H. unfold exponential_curves. rewrite lit_fin by lia. change (IZR 8 / IZR (10 ^ 2)) with (8 / 100).
  rewrite ema_exact by (lra || exact H). cbn [bind].
  rewrite drawn_fins, drawn_map. reflexivity.
Qed.
Lemma kalman_drawn (l : list R) : exists est gain,
  @kalman_curves XR (fins l) = Ok (curve (length l) (fun i => nth i l 0), curve (length l) (fun i => nth i est 0)) /\
  length est = length l /\ gain O = 101 / 1601 /\ (forall i, gain (S i) = (15 * gain i + 1 / 100) / (15 * gain i + 1501 / 100)) /\
  (forall i, (i < length l)%nat -> let prev := nth i (1 :: est) 0 in nth i est 0 = prev + gain i * (nth i l 0 - prev)).
Proof.
  destruct (kalman_summary (1 / 100) 15 l 1 1) as (est & gain & E & HL & G0 & GS & _ & HE & _); [lra..|].
  exists est, gain. split; [|split; [exact HL|split; [rewrite G0; field|split; [|exact HE]]]].
  - unfold kalman_curves. rewrite lit_fin by lia. change (IZR 1 / IZR (10 ^ 2)) with (1 / 100). rewrite !xofZ_fin.
    rewrite E. cbn [bind]. rewrite !drawn_fins, HL. reflexivity.
  - intros i. rewrite GS. f_equal. lra.
Qed.

Lemma weighted_drawn (l : list R) : (30 <= length l)%nat ->
  @weighted_curves XR (fins l) = Ok (curve (length l) (fun i => nth i l 0), curve (length l - 30) (fun i => rwmean (firstn 30 (skipn i l)))).
Proof.
  intros H. unfold weighted_curves. rewrite wma_exact by (unfold zlen; lia). cbn [bind snd].
  rewrite drawn_fins, drawn_map. reflexivity.
Qed.
Lemma weighted_short (l : list R) : (length l < 30)%nat -> @weighted_curves XR (fins l) = Raise ValueError.
Proof.
  intros H. unfold weighted_curves, weighted_moving_average. rewrite zlen_fins.
  change (30 <=? 0)%Z with false. cbn [bind]. rewrite (proj2 (Z.ltb_lt (zlen l) 30)) by (unfold zlen; lia). reflexivity.
Qed.

Lemma skipn_repeat {A} (x : A) : forall j k, (j <= k)%nat -> skipn j (repeat x k) = repeat x (k - j).
Proof. induction j as [|j IH]; intros [|k] H; cbn; [reflexivity|reflexivity|lia|]. apply IH. lia. Qed.
Lemma firstn_repeat {A} (x : A) : forall j k, (j <= k)%nat -> firstn j (repeat x k) = repeat x j.
Proof. induction j as [|j IH]; intros [|k] H; cbn; [reflexivity|reflexivity|lia|]. f_equal. apply IH. lia. Qed.

Lemma rwmean_step c h : rwmean (repeat c 29 ++ [c + h]) = c + 2 / 31 * h.
Proof.
  unfold rwmean. rewrite app_length, repeat_length. cbn [length Nat.add seq map Rsum repeat app nth]. rewrite !INR_IZR_INZ.
  match goal with |- ?a / ?b = _ => replace b with 465; [|cbn; lra] end. cbn [Z.of_nat Pos.of_succ_nat Pos.succ]. field.
Qed.

Lemma weighted_early (c h : R) (k m : nat) : (29 <= k)%nat -> (2 <= m)%nat -> exists g,
  @weighted_curves XR (fins (rstep c h k m)) = Ok (curve (k + m) (fun i => nth i (rstep c h k m) 0), curve (k + m - 30) g) /\
  (forall i, (i < k)%nat -> nth i (rstep c h k m) 0 = c) /\ (k - 29 < k + m - 30)%nat /\
  (forall i, (i < k - 29)%nat -> g i = c) /\ g (k - 29)%nat = c + 2 / 31 * h.
Proof.
  intros Hk Hm. exists (fun i => rwmean (firstn 30 (skipn i (rstep c h k m)))).
  assert (HL : length (rstep c h k m) = (k + m)%nat) by (unfold rstep; rewrite app_length, !repeat_length; lia).
  split; [|split; [|split; [lia|split]]].
  - rewrite weighted_drawn by lia. rewrite HL. reflexivity.
  - intros i Hi. unfold rstep. rewrite app_nth1 by (rewrite repeat_length; lia).
    rewrite (nth_indep _ 0 c) by (rewrite repeat_length; lia). apply nth_repeat'.
  - intros i Hi. unfold rstep. rewrite skipn_app, skipn_repeat, repeat_length by lia.
    rewrite firstn_app, repeat_length, firstn_repeat by lia.
    replace (30 - (k - i))%nat with O by lia. rewrite firstn_O, app_nil_r.
    unfold rwmean. rewrite repeat_length.
    assert (P : 0 < Rsum (map (fun j => INR (S j)) (seq 0 30))) by (apply Rsum_weights_pos; lia).
    apply (Rmult_eq_reg_r (Rsum (map (fun j => INR (S j)) (seq 0 30)))); [|lra].
    unfold Rdiv. rewrite Rmult_assoc, Rinv_l, Rmult_1_r by lra.
    cbn [seq map Rsum repeat nth]. ring.
  - unfold rstep. rewrite skipn_app, skipn_repeat, repeat_length by lia.
    replace (k - (k - 29))%nat with 29%nat by lia. replace (k - 29 - k)%nat with O by lia. cbn [skipn].
    rewrite firstn_app, repeat_length. rewrite firstn_all2 by (rewrite repeat_length; lia).
    replace (30 - 29)%nat with 1%nat by lia. destruct m as [|m]; [lia|]. cbn [repeat firstn].
    exact (rwmean_step c h).
Qed.

Lemma ssa_drawn (eigh : @matrix XR -> res (@matrix XR)) (x : list R) (E : list (list R)) : (100 <= length x)%nat ->
  mshape E 100 100 -> eigh (finm (rtrajcov x 100 (length x - 99))) = Ok (finm E) ->
  exists sel : list nat,
    ssa_curves eigh (fins x) = Ok (curve (length x) (fun i => nth i x 0),
      curve (length x) (fun t => round_dec 4 (rmean (antidiag (rproject E sel x 100 (length x - 99)) 100 (length x - 99) t)))) /\
    (forall i, In i sel -> (i < 100)%nat).
Proof.
  intros Hn HE HO.
  destruct (ssa_general eigh x 100 1 E 100 (length x - 99)) as (sel & ES & _ & HB & _);
    [lra|lra| |lia|lia|lia|exact HE|exact HO|].
  - replace (100 / 1) with (IZR 100) by lra. rewrite Zceil_IZR. reflexivity.
  - exists sel. split; [|exact HB]. unfold ssa_curves. rewrite !xofZ_fin, ES. cbn [bind].
    rewrite drawn_fins, drawn_map. replace (100 + (length x - 99) - 1)%nat with (length x) by lia. reflexivity.
Qed.

Lemma synthetic_drawn (l r : list R) (e : R) draws idx : length l = 500%nat -> rmean l <> 0 ->
  (forall i, In i draws -> (0 <= i < 500)%Z) -> length r = 500%nat -> (forall k, Rabs (nth k r 0) <= e) ->
  @random_index XR 500 (Fin 10) draws = Some (Ok idx) -> length idx = 50%nat /\
  exists m, @synthetic_curves XR (fins l) draws (fins r) = Some (Ok (curve 500 (fun i => nth i m 0), curve 500 (fun i => nth i l 0))) /\
    length m = 500%nat /\ (forall i, (i < 500)%nat -> (nth i m 0 <> nth i l 0 <-> In (Z.of_nat i) idx)) /\
    Rabs (rmean m - rmean l) <= Rabs (rmean l) * (e / 20).
Proof.
  intros Hl Hm Hd Hr He E. assert (HZ : zlen l = 500%Z) by (unfold zlen; rewrite Hl; reflexivity).
  assert (Hne : l <> []) by (intros ->; discriminate Hl).
  assert (HI : length idx = 50%nat).
  { destruct (random_index_correct XR _ _ _ _ Hd E) as (HL & _). rewrite HL, !xofZ_fin, xmul_fin, xdiv_fin by lra.
    replace (IZR 500 * 10 / 100) with (IZR 50) by lra. change (@nfloorZ XR (Fin (IZR 50))) with (Zfloor (IZR 50)). rewrite Zfloor_IZR. reflexivity. }
  split; [exact HI|]. rewrite <- HZ in E, Hd.
  destruct (noise_changes l r 10 draws idx) as (m & Em & Lm & HC & _); [lra|exact Hm|exact Hd|lia|exact E|].
  destruct (noise_mean_even l r 10 e draws idx) as (m' & Em' & HB); [exact Hne|exact Hd|lia|exact He|exact E|rewrite HI; reflexivity|].
  assert (EF : fins m = fins m') by congruence. assert (EM : m = m').
  { apply (list_eq_nth _ _ 0); [rewrite <- (fins_length m), EF; apply fins_length|]. intros k Hk.
    pose proof (f_equal (fun q => nth k q (Fin 0)) EF) as A. cbv beta in A. rewrite !fins_nth in A.
    exact (f_equal (fun q : xr => match q with Fin y => y | _ => 0 end) A). }
  subst m'. exists m. rewrite Hl in HC, Lm. split; [|split; [exact Lm|split; [exact HC|]]].
  - unfold synthetic_curves. rewrite xofZ_fin, Em. cbn [bind]. rewrite !drawn_fins, Lm, Hl. reflexivity.
  - eapply Rle_trans; [exact HB|]. rewrite HI, Hl. apply Rmult_le_compat_l; [apply Rabs_pos|]. right. rewrite !INR_IZR_INZ. change (Z.of_nat 50) with 50%Z. change (Z.of_nat 500) with 500%Z. field.
Qed.
