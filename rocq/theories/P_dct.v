(** Proofs about the values of the cosine transform and of the density. *)
From Coq Require Import Reals Lra Lia.
From Flocq Require Import Core.Raux.
From Verif Require Import NpBase Lib XR F64 M_descriptive M_series M_detection M_kernel Spec Spec2 LibR P_order P_moment P_series P_ssa P_ssa2 P_detect P_phase P_kern P_brent P_normal P_hist P_kernel P_band.
Local Open Scope Z_scope.

Definition cfin (c : R * R) : XR * XR := (Fin (fst c), Fin (snd c)).
(** An exact FFT exists. *)
Definition the_fft (l : list XR) : list (XR * XR) := map cfin (dft (map (fun v => match v with Fin x => x | _ => 0%R end) l)).
Lemma the_fft_exact : exact_fft the_fft.
Proof.
  intros l. unfold the_fft, fins. rewrite map_map. rewrite map_id. reflexivity.
Qed.
Lemma the_fft_length r : length (the_fft r) = length r.
Proof. unfold the_fft, dft. rewrite !map_length, seq_length. reflexivity. Qed.

(** ** Size 2 *)
Lemma dft2 a b : dft [a; b] = [(a + b, 0); (a - b, 0)]%R.
Proof.
  unfold dft. cbn [length seq map nth Nat.mul Nat.add Rsum]. change (INR 0) with 0%R. change (INR 1) with 1%R. change (INR 2) with 2%R.
  replace (2 * PI * 0 / 2)%R with 0%R by field. replace (2 * PI * 1 / 2)%R with PI by field.
  rewrite cos_0, sin_0, cos_PI, sin_PI. apply f_equal2; [|apply f_equal2; [|reflexivity]]; apply f_equal2; ring.
Qed.
Lemma weights2 : @dct_weights XR 2 = [(Fin 1, Fin 0); (Fin (sqrt 2), Fin (- sqrt 2))].
Proof.
  unfold dct_weights. change (zrange 1 2) with [1]. cbn [map]. rewrite !xofZ_fin, xPI, xopp_fin, xmul_fin.
  rewrite xdiv_fin by (apply (IZR_neq _ 0); lia). rewrite xcos_fin, xsin_fin, !xmul_fin.
  change (2 * 2) with 4. replace (- (1) * PI / 4)%R with (- (PI / 4))%R by field. rewrite cos_neg, sin_neg, cos_PI4, sin_PI4.
  pose proof sqrt2_pos as S2. assert (S : (sqrt 2 * sqrt 2 = 2)%R) by (apply sqrt_def; lra).
  assert (E : (2 * (1 / sqrt 2) = sqrt 2)%R).
  { rewrite <- S at 1. field. lra. }
  replace (2 * - (1 / sqrt 2))%R with (- sqrt 2)%R by lra. rewrite E. reflexivity.
Qed.
Lemma dct_row2 fft w1 w2 a b : exact_fft fft -> dct_row fft (Fin w1, Fin w2) [Fin a; Fin b] = [Fin (w1 * (a + b)); Fin (w1 * (a - b))].
Proof.
  intros HF. unfold dct_row. change [Fin a; Fin b] with (fins [a; b]). rewrite (HF [a; b]), dft2. cbn [map fst snd]. rewrite !xmul_fin, !xsub_fin. apply f_equal2; [|apply f_equal2; [|reflexivity]]; apply f_equal; ring.
Qed.
Lemma dct2_2 fft a b c d : exact_fft fft ->
  dct2 fft (finm [[a; b]; [c; d]]) =
  Ok (finm [[a + b + sqrt 2 * (c + d); sqrt 2 * (a - b) + 2 * (c - d)];
            [a + b - sqrt 2 * (c + d); sqrt 2 * (a - b) - 2 * (c - d)]]%R).
Proof.
  intros HF. unfold dct2, finm, fins. cbn [map length ncols Nat.eqb negb]. change (zlen _) with 2. rewrite weights2.
  unfold dct1 at 1. cbn [evens rev app]. rewrite bcast_same by reflexivity. unfold zipwith. cbn [combine map fst snd].
  rewrite !dct_row2 by exact HF. cbn [bind ncols length]. unfold transpose. cbn [seq map col nth].
  unfold dct1. cbn [evens rev app]. rewrite bcast_same by reflexivity. unfold zipwith. cbn [combine map fst snd].
  rewrite !dct_row2 by exact HF. cbn [bind ncols length seq map nth].
  assert (S : (sqrt 2 * sqrt 2 = 2)%R) by (apply sqrt_def; lra).
  apply (f_equal (@Ok (list (list XR)))). 
  assert (E1 : (1 * (1 * (a + b) + sqrt 2 * (c + d)) = a + b + sqrt 2 * (c + d))%R) by ring.
  assert (E2 : (sqrt 2 * (1 * (a - b) + sqrt 2 * (c - d)) = sqrt 2 * (a - b) + 2 * (c - d))%R) by (rewrite <- S at 4; ring).
  assert (E3 : (1 * (1 * (a + b) - sqrt 2 * (c + d)) = a + b - sqrt 2 * (c + d))%R) by ring.
  assert (E4 : (sqrt 2 * (1 * (a - b) - sqrt 2 * (c - d)) = sqrt 2 * (a - b) - 2 * (c - d))%R) by (rewrite <- S at 4; ring).
  rewrite E1, E2, E3, E4. reflexivity.
Qed.

(** ** The density of two points has mass above 2.9 for every bandwidth *)
Lemma bin01 : map (fun p => (k_bin 2 (fst p), k_bin 2 (snd p))) [(@Fin 0, Fin 0); (Fin 1, Fin 1)] = [(0, 0); (1, 1)].
Proof.
  cbn [map fst snd]. rewrite !k_bin_exact by lia. cbn [cell].
  replace (IZR 2 * 0)%R with (IZR 0) by ring. replace (IZR 2 * 1)%R with (IZR 2) by ring. rewrite !Zceil_IZR. reflexivity.
Qed.

Lemma hist01 : k_histogram [(@Fin 0, Fin 0); (Fin 1, Fin 1)] 2 = Ok (finm [[/ 2; 0]; [0; / 2]]%R).
Proof.
  unfold k_histogram. change (2 <? 0) with false. cbv iota. rewrite bin01.
  change (repeat (repeat (@nofZ XR 0) (Z.to_nat 2)) (Z.to_nat 2)) with [[@Fin 0; Fin 0]; [Fin 0; Fin 0]].
  assert (E : @accumulate XR [[Fin 0; Fin 0]; [Fin 0; Fin 0]] [(0, 0); (1, 1)] = Ok [[Fin (0 + 1); Fin 0]; [Fin 0; Fin (0 + 1)]]) by reflexivity.
  rewrite E. cbn [bind map]. change (zlen _) with 2. rewrite !xofZ_fin, !xdiv_fin by lra.
  apply (f_equal (@Ok (list (list XR)))). unfold finm, fins. cbn [map].
  replace ((0 + 1) / 2)%R with (/ 2)%R by field. replace (0 / 2)%R with 0%R by field. reflexivity.
Qed.
Definition clampR (d : R) : R := if Rlt_bool d 0 then (1 / IZR (2 ^ 52))%R else d.
Lemma clampR_ge d : (d <= clampR d)%R /\ (0 <= clampR d)%R.
Proof.
  unfold clampR. assert (E : (0 < 1 / IZR (2 ^ 52))%R) by (apply Rdiv_lt_0_compat; [lra | apply (IZR_lt 0); lia]).
  destruct (Rlt_bool_spec d 0); lra.
Qed.
Lemma clampR_fin d : (if @nltb XR (Fin d) (nofZ 0) then @ndiv XR (nofZ 1) (nofZ (2 ^ 52)) else Fin d) = Fin (clampR d).
Proof.
  rewrite !xofZ_fin, xltb_fin. unfold clampR. destruct (Rlt_bool d 0); [|reflexivity].
  rewrite xdiv_fin; [reflexivity|]. apply (IZR_neq _ 0). lia.
Qed.
Lemma vec2 h : map (fun n => @nexp XR (@ndiv XR (@nmul XR (@nmul XR (@nopp XR (sq n)) (sq npi)) (sq (Fin h))) (nofZ 2))) (map (fun i => @nofZ XR i) (zrange 0 2)) =
  [Fin 1; Fin (exp (- (PI * PI * (h * h)) / 2))].
Proof.
  change (zrange 0 2) with [0; 1]. cbn [map]. unfold sq. rewrite xPI, !xofZ_fin, !xmul_fin, !xopp_fin, !xmul_fin, !xdiv_fin by lra.
  cbn [nexp XR xexp]. apply f_equal2; [|apply f_equal2; [|reflexivity]]; apply f_equal.
  - rewrite <- exp_0. f_equal. field.
  - f_equal. field.
Qed.
Lemma scale01 : k_scaling (fins [0; 1]%R) = Ok (Fin 1, Fin 0, Fin (1 - 0)).
Proof.
  apply scaling_exact; (split; [cbn; tauto | intros x [<-|[<-|[]]]; lra]).
Qed.
Lemma trans01 : k_transform (fins [0; 1]%R) (Fin 0) (Fin (1 - 0)) = [Fin 0; Fin 1].
Proof.
  unfold k_transform, fins. cbn [map]. rewrite !xsub_fin, !xdiv_fin by lra. apply f_equal2; [|apply f_equal2; [|reflexivity]]; apply f_equal; field.
Qed.
Lemma dens2 p q r s :
  map (map (fun v => if @nltb XR (@nmul XR v (@ndiv XR (nofZ 4) (nprod [Fin (1 - 0); Fin (1 - 0)]))) (nofZ 0)
                     then @ndiv XR (nofZ 1) (nofZ (2 ^ 52)) else @nmul XR v (@ndiv XR (nofZ 4) (nprod [Fin (1 - 0); Fin (1 - 0)]))))
      (finm [[p; q]; [r; s]]) = finm [[clampR (p * 4); clampR (q * 4)]; [clampR (r * 4); clampR (s * 4)]]%R.
Proof.
  assert (E : @ndiv XR (nofZ 4) (nprod [Fin (1 - 0); Fin (1 - 0)]) = Fin 4).
  { change (@nprod XR [Fin (1 - 0); Fin (1 - 0)]) with (Fin ((1 - 0) * ((1 - 0) * 1))). rewrite xofZ_fin, xdiv_fin by lra. f_equal. field. }
  rewrite E. unfold finm, fins. cbn [map]. rewrite !xmul_fin, !clampR_fin. reflexivity.
Qed.
Theorem mass_refuted : forall fft search hx hy, exact_fft fft -> (forall m k, exists t, search m k = Ok t) ->
  exists d xm ym, bivariate_kernel fft search (fins [0; 1]%R) (fins [0; 1]%R) (Fin hx) (Fin hy) 2 = Ok (finm d, xm, ym) /\
    (29 / 10 < Rsum (concat d) * ((1 - 0) * (1 - 0) / 4))%R.
Proof.
  intros fft search hx hy HF HS. unfold bivariate_kernel. rewrite !scale01. cbn [bind]. rewrite !trans01.
  cbn [combine]. lazymatch goal with |- context [k_histogram ?l 2] => rewrite (hist01 : k_histogram l 2 = _) end. cbn [bind]. rewrite dct2_2 by exact HF. cbn [bind].
  match goal with |- context [search ?m ?k] => destruct (HS m k) as (t & ->) end. cbn [bind].
  cbv zeta. rewrite !vec2. set (ex := exp (- (PI * PI * (hx * hx)) / 2)). set (ey := exp (- (PI * PI * (hy * hy)) / 2)).
  assert (X0 : (0 < ex)%R) by apply exp_pos. assert (Y0 : (0 < ey)%R) by apply exp_pos. clearbody ex ey.
  rewrite bcast_same by reflexivity. unfold zipwith at 1. unfold finm, fins. cbn [combine map fst snd].
  unfold zipwith. cbn [combine map fst snd bind]. rewrite !xmul_fin.
  match goal with |- context [dct2 fft [[Fin ?a; Fin ?b]; [Fin ?c; Fin ?d]]] =>
    change [[Fin a; Fin b]; [Fin c; Fin d]] with (finm [[a; b]; [c; d]]) end.
  rewrite dct2_2 by exact HF. cbn [bind].
  match goal with |- context [map (map ?f) (finm [[?p; ?q]; [?r; ?s]])] =>
    assert (ED : map (map f) (finm [[p; q]; [r; s]]) = finm [[clampR (p * 4); clampR (q * 4)]; [clampR (r * 4); clampR (s * 4)]]%R) by (apply (dens2 p q r s));
    rewrite ED; clear ED end.
  rewrite !axis_exact by (lia || lra). cbn [bind]. rewrite meshgrid_fins.
  change (ncols (finm _)) with 2%nat. rewrite transpose_finm.
  eexists _, _, _. split; [reflexivity|]. unfold rtranspose, rcol. cbn [seq map nth concat app Rsum].
  repeat match goal with |- context [clampR ?x] => pose proof (clampR_ge x); generalize dependent (clampR x); intros end.
  assert (S : (sqrt 2 * sqrt 2 = 2)%R) by (apply sqrt_def; lra).
  assert (S1 : (14 / 10 < sqrt 2)%R) by (rewrite <- (sqrt_square (14 / 10)) by lra; apply sqrt_lt_1; lra).
  assert (S2 : (sqrt 2 < 15 / 10)%R) by (rewrite <- (sqrt_square (15 / 10)) by lra; apply sqrt_lt_1; lra).
  set (q := sqrt 2) in *. clearbody q.
  destruct H as [H _], H2 as [H2 _], H0 as [_ H0], H1 as [_ H1].
  match type of H with (?Y * 4 <= _)%R =>
    assert (E1 : Y = (1 / 2 + q / 2 + ey * (q / 2 - 1) + q * ex / 2 - (q * q) * ex / 2 + (q * q) * (ex * ey) / 2 + q * (ex * ey))%R) by field end.
  match type of H2 with (?Y * 4 <= _)%R =>
    assert (E2 : Y = (q / 2 + (q * q) / 2 - (q * q) * ey / 2 + q * ey - ex + ex * q + ex * ey * q + 2 * (ex * ey))%R) by field end.
  rewrite E1 in H. rewrite E2 in H2. rewrite S in H, H2.
  assert (P : (0 < ex * ey)%R) by (apply Rmult_lt_0_compat; assumption).
  assert (Q1 : (0 <= ex * (3 * q / 2 - 2))%R) by (apply Rmult_le_pos; lra).
  assert (Q2 : (0 <= ey * (3 * q / 2 - 2))%R) by (apply Rmult_le_pos; lra).
  assert (Q3 : (0 <= ex * ey * q)%R) by (apply Rmult_le_pos; lra).
  nra.
Qed.

(** ** The transform is not a DCT for any even size *)
Lemma evens_repeat_even {A} (x : A) m : evens (repeat x (2 * m)) = repeat x m.
Proof.
  induction m as [|m IH]; [reflexivity|]. replace (2 * S m)%nat with (S (S (2 * m))) by lia. cbn [repeat evens]. rewrite IH. reflexivity.
Qed.
Lemma evens_app {A} m : forall (l l' : list A), length l = (2 * m)%nat -> evens (l ++ l') = evens l ++ evens l'.
Proof.
  induction m as [|m IH]; intros [|x [|y l]] l' H; cbn [length] in H; try lia; [reflexivity|].
  cbn [app evens]. rewrite IH by lia. reflexivity.
Qed.
Lemma rev_repeat' {A} (x : A) n : rev (repeat x n) = repeat x n.
Proof.
  induction n as [|n IH]; [reflexivity|]. cbn [repeat rev]. rewrite IH. clear IH. induction n as [|n IH]; [reflexivity|]. cbn [repeat app]. f_equal. exact IH.
Qed.
Lemma reorder_unit {A} (z u : A) m :
  evens (z :: u :: repeat z (2 * m)) ++ evens (rev (z :: u :: repeat z (2 * m))) = repeat z (2 * m + 1) ++ [u].
Proof.
  cbn [evens rev]. rewrite evens_repeat_even, rev_repeat', <- app_assoc. rewrite (evens_app m) by apply repeat_length.
  rewrite evens_repeat_even. cbn [app evens].
  replace (2 * m + 1)%nat with (S (m + m)) by lia. cbn [repeat app]. rewrite repeat_app, <- app_assoc. reflexivity.
Qed.
Lemma reorder_const {A} (z : A) m : evens (repeat z (2 * m)) ++ evens (rev (repeat z (2 * m))) = repeat z (2 * m).
Proof. rewrite rev_repeat', evens_repeat_even, <- repeat_app. f_equal. lia. Qed.
Lemma nth_repeat0 k n : nth k (repeat 0%R n) 0%R = 0%R.
Proof. revert k. induction n as [|n IH]; intros [|k]; cbn; auto. Qed.
Lemma map_const {A B} (c : B) (l : list A) : map (fun _ => c) l = repeat c (length l).
Proof. induction l as [|x l IH]; [reflexivity|]. cbn. f_equal. exact IH. Qed.
Lemma dft_zero n : dft (repeat 0%R n) = repeat (0, - 0)%R n.
Proof.
  unfold dft. rewrite repeat_length. transitivity (map (fun _ : nat => (0, - 0)%R) (seq 0 n)); [|rewrite map_const, seq_length; reflexivity]. apply map_ext. intros k.
  assert (Z : forall f : nat -> R, Rsum (map (fun j => (nth j (repeat 0 n) 0 * f j)%R) (seq 0 n)) = 0%R).
  { intros f. rewrite (Rsum_ext _ (fun _ => 0%R)); [rewrite Rsum_map_const; ring|]. intros j _. rewrite nth_repeat0. ring. }
  rewrite (Z (fun j => cos _)), (Z (fun j => sin _)). reflexivity.
Qed.
Lemma dft_unit n : dft (1%R :: repeat 0%R n) = repeat (1, - 0)%R (S n).
Proof.
  unfold dft. cbn [length]. rewrite repeat_length. transitivity (map (fun _ : nat => (1, - 0)%R) (seq 0 (S n))); [|rewrite map_const, seq_length; reflexivity]. apply map_ext. intros k.
  assert (Z : forall f : nat -> R, Rsum (map (fun j => (nth j (1 :: repeat 0 n) 0 * f j)%R) (seq 0 (S n))) = f 0%nat).
  { intros f. cbn [seq map Rsum nth]. rewrite (Rsum_ext _ (fun _ => 0%R)); [rewrite Rsum_map_const; ring|].
    intros j Hj. apply in_seq in Hj. destruct j as [|j]; [lia|]. cbn [nth]. rewrite nth_repeat0. ring. }
  rewrite (Z (fun j => cos _)), (Z (fun j => sin _)). rewrite Nat.mul_0_r. cbn [INR].
  replace (2 * PI * 0 / _)%R with 0%R by (unfold Rdiv; ring). rewrite cos_0, sin_0. reflexivity.
Qed.
Lemma map_repeat' {A B} (f : A -> B) x n : map f (repeat x n) = repeat (f x) n.
Proof. induction n as [|n IH]; [reflexivity|]. cbn. f_equal. exact IH. Qed.
Lemma nth_repeat_in {A} (x d : A) n : forall j, (j < n)%nat -> nth j (repeat x n) d = x.
Proof. induction n as [|n IH]; intros [|j] H; cbn; try lia; [reflexivity | apply IH; lia]. Qed.
Lemma row_zero fft w1 w2 n : exact_fft fft -> dct_row fft (Fin w1, Fin w2) (fins (repeat 0%R n)) = fins (repeat 0%R n).
Proof.
  intros HF. unfold dct_row. rewrite HF, dft_zero. unfold fins. rewrite !map_repeat'. cbn [fst snd]. f_equal. rewrite !xmul_fin, xsub_fin. f_equal. ring.
Qed.
Lemma row_unit fft w1 w2 n : exact_fft fft -> dct_row fft (Fin w1, Fin w2) (fins (1%R :: repeat 0%R n)) = fins (repeat w1 (S n)).
Proof.
  intros HF. unfold dct_row. rewrite HF, dft_unit. unfold fins. rewrite !map_repeat'. cbn [fst snd]. f_equal. rewrite !xmul_fin, xsub_fin. f_equal. ring.
Qed.
Lemma dct_weights_exact g : 2 <= g -> exists W, @dct_weights XR g = (Fin 1, Fin 0) :: map cfin W ++ [(Fin (2 * sin (PI / (2 * IZR g))), Fin (- (2 * cos (PI / (2 * IZR g)))))] /\ length W = Z.to_nat (g - 2).
Proof.
  intros Hg. assert (P : (2 <= IZR g)%R) by (apply (IZR_le 2), Hg). unfold dct_weights. rewrite !xofZ_fin, xPI.
  assert (F : forall i, (let a := @ndiv XR (@nmul XR (@nopp XR (nofZ i)) (Fin PI)) (nofZ (2 * g)) in (@nmul XR (Fin 2) (ncos a), @nmul XR (Fin 2) (nsin a))) =
     cfin (2 * cos (- IZR i * PI / (2 * IZR g)), 2 * sin (- IZR i * PI / (2 * IZR g)))%R).
  { intros i. cbv zeta. rewrite !xofZ_fin, xopp_fin, xmul_fin, mult_IZR, xdiv_fin by lra. rewrite xcos_fin, xsin_fin, !xmul_fin. reflexivity. }
  rewrite (map_ext _ _ F). assert (ZR : zrange 1 g = zrange 1 (g - 1) ++ [g - 1]) by (rewrite <- zrange_snoc by lia; f_equal; lia). rewrite ZR, map_app. cbn [map].
  exists (map (fun i => (2 * cos (- IZR i * PI / (2 * IZR g)), 2 * sin (- IZR i * PI / (2 * IZR g)))%R) (zrange 1 (g - 1))).
  split; [|rewrite map_length, zrange_length; f_equal; lia]. rewrite map_map. do 3 f_equal. unfold cfin. cbn [fst snd].
  rewrite minus_IZR. replace (- (IZR g - 1) * PI / (2 * IZR g))%R with (- (PI / 2 - PI / (2 * IZR g)))%R by (field; lra).
  rewrite cos_neg, sin_neg, cos_shift, sin_shift. f_equal. f_equal. ring.
Qed.
Lemma dft_head x l : exists im rest, dft (x :: l) = (Rsum (x :: l), im) :: rest.
Proof.
  unfold dft. match goal with |- exists im rest, map ?F _ = _ =>
    change (map F (seq 0 (length (x :: l)))) with (F 0%nat :: map F (seq 1 (length l))) end.
  cbv beta. do 2 eexists. apply (f_equal2 (@cons (R * R))); [|reflexivity]. apply (f_equal2 (@pair R R)); [|reflexivity].
  transitivity (Rsum (map (fun j => nth j (x :: l) 0%R) (seq 0 (length (x :: l))))); [|f_equal; symmetry; apply fins_seq; reflexivity].
  apply Rsum_ext. intros j _. cbn [Nat.mul INR].
  replace (2 * PI * 0 / _)%R with 0%R by (unfold Rdiv; ring). rewrite cos_0. ring.
Qed.
Theorem dct_refuted : forall fft n, exact_fft fft -> 1 <= n -> let g := Z.to_nat (2 * n) in
  exists M Y, mshape M g g /\ dct2 fft (finm M) = Ok Y /\ dctII g M 0 0 = 1%R /\
    nth 0 (nth 0 Y []) NaN = Fin (2 * sin (PI / (2 * IZR (2 * n)))) /\ (2 * sin (PI / (2 * IZR (2 * n))) <> 1)%R.
Proof.
  intros fft n HF Hn g. set (m := Z.to_nat (n - 1)). assert (Eg : g = (2 * m + 2)%nat) by (unfold g, m; lia).
  assert (EZ : (2 * n = Z.of_nat g)) by (unfold g; lia).
  destruct (dct_weights_exact (2 * n) ltac:(lia)) as (W & EW & LW). set (c := (2 * sin (PI / (2 * IZR (2 * n))))%R) in *.
  set (c' := (- (2 * cos (PI / (2 * IZR (2 * n)))))%R) in *.
  set (zrow := repeat 0%R g). set (urow := 1%R :: repeat 0%R (g - 1)).
  set (M := zrow :: urow :: repeat zrow (2 * m)).
  assert (HM : mshape M g g).
  { split; [unfold M; cbn [length]; rewrite repeat_length; lia|]. intros r [<-|[<-|Hr]].
    - apply repeat_length.
    - unfold urow. cbn [length]. rewrite repeat_length. lia.
    - apply repeat_spec in Hr. subst r. apply repeat_length. }
  set (zf := fins (repeat 0%R g)). set (crow := fins (repeat 0%R (2 * m + 1) ++ [c])).
  assert (E1 : dct1 fft (finm M) (dct_weights (2 * n)) = Ok (repeat zf (2 * m + 1) ++ [fins (repeat c g)])).
  { unfold dct1, M, finm. cbn [map]. rewrite map_repeat'. rewrite reorder_unit. rewrite EW.
    rewrite bcast_same by (cbn [length]; rewrite !app_length, map_length, repeat_length, LW; cbn [length]; lia).
    f_equal. change ((Fin 1, Fin 0) :: map cfin W ++ [(Fin c, Fin c')]) with (map cfin ((1, 0)%R :: W) ++ [(Fin c, Fin c')]).
    assert (LW' : length ((1, 0)%R :: W) = (2 * m + 1)%nat) by (cbn [length]; lia). revert LW'. generalize ((1, 0)%R :: W) as V. clear - HF Eg.
    generalize (2 * m + 1)%nat as k. intros k V LV. subst k. unfold zipwith. induction V as [|[v1 v2] V IH].
    - cbn [map app length repeat combine fst snd]. f_equal. unfold urow. rewrite row_unit by exact HF. f_equal. f_equal. lia.
    - cbn [map app length repeat combine fst snd]. f_equal; [|exact IH]. unfold cfin. cbn [fst snd]. unfold zrow, zf. apply row_zero, HF. }
  assert (E2 : transpose g (repeat zf (2 * m + 1) ++ [fins (repeat c g)]) = repeat crow (2 * (m + 1))).
  { unfold transpose. transitivity (map (fun _ : nat => crow) (seq 0 g)).
    - apply map_ext_in. intros j Hj. apply in_seq in Hj. unfold col. rewrite map_app, map_repeat'. cbn [map]. unfold crow, fins.
      rewrite map_app, map_repeat'. cbn [map]. f_equal.
      + unfold zf, fins. rewrite !map_repeat'. apply (f_equal (fun x => repeat x (2 * m + 1))). apply nth_repeat_in. lia.
      + apply (f_equal (fun x => [x])). apply nth_repeat_in. lia.
    - rewrite map_const, seq_length. f_equal. lia. }
  assert (Lc : length crow = g) by (unfold crow; rewrite fins_length, app_length, repeat_length; cbn [length]; lia).
  assert (E3 : exists b0 bs, dct1 fft (repeat crow (2 * (m + 1))) (dct_weights (2 * n)) = Ok ((Fin c :: b0) :: bs)).
  { unfold dct1. rewrite reorder_const, EW.
    rewrite bcast_same by (cbn [length]; rewrite app_length, map_length, repeat_length, LW; cbn [length]; lia).
    replace (2 * (m + 1))%nat with (S (2 * m + 1)) by lia. cbn [repeat]. unfold zipwith. cbn [combine map fst snd].
    assert (H0 : exists b0, dct_row fft (Fin 1, Fin 0) crow = Fin c :: b0).
    { unfold dct_row, crow. rewrite HF.
      assert (LL : exists x l, (repeat 0%R (2 * m + 1) ++ [c]) = x :: l) by (replace (2 * m + 1)%nat with (S (2 * m)) by lia; do 2 eexists; reflexivity).
      assert (SC : Rsum (repeat 0%R (2 * m + 1) ++ [c]) = c).
      { rewrite Rsum_app. cbn [Rsum]. 
        assert (Z : Rsum (repeat 0%R (2 * m + 1)) = 0%R) by (clear; induction (2 * m + 1)%nat as [|k IH]; cbn; [reflexivity | rewrite IH; ring]).
        rewrite Z. ring. }
      destruct LL as (x & l & LL). rewrite LL in SC |- *. destruct (dft_head x l) as (im & rest & ->). rewrite SC.
      cbn [map fst snd]. eexists. apply (f_equal2 (@cons XR)); [|reflexivity].
      rewrite !xmul_fin, xsub_fin. f_equal. ring. }
    destruct H0 as [b0 ->]. do 2 eexists. reflexivity. }
  destruct E3 as (b0 & bs & E3). exists M. eexists. split; [exact HM|]. split; [|split; [|split]].
  - unfold dct2. destruct HM as [HL HR].
    assert (HC : ncols (finm M) = g) by (unfold finm, M; cbn [map ncols]; rewrite fins_length; apply repeat_length).
    unfold finm at 1. rewrite map_length, HL, HC, Nat.eqb_refl. cbn [negb].
    assert (HZ : zlen (finm M) = 2 * n) by (unfold finm, zlen; rewrite map_length, HL; lia).
    rewrite HZ, E1. cbn [bind]. assert (HN : ncols (repeat zf (2 * m + 1) ++ [fins (repeat c g)]) = g).
    { replace (2 * m + 1)%nat with (S (2 * m)) by lia. cbn [repeat app ncols]. unfold zf. rewrite fins_length. apply repeat_length. }
    rewrite HN, E2, E3. cbn [bind]. reflexivity.
  - unfold dctII, dct_c. cbn [Nat.eqb]. rewrite Rmult_1_l, Rmult_1_l.
    rewrite (Rsum_ext _ (fun i => Rsum (nth i M []))).
    + assert (EM : map (fun i => Rsum (nth i M [])) (seq 0 g) = map Rsum M).
      { destruct HM as [HL _]. rewrite <- HL. clear. apply nth_ext with (d := 0%R) (d' := Rsum []); [rewrite !map_length, seq_length; reflexivity|].
        intros i Hi. rewrite map_length, seq_length in Hi. rewrite (nth_map_seq (fun i => Rsum (nth i M []))) by exact Hi. rewrite map_nth. reflexivity. }
      rewrite EM. unfold M. cbn [map Rsum]. rewrite map_repeat'.
      assert (Z : forall k, Rsum (repeat 0%R k) = 0%R) by (clear; intros k; induction k as [|k IH]; cbn; [reflexivity | rewrite IH; ring]).
      unfold zrow, urow. cbn [Rsum]. rewrite !Z. ring.
    + intros i Hi. apply in_seq in Hi. destruct HM as [HL HR].
      assert (Lr : length (nth i M []) = g) by (apply HR, nth_In; lia).
      transitivity (Rsum (map (fun j => nth j (nth i M []) 0%R) (seq 0 g))); [|f_equal; symmetry; apply fins_seq; exact Lr].
      apply Rsum_ext. intros j _. cbn [INR].
      replace (PI * 0 * _ / _)%R with 0%R by (unfold Rdiv; ring). replace (PI * 0 * _ / _)%R with 0%R by (unfold Rdiv; ring). rewrite cos_0. ring.
  - cbn [ncols length transpose seq map col nth]. reflexivity.
  - unfold c. assert (P : (2 <= IZR (2 * n))%R) by (apply (IZR_le 2); lia). pose proof PI_RGT_0 as HP. pose proof PI_4 as H4.
    destruct (Z.eq_dec n 1) as [->|Hn1].
    + change (2 * 1) with 2. intros C. assert (S : (sin (PI / 6) < sin (PI / (2 * 2)))%R) by (apply sin_increasing_1; lra).
      rewrite sin_PI6 in S. lra.
    + assert (P4 : (4 <= IZR (2 * n))%R) by (apply (IZR_le 4); lia). intros C.
      assert (U : (PI / (2 * IZR (2 * n)) <= PI / 8)%R).
      { unfold Rdiv. apply Rmult_le_compat_l; [lra|]. apply Rinv_le_contravar; lra. }
      assert (U0 : (0 < PI / (2 * IZR (2 * n)))%R) by (apply Rdiv_lt_0_compat; lra).
      assert (S : (sin (PI / (2 * IZR (2 * n))) < sin (PI / 6))%R) by (apply sin_increasing_1; lra).
      rewrite sin_PI6 in S. lra.
Qed.

(** ** Rotation *)
Theorem rotation_slope : forall u w, length u = length w -> u <> [] -> rvar u <> 0%R ->
  k_rotation (fins u) (fins w) = Fin (atan (rcov u w / rvar u)).
Proof.
  intros u w HL Hne Hv. pose proof (tri_rotation_exact u w HL Hne Hv) as T. unfold tri_rotation in T.
  rewrite bcast_same in T by (rewrite !fins_length; exact HL). cbn [bind] in T. injection T as T. exact T.
Qed.
