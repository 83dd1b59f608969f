(** Proofs about the bivariate kernel: transform, scaling, root search, output. *)
From Coq Require Import Reals Lra Lia.
From Flocq Require Import Core.Raux.
From Verif Require Import NpBase Lib XR F64 M_descriptive M_series M_detection M_kernel Spec Spec2 LibR P_descriptive P_order P_ssa P_detect P_phase P_kern P_brent P_normal P_hist.
Local Open Scope Z_scope.

(** ** Shape of the transform, every number type *)
Lemma evens_even {A} n : forall l : list A, length l = (2 * n)%nat -> length (evens l) = n.
Proof.
  induction n as [|n IH]; intros [|x [|y l]] H; cbn [length] in H; try lia; [reflexivity|].
  cbn [evens length]. rewrite IH by lia. reflexivity.
Qed.
Lemma evens_odd {A} n : forall l : list A, length l = (2 * n + 1)%nat -> length (evens l) = S n.
Proof.
  induction n as [|n IH]; intros [|x [|y l]] H; cbn [length] in H; try lia; [reflexivity|].
  cbn [evens length]. rewrite IH by lia. reflexivity.
Qed.
Lemma in_evens {A} (x : A) : forall n l, length l = n -> In x (evens l) -> In x l.
Proof.
  induction n as [n IH] using (well_founded_induction lt_wf). intros [|a [|b l]] H; cbn [evens]; try tauto.
  intros [->|Hi]; [left; reflexivity|]. right; right. cbn [length] in H. apply (IH (length l)); [lia | reflexivity | exact Hi].
Qed.
Lemma dct_weights_length {N : Num} g : 1 <= g -> length (@dct_weights N g) = Z.to_nat g.
Proof. intros H. unfold dct_weights. cbn [length]. rewrite map_length, zrange_length. lia. Qed.
Lemma bcast_bad {A B C} (f : A -> B -> C) a b : length a <> length b -> (2 <= length a)%nat -> (2 <= length b)%nat ->
  bcast f a b = Raise ValueError.
Proof.
  intros H Ha Hb. unfold bcast. rewrite (proj2 (Nat.eqb_neq _ _)) by exact H.
  destruct a as [|x [|y a]], b as [|u [|v b]]; cbn [length] in *; try lia; reflexivity.
Qed.
Lemma in_zipwith {A B C} (f : A -> B -> C) a b c : In c (zipwith f a b) -> exists x y, In x a /\ In y b /\ c = f x y.
Proof.
  unfold zipwith. intros H. apply in_map_iff in H. destruct H as ([x y] & <- & H).
  exists x, y. split; [eapply in_combine_l, H | split; [eapply in_combine_r, H | reflexivity]].
Qed.
Theorem dct_odd : forall (N : Num) (fft : list N -> list (N * N)) data n, (1 <= n)%nat ->
  length data = (2 * n + 1)%nat -> dct2 fft data = Raise ValueError.
Proof.
  intros N fft data n Hn HL. unfold dct2. destruct (negb _); [reflexivity|].
  unfold dct1 at 1. rewrite bcast_bad; [reflexivity| | |];
    rewrite ?dct_weights_length by (unfold zlen; lia);
    rewrite ?app_length, ?(evens_odd n data HL), ?(evens_odd n (rev data)) by (rewrite rev_length; exact HL);
    unfold zlen; rewrite ?HL; lia.
Qed.
Lemma dct1_even (N : Num) (fft : list N -> list (N * N)) data w n c :
  (forall r, length (fft r) = length r) -> length data = (2 * n)%nat -> length w = (2 * n)%nat ->
  (forall r, In r data -> length r = c) ->
  exists m, dct1 fft data w = Ok m /\ length m = (2 * n)%nat /\ forall r, In r m -> length r = c.
Proof.
  intros HF HL HW HR. unfold dct1.
  assert (HE : length (evens data ++ evens (rev data)) = (2 * n)%nat).
  { rewrite app_length, (evens_even n data HL), (evens_even n (rev data)) by (rewrite rev_length; exact HL). lia. }
  rewrite bcast_same by congruence. eexists. split; [reflexivity|]. split; [rewrite zipwith_length; lia|].
  intros r Hr. apply in_zipwith in Hr. destruct Hr as (x & y & _ & Hy & ->). unfold dct_row. rewrite map_length, HF.
  apply HR. apply in_app_or in Hy. destruct Hy as [Hy|Hy]; apply in_evens with (1 := eq_refl) in Hy; [exact Hy|].
  apply in_rev, Hy.
Qed.
Lemma transpose_shape {N : Num} k (m : list (list N)) :
  length (transpose k m) = k /\ forall r, In r (transpose k m) -> length r = length m.
Proof.
  unfold transpose. split; [rewrite map_length, seq_length; reflexivity|]. intros r Hr. apply in_map_iff in Hr.
  destruct Hr as (j & <- & _). apply map_length.
Qed.
Lemma ncols_square {N : Num} (m : list (list N)) k c : length m = S k -> (forall r, In r m -> length r = c) -> ncols m = c.
Proof. intros HL HR. destruct m as [|r m]; [discriminate|]. apply HR. left. reflexivity. Qed.
Theorem dct_even : forall (N : Num) (fft : list N -> list (N * N)) data n, (1 <= n)%nat ->
  (forall r, length (fft r) = length r) -> length data = (2 * n)%nat -> (forall r, In r data -> length r = (2 * n)%nat) ->
  exists m, dct2 fft data = Ok m /\ length m = (2 * n)%nat /\ forall r, In r m -> length r = (2 * n)%nat.
Proof.
  intros N fft data n Hn HF HL HR. unfold dct2. assert (HL' : length data = S (2 * n - 1)) by lia.
  rewrite (ncols_square _ _ _ HL' HR), HL, Nat.eqb_refl. cbn [negb].
  assert (HW : length (@dct_weights N (zlen data)) = (2 * n)%nat) by (rewrite dct_weights_length by (unfold zlen; lia); unfold zlen; lia).
  destruct (dct1_even N fft data _ n _ HF HL HW HR) as (a & Ea & La & Ra). rewrite Ea. cbn [bind].
  rewrite (ncols_square a (2 * n - 1) (2 * n)) by (assumption || lia).
  destruct (transpose_shape (2 * n) a) as [Lt Rt].
  destruct (dct1_even N fft (transpose (2 * n) a) _ n (2 * n) HF Lt HW) as (b & Eb & Lb & Rb);
    [intros r Hr; rewrite (Rt r Hr); exact La|].
  rewrite Eb. cbn [bind]. rewrite (ncols_square b (2 * n - 1) (2 * n)) by (assumption || lia).
  destruct (transpose_shape (2 * n) b) as [Lt' Rt']. eexists. split; [reflexivity|]. split; [exact Lt'|].
  intros r Hr. rewrite (Rt' r Hr). exact Lb.
Qed.
Theorem kernel_odd : forall (N : Num) fft search (xs ys : list N) hx hy grid, 3 <= grid -> Z.odd grid = true ->
  bivariate_kernel fft search xs ys hx hy grid = Raise ValueError.
Proof.
  intros N fft search xs ys hx hy grid Hg Ho. unfold bivariate_kernel.
  assert (S : forall d : list N, k_scaling d = Raise ValueError \/ exists a b c, k_scaling d = Ok (a, b, c)).
  { intros [|x d]; [left; reflexivity|]. right. unfold k_scaling. cbn [arr_max arr_min bind]. eauto. }
  destruct (S xs) as [->|(a & b & c & ->)]; [reflexivity|]. cbn [bind].
  destruct (S ys) as [->|(a' & b' & c' & ->)]; [reflexivity|]. cbn [bind].
  destruct (hist_total N (combine (k_transform xs b c) (k_transform ys b' c')) grid ltac:(lia)) as (m & -> & HL & HR). cbn [bind].
  apply Z.odd_spec in Ho. destruct Ho as [k Hk].
  rewrite (dct_odd N fft m (Z.to_nat k)); [reflexivity | lia | rewrite HL; lia].
Qed.

(** ** Scaling *)
Lemma existsb_nan_fins l : existsb (@nisnan XR) (fins l) = false.
Proof. induction l; [reflexivity | exact IHl]. Qed.
Lemma arr_max_fins l : l <> [] -> exists b, is_max l b /\ arr_max (fins l) = Ok (Fin b).
Proof.
  intros H. destruct l as [|x l]; [congruence|]. unfold arr_max. cbn [fins map].
  change (existsb nisnan (Fin x :: map Fin l)) with (existsb (@nisnan XR) (fins (x :: l))). rewrite existsb_nan_fins.
  destruct (np_max_spec XR_ord (Fin x) (map Fin l)) as (A & B & _); [reflexivity| |].
  { intros y Hy. apply in_map_iff in Hy. destruct Hy as (z & <- & _). reflexivity. }
  change (Fin x :: map Fin l) with (map Fin (x :: l)) in A, B. apply in_map_iff in A. destruct A as (b & Eb & Hb).
  exists b. rewrite <- Eb in B |- *. split; [|reflexivity]. split; [exact Hb|]. intros y Hy.
  specialize (B (Fin y) (in_map Fin _ _ Hy)). rewrite xleb_fin in B. destruct (Rle_bool_spec y b); [assumption | discriminate].
Qed.
Lemma arr_min_fins l : l <> [] -> exists a, is_min l a /\ arr_min (fins l) = Ok (Fin a).
Proof.
  intros H. destruct l as [|x l]; [congruence|]. unfold arr_min. cbn [fins map].
  change (existsb nisnan (Fin x :: map Fin l)) with (existsb (@nisnan XR) (fins (x :: l))). rewrite existsb_nan_fins.
  destruct (np_min_spec XR_ord (Fin x) (map Fin l)) as (A & B & _); [reflexivity| |].
  { intros y Hy. apply in_map_iff in Hy. destruct Hy as (z & <- & _). reflexivity. }
  change (Fin x :: map Fin l) with (map Fin (x :: l)) in A, B. apply in_map_iff in A. destruct A as (b & Eb & Hb).
  exists b. rewrite <- Eb in B |- *. split; [|reflexivity]. split; [exact Hb|]. intros y Hy.
  specialize (B (Fin y) (in_map Fin _ _ Hy)). rewrite xleb_fin in B. destruct (Rle_bool_spec b y); [assumption | discriminate].
Qed.
Lemma is_max_unique l a b : is_max l a -> is_max l b -> a = b.
Proof. intros [Ha A] [Hb B]. apply Rle_antisym; auto. Qed.
Lemma is_min_unique l a b : is_min l a -> is_min l b -> a = b.
Proof. intros [Ha A] [Hb B]. apply Rle_antisym; auto. Qed.
Lemma is_max_ne l a : is_max l a -> l <> [].
Proof. intros [H _] ->. exact H. Qed.
Lemma scaling_exact l a b : is_min l a -> is_max l b -> k_scaling (fins l) = Ok (Fin b, Fin a, Fin (b - a)).
Proof.
  intros Ha Hb. unfold k_scaling.
  destruct (arr_max_fins l (is_max_ne _ _ Hb)) as (b' & Hb' & ->). rewrite (is_max_unique l b' b Hb' Hb). cbn [bind].
  destruct (arr_min_fins l (is_max_ne _ _ Hb)) as (a' & Ha' & ->). rewrite (is_min_unique l a' a Ha' Ha). reflexivity.
Qed.
Theorem scaling_unit : forall l a b, is_min l a -> is_max l b ->
  k_scaling (fins l) = Ok (Fin b, Fin a, Fin (b - a)) /\
  ((a < b)%R -> exists t, k_transform (fins l) (Fin a) (Fin (b - a)) = fins t /\
     t = map (fun x => ((x - a) / (b - a))%R) l /\ Forall (fun x => (0 <= x <= 1)%R) t /\ In 0%R t /\ In 1%R t) /\
  (a = b -> k_transform (fins l) (Fin a) (Fin (b - a)) = map (fun _ => NaN) l).
Proof.
  intros l a b Ha Hb. split; [apply scaling_exact; assumption|]. destruct Ha as [Ha HA], Hb as [Hb HB]. split.
  - intros Hab. eexists. split; [|split; [reflexivity|]].
    + unfold k_transform, fins. rewrite !map_map. apply map_ext. intros x. rewrite xsub_fin, xdiv_fin by lra. reflexivity.
    + split; [|split].
      * apply Forall_forall. intros x Hx. apply in_map_iff in Hx. destruct Hx as (y & <- & Hy).
        pose proof (HA y Hy). pose proof (HB y Hy). split.
        -- apply Rmult_le_pos; [lra | left; apply Rinv_0_lt_compat; lra].
        -- apply Rmult_le_reg_r with (b - a)%R; [lra|]. replace ((y - a) / (b - a) * (b - a))%R with (y - a)%R by (field; lra). lra.
      * apply in_map_iff. exists a. split; [field; lra | exact Ha].
      * apply in_map_iff. exists b. split; [field; lra | exact Hb].
  - intros <-. unfold k_transform, fins. rewrite map_map. apply map_ext_in. intros x Hx.
    assert (x = a) by (apply Rle_antisym; auto). subst x. rewrite xsub_fin, Rminus_diag_eq by reflexivity. apply xdiv_00.
Qed.

(** ** np.arange *)
Lemma arange_fin start stop step : step <> 0%R ->
  @arange XR (Fin start) (Fin stop) (Fin step) =
  Ok (map (fun i => Fin (start + IZR i * step)) (zrange 0 (Zceil ((stop - start) / step)))).
Proof.
  intros H. unfold arange. rewrite xsub_fin, xdiv_fin by exact H. cbn [nisfin nceilZ XR negb]. f_equal.
  apply map_ext. intros i. destruct (Z.eqb_spec i 0) as [->|]; [rewrite Rmult_0_l, Rplus_0_r; reflexivity|].
  destruct (Z.eqb_spec i 1) as [->|]; rewrite ?xofZ_fin, ?xadd_fin, ?xsub_fin, ?xmul_fin, ?xadd_fin; f_equal; lra.
Qed.
Lemma Zceil_within z x : (IZR z - 1 < x <= IZR z)%R -> Zceil x = z.
Proof. intros H. apply Zceil_imp. rewrite minus_IZR. exact H. Qed.
Lemma lit11 : @lit XR 1 1 = Fin (1 / 10).
Proof. unfold lit. rewrite !xofZ_fin. rewrite xdiv_fin; [reflexivity|]. apply (IZR_neq 10 0). lia. Qed.
Lemma axis_exact a b g : 2 <= g -> (a < b)%R ->
  @arange XR (Fin a) (@nadd XR (Fin b) (@nmul XR (lit 1 1) (@ndiv XR (Fin (b - a)) (nofZ (g - 1))))) (@ndiv XR (Fin (b - a)) (nofZ (g - 1))) =
  Ok (fins (map (fun i => (a + INR i * ((b - a) / (IZR g - 1)))%R) (seq 0 (Z.to_nat g)))).
Proof.
  intros Hg Hab. assert (P : (2 <= IZR g)%R) by (apply (IZR_le 2), Hg).
  rewrite xofZ_fin, minus_IZR, xdiv_fin by lra. rewrite lit11, xmul_fin, xadd_fin.
  set (st := ((b - a) / (IZR g - 1))%R). assert (S : (0 < st)%R) by (apply Rdiv_lt_0_compat; lra).
  rewrite arange_fin by lra.
  rewrite (Zceil_within g).
  - unfold zrange, fins. rewrite !map_map. rewrite Z.sub_0_r. apply (f_equal (@Ok (list XR))). apply map_ext. intros i. rewrite Z.add_0_l, <- INR_IZR_INZ. reflexivity.
  - replace ((b + 1 / 10 * st - a) / st)%R with (IZR g - 1 + 1 / 10)%R; [lra|].
    unfold st. field. lra.
Qed.

(** ** The returned arrays *)
Theorem kernel_nonneg : forall (N : Num) fft search (xs ys : list N) hx hy grid dm xm ym,
  nltb (ndiv (nofZ 1) (nofZ (2 ^ 52))) (@nofZ N 0) = false -> nltb (@nofZ N 0) (nofZ 0) = false ->
  bivariate_kernel fft search xs ys hx hy grid = Ok (dm, xm, ym) ->
  forall r v, In r dm -> In v r -> nltb v (nofZ 0) = false.
Proof.
  intros N fft search xs ys hx hy grid dm xm ym He Hz H r v Hr Hv. unfold bivariate_kernel in H.
  apply bind_ok in H. destruct H as ([[? ?] ?] & _ & H).
  apply bind_ok in H. destruct H as ([[? ?] ?] & _ & H).
  apply bind_ok in H. destruct H as (? & _ & H). apply bind_ok in H. destruct H as (? & _ & H).
  apply bind_ok in H. destruct H as (? & _ & H). apply bind_ok in H. destruct H as (? & _ & H).
  apply bind_ok in H. destruct H as (? & _ & H). apply bind_ok in H. destruct H as (? & _ & H).
  apply bind_ok in H. destruct H as (? & _ & H). cbn [meshgrid] in H. injection H as <- _ _.
  unfold transpose in Hr. apply in_map_iff in Hr. destruct Hr as (j & <- & _). unfold col in Hv.
  apply in_map_iff in Hv. destruct Hv as (row & <- & Hrow). apply in_map_iff in Hrow. destruct Hrow as (row' & <- & _).
  match goal with |- context [nth j (map ?f row') ?d] => destruct (nth_in_or_default j (map f row') d) as [Hi|Hd] end.
  - apply in_map_iff in Hi. destruct Hi as (z & <- & _).
    match goal with |- context [if ?c then _ else _] => destruct c eqn:Ec end; [exact He | exact Ec].
  - rewrite Hd. exact Hz.
Qed.
Lemma meshgrid_fins x y : @meshgrid XR (fins x) (fins y) = (finm (map (fun _ => x) y), finm (map (fun v => map (fun _ => v) x) y)).
Proof.
  unfold meshgrid, finm, fins. rewrite !map_map. f_equal. apply map_ext. intros v. rewrite !map_map. reflexivity.
Qed.
Theorem kernel_grid : forall fft search xs ys hx hy n a0 b0 a1 b1, 1 <= n ->
  (forall r, length (fft r) = length r) -> (forall m k, exists t, search m k = Ok t) ->
  is_min xs a0 -> is_max xs b0 -> is_min ys a1 -> is_max ys b1 -> (a0 < b0)%R -> (a1 < b1)%R ->
  let g := Z.to_nat (2 * n) in
  let axis a b := map (fun i => (a + INR i * ((b - a) / (IZR (2 * n) - 1)))%R) (seq 0 g) in
  exists dm, @bivariate_kernel XR fft search (fins xs) (fins ys) hx hy (2 * n) =
    Ok (dm, finm (map (fun _ => axis a0 b0) (axis a1 b1)), finm (map (fun y => map (fun _ => y) (axis a0 b0)) (axis a1 b1))) /\
    length dm = g /\ (forall r, In r dm -> length r = g).
Proof.
  intros fft search xs ys hx hy n a0 b0 a1 b1 Hn HF HS Hm0 HM0 Hm1 HM1 H0 H1 g axis. unfold bivariate_kernel.
  rewrite (scaling_exact xs a0 b0 Hm0 HM0), (scaling_exact ys a1 b1 Hm1 HM1). cbn [bind].
  destruct (hist_total XR (combine (k_transform (fins xs) (Fin a0) (Fin (b0 - a0))) (k_transform (fins ys) (Fin a1) (Fin (b1 - a1)))) (2 * n) ltac:(lia))
    as (m & -> & HL & HR). cbn [bind].
  assert (Eg : g = (2 * Z.to_nat n)%nat) by (unfold g; lia). fold g in HL, HR. rewrite Eg in HL, HR.
  destruct (dct_even XR fft m (Z.to_nat n) ltac:(lia) HF HL HR) as (D & -> & DL & DR). cbn [bind].
  destruct (HS D (zlen (fins xs) + zlen (fins ys))) as (t & ->). cbn [bind].
  rewrite bcast_same by (rewrite !map_length, zrange_length; lia). cbn [bind].
  match goal with |- context [dct2 fft ?at_] => set (A := at_) end.
  assert (AL : length A = (2 * Z.to_nat n)%nat).
  { unfold A. rewrite zipwith_length, !map_length, zrange_length. lia. }
  assert (AR : forall r, In r A -> length r = (2 * Z.to_nat n)%nat).
  { intros r Hr. unfold A in Hr. apply in_zipwith in Hr. destruct Hr as (v & row & _ & Hrow & ->). specialize (DR row Hrow).
    match goal with |- context [match ?l with _ => _ end] => assert (LL : length l = (2 * Z.to_nat n)%nat) by (rewrite !map_length, zrange_length; lia);
      destruct l as [|z1 [|z2 zs]] end; cbn [length] in LL; try lia.
    rewrite zipwith_length. cbn [length]. lia. }
  clearbody A.
  destruct (dct_even XR fft A (Z.to_nat n) ltac:(lia) HF AL AR) as (B & -> & BL & BR). cbn [bind].
  rewrite !axis_exact by (assumption || lia). cbn [bind]. fold g. fold (axis a0 b0). fold (axis a1 b1).
  rewrite meshgrid_fins. eexists. split; [reflexivity|].
  match goal with |- context [transpose (ncols ?d) ?d] => set (Dn := d) end.
  assert (DnL : length Dn = g) by (unfold Dn; rewrite map_length; lia).
  assert (DnC : ncols Dn = g).
  { apply (ncols_square Dn (g - 1)); [lia|]. intros r Hr. unfold Dn in Hr. apply in_map_iff in Hr. destruct Hr as (r' & <- & Hr').
    rewrite map_length, (BR r' Hr'). lia. }
  destruct (transpose_shape (ncols Dn) Dn) as [TL TR]. split; [congruence|]. intros r Hr. rewrite (TR r Hr). exact DnL.
Qed.
(** Constant data is rejected. *)
Theorem kernel_constant : forall fft search xs ys hx hy grid a, is_min xs a -> is_max xs a -> 
  forall out, @bivariate_kernel XR fft search (fins xs) (fins ys) hx hy grid <> Ok out.
Proof.
  intros fft search xs ys hx hy grid a Ha Hb out H. unfold bivariate_kernel in H.
  rewrite (scaling_exact xs a a Ha Hb) in H. cbn [bind] in H.
  apply bind_ok in H. destruct H as ([[? ?] ?] & _ & H).
  apply bind_ok in H. destruct H as (? & _ & H). apply bind_ok in H. destruct H as (? & _ & H).
  apply bind_ok in H. destruct H as (? & _ & H). apply bind_ok in H. destruct H as (? & _ & H).
  apply bind_ok in H. destruct H as (? & _ & H). apply bind_ok in H. destruct H as (xv & Hx & _).
  rewrite Rminus_diag_eq in Hx by reflexivity. rewrite xofZ_fin in Hx. 
  assert (E : exists s, @ndiv XR (Fin 0) (Fin (IZR (grid - 1))) = s /\ (s = Fin 0 \/ s = NaN)).
  { eexists. split; [reflexivity|]. destruct (Req_dec (IZR (grid - 1)) 0) as [->|Hz]; [right; apply xdiv_00|].
    left. rewrite xdiv_fin by exact Hz. f_equal. field. exact Hz. }
  destruct E as (s & Es & [-> | ->]); rewrite Es in Hx; unfold arange in Hx.
  - rewrite lit11, xmul_fin, xadd_fin, xsub_fin in Hx. replace (a + 1 / 10 * 0 - a)%R with 0%R in Hx by lra. rewrite xdiv_00 in Hx. discriminate.
  - rewrite lit11 in Hx. discriminate.
Qed.
