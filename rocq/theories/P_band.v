(** Proofs about the bandwidth functional and the root search of the bivariate kernel. *)
From Coq Require Import Reals Lra Lia.
From Flocq Require Import Core IEEE754.BinarySingleNaN.
From Verif Require Import NpBase Lib XR F64 M_descriptive M_series M_detection M_kernel Spec Spec2 LibR P_order P_moment P_series P_ssa P_ssa2 P_detect P_phase P_kern P_brent P_normal P_hist P_kernel P_float.
Local Open Scope Z_scope.
Local Existing Instance F64.prec_gt_0_53.
Local Existing Instance F64.prec_lt_emax_53.

(** ** _k *)
Lemma prod_odd n : @nprod XR (map (fun i => Fin (1 + IZR i * 2)) (zrange 0 (Z.of_nat n))) = Fin (odd_fact n).
Proof.
  induction n as [|n IH]; [reflexivity|]. replace (Z.of_nat (S n)) with (Z.of_nat n + 1) by lia.
  rewrite zrange_snoc by lia. rewrite map_app. cbn [map]. cbn [nprod XR] in *. 
  assert (E : forall l v, xprod (map Fin l ++ [Fin v]) = xmul (xprod (map Fin l)) (Fin v)).
  { induction l as [|x l IHl]; intros v; cbn [map app xprod fold_right].
    - cbn. f_equal. ring.
    - change (fold_right xmul (Fin 1) (map Fin l ++ [Fin v])) with (xprod (map Fin l ++ [Fin v])). rewrite IHl.
      assert (F : exists p, xprod (map Fin l) = Fin p).
      { clear. induction l as [|y l [p Hp]]; [eexists; reflexivity|]. cbn [map xprod fold_right].
        change (fold_right xmul (Fin 1) (map Fin l)) with (xprod (map Fin l)). rewrite Hp. eexists; reflexivity. }
      change (fold_right xmul (Fin 1) (map Fin l)) with (xprod (map Fin l)).
      destruct F as [p ->]. cbn. f_equal. ring. }
  specialize (E (map (fun i => (1 + IZR i * 2)%R) (zrange 0 (Z.of_nat n))) (1 + IZR (Z.of_nat n) * 2)%R).
  rewrite map_map in E. rewrite E, IH. cbn [xmul odd_fact]. f_equal. rewrite <- INR_IZR_INZ. ring.
Qed.
Theorem k_exact : forall s, @k_k XR s = Ok (Fin ((-1) ^ s * odd_fact s / sqrt (2 * PI))).
Proof.
  intros s. unfold k_k. rewrite !xofZ_fin, lit11, xmul_fin, xadd_fin. rewrite arange_fin by lra. cbn [bind].
  rewrite (Zceil_within (Z.of_nat s)).
  - rewrite prod_odd, xmul_fin. change (@npi XR) with (Fin PI). rewrite xmul_fin. pose proof two_PI_pos.
    rewrite xsqrt_fin by lra. rewrite xdiv_fin by (apply Rgt_not_eq, sqrt_lt_R0; lra). do 2 f_equal. rewrite <- pow_IZR. reflexivity.
  - rewrite minus_IZR, mult_IZR. lra.
Qed.
Lemma odd_fact_pos s : (0 < odd_fact s)%R.
Proof. induction s as [|s IH]; cbn [odd_fact]; [lra|]. apply Rmult_lt_0_compat; [|exact IH]. pose proof (pos_INR s). lra. Qed.

(** ** _psi *)
Lemma fins_seq (l : list R) n : length l = n -> l = map (fun i => nth i l 0%R) (seq 0 n).
Proof.
  intros <-. apply nth_ext with (d := 0%R) (d' := 0%R); [rewrite map_length, seq_length; reflexivity|].
  intros i Hi. rewrite (nth_map_seq (fun i => nth i l 0%R)) by exact Hi. reflexivity.
Qed.
Lemma zip_seq (f g : nat -> R) l : @zipwith XR XR XR nmul (map (fun i => Fin (f i)) l) (map (fun i => Fin (g i)) l) = map (fun i => Fin (f i * g i)) l.
Proof. induction l as [|x l IH]; [reflexivity|]. cbn [map]. unfold zipwith in *. cbn [combine map fst snd]. f_equal. exact IH. Qed.
Lemma dot_seq (f g : nat -> R) l : @dot XR (map (fun i => Fin (f i)) l) (map (fun i => Fin (g i)) l) = Fin (Rsum (map (fun i => (f i * g i)%R) l)).
Proof. unfold dot. rewrite zip_seq. rewrite <- xsum_fins. unfold fins. rewrite map_map. reflexivity. Qed.
Lemma xPI : @npi XR = Fin PI. Proof. reflexivity. Qed.
Theorem psi_exact : forall s0 s1 t ic A n, length ic = n -> mshape A n n -> (1 <= n)%nat ->
  @k_psi XR s0 s1 (Fin t) (fins ic) (finm A) = Fin (rpsi s0 s1 t ic A).
Proof.
  intros s0 s1 t ic A n HL [HA HR] Hn. unfold k_psi. rewrite fins_length, HL. 
  assert (EH : (@nofZ XR 1 :: repeat (@nmul XR (lit 5 1) (nofZ 1)) (n - 1)) =
               map (fun i => Fin (if Nat.eqb i 0 then 1 else / 2)) (seq 0 n)).
  { rewrite lit51, !xofZ_fin, xmul_fin. destruct n as [|n]; [lia|]. cbn [seq map Nat.eqb]. f_equal.
    replace (S n - 1)%nat with n by lia. rewrite <- (seq_length n 1) at 1.
    assert (G : forall i, In i (seq 1 n) -> (i > 0)%nat) by (intros i Hi; apply in_seq in Hi; lia).
    induction (seq 1 n) as [|i l IH]; [reflexivity|]. cbn [length repeat map]. f_equal.
    - destruct i; [specialize (G 0%nat (or_introl eq_refl)); lia|]. cbn. f_equal. lra.
    - apply IH. intros j Hj. apply G. right. exact Hj. }
  rewrite EH. clear EH.
  assert (EI : fins ic = map (fun i => Fin (nth i ic 0%R)) (seq 0 n)).
  { rewrite (fins_seq ic n HL) at 1. unfold fins. rewrite map_map. reflexivity. }
  rewrite EI, !map_map.
  assert (E1 : forall i, @nexp XR (@nmul XR (@nmul XR (@nopp XR (Fin (nth i ic 0%R))) (sq npi)) (Fin t)) = Fin (exp (- nth i ic 0%R * PI ^ 2 * t))).
  { intros i. rewrite xPI. unfold sq. rewrite xopp_fin, !xmul_fin. cbn [nexp XR xexp]. do 2 f_equal. ring. }
  rewrite (map_ext _ _ E1). rewrite zip_seq.
  assert (E2 : forall s i, @nipow XR (Fin (nth i ic 0%R)) s = Fin (nth i ic 0%R ^ s)) by (intros; apply xipow_fin).
  rewrite (map_ext _ _ (E2 s0)), (map_ext _ _ (E2 s1)). rewrite !zip_seq.
  assert (E3 : map (fun j => @dot XR (map (fun i => Fin (exp (- nth i ic 0%R * PI ^ 2 * t) * (if Nat.eqb i 0 then 1 else / 2) * nth i ic 0%R ^ s1)) (seq 0 n)) (col (finm A) j)) (seq 0 n) =
               map (fun j => Fin (Rsum (map (fun i => (heat_w t ic i * nth i ic 0%R ^ s1 * nth j (nth i A []) 0%R)%R) (seq 0 n)))) (seq 0 n)).
  { apply map_ext. intros j. rewrite col_finm.
    assert (EC : fins (rcol A j) = map (fun i => Fin (nth j (nth i A []) 0%R)) (seq 0 n)).
    { rewrite (fins_seq (rcol A j) n) by (unfold rcol; rewrite map_length; exact HA). unfold fins. rewrite map_map.
      apply map_ext_in. intros i Hi. apply in_seq in Hi. f_equal. unfold rcol.
      rewrite (nth_indep _ 0%R (nth j [] 0%R)) by (rewrite map_length; lia).
      apply (map_nth (fun r => nth j r 0%R)). }
    rewrite EC, dot_seq. reflexivity. }
  rewrite E3, dot_seq, xofZ_fin, xPI, xipow_fin, !xmul_fin. f_equal. unfold rpsi. rewrite HL, <- pow_IZR.
  rewrite Rmult_assoc, (Rmult_comm (Rsum _)), <- Rmult_assoc. f_equal.
  rewrite (Rsum_ext _ (fun j => Rsum (map (fun i => (heat_w t ic i * heat_w t ic j * nth i ic 0%R ^ s1 * nth j ic 0%R ^ s0 * nth j (nth i A []) 0%R)%R) (seq 0 n)))).
  - apply (sumn_swap n n (fun j i => (heat_w t ic i * heat_w t ic j * nth i ic 0%R ^ s1 * nth j ic 0%R ^ s0 * nth j (nth i A []) 0%R)%R)).
  - intros j _. rewrite <- Rsum_map_scal_r. apply Rsum_ext. intros i _. fold (heat_w t ic j). ring.
Qed.

(** ** Signs *)
Lemma sgn_sq k : ((-1) ^ k * (-1) ^ k = 1)%R.
Proof. rewrite <- Rpow_mult_distr. replace (-1 * -1)%R with 1%R by ring. apply pow1. Qed.
Lemma heat_w_pos t ic i : (0 < heat_w t ic i)%R.
Proof. unfold heat_w. apply Rmult_lt_0_compat; [apply exp_pos | destruct (Nat.eqb i 0); lra]. Qed.
Lemma Rsum_map_pos {A} (f : A -> R) l x : (forall y, In y l -> 0 <= f y)%R -> In x l -> (0 < f x)%R -> (0 < Rsum (map f l))%R.
Proof.
  intros H Hx Hp. destruct (Rle_lt_or_eq_dec _ _ (Rsum_map_nonneg f l H)) as [L|E]; [exact L|].
  pose proof (Rsum_zero_inv f l H (eq_sym E) x Hx). lra.
Qed.
Lemma nth_nonneg l i : (forall x, In x l -> 0 <= x)%R -> (0 <= nth i l 0)%R.
Proof. intros H. destruct (nth_in_or_default i l 0%R) as [Hi| ->]; [apply H, Hi | lra]. Qed.
Lemma entry_nonneg (A : list (list R)) i j : (forall r x, In r A -> In x r -> (0 <= x)%R) -> (0 <= nth j (nth i A []) 0%R)%R.
Proof.
  intros H. destruct (nth_in_or_default i A []) as [Hi| ->]; [apply nth_nonneg; intros x Hx; eapply H; eassumption | destruct j; cbn; lra].
Qed.
Lemma rpsi_sign s0 s1 t ic A : positive_mass ic A -> (0 < (-1) ^ (s0 + s1) * rpsi s0 s1 t ic A)%R.
Proof.
  intros (HI & HA & i & j & Hi & Hj & Pi & Pj & PA). unfold rpsi. rewrite <- !Rmult_assoc, sgn_sq, Rmult_1_l.
  apply Rmult_lt_0_compat; [apply pow_lt, PI_RGT_0|].
  assert (NN : forall a b, (0 <= heat_w t ic a * heat_w t ic b * nth a ic 0 ^ s1 * nth b ic 0 ^ s0 * nth b (nth a A []) 0)%R).
  { intros a b. pose proof (heat_w_pos t ic a). pose proof (heat_w_pos t ic b).
    apply Rmult_le_pos; [|apply entry_nonneg, HA]. apply Rmult_le_pos; [apply Rmult_le_pos|]; [nra| |]; apply pow_le, nth_nonneg, HI. }
  apply Rsum_map_pos with i; [intros a _; apply Rsum_map_nonneg; intros b _; apply NN | apply in_seq; lia |].
  apply Rsum_map_pos with j; [intros b _; apply NN | apply in_seq; lia |].
  pose proof (heat_w_pos t ic i). pose proof (heat_w_pos t ic j).
  apply Rmult_lt_0_compat; [|exact PA]. apply Rmult_lt_0_compat; [|apply pow_lt, Pj].
  apply Rmult_lt_0_compat; [|apply pow_lt, Pi]. apply Rmult_lt_0_compat; assumption.
Qed.
Lemma func_sign ic A m n : length ic = m -> mshape A m m -> (1 <= m)%nat -> positive_mass ic A -> 1 <= n ->
  forall depth s0 s1 t, exists v, k_func_rec depth s0 s1 (Fin t) n (fins ic) (finm A) = Ok (Fin v) /\ (0 < (-1) ^ (s0 + s1) * v)%R.
Proof.
  intros HL HA Hm HP Hn. induction depth as [|d IH]; intros s0 s1 t; cbn [k_func_rec].
  - rewrite (psi_exact s0 s1 t ic A m HL HA Hm). eexists. split; [reflexivity | apply rpsi_sign, HP].
  - destruct (IH (S s0) s1 t) as (f1 & -> & P1). destruct (IH s0 (S s1) t) as (f2 & -> & P2). cbn [bind].
    rewrite !k_exact. cbn [bind].
    assert (B : exists b, (0 < b)%R /\
      @ndiv XR (@ndiv XR (@nmul XR (@nmul XR (@nmul XR (nofZ (-2)) (@ndiv XR (@nadd XR (nofZ 1) (@ndiv XR (nofZ 1) (nofZ (2 ^ (Z.of_nat (s0 + s1) + 1))))) (nofZ 3)))
         (Fin ((-1) ^ s0 * odd_fact s0 / sqrt (2 * PI)))) (Fin ((-1) ^ s1 * odd_fact s1 / sqrt (2 * PI)))) (nofZ n)) (@nadd XR (Fin f1) (Fin f2)) = Fin b).
    { assert (N0 : (0 < IZR n)%R) by (apply (IZR_lt 0); lia).
      assert (T0 : (0 < IZR (2 ^ (Z.of_nat (s0 + s1) + 1)))%R) by (apply (IZR_lt 0); apply Z.pow_pos_nonneg; lia).
      pose proof two_PI_pos as TP. assert (Q : (0 < sqrt (2 * PI))%R) by (apply sqrt_lt_R0; lra).
      set (e := ((-1) ^ (s0 + s1))%R) in *. assert (Ee : (e * e = 1)%R) by apply sgn_sq.
      replace (S s0 + s1)%nat with (S (s0 + s1)) in P1 by lia. replace (s0 + S s1)%nat with (S (s0 + s1)) in P2 by lia.
      cbn [pow] in P1, P2. fold e in P1, P2.
      assert (SF : (f1 + f2 <> 0)%R) by nra.
      rewrite !xofZ_fin, xdiv_fin by lra. rewrite !xadd_fin. rewrite xdiv_fin by lra. rewrite !xmul_fin.
      rewrite xdiv_fin by lra. rewrite xdiv_fin by exact SF. eexists. split; [|reflexivity].
      set (T := IZR (2 ^ (Z.of_nat (s0 + s1) + 1))) in *. pose proof (odd_fact_pos s0) as O0. pose proof (odd_fact_pos s1) as O1.
      set (S := sqrt (2 * PI)) in *.
      assert (Es : ((-1) ^ s0 * (-1) ^ s1 = e)%R) by (unfold e; rewrite pow_add; reflexivity).
      assert (P3 : (0 < - (e * (f1 + f2)))%R) by lra.
      assert (TT : (0 < (1 + 1 / T) / 3)%R).
      { assert (0 < 1 / T)%R by (apply Rdiv_lt_0_compat; lra). lra. }
      set (c := ((1 + 1 / T) / 3)%R) in *.
      replace (-2 * c * ((-1) ^ s0 * odd_fact s0 / S) * ((-1) ^ s1 * odd_fact s1 / S) / IZR n / (f1 + f2))%R
        with (2 * c * odd_fact s0 * odd_fact s1 / (S * S) / IZR n / - (e * (f1 + f2)))%R.
      - repeat apply Rdiv_lt_0_compat; try assumption; [|nra]. apply Rmult_lt_0_compat; [apply Rmult_lt_0_compat; [lra|]|]; assumption.
      - replace (-2 * c * ((-1) ^ s0 * odd_fact s0 / S) * ((-1) ^ s1 * odd_fact s1 / S) / IZR n / (f1 + f2))%R
          with (-2 * c * ((-1) ^ s0 * (-1) ^ s1) * odd_fact s0 * odd_fact s1 / (S * S) / IZR n / (f1 + f2))%R by (field; lra).
        rewrite Es. assert (e <> 0)%R by nra.
        replace (-2 * c * e * odd_fact s0 * odd_fact s1 / (S * S) / IZR n / (f1 + f2))%R
          with (-2 * c * (e * e) * odd_fact s0 * odd_fact s1 / (S * S) / IZR n / (e * (f1 + f2)))%R by (field; lra).
        rewrite Ee. field. lra. }
    destruct B as (b & Hb & EB). unfold npow. rewrite EB. clear EB.
    rewrite !xofZ_fin, xdiv_fin by (apply (IZR_neq _ 0); lia).
    cbn [npow XR xpow]. rewrite Rlt_bool_true by exact Hb.
    rewrite (psi_exact s0 s1 _ ic A m HL HA Hm). eexists. split; [reflexivity | apply rpsi_sign, HP].
Qed.
Theorem evolve_defined : forall ic A m n t, length ic = m -> mshape A m m -> (1 <= m)%nat -> positive_mass ic A -> 1 <= n ->
  exists a, (0 < a)%R /\ k_evolve (Fin t) n (fins ic) (finm A) = Ok (Fin ((t - a) / a), Fin a).
Proof.
  intros ic A m n t HL HA Hm HP Hn. unfold k_evolve, k_func.
  destruct (func_sign ic A m n HL HA Hm HP Hn (5 - (0 + 2)) 0 2 t) as (f1 & -> & P1). cbn [bind].
  destruct (func_sign ic A m n HL HA Hm HP Hn (5 - (2 + 0)) 2 0 t) as (f2 & -> & P2). cbn [bind].
  destruct (func_sign ic A m n HL HA Hm HP Hn (5 - (1 + 1)) 1 1 t) as (f3 & -> & P3). cbn [bind].
  cbn [Nat.add pow] in P1, P2, P3. rewrite !xofZ_fin, xPI, !xmul_fin, !xadd_fin, !xmul_fin. rewrite xdiv_fin by lra.
  cbn [npow XR xpow]. assert (N0 : (1 <= IZR n)%R) by (apply (IZR_le 1), Hn).
  rewrite Rlt_bool_true.
  - eexists. assert (PP : forall x y, (0 < Rpower x y)%R) by (intros; apply exp_pos).
    split; [apply PP|]. rewrite xsub_fin, xdiv_fin by (apply Rgt_not_eq, PP). reflexivity.
  - pose proof PI_RGT_0. apply Rmult_lt_0_compat; [|lra]. apply Rmult_lt_0_compat; lra.
Qed.

(** ** Root search *)
Lemma root_tol_exact n : @root_tol XR n = Fin (tol0 n).
Proof.
  unfold root_tol, lit. rewrite !xofZ_fin. rewrite !xdiv_fin by (apply (IZR_neq _ 0); lia). rewrite xmul_fin.
  rewrite xdiv_fin by lra. rewrite xadd_fin. f_equal. unfold tol0.
  change (IZR (10 ^ 12)) with 1000000000000%R. change (IZR (10 ^ 2)) with 100%R.
  replace (Z.max 50 (Z.min n 1050)) with (if n <=? 50 then 50 else if 1050 <=? n then 1050 else n)
    by (destruct (Z.leb_spec n 50), (Z.leb_spec 1050 n); lia).
  replace ((10 ^ 12)%R) with 1000000000000%R by ring. replace ((10 ^ 5)%R) with 100000%R by ring. field.
Qed.
Lemma tol0_bounds n : (1 / 10 ^ 12 <= tol0 n < 1 / 10)%R.
Proof.
  unfold tol0. set (k := Z.max 50 (Z.min n 1050) - 50). assert (H : (0 <= IZR k <= 1000)%R) by (split; [apply (IZR_le 0) | apply (IZR_le _ 1000)]; lia).
  split; lra.
Qed.
Theorem root_search : forall (brentq : XR -> res XR) (fminbound : res XR) n, exists r (c : nat),
  @k_root XR 37 brentq fminbound n = Some (r, Z.of_nat c) /\ (1 <= c <= 37)%nat /\
  let tol k := (tol0 n * 2 ^ k)%R in
  (forall k, (k < c - 1)%nat -> brentq (Fin (tol k)) = Raise ValueError) /\ (tol (c - 1)%nat < 1 / 10)%R /\
  match brentq (Fin (tol (c - 1)%nat)) with
  | Ok t => r = Ok t
  | Raise ValueError => r = fminbound /\ (1 / 10 <= tol c)%R
  | Raise e => r = Raise e
  end.
Proof.
  intros bq fm n. unfold k_root. rewrite root_tol_exact. destruct (tol0_bounds n) as [B1 B2]. set (t0 := tol0 n) in *.
  assert (G : forall d k, (d + k = 37)%nat -> (0 < d)%nat -> (t0 * 2 ^ k < 1 / 10)%R ->
    (forall j, (j < k)%nat -> bq (Fin (t0 * 2 ^ j)%R) = Raise ValueError) ->
    exists r c, @root_loop XR d bq fm (Fin (t0 * 2 ^ k)) (Z.of_nat k) = Some (r, Z.of_nat c) /\ (1 <= c <= 37)%nat /\
      (forall j, (j < c - 1)%nat -> bq (Fin (t0 * 2 ^ j)%R) = Raise ValueError) /\ (t0 * 2 ^ (c - 1) < 1 / 10)%R /\
      match bq (Fin (t0 * 2 ^ (c - 1))%R) with
      | Ok t => r = Ok t | Raise ValueError => r = fm /\ (1 / 10 <= t0 * 2 ^ c)%R | Raise e => r = Raise e end).
  { induction d as [|d IH]; intros k Hd Hd0 Hlt Hprev; [lia|]. cbn [root_loop]. rewrite lit11.
    assert (C1 : (S k - 1 = k)%nat) by lia. assert (C2 : (Z.of_nat k + 1 = Z.of_nat (S k))) by lia.
    destruct (bq (Fin (t0 * 2 ^ k))) as [t|e] eqn:EB.
    - rewrite xleb_fin, Rle_bool_false by exact Hlt. exists (Ok t), (S k). rewrite C1, C2, EB.
      split; [reflexivity|]. split; [lia|]. split; [exact Hprev|]. split; [exact Hlt | reflexivity].
    - assert (O : e <> ValueError -> exists r c,
         Some (@Raise XR e, Z.of_nat k + 1) = Some (r, Z.of_nat c) /\ (1 <= c <= 37)%nat /\
         (forall j, (j < c - 1)%nat -> bq (Fin (t0 * 2 ^ j)%R) = Raise ValueError) /\ (t0 * 2 ^ (c - 1) < 1 / 10)%R /\
         match bq (Fin (t0 * 2 ^ (c - 1))%R) with
         | Ok t => r = Ok t | Raise ValueError => r = fm /\ (1 / 10 <= t0 * 2 ^ c)%R | Raise e => r = Raise e end).
      { intros He. exists (Raise e), (S k). rewrite C1, C2, EB. split; [reflexivity|]. split; [lia|].
        split; [exact Hprev|]. split; [exact Hlt|]. destruct e; congruence. }
      destruct e; try (apply O; discriminate). clear O.
      rewrite xofZ_fin, xmul_fin. replace (t0 * 2 ^ k * 2)%R with (t0 * 2 ^ S k)%R by (cbn [pow]; ring).
      unfold nmin2. rewrite xltb_fin.
      destruct (Rle_lt_dec (1 / 10) (t0 * 2 ^ S k)) as [L|L].
      + assert (X : @nleb XR (Fin (1 / 10)) (if Rlt_bool (1 / 10) (t0 * 2 ^ S k) then Fin (1 / 10) else Fin (t0 * 2 ^ S k)) = true).
        { destruct (Rlt_bool_spec (1 / 10) (t0 * 2 ^ S k)); rewrite xleb_fin; apply Rle_bool_true; lra. }
        rewrite X. exists fm, (S k). rewrite C1, C2, EB.
        split; [reflexivity|]. split; [lia|]. split; [exact Hprev|]. split; [exact Hlt|]. split; [reflexivity | exact L].
      + rewrite Rlt_bool_false by lra. rewrite xleb_fin, Rle_bool_false by exact L. rewrite C2.
        destruct d as [|d].
        * exfalso. assert (k = 36)%nat by lia. subst k. 
          assert (P : (2 ^ 37 = 137438953472)%R) by ring. change (S 36) with 37%nat in L. rewrite P in L. lra.
        * apply IH; [lia | lia | exact L|]. intros j Hj. destruct (Nat.eq_dec j k) as [->|]; [exact EB | apply Hprev; lia]. }
  destruct (G 37%nat 0%nat) as (r & c & E & R); [lia | lia | cbn [pow]; lra | intros; lia |].
  exists r, c. cbn [pow] in E. rewrite Rmult_1_r in E. split; [exact E|]. exact R.
Qed.

(** In binary64 the sequence of tolerances also reaches 0.1, whatever the oracles do. *)
Fixpoint tol_reaches {N : Num} (fuel : nat) (tol : N) : bool :=
  match fuel with
  | O => false
  | S f => let t2 := nmin2 (nmul tol (nofZ 2)) (lit 1 1) in (nleb (lit 1 1) t2 || tol_reaches f t2)%bool
  end.
Lemma root_loop_total {N : Num} (bq : N -> res N) fm fuel : forall tol calls, tol_reaches fuel tol = true ->
  exists r c, root_loop fuel bq fm tol calls = Some (r, c) /\ calls < c <= calls + Z.of_nat fuel.
Proof.
  induction fuel as [|fuel IH]; intros tol calls H; [discriminate|]. cbn [root_loop tol_reaches] in *.
  destruct (bq tol) as [t|e].
  - destruct (nleb (lit 1 1) tol); do 2 eexists; (split; [reflexivity | lia]).
  - destruct e; try (do 2 eexists; split; [reflexivity | lia]).
    destruct (nleb (lit 1 1) (nmin2 (nmul tol (nofZ 2)) (lit 1 1))); [do 2 eexists; split; [reflexivity | lia]|].
    cbn [orb] in H. destruct (IH _ (calls + 1) H) as (r & c & E & B). exists r, c. split; [exact E | lia].
Qed.
Lemma tenth_f64 L : is_finite (@lit (F64 L) 1 1 : f64) = true /\ (B2R (@lit (F64 L) 1 1 : f64) <= pow2 (-3))%R.
Proof.
  unfold lit. cbn [F64 ndiv nofZ]. destruct (ofZ_fl 1 ltac:(vm_compute; discriminate)) as [F1 E1].
  destruct (ofZ_fl (10 ^ 1) ltac:(vm_compute; discriminate)) as [F2 E2].
  assert (P3 : (pow2 (-3) = / 8)%R) by (cbn; lra).
  destruct (div_fl (f64_ofZ 1) (f64_ofZ (10 ^ 1)) F1) as [F E]; rewrite ?E1, ?E2 in *.
  - cbn. lra.
  - apply (rnd_lt_max _ (-3)); [lia|]. rewrite P3. apply Rabs_le. cbn. lra.
  - split; [exact F|]. rewrite E, <- (rnd_pow2 (-3)) by lia. apply rnd_mono. rewrite P3. cbn. lra.
Qed.
Lemma tol_reaches_f64 L k : forall tol : F64 L, is_finite (tol : f64) = true -> (k <= 1000)%nat ->
  (pow2 (- 4 - Z.of_nat k) <= B2R (tol : f64) <= pow2 20)%R -> tol_reaches (S k) tol = true.
Proof.
  destruct (tenth_f64 L) as [FT ET].
  assert (S20 : (pow2 21 = 2 * pow2 20)%R) by (apply (bpow_plus radix2 1 20)).
  induction k as [|k IH]; intros tol F Hk [H1 H2]; cbn [tol_reaches].
  all: destruct (ofZ_fl 2 ltac:(vm_compute; discriminate)) as [F2 E2].
  all: assert (P : (0 < B2R (tol : f64))%R) by (eapply Rlt_le_trans; [|exact H1]; apply bpow_gt_0).
  all: destruct (mul_fl tol (f64_ofZ 2) F F2) as [Ft Et]; [rewrite E2; apply (rnd_lt_max _ 21); [lia | rewrite Rabs_pos_eq; lra]|].
  all: rewrite E2 in Et; change (@nmul (F64 L) tol (nofZ 2)) with (Bmult mode_NE tol (f64_ofZ 2) : F64 L).
  all: set (t := Bmult mode_NE tol (f64_ofZ 2)) in *; set (T := @lit (F64 L) 1 1) in *.
  all: assert (RT : @nleb (F64 L) T T = true) by (change (Bleb (T : f64) T = true); rewrite (Bleb_correct _ _ T T FT FT); apply Rle_bool_true; lra).
  all: unfold nmin2; change (@nltb (F64 L) T t) with (Bltb (T : f64) t).
  all: pose proof (Bltb_correct _ _ (T : f64) t FT Ft) as C; rewrite C; destruct (Rlt_bool_spec (B2R (T : f64)) (B2R t)) as [Q|Q]; [rewrite RT; reflexivity|].
  - assert (K : (pow2 (-3) <= B2R t)%R).
    { rewrite Et, <- (rnd_pow2 (-3)) by lia. apply rnd_mono. change (-3) with (1 + (-4 - Z.of_nat 0)). rewrite bpow_plus. change (bpow radix2 1) with 2%R. lra. }
    assert (RT' : @nleb (F64 L) T t = true) by (change (Bleb (T : f64) t = true); rewrite (Bleb_correct _ _ (T : f64) t FT Ft); apply Rle_bool_true; lra).
    rewrite RT'. reflexivity.
  - apply orb_true_iff. right. apply IH; [exact Ft | lia|]. split.
    + rewrite Et, <- (rnd_pow2 (-4 - Z.of_nat k)) by lia. apply rnd_mono.
      replace (-4 - Z.of_nat k) with (1 + (-4 - Z.of_nat (S k))) by lia. rewrite bpow_plus. change (bpow radix2 1) with 2%R. lra.
    + assert (pow2 (-3) <= pow2 20)%R by (apply bpow_le; lia). lra.
Qed.
Lemma root_tol_f64 L n : is_finite (@root_tol (F64 L) n : f64) = true /\ (pow2 (-40) <= B2R (@root_tol (F64 L) n : f64) <= pow2 20)%R.
Proof.
  unfold root_tol. set (m := (if n <=? 50 then 50 else if 1050 <=? n then 1050 else n) - 50).
  assert (Hm : 0 <= m <= 1000) by (unfold m; destruct (Z.leb_spec n 50); [|destruct (Z.leb_spec 1050 n)]; lia). clearbody m.
  unfold lit. cbn [F64 ndiv nofZ nmul nadd].
  destruct (ofZ_fl 1 ltac:(vm_compute; discriminate)) as [F1 E1]. destruct (ofZ_fl (10 ^ 12) ltac:(vm_compute; discriminate)) as [F2 E2].
  destruct (ofZ_fl (10 ^ 2) ltac:(vm_compute; discriminate)) as [F3 E3]. destruct (ofZ_fl m ltac:(lia)) as [F4 E4].
  destruct (ofZ_fl 1000 ltac:(vm_compute; discriminate)) as [F5 E5].
  assert (Hm' : (0 <= IZR m <= 1000)%R) by (split; apply IZR_le; lia).
  assert (P0 : (pow2 0 = 1)%R) by reflexivity.
  assert (P10 : (pow2 10 = 1024)%R) by (cbn; lra).
  assert (P40 : (pow2 (-40) <= 1 / 1000000000000 <= 1)%R) by (cbn; lra).
  destruct (div_fl (f64_ofZ 1) (f64_ofZ (10 ^ 12)) F1) as [Fa Ea]; rewrite ?E1, ?E2 in *.
  { apply (IZR_neq _ 0). discriminate. }
  { change (10 ^ 12) with 1000000000000. apply (rnd_lt_max _ 0); [lia|]. rewrite P0. apply Rabs_le. lra. }
  change (10 ^ 12) with 1000000000000 in Ea |- *.
  assert (Ba : (pow2 (-40) <= B2R (Bdiv mode_NE (f64_ofZ 1) (f64_ofZ 1000000000000)) <= 1)%R).
  { rewrite Ea. split.
    - rewrite <- (rnd_pow2 (-40)) at 1 by lia. apply rnd_mono. lra.
    - apply Rle_trans with (rnd (pow2 0)); [apply rnd_mono; rewrite P0; lra | rewrite rnd_pow2 by lia; rewrite P0; lra]. }
  destruct (div_fl (f64_ofZ 1) (f64_ofZ (10 ^ 2)) F1) as [Fb Eb]; rewrite ?E1, ?E3 in *.
  { apply (IZR_neq _ 0). discriminate. }
  { change (10 ^ 2) with 100. apply (rnd_lt_max _ 0); [lia|]. rewrite P0. apply Rabs_le. lra. }
  change (10 ^ 2) with 100 in Eb |- *.
  assert (R0 : (rnd 0 = 0)%R) by (apply rnd_gen; apply generic_format_0).
  assert (Bb : (0 <= B2R (Bdiv mode_NE (f64_ofZ 1) (f64_ofZ 100)) <= 1)%R).
  { rewrite Eb. split.
    - apply Rle_trans with (rnd 0); [rewrite R0; lra | apply rnd_mono; lra].
    - apply Rle_trans with (rnd (pow2 0)); [apply rnd_mono; rewrite P0; lra | rewrite rnd_pow2 by lia; rewrite P0; lra]. }
  set (a := Bdiv mode_NE (f64_ofZ 1) (f64_ofZ 1000000000000)) in *. set (b := Bdiv mode_NE (f64_ofZ 1) (f64_ofZ 100)) in *.
  change (is_finite a = true) in Fa. change (is_finite b = true) in Fb. clear Ea Eb.
  assert (G1 : (0 <= B2R b * IZR m <= 1024)%R).
  { split; [apply Rmult_le_pos; lra|]. replace 1024%R with (1 * 1024)%R by ring. apply Rmult_le_compat; lra. }
  destruct (mul_fl b (f64_ofZ m) Fb F4) as [Fc Ec]; rewrite ?E4 in *.
  { apply (rnd_lt_max _ 10); [lia|]. rewrite P10. apply Rabs_le. lra. }
  assert (Bc : (0 <= B2R (Bmult mode_NE b (f64_ofZ m)) <= 1024)%R).
  { rewrite Ec. split; [apply Rle_trans with (rnd 0); [rewrite R0; lra | apply rnd_mono; lra]|]. apply Rle_trans with (rnd (pow2 10)); [apply rnd_mono; rewrite P10; lra | rewrite rnd_pow2 by lia; rewrite P10; lra]. }
  set (c := Bmult mode_NE b (f64_ofZ m)) in *. clear Ec.
  destruct (div_fl c (f64_ofZ 1000) Fc) as [Fd Ed]; rewrite ?E5 in *.
  { lra. }
  { apply (rnd_lt_max _ 10); [lia|]. rewrite P10. apply Rabs_le. lra. }
  assert (Bd : (0 <= B2R (Bdiv mode_NE c (f64_ofZ 1000)) <= 1024)%R).
  { rewrite Ed. split; [apply Rle_trans with (rnd 0); [rewrite R0; lra | apply rnd_mono; lra]|]. apply Rle_trans with (rnd (pow2 10)); [apply rnd_mono; rewrite P10; lra | rewrite rnd_pow2 by lia; rewrite P10; lra]. }
  set (d := Bdiv mode_NE c (f64_ofZ 1000)) in *. clear Ed.
  assert (P20 : (pow2 20 = 1048576)%R) by (cbn; lra).
  destruct (add_fl a d Fa Fd) as [Fe Ee].
  { apply (rnd_lt_max _ 20); [lia|]. pose proof (bpow_gt_0 radix2 (-40)). rewrite P20. apply Rabs_le. lra. }
  split; [exact Fe|]. rewrite Ee. split.
  - apply Rle_trans with (rnd (pow2 (-40))); [rewrite rnd_pow2 by lia; lra | apply rnd_mono; lra].
  - apply Rle_trans with (rnd (pow2 20)); [apply rnd_mono; lra | rewrite rnd_pow2 by lia; lra].
Qed.
Theorem root_search_f64 : forall L (brentq : F64 L -> res (F64 L)) fminbound n, exists r c,
  k_root 37 brentq fminbound n = Some (r, c) /\ 1 <= c <= 37.
Proof.
  intros L bq fm n. unfold k_root. destruct (root_loop_total bq fm 37 (root_tol n) 0) as (r & c & E & B).
  - destruct (root_tol_f64 L n) as [F T]. apply tol_reaches_f64; [exact F | lia | exact T].
  - exists r, c. split; [exact E | lia].
Qed.
