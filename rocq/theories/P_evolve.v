(** The closed form of one step of the bandwidth recursion (kernel/bivariate.py:270-320). *)
From Coq Require Import Reals Lra Lia.
From Flocq Require Import Core.
From Verif Require Import NpBase Lib XR M_series M_kernel Spec Spec2 Spec29 P_detect P_phase P_kernel P_band.
Local Open Scope Z_scope.

Lemma stages_total n t ic A : forall d s0 s1, (s0 + s1 + d = 5)%nat -> exists v, stages n t ic A s0 s1 v.
Proof.
  induction d as [|d IH]; intros s0 s1 H.
  - eexists. apply stage_last. lia.
  - destruct (IH (S s0) s1) as (f & Hf); [lia|]. destruct (IH s0 (S s1)) as (g & Hg); [lia|]. eexists. apply stage_next; [lia | exact Hf | exact Hg].
Qed.
Lemma stages_unique n t ic A : forall d s0 s1 v w, (s0 + s1 + d = 5)%nat -> stages n t ic A s0 s1 v -> stages n t ic A s0 s1 w -> v = w.
Proof.
  induction d as [|d IH]; intros s0 s1 v w H Hv Hw; destruct Hv; destruct Hw; try lia; [reflexivity|].
  f_equal. f_equal. f_equal; eapply IH; try eassumption; lia.
Qed.
Lemma func_closed ic A m n : length ic = m -> mshape A m m -> (1 <= m)%nat -> positive_mass ic A -> 1 <= n ->
  forall depth s0 s1 t, (s0 + s1 + depth = 5)%nat -> exists v, k_func_rec depth s0 s1 (Fin t) n (fins ic) (finm A) = Ok (Fin v) /\
    stages n t ic A s0 s1 v /\ (0 < (-1) ^ (s0 + s1) * v)%R.
Proof.
  intros HL HA Hm HP Hn. induction depth as [|d IH]; intros s0 s1 t Hd; cbn [k_func_rec].
  - rewrite (psi_exact s0 s1 t ic A m HL HA Hm). eexists. split; [reflexivity|]. split; [apply stage_last; lia | apply rpsi_sign, HP].
  - destruct (IH (S s0) s1 t) as (f1 & -> & S1 & P1); [lia|]. destruct (IH s0 (S s1) t) as (f2 & -> & S2 & P2); [lia|]. cbn [bind].
    rewrite !k_exact. cbn [bind].
    set (b := ((1 + / 2 ^ (s0 + s1 + 1)) / (3 * PI) * (odd_fact s0 * odd_fact s1) * (-1) ^ (s0 + s1 + 1) / (IZR n * (f1 + f2)))%R).
    assert (B : (0 < b)%R /\
      @ndiv XR (@ndiv XR (@nmul XR (@nmul XR (@nmul XR (nofZ (-2)) (@ndiv XR (@nadd XR (nofZ 1) (@ndiv XR (nofZ 1) (nofZ (2 ^ (Z.of_nat (s0 + s1) + 1))))) (nofZ 3)))
         (Fin ((-1) ^ s0 * odd_fact s0 / sqrt (2 * PI)))) (Fin ((-1) ^ s1 * odd_fact s1 / sqrt (2 * PI)))) (nofZ n)) (@nadd XR (Fin f1) (Fin f2)) = Fin b).
    { assert (N0 : (0 < IZR n)%R) by (apply (IZR_lt 0); lia).
      assert (ET : IZR (2 ^ (Z.of_nat (s0 + s1) + 1)) = (2 ^ (s0 + s1 + 1))%R).
      { replace (Z.of_nat (s0 + s1) + 1) with (Z.of_nat (s0 + s1 + 1)) by lia. rewrite <- pow_IZR. reflexivity. }
      pose proof PI_RGT_0 as TP. assert (Q : (0 < sqrt (2 * PI))%R) by (apply sqrt_lt_R0; lra).
      assert (QQ : (sqrt (2 * PI) * sqrt (2 * PI) = 2 * PI)%R) by (apply sqrt_sqrt; lra).
      set (e := ((-1) ^ (s0 + s1))%R) in *. assert (Ee : (e * e = 1)%R) by apply sgn_sq.
      replace (S s0 + s1)%nat with (S (s0 + s1)) in P1 by lia. replace (s0 + S s1)%nat with (S (s0 + s1)) in P2 by lia.
      cbn [pow] in P1, P2. fold e in P1, P2.
      assert (P3 : (0 < - (e * (f1 + f2)))%R) by lra.
      assert (SF : (f1 + f2 <> 0)%R) by (intros Z; rewrite Z in P3; lra).
      assert (T0 : (0 < 2 ^ (s0 + s1 + 1))%R) by (apply pow_lt; lra).
      assert (E1 : ((-1) ^ (s0 + s1 + 1) = - e)%R) by (unfold e; rewrite pow_add; ring).
      assert (Es : ((-1) ^ s0 * (-1) ^ s1 = e)%R) by (unfold e; rewrite pow_add; reflexivity).
      pose proof (odd_fact_pos s0) as O0. pose proof (odd_fact_pos s1) as O1.
      rewrite !xofZ_fin, ET, xdiv_fin by lra. rewrite !xadd_fin. rewrite xdiv_fin by lra. rewrite !xmul_fin.
      rewrite xdiv_fin by lra. rewrite xdiv_fin by exact SF. unfold b. rewrite E1. set (T := (2 ^ (s0 + s1 + 1))%R) in *. split.
      - assert (0 < / T)%R by (apply Rinv_0_lt_compat, T0).
        replace ((1 + / T) / (3 * PI) * (odd_fact s0 * odd_fact s1) * - e / (IZR n * (f1 + f2)))%R
          with ((1 + / T) / (3 * PI) * (odd_fact s0 * odd_fact s1) * (e * e) / (IZR n * - (e * (f1 + f2))))%R
          by (assert (e <> 0)%R by (intros Z; rewrite Z in Ee; lra); field; lra).
        rewrite Ee. apply Rdiv_lt_0_compat; [|apply Rmult_lt_0_compat; assumption].
        rewrite Rmult_1_r. apply Rmult_lt_0_compat; [apply Rdiv_lt_0_compat; lra | apply Rmult_lt_0_compat; assumption].
      - f_equal. set (r := sqrt (2 * PI)) in *.
        replace (-2 * ((1 + 1 / T) / 3) * ((-1) ^ s0 * odd_fact s0 / r) * ((-1) ^ s1 * odd_fact s1 / r) / IZR n / (f1 + f2))%R
          with (-2 * ((1 + / T) / 3) * ((-1) ^ s0 * (-1) ^ s1) * odd_fact s0 * odd_fact s1 / (r * r) / IZR n / (f1 + f2))%R
          by (field; repeat split; lra).
        rewrite Es, QQ. field. repeat split; lra. }
    destruct B as (Hb & EB). unfold npow. rewrite EB. clear EB.
    rewrite !xofZ_fin, xdiv_fin by (apply (IZR_neq _ 0); lia).
    cbn [npow XR xpow]. rewrite Rlt_bool_true by exact Hb.
    rewrite (psi_exact s0 s1 _ ic A m HL HA Hm). eexists. split; [reflexivity|].
    replace (1 / IZR (2 + Z.of_nat (s0 + s1)))%R with (/ (2 + INR (s0 + s1)))%R
      by (rewrite plus_IZR, <- INR_IZR_INZ; unfold Rdiv; rewrite Rmult_1_l; reflexivity).
    split; [apply (stage_next n t ic A s0 s1 f1 f2); [lia | exact S1 | exact S2] | apply rpsi_sign, HP].
Qed.
Theorem evolve_closed : forall ic A m n t, length ic = m -> mshape A m m -> (1 <= m)%nat -> positive_mass ic A -> 1 <= n ->
  exists f02 f20 f11, stages n t ic A 0 2 f02 /\ stages n t ic A 2 0 f20 /\ stages n t ic A 1 1 f11 /\
    (0 < f02 /\ 0 < f20 /\ 0 < f11)%R /\
    let a := Rpower (2 * PI * IZR n * (f02 + f20 + 2 * f11)) (-1 / 3) in
    k_evolve (Fin t) n (fins ic) (finm A) = Ok (Fin ((t - a) / a), Fin a).
Proof.
  intros ic A m n t HL HA Hm HP Hn. unfold k_evolve, k_func.
  destruct (func_closed ic A m n HL HA Hm HP Hn (5 - (0 + 2)) 0 2 t) as (f1 & -> & S1 & P1); [lia|]. cbn [bind].
  destruct (func_closed ic A m n HL HA Hm HP Hn (5 - (2 + 0)) 2 0 t) as (f2 & -> & S2 & P2); [lia|]. cbn [bind].
  destruct (func_closed ic A m n HL HA Hm HP Hn (5 - (1 + 1)) 1 1 t) as (f3 & -> & S3 & P3); [lia|]. cbn [bind].
  exists f1, f2, f3. split; [exact S1|]. split; [exact S2|]. split; [exact S3|].
  cbn [Nat.add pow] in P1, P2, P3. split; [lra|]. cbv zeta.
  rewrite !xofZ_fin, xPI, !xmul_fin, !xadd_fin, !xmul_fin. rewrite xdiv_fin by lra.
  cbn [npow XR xpow]. assert (N0 : (1 <= IZR n)%R) by (apply (IZR_le 1), Hn).
  rewrite Rlt_bool_true.
  - assert (PP : forall x y, (0 < Rpower x y)%R) by (intros; apply exp_pos).
    rewrite xsub_fin, xdiv_fin by (apply Rgt_not_eq, PP). reflexivity.
  - pose proof PI_RGT_0. apply Rmult_lt_0_compat; [|lra]. apply Rmult_lt_0_compat; lra.
Qed.
(** The relation determines one value for each pair of orders up to 5. *)
Lemma stages_value n t ic A s0 s1 : (s0 + s1 <= 5)%nat -> exists! v, stages n t ic A s0 s1 v.
Proof.
  intros H. destruct (stages_total n t ic A (5 - (s0 + s1)) s0 s1) as (v & Hv); [lia|]. exists v. split; [exact Hv|].
  intros w Hw. apply (stages_unique n t ic A (5 - (s0 + s1)) s0 s1); [lia | exact Hv | exact Hw].
Qed.

(** ** np.arange, every arithmetic *)
Lemma arange_points (N : Num) (start stop step : N) d :
  let q := ndiv (nsub stop start) step in
  (nisfin q = false -> arange start stop step = Raise ValueError) /\
  (nisfin q = true -> exists r, arange start stop step = Ok r /\ zlen r = Z.max 0 (nceilZ q) /\
     (1 <= zlen r -> nth 0 r d = start) /\ (2 <= zlen r -> nth 1 r d = nadd start step) /\
     forall i, 2 <= i < zlen r -> nth (Z.to_nat i) r d = nadd start (nmul (nofZ i) (nsub (nadd start step) start))).
Proof.
  cbv zeta. unfold arange. destruct (nisfin (ndiv (nsub stop start) step)); cbn [negb]; (split; intros H; [try discriminate; reflexivity|]); try discriminate.
  set (n := nceilZ (ndiv (nsub stop start) step)).
  match goal with |- exists r, Ok ?m = Ok r /\ _ => set (l := m) end.
  assert (EL : length l = Z.to_nat n) by (unfold l; rewrite map_length, zrange_length; f_equal; lia).
  assert (HN : forall k, (k < Z.to_nat n)%nat -> nth k l d =
    if (Z.of_nat k =? 0)%Z then start else if (Z.of_nat k =? 1)%Z then nadd start step else nadd start (nmul (nofZ (Z.of_nat k)) (nsub (nadd start step) start))).
  { intros k Hk. unfold l. rewrite (nth_map_in _ _ _ 0%Z) by (rewrite zrange_length; lia). rewrite nth_zrange by lia. reflexivity. }
  exists l. split; [reflexivity|]. unfold zlen. rewrite EL. split; [lia|]. split; [|split].
  - intros H1. rewrite HN by lia. reflexivity.
  - intros H1. rewrite HN by lia. reflexivity.
  - intros i Hi. rewrite HN by lia. rewrite Z2Nat.id by lia. destruct (Z.eqb_spec i 0), (Z.eqb_spec i 1); try lia. reflexivity.
Qed.
