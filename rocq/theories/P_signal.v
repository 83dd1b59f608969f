(** Lemmas about synthetic.py and spectrum.py. *)
From Coq Require Import Reals Lra.
From Flocq Require Import Core.Raux.
From Verif Require Export P_series M_signal.
Local Open Scope Z_scope.

Lemma zmem_false i l : zmem i l = false <-> ~ In i l.
Proof. rewrite <- zmem_spec. destruct (zmem i l); split; congruence. Qed.

Lemma random_loop_some count : forall draws randoms r, random_loop count randoms draws = Some r ->
  (length randoms <= count)%nat -> NoDup randoms ->
  length r = count /\ NoDup r /\ forall i, In i r -> In i randoms \/ In i draws.
Proof.
  induction draws as [|d draws IH]; intros randoms r E Hlen Hnd; cbn in E;
    destruct (Nat.leb_spec count (length randoms)) as [Hc|Hc].
  - injection E as <-. split; [lia|]. split; [exact Hnd | auto].
  - discriminate.
  - injection E as <-. split; [lia|]. split; [exact Hnd | auto].
  - destruct (zmem d randoms) eqn:Em.
    + destruct (IH _ _ E Hlen Hnd) as (H1 & H2 & H3). split; [exact H1|]. split; [exact H2|].
      intros i Hi. destruct (H3 i Hi); [left | right; right]; assumption.
    + apply zmem_false in Em. destruct (IH _ _ E) as (H1 & H2 & H3).
      * rewrite app_length. cbn. lia.
      * apply NoDup_rev in Hnd. rewrite <- (rev_involutive (randoms ++ [d])). apply NoDup_rev.
        rewrite rev_app_distr. cbn. constructor; [|exact Hnd]. rewrite <- in_rev. exact Em.
      * split; [exact H1|]. split; [exact H2|]. intros i Hi. destruct (H3 i Hi) as [H|H].
        -- apply in_app_or in H. destruct H as [H|[->|[]]]; [left; exact H | right; left; reflexivity].
        -- right. right. exact H.
Qed.

Lemma random_loop_none_sub count n : (n < count)%nat -> forall draws randoms,
  (forall i, In i draws -> 0 <= i < Z.of_nat n) -> (forall i, In i randoms -> 0 <= i < Z.of_nat n) -> NoDup randoms ->
  random_loop count randoms draws = None.
Proof.
  intros Hn. assert (HB : forall l : list Z, NoDup l -> (forall i, In i l -> 0 <= i < Z.of_nat n) -> (length l <= n)%nat).
  { intros l Hl Hi. rewrite <- (Nat2Z.id n). replace (Z.to_nat (Z.of_nat n)) with (length (zrange 0 (Z.of_nat n))) by (rewrite zrange_length; lia).
    apply NoDup_incl_length; [exact Hl|]. intros i Hin. apply in_zrange. apply Hi, Hin. }
  induction draws as [|d draws IH]; intros randoms Hd Hr Hnd; cbn;
    pose proof (HB randoms Hnd Hr) as Hle; rewrite (proj2 (Nat.leb_gt count (length randoms))) by lia; [reflexivity|].
  destruct (zmem d randoms) eqn:Em.
  - apply IH; [intros i Hi; apply Hd; right; exact Hi | exact Hr | exact Hnd].
  - apply zmem_false in Em. apply IH.
    + intros i Hi. apply Hd. right. exact Hi.
    + intros i Hi. apply in_app_or in Hi. destruct Hi as [Hi|[<-|[]]]; [apply Hr, Hi | apply Hd; left; reflexivity].
    + apply NoDup_rev in Hnd. rewrite <- (rev_involutive (randoms ++ [d])). apply NoDup_rev.
      rewrite rev_app_distr. cbn. constructor; [|exact Hnd]. rewrite <- in_rev. exact Em.
Qed.

Lemma random_loop_covers count n : (count <= n)%nat -> forall draws randoms,
  (forall i, 0 <= i < Z.of_nat n -> In i randoms \/ In i draws) ->
  exists r, random_loop count randoms draws = Some r.
Proof.
  intros Hn. induction draws as [|d draws IH]; intros randoms Hc; cbn;
    destruct (Nat.leb_spec count (length randoms)) as [Hl|Hl]; try (eexists; reflexivity).
  - exfalso. assert (H : (n <= length randoms)%nat).
    { replace n with (length (zrange 0 (Z.of_nat n))) by (rewrite zrange_length; lia).
      apply NoDup_incl_length.
      - clear. unfold zrange. apply FinFun.Injective_map_NoDup; [intros a b H; lia | apply seq_NoDup].
      - intros i Hi. apply in_zrange in Hi. destruct (Hc i Hi) as [H|[]]. exact H. }
    lia.
  - destruct (zmem d randoms) eqn:Em; apply IH; intros i Hi; destruct (Hc i Hi) as [H|[->|H]]; auto.
    + left. apply zmem_spec. exact Em.
    + left. apply in_or_app. auto.
    + left. apply in_or_app. right. left. reflexivity.
Qed.

Lemma zins_perm x l : Permutation (x :: l) (zins x l).
Proof.
  induction l as [|y l IH]; cbn; [reflexivity|]. destruct (x <=? y); [reflexivity|].
  etransitivity; [apply perm_swap|]. apply perm_skip, IH.
Qed.
Lemma zsort_perm l : Permutation l (zsort l).
Proof. induction l as [|x l IH]; cbn; [constructor|]. etransitivity; [apply perm_skip, IH | apply zins_perm]. Qed.
Lemma zins_sorted x l : StronglySorted Z.le l -> StronglySorted Z.le (zins x l).
Proof.
  induction 1 as [|y l Hl IH Hy]; cbn; [repeat constructor|].
  destruct (Z.leb_spec x y).
  - constructor; [constructor; assumption|]. constructor; [assumption|]. rewrite Forall_forall in *. intros z Hz. specialize (Hy z Hz). lia.
  - constructor; [exact IH|]. rewrite Forall_forall in *. intros z Hz.
    apply (Permutation_in z (Permutation_sym (zins_perm x l))) in Hz. destruct Hz as [<-|Hz]; [lia | apply Hy, Hz].
Qed.
Lemma zsort_sorted l : StronglySorted Z.le (zsort l).
Proof. induction l as [|x l IH]; cbn; [constructor | apply zins_sorted, IH]. Qed.
Lemma sorted_nodup_lt l : StronglySorted Z.le l -> NoDup l -> StronglySorted Z.lt l.
Proof.
  induction 1 as [|y l Hl IH Hy]; intros Hnd; [constructor|]. inversion Hnd as [|? ? Hn Hnd']; subst.
  constructor; [apply IH, Hnd'|]. rewrite Forall_forall in *. intros z Hz. specialize (Hy z Hz).
  assert (y <> z) by (intros ->; contradiction). lia.
Qed.

Lemma random_index_correct (N : Num) (n : Z) (percent : N) (draws : list Z) r :
  (forall i, In i draws -> 0 <= i < n) ->
  random_index n percent draws = Some (Ok r) ->
  length r = Z.to_nat (nfloorZ (ndiv (nmul (nofZ n) percent) (nofZ 100))) /\
  StronglySorted Z.lt r /\ forall i, In i r -> 0 <= i < n /\ In i draws.
Proof.
  intros Hd E. unfold random_index, spike_count in E. destruct (nisnan _); [discriminate|]. destruct (negb _); [discriminate|].
  destruct (random_loop _ [] draws) as [r0|] eqn:E0; [|discriminate].
  cbn in E. injection E as <-.
  destruct (random_loop_some _ _ _ _ E0) as (H1 & H2 & H3); [cbn; lia | constructor|].
  split; [|split].
  - rewrite <- (Permutation_length (zsort_perm r0)). exact H1.
  - apply sorted_nodup_lt; [apply zsort_sorted|]. apply (Permutation_NoDup (zsort_perm r0)), H2.
  - intros i Hi. apply (Permutation_in i (Permutation_sym (zsort_perm r0))) in Hi.
    destruct (H3 i Hi) as [[]|H]. split; [apply Hd, H | exact H].
Qed.

(** ** Termination *)
Lemma noise_never_terminates (N : Num) (data : list N) (percent : N) (draws : list Z) (r : list N) :
  let q := ndiv (nmul (nofZ (zlen data)) percent) (nofZ 100) in
  nisnan q = false -> nisfin q = true -> zlen data < nfloorZ q ->
  (forall i, In i draws -> 0 <= i < zlen data) ->
  synthetic_noise data percent draws r = None.
Proof.
  intros q H1 H2 Hn Hd. unfold synthetic_noise, random_index, spike_count. fold q. rewrite H1, H2. cbn [negb].
  rewrite (random_loop_none_sub _ (length data)); [reflexivity| |exact Hd | intros i [] | constructor].
  unfold zlen in *. lia.
Qed.
Lemma noise_terminates (N : Num) (data : list N) (percent : N) (draws : list Z) (r : list N) :
  nfloorZ (ndiv (nmul (nofZ (zlen data)) percent) (nofZ 100)) <= zlen data ->
  (forall i, 0 <= i < zlen data -> In i draws) ->
  exists out, synthetic_noise data percent draws r = Some out.
Proof.
  intros Hn Hd. unfold synthetic_noise, random_index, spike_count. destruct (nisnan _); [eexists; reflexivity|]. destruct (negb _); [eexists; reflexivity|].
  destruct (random_loop_covers (Z.to_nat (nfloorZ (ndiv (nmul (nofZ (zlen data)) percent) (nofZ 100)))) (length data)) with (draws := draws) (randoms := @nil Z) as (rr & E).
  - unfold zlen in *. lia.
  - intros i Hi. right. apply Hd. unfold zlen. lia.
  - rewrite E. cbn. eexists. reflexivity.
Qed.
Lemma noise_raises (N : Num) (data : list N) (percent : N) (draws : list Z) (r : list N) :
  let q := ndiv (nmul (nofZ (zlen data)) percent) (nofZ 100) in
  (nisnan q = true -> synthetic_noise data percent draws r = Some (Raise ValueError)) /\
  (nisnan q = false -> nisfin q = false -> synthetic_noise data percent draws r = Some (Raise OverflowError)).
Proof.
  intros q. unfold synthetic_noise, random_index, spike_count. fold q. split; [intros -> | intros -> ->]; reflexivity.
Qed.
(** [floor(n * percent / 100) <= n], in terms of the percentage. *)
Lemma noise_count_exact (n : Z) (percent : R) : 0 < n ->
  let q := @ndiv XR (nmul (nofZ n) (Fin percent)) (nofZ 100) in
  nisnan q = false /\ nisfin q = true /\ (nfloorZ q <= n <-> (percent < 100 + 100 / IZR n)%R).
Proof.
  intros Hn. cbv zeta. rewrite !xofZ_fin, xmul_fin, xdiv_fin by lra. cbn [nfloorZ nisnan nisfin XR]. split; [reflexivity|]. split; [reflexivity|].
  apply IZR_lt in Hn. pose proof (Zfloor_lb (IZR n * percent / 100)) as F1. pose proof (Zfloor_ub (IZR n * percent / 100)) as F2.
  assert (H : (IZR n * (100 + 100 / IZR n) = IZR n * 100 + 100)%R) by (field; lra). split.
  - intros F. apply IZR_le in F. apply (Rmult_lt_reg_l (IZR n)); [exact Hn|]. rewrite H. lra.
  - intros Hp. apply (Rmult_lt_compat_l (IZR n)) in Hp; [|exact Hn]. rewrite H in Hp.
    assert (Zfloor (IZR n * percent / 100) < n + 1); [|lia]. apply lt_IZR. rewrite plus_IZR. lra.
Qed.

(** ** Effect *)
Definition noise_sign {N : Num} (k : nat) (rk percent : N) : N :=
  if Nat.even k then nadd (nabs rk) percent else nsub (nopp (nabs rk)) percent.

Lemma noise_effect (N : Num) (data : list N) (percent : N) (draws : list Z) (r : list N) idx :
  (forall i, In i draws -> 0 <= i < zlen data) -> length r = length data ->
  random_index (zlen data) percent draws = Some (Ok idx) ->
  exists out, synthetic_noise data percent draws r = Some (Ok out) /\ length out = length data /\
    (forall i, 0 <= i < zlen data -> ~ In i idx -> nth (Z.to_nat i) out nnan = nadd (nth (Z.to_nat i) data nnan) (nofZ 0)) /\
    (forall k, (k < length idx)%nat ->
       let i := Z.to_nat (nth k idx 0) in
       nth i out nnan = nadd (nth i data nnan)
         (nmul (noise_sign k (nth k r nnan) percent) (ndiv (nsum data) (nofZ (zlen data))))).
Proof.
  intros Hd Hr E. unfold synthetic_noise. rewrite E. cbn [bind].
  destruct (random_index_correct N _ _ _ _ Hd E) as (HL & HS & Hin).
  assert (HidxL : (length idx <= length data)%nat).
  { replace (length data) with (length (zrange 0 (zlen data))) by (rewrite zrange_length; unfold zlen; lia).
    apply NoDup_incl_length.
    - clear - HS. induction HS as [|y l Hl IH Hy]; constructor; [|exact IH].
      intros Hc. rewrite Forall_forall in Hy. specialize (Hy y Hc). lia.
    - intros i Hi. apply in_zrange. apply Hin, Hi. }
  assert (Hinj : forall a b, (a < length idx)%nat -> (b < length idx)%nat -> nth a idx 0 = nth b idx 0 -> a = b).
  { assert (Hnd : NoDup idx).
    { clear - HS. induction HS as [|y l Hl IH Hy]; constructor; [|exact IH].
      intros Hc. rewrite Forall_forall in Hy. specialize (Hy y Hc). lia. }
    intros a b Ha Hb. apply (proj1 (NoDup_nth idx 0) Hnd a b Ha Hb). }
  assert (Hrange : forall k, (k < length idx)%nat -> 0 <= nth k idx 0 < zlen data).
  { intros k Hk. apply Hin. apply nth_In. exact Hk. }
  set (v := fun k => nmul (noise_sign k (nth k r nnan) percent) (np_mean data)).
  destruct (foldM_range_inv (noise_step data r percent idx) (fun k s => length s = length data /\
      (forall j, (Z.of_nat j < k) -> (j < length idx)%nat -> nth (Z.to_nat (nth j idx 0)) s nnan = v j) /\
      (forall i, 0 <= i < zlen data -> (forall j, (j < length idx)%nat -> Z.of_nat j < k -> nth j idx 0 <> i) -> nth (Z.to_nat i) s nnan = nofZ 0))
      0 (zlen idx) (repeat (nofZ 0) (length data))) as (s & Es & HsL & Hs1 & Hs2).
  - apply zlen_nonneg.
  - split; [apply repeat_length|]. split; [lia|].
    intros i Hi _. rewrite (nth_indep _ nnan (nofZ 0)) by (rewrite repeat_length; unfold zlen in *; lia). apply nth_repeat'.
  - intros k s Hk (HsL & H1 & H2). unfold noise_step.
    rewrite (getz_ok r k nnan) by (unfold zlen in *; lia). cbn [bind].
    assert (Hk' : (Z.to_nat k < length idx)%nat) by (unfold zlen in *; lia).
    assert (Hne : data <> []) by (intros ->; cbn in HidxL; lia).
    rewrite mean_num_ne by exact Hne. cbn [bind].
    rewrite (getz_ok idx k 0) by lia. cbn [bind].
    assert (Hi : 0 <= nth (Z.to_nat k) idx 0 < zlen s) by (pose proof (Hrange _ Hk'); unfold zlen in *; lia).
    assert (Hv : (if (k mod 2 =? 0) then setz s (nth (Z.to_nat k) idx 0) (nmul (nadd (nabs (nth (Z.to_nat k) r nnan)) percent) (np_mean data))
                  else setz s (nth (Z.to_nat k) idx 0) (nmul (nsub (nopp (nabs (nth (Z.to_nat k) r nnan))) percent) (np_mean data)))
                 = Ok (upd s (Z.to_nat (nth (Z.to_nat k) idx 0)) (v (Z.to_nat k)))).
    { unfold v, noise_sign. rewrite !setz_ok by exact Hi.
      assert (Hev : (k mod 2 =? 0) = Nat.even (Z.to_nat k)).
      { rewrite <- (Z2Nat.id k) at 1 by lia. generalize (Z.to_nat k). clear. intros m.
        destruct (Nat.even m) eqn:Ev.
        - apply Nat.even_spec in Ev. destruct Ev as (c & ->). apply Z.eqb_eq. rewrite Nat2Z.inj_mul, Z.mul_comm. apply Z.mod_mul. lia.
        - assert (Ho : Nat.odd m = true) by (unfold Nat.odd; rewrite Ev; reflexivity).
          apply Nat.odd_spec in Ho. destruct Ho as (c & ->). apply Z.eqb_neq.
          replace (Z.of_nat (2 * c + 1)) with (1 + Z.of_nat c * 2) by lia. rewrite Z.mod_add by lia. discriminate. }
      rewrite Hev. destruct (Nat.even (Z.to_nat k)); reflexivity. }
    rewrite Hv. eexists. split; [reflexivity|]. split; [rewrite upd_length; exact HsL|]. split.
    + intros j Hj1 Hj2. destruct (Nat.eq_dec j (Z.to_nat k)) as [->|Hne'].
      * apply nth_upd_same. unfold zlen in *. lia.
      * rewrite nth_upd_other.
        -- apply H1; lia.
        -- intros Hc. apply Hne'. apply Hinj; try assumption.
           pose proof (Hrange j Hj2). pose proof (Hrange _ Hk'). lia.
    + intros i Hi1 Hi2. rewrite nth_upd_other.
      * apply H2; [exact Hi1|]. intros j Hj1 Hj2. apply Hi2; lia.
      * intros Hc. apply (Hi2 (Z.to_nat k)); [exact Hk' | lia|]. pose proof (Hrange _ Hk'). lia.
  - rewrite Es. cbn [bind]. unfold bcast. rewrite HsL, Nat.eqb_refl. eexists. split; [reflexivity|].
    split; [rewrite zipwith_length; lia|]. split.
    + intros i Hi Hni. rewrite (nth_zipwith nadd data s (Z.to_nat i) nnan nnan nnan) by (unfold zlen in *; lia). f_equal.
      apply Hs2; [exact Hi|]. intros j Hj _ Hc. apply Hni. rewrite <- Hc. apply nth_In. exact Hj.
    + intros k Hk. cbn zeta. pose proof (Hrange k Hk) as Hrk.
      rewrite (nth_zipwith nadd data s _ nnan nnan nnan) by (unfold zlen in *; lia). f_equal.
      apply Hs1; [unfold zlen; lia | exact Hk].
Qed.

(** ** Spectrum *)
Lemma overlap_documented (overlap block : Z) (b : bool) :
  (100 * w_noverlap (power_spectra_call overlap block b) = overlap * block) <-> (overlap = 0 \/ block = 100).
Proof.
  cbn [w_noverlap power_spectra_call]. split.
  - intros H. assert (H2 : overlap * (block - 100) = 0) by lia. apply Z.mul_eq_0 in H2. lia.
  - intros [->| ->]; lia.
Qed.
Lemma overlap_witness : exists (overlap block : Z), 0 <= overlap < 100 /\
  100 * w_noverlap (power_spectra_call overlap block true) <> overlap * block.
Proof. exists 50, 2048. split; [lia | cbn; lia]. Qed.
