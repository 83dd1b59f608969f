(** Proofs about the despiking scripts. *)
From Coq Require Import Reals Lra Lia.
From Verif Require Import LibR Spec2 Spec3 Spec4 Spec5 M_pipeline P_series P_moment P_replacement P_detect P_phase P_sph P_interp P_kern P_trikde.
Import ListNotations.
Local Open Scope Z_scope.

Lemma zlen_zero {A} (l : list A) : (zlen l =? 0) = true <-> l = [].
Proof. unfold zlen. destruct l; cbn; split; intros; try reflexivity; try discriminate; lia. Qed.

(** ** The loop *)
Lemma despike_iff (N : Num) (detect : Z -> rec3 N -> res (list Z)) replace n : forall k s s',
  despike detect replace n (Z.of_nat k) s = Ok s' <->
  exists hist, passes (fun i => detect (Z.of_nat i)) (replace3 replace) k s hist s' /\
    (length hist = n \/ ((length hist < n)%nat /\ detect (Z.of_nat (k + length hist)) s' = Ok [])).
Proof.
  induction n as [|n IH]; intros k s s'; cbn [despike].
  - split.
    + intros [= ->]. exists []. split; [constructor | left; reflexivity].
    + intros (h & Hp & [H|[H _]]); [|lia]. destruct h; [|discriminate]. inversion Hp; subst. reflexivity.
  - destruct (detect (Z.of_nat k) s) as [idx|e] eqn:E; cbn [bind].
    2:{ split; [discriminate|]. intros (h & Hp & H). inversion Hp; subst; cbn in H.
        - destruct H as [H|[_ H]]; [discriminate|]. rewrite Nat.add_0_r in H. congruence.
        - congruence. }
    destruct (zlen idx =? 0) eqn:Ez.
    + apply zlen_zero in Ez. subst idx. split.
      * intros [= ->]. exists []. split; [constructor|]. right. cbn. rewrite Nat.add_0_r. split; [lia | exact E].
      * intros (h & Hp & H). inversion Hp; subst; [reflexivity|]. congruence.
    + assert (Hne : idx <> []) by (intros ->; discriminate).
      destruct (replace3 replace s idx) as [t|e] eqn:Et; cbn [bind].
      2:{ split; [discriminate|]. intros (h & Hp & H). inversion Hp; subst; cbn in H.
          - destruct H as [H|[_ H]]; [discriminate|]. rewrite Nat.add_0_r in H. congruence.
          - congruence. }
      replace (Z.of_nat k + 1) with (Z.of_nat (S k)) by lia. rewrite IH. split.
      * intros (h & Hp & H). exists (idx :: h). split; [econstructor; eassumption|]. cbn [length].
        replace (k + S (length h))%nat with (S k + length h)%nat by lia.
        destruct H as [H|[H H']]; [left; lia | right; split; [lia | exact H']].
      * intros (h & Hp & H). inversion Hp as [|k' s0 idx' t' h' s'' E' Hne' Et' Hp']; subst; cbn [length] in H.
        -- destruct H as [H|[_ H]]; [discriminate|]. rewrite Nat.add_0_r in H. congruence.
        -- rewrite E in E'. injection E' as <-. rewrite Et in Et'. injection Et' as <-. exists h'. split; [exact Hp'|].
           replace (k + S (length h'))%nat with (S k + length h')%nat in H by lia.
           destruct H as [H|[H H']]; [left; lia | right; split; [lia | exact H']].
Qed.
Lemma despike_spec (N : Num) (detect : Z -> rec3 N -> res (list Z)) replace n s s' :
  despike detect replace n 0 s = Ok s' <->
  exists hist, despiked (fun i => detect (Z.of_nat i)) (replace3 replace) n s hist s'.
Proof. apply (despike_iff N detect replace n 0%nat). Qed.

(** The loop of the acceleration script is the same loop with the tag of the pass. *)
Definition pass_tag (i : Z) : Z := if Z.even i then 2 else 1.
Lemma accel_loop_despike (N : Num) n : forall k (s : rec3 N),
  accel_loop n (pass_tag (k + 1)) s = despike (fun i => accel_detect (pass_tag i)) li3 n k s.
Proof.
  induction n as [|n IH]; intros k s; [reflexivity|]. cbn [accel_loop despike].
  assert (Et : (if pass_tag (k + 1) =? 1 then 2 else 1) = pass_tag k).
  { unfold pass_tag. rewrite <- Z.add_1_r || idtac. rewrite Z.even_add. destruct (Z.even k); reflexivity. }
  cbv zeta. rewrite Et. destruct (accel_detect (pass_tag k) s) as [idx|e]; cbn [bind]; [|reflexivity].
  destruct (zlen idx =? 0); [reflexivity|]. destruct (replace3 li3 s idx) as [t|e]; cbn [bind]; [|reflexivity].
  rewrite <- IH. f_equal. unfold pass_tag. rewrite !Z.even_add. destruct (Z.even k); reflexivity.
Qed.
Lemma accel_script_loop (N : Num) (s : rec3 N) : accel_script s = despike (fun i => accel_detect (pass_tag i)) li3 10 0 s.
Proof. apply (accel_loop_despike N 10 0). Qed.

(** ** What each script is *)
Lemma accel_history (N : Num) (s s' : rec3 N) : accel_script s = Ok s' <->
  exists hist, despiked (fun pass => accel_detect (if Nat.even pass then 2 else 1))
                        (replace3 (fun v idx => linear_interpolation DFloat v idx 3)) 10 s hist s'.
Proof.
  rewrite accel_script_loop, despike_spec.
  assert (H : forall p, pass_tag (Z.of_nat p) = if Nat.even p then 2 else 1).
  { intros p. unfold pass_tag. replace (Z.even (Z.of_nat p)) with (Nat.even p); [reflexivity|].
    induction p as [|p IH]; [reflexivity|]. rewrite Nat2Z.inj_succ, Z.even_succ, <- Z.negb_even, <- IH, Nat.even_succ, <- Nat.negb_even. reflexivity. }
  unfold despiked. split; intros (h & Hp & H'); exists h; (split; [|revert H'; rewrite H; exact (fun x => x)]).
  - clear H'. revert Hp. generalize 0%nat. intros k Hp. induction Hp; [constructor|]. econstructor; try eassumption. rewrite <- H. assumption.
  - clear H'. revert Hp. generalize 0%nat. intros k Hp. induction Hp; [constructor|]. econstructor; try eassumption. rewrite H. assumption.
Qed.
Lemma phase_history (N : Num) (s s' : rec3 N) : phase_script s = Ok s' <->
  exists hist, despiked (fun _ => phase_detect) (replace3 (fun v idx => linear_interpolation DFloat v idx 3)) 10 s hist s'.
Proof. apply despike_spec. Qed.
Lemma sphere_history (N : Num) (s s' : rec3 N) : sphere_script s = Ok s' <->
  exists hist, despiked (fun pass => sphere_detect (Z.of_nat pass)) (replace3 (fun v idx => linear_interpolation DFloat v idx 3)) 3 s hist s'.
Proof. apply despike_spec. Qed.
Lemma corr_history (N : Num) (s s' : rec3 N) : corr_script s = Ok s' <->
  exists hist, despiked (fun _ => corr_detect) (replace3 (mean_value DFloat)) 10 s hist s'.
Proof. apply despike_spec. Qed.


Lemma in_zmem_dec (i : Z) (l : list Z) : In i l \/ ~ In i l.
Proof. destruct (in_dec Z.eq_dec i l); auto. Qed.
Lemma run_down (idx : list Z) : forall n k, (Z.to_nat k <= n)%nat -> (forall i, In i idx -> 0 <= i) -> In k idx ->
  exists a, 0 <= a <= k /\ (forall j, a <= j <= k -> In j idx) /\ ~ In (a - 1) idx.
Proof.
  induction n as [|n IH]; intros k Hn HB Hk; pose proof (HB k Hk).
  - exists k. split; [lia|]. split; [intros j Hj; replace j with k by lia; exact Hk|]. intros H'. apply HB in H'. lia.
  - destruct (in_zmem_dec (k - 1) idx) as [Hp|Hp].
    + pose proof (HB _ Hp). destruct (IH (k - 1) ltac:(lia) HB Hp) as (a & Ha & H1 & H2). exists a. split; [lia|]. split; [|exact H2].
      intros j Hj. destruct (Z.eq_dec j k) as [->|Hjk]; [exact Hk|]. apply H1. lia.
    + exists k. split; [lia|]. split; [intros j Hj; replace j with k by lia; exact Hk | exact Hp].
Qed.
Lemma run_up (idx : list Z) n : forall m k, (Z.to_nat (n - k) <= m)%nat -> (forall i, In i idx -> i < n) -> In k idx ->
  exists b, k <= b < n /\ (forall j, k <= j <= b -> In j idx) /\ ~ In (b + 1) idx.
Proof.
  induction m as [|m IH]; intros k Hn HB Hk; pose proof (HB k Hk).
  - lia.
  - destruct (in_zmem_dec (k + 1) idx) as [Hp|Hp].
    + pose proof (HB _ Hp). destruct (IH (k + 1) ltac:(lia) HB Hp) as (b & Hb & H1 & H2). exists b. split; [lia|]. split; [|exact H2].
      intros j Hj. destruct (Z.eq_dec j k) as [->|Hjk]; [exact Hk|]. apply H1. lia.
    + exists k. split; [lia|]. split; [intros j Hj; replace j with k by lia; exact Hk | exact Hp].
Qed.
Lemma run_exists (idx : list Z) n k : (forall i, In i idx -> 0 <= i < n) -> In k idx ->
  exists a b, 0 <= a <= k /\ k <= b < n /\ (forall j, a <= j <= b -> In j idx) /\ ~ In (a - 1) idx /\ ~ In (b + 1) idx.
Proof.
  intros HB Hk. destruct (run_down idx _ k (le_n _) (fun i H => proj1 (HB i H)) Hk) as (a & Ha & A1 & A2).
  destruct (run_up idx n _ k (le_n _) (fun i H => proj2 (HB i H)) Hk) as (b & Hb & B1 & B2).
  exists a, b. repeat split; try lia; try assumption. intros j Hj. destruct (Z_le_gt_dec j k); [apply A1 | apply B1]; lia.
Qed.

Local Open Scope R_scope.
Lemma chord_range p q t lo hi : lo <= p <= hi -> lo <= q <= hi -> 0 <= t <= 1 -> lo <= p + (q - p) * t <= hi.
Proof. intros. split; nra. Qed.

Lemma li_run_value (l : list R) (vs ve : XR) (a b k : Z) lo hi : l <> [] -> (a <= k <= b)%Z ->
  (forall x, In x l -> lo <= x <= hi) ->
  (vs = NaN \/ exists p, vs = Fin p /\ lo <= p <= hi) -> (ve = NaN \/ exists q, ve = Fin q /\ lo <= q <= hi) ->
  exists y, @run_value XR (fins l) vs ve a b k = Fin y /\ lo <= y <= hi.
Proof.
  intros Hl Hk HB Hs He. unfold run_value.
  destruct He as [->|(q & -> & Hq)].
  { cbn [nisnan XR negb]. rewrite andb_false_r, valid_only_fins, np_mean_fins by exact Hl. eexists. split; [reflexivity|].
    apply rmean_between; assumption. }
  destruct Hs as [->|(p & -> & Hp)].
  - cbn [nisnan XR negb andb]. exists q. split; [|exact Hq]. unfold np_nanmean, valid_only.
    cbn [map filter nisnan XR negb nsum xsum fold_right]. rewrite !xofZ_fin. cbn [xadd].
    change (zlen [Fin q]) with 1%Z. cbn [ndiv XR xdiv]. rewrite Flocq.Core.Raux.Req_bool_false by lra. f_equal. field.
  - cbn [nisnan XR negb andb]. rewrite !xofZ_fin. cbn [nsub nmul nadd ndiv XR]. rewrite xsub_fin.
    assert (Hd : 0 < IZR (b - a + 2)) by (apply IZR_lt; lia).
    rewrite xdiv_fin by lra. rewrite xmul_fin, xadd_fin. eexists. split; [reflexivity|].
    replace ((q - p) / IZR (b - a + 2) * IZR (k - a + 1)) with ((q - p) * (IZR (k - a + 1) / IZR (b - a + 2))) by (field; lra).
    apply chord_range; try assumption. assert (0 <= IZR (k - a + 1) <= IZR (b - a + 2)) by (split; apply IZR_le; lia).
    split; [apply Rmult_le_pos; [lra | left; apply Rinv_0_lt_compat; lra]|].
    apply Rmult_le_reg_r with (IZR (b - a + 2)); [lra|]. unfold Rdiv. rewrite Rmult_assoc, Rinv_l by lra. lra.
Qed.

Lemma li_fins (l : list R) (idx : list Z) (dec : Z) :
  idx <> [] -> StronglySorted Z.lt idx -> (forall i, In i idx -> (0 <= i < zlen l)%Z) ->
  exists m, @linear_interpolation XR DFloat (fins l) idx dec = Ok (fins m) /\ length m = length l /\
    (forall i, (i < length l)%nat -> ~ In (Z.of_nat i) idx -> nth i m 0 = round_dec dec (nth i l 0)) /\
    (forall lo hi, (forall x, In x l -> lo <= x <= hi) -> forall x, In x m -> round_dec dec lo <= x <= round_dec dec hi).
Proof.
  intros Hne HS HB. destruct (li_exact l idx dec Hne HS HB) as (m & E & HL & H1 & H2).
  assert (Hl : l <> []).
  { intros ->. destruct idx as [|i idx]; [congruence|]. specialize (HB i (or_introl eq_refl)). unfold zlen in HB. cbn in HB. lia. }
  assert (HV : forall i, (i < length l)%nat -> forall lo hi, (forall x, In x l -> lo <= x <= hi) ->
    exists y, nth i m (Fin 0) = Fin y /\ lo <= y <= hi).
  { intros i Hi lo hi Hr. destruct (in_zmem_dec (Z.of_nat i) idx) as [Hin|Hin].
    - destruct (run_exists idx (zlen l) (Z.of_nat i) HB Hin) as (a & b & Ha & Hb & R1 & R2 & R3).
      rewrite <- (Nat2Z.id i). rewrite (H2 a b (Z.of_nat i)) by (try assumption; lia).
      apply li_run_value; try assumption; try lia.
      + destruct (Z.gtb_spec a 0); [|left; reflexivity]. right. eexists. split; [reflexivity|]. apply Hr, nth_In. unfold zlen in *. lia.
      + destruct (Z.ltb_spec b (zlen l - 1)); [|left; reflexivity]. right. eexists. split; [reflexivity|]. apply Hr, nth_In. unfold zlen in *. lia.
    - exists (nth i l 0). split; [rewrite <- (Nat2Z.id i) at 1; rewrite H1 by (try assumption; unfold zlen; lia); rewrite Nat2Z.id; reflexivity|].
      apply Hr, nth_In, Hi. }
  assert (HR : exists lo hi, forall x, In x l -> lo <= x <= hi).
  { clear. induction l as [|y l (lo & hi & IH)]; [exists 0, 0; intros x []|]. exists (Rmin y lo), (Rmax y hi).
    intros x [->|Hx]; [split; [apply Rmin_l | apply Rmax_l]|]. specialize (IH x Hx). pose proof (Rmin_r y lo). pose proof (Rmax_r y hi). lra. }
  destruct HR as (lo0 & hi0 & HR0).
  set (val := fun x : XR => match x with Fin r => r | _ => 0 end).
  assert (Em : m = fins (map val m)).
  { apply (nth_ext_len _ _ (Fin 0 : XR)); [unfold fins; rewrite !map_length; reflexivity|]. intros i Hi. assert (Hi' : (i < length l)%nat) by (rewrite <- HL; exact Hi). clear Hi. rename Hi' into Hi.
    destruct (HV i Hi lo0 hi0 HR0) as (y & Ey & _). rewrite fins_nth. rewrite (nth_map_in _ _ _ (Fin 0 : XR)) by lia.
    rewrite Ey. reflexivity. }
  exists (map (round_dec dec) (map val m)). split.
  { rewrite E, Em at 1. unfold fins. rewrite !map_map. f_equal. apply map_ext. intros a. apply around_fin. }
  split; [rewrite !map_length; exact HL|]. split.
  - intros i Hi Hn. rewrite (nth_map_in _ _ _ 0) by (rewrite map_length; lia). f_equal.
    rewrite (nth_map_in _ _ _ (Fin 0 : XR)) by lia.
    rewrite <- (Nat2Z.id i) at 1. rewrite H1 by (try assumption; unfold zlen; lia). rewrite Nat2Z.id. reflexivity.
  - intros lo hi Hr x Hx. apply in_map_iff in Hx. destruct Hx as (y & <- & Hy). apply in_map_iff in Hy. destruct Hy as (z & <- & Hz).
    apply (In_nth _ _ (Fin 0)) in Hz. destruct Hz as (i & Hi & <-). assert (Hi' : (i < length l)%nat) by (rewrite <- HL; exact Hi). destruct (HV i Hi' lo hi Hr) as (y & Ey & Hy).
    change (car XR) with xr in *. rewrite Ey.
    split; apply round_dec_mono; apply Hy.
Qed.

Lemma round_dec_idem dec x : round_dec dec (round_dec dec x) = round_dec dec x.
Proof.
  unfold round_dec. destruct (Z.leb_spec 0 dec) as [Hd|Hd].
  - pose proof (pow10_pos dec Hd) as Hp.
    set (n := Generic_fmt.Znearest _ (x * IZR (10 ^ dec))). replace (IZR n / IZR (10 ^ dec) * IZR (10 ^ dec)) with (IZR n) by (field; lra).
    rewrite (Generic_fmt.Znearest_imp _ _ n) by (rewrite Rminus_diag_eq, Rabs_R0 by reflexivity; lra). reflexivity.
  - assert (Hd' : (0 <= - dec)%Z) by lia. pose proof (pow10_pos _ Hd') as Hp.
    set (n := Generic_fmt.Znearest _ (x / IZR (10 ^ (- dec)))). replace (IZR n * IZR (10 ^ (- dec)) / IZR (10 ^ (- dec))) with (IZR n) by (field; lra).
    rewrite (Generic_fmt.Znearest_imp _ _ n) by (rewrite Rminus_diag_eq, Rabs_R0 by reflexivity; lra). reflexivity.
Qed.

(** ** Detection on the three components *)
Local Open Scope Z_scope.
Lemma by_component_ok (N : Num) (d : list N -> N -> res (list Z)) (x y z : list N) ix iy iz :
  x <> [] -> y <> [] -> z <> [] ->
  d (centred x) (ndiv (nsum x) (nofZ (zlen x))) = Ok ix ->
  d (centred y) (ndiv (nsum y) (nofZ (zlen y))) = Ok iy ->
  d (centred z) (ndiv (nsum z) (nofZ (zlen z))) = Ok iz ->
  by_component d (x, y, z) = Ok (zunique (ix ++ iy ++ iz)).
Proof.
  intros Hx Hy Hz Ex Ey Ez. unfold by_component. rewrite !mean_num_ne by assumption. cbn [bind].
  unfold np_mean in *. fold (centred x) (centred y) (centred z). rewrite Ex, Ey, Ez. reflexivity.
Qed.
Lemma union_bounded n a b c : bounded_sorted n a -> bounded_sorted n b -> bounded_sorted n c -> bounded_sorted n (zunique (a ++ b ++ c)).
Proof.
  intros [_ Ha] [_ Hb] [_ Hc]. split; [apply zunique_sorted|]. intros i. rewrite in_zunique, !in_app_iff. intros [H|[H|H]]; auto.
Qed.
Lemma in_union3 a b c i : In i (zunique (a ++ b ++ c)) <-> In i a \/ In i b \/ In i c.
Proof. rewrite in_zunique, !in_app_iff. tauto. Qed.
Lemma centred_length (N : Num) (v : list N) : length (centred v) = length v.
Proof. apply map_length. Qed.
Lemma centred_ne (N : Num) (v : list N) : v <> [] -> centred v <> [].
Proof. destruct v; [congruence | discriminate]. Qed.
Lemma centred_fins (l : list R) : l <> [] -> @centred XR (fins l) = fins (map (fun x => x - rmean l)%R l).
Proof.
  intros Hl. unfold centred. change (ndiv (nsum (fins l)) (nofZ (zlen (fins l)))) with (np_mean (fins l)).
  rewrite np_mean_fins by exact Hl. unfold fins. rewrite !map_map. reflexivity.
Qed.

(** Acceleration, exact arithmetic: subtracting the mean changes no test. *)
Lemma raccel_centred (l : list R) m f i : 0 <= i < zlen l -> raccel (map (fun x => x - m)%R l) f i = raccel l f i.
Proof.
  intros Hi. unfold raccel. destruct (Z.eqb_spec i 0); [reflexivity|].
  rewrite !(nth_map_in _ _ _ 0%R) by (unfold zlen in Hi; lia). f_equal. lra.
Qed.
Lemma rstd_centred (l : list R) : l <> [] -> rstd (map (fun x => x - rmean l)%R l) = rstd l.
Proof.
  intros Hl. unfold rstd. f_equal. rewrite <- (rvar_shift (- rmean l) l Hl). reflexivity.
Qed.
Lemma rmean_centred (l : list R) : l <> [] -> rmean (map (fun x => x - rmean l)%R l) = 0%R.
Proof.
  intros Hl. transitivity (rmean (map (fun x => 1 * x + (- rmean l))%R l)); [f_equal; apply map_ext; intros; ring|].
  rewrite rmean_map_affine by exact Hl. ring.
Qed.
Lemma accel_component (l : list R) : l <> [] ->
  (exists r, acceleration_thresholding (fins (map (fun x => x - rmean l)%R l)) (@nofZ XR 100) 1 (nofZ 980) (lit 15 1) (nofZ 1) = Ok r /\
     StronglySorted Z.lt r /\ forall i, In i r <-> 0 <= i < zlen l /\ rising l i) /\
  (exists r, acceleration_thresholding (fins (map (fun x => x - rmean l)%R l)) (@nofZ XR 100) 2 (nofZ 980) (lit 15 1) (nofZ 1) = Ok r /\
     StronglySorted Z.lt r /\ forall i, In i r <-> 0 <= i < zlen l /\ falling l i).
Proof.
  intros Hl. assert (Hc : map (fun x => x - rmean l)%R l <> []) by (destruct l; [congruence | discriminate]).
  assert (Hz : zlen (map (fun x => x - rmean l)%R l) = zlen l) by (unfold zlen; rewrite map_length; reflexivity).
  rewrite !xofZ_fin, lit_fin by lia. replace (IZR 15 / IZR (10 ^ 1))%R with (3/2)%R by (cbn; lra).
  destruct (accel_exact (map (fun x => x - rmean l)%R l) 100 980 (3/2) 1 Hc) as [(r1 & E1 & S1 & I1) (r2 & E2 & S2 & I2)].
  rewrite Hz, rmean_centred, rstd_centred in I1, I2 by exact Hl.
  split; [exists r1 | exists r2]; (split; [assumption|]; split; [assumption|]); intros i; [rewrite I1 | rewrite I2]; unfold rising, falling.
  - split; intros (Hi & H1 & H2); (split; [exact Hi|]).
    + rewrite raccel_centred in H1 by exact Hi. rewrite (nth_map_in _ _ _ 0%R) in H2 by (unfold zlen in Hi; lia). split; lra.
    + rewrite raccel_centred by exact Hi. rewrite (nth_map_in _ _ _ 0%R) by (unfold zlen in Hi; lia). split; lra.
  - split; intros (Hi & H1 & H2); (split; [exact Hi|]).
    + rewrite raccel_centred in H1 by exact Hi. rewrite (nth_map_in _ _ _ 0%R) in H2 by (unfold zlen in Hi; lia). split; lra.
    + rewrite raccel_centred by exact Hi. rewrite (nth_map_in _ _ _ 0%R) by (unfold zlen in Hi; lia). split; lra.
Qed.
Lemma accel_detect_exact (x y z : list R) : x <> [] -> length y = length x -> length z = length x ->
  (exists r, accel_detect 1 (fins x, fins y, fins z) = Ok r /\ StronglySorted Z.lt r /\
     forall i, In i r <-> 0 <= i < zlen x /\ (rising x i \/ rising y i \/ rising z i)) /\
  (exists r, accel_detect 2 (fins x, fins y, fins z) = Ok r /\ StronglySorted Z.lt r /\
     forall i, In i r <-> 0 <= i < zlen x /\ (falling x i \/ falling y i \/ falling z i)).
Proof.
  intros Hx Ly Lz. assert (Hy : y <> []) by (destruct x, y; cbn in *; congruence). assert (Hz : z <> []) by (destruct x, z; cbn in *; congruence).
  destruct (accel_component x Hx) as [(x1 & X1 & _ & IX1) (x2 & X2 & _ & IX2)].
  destruct (accel_component y Hy) as [(y1 & Y1 & _ & IY1) (y2 & Y2 & _ & IY2)].
  destruct (accel_component z Hz) as [(z1 & Z1 & _ & IZ1) (z2 & Z2 & _ & IZ2)].
  assert (Ey : zlen y = zlen x) by (unfold zlen; rewrite Ly; reflexivity). assert (Ez : zlen z = zlen x) by (unfold zlen; rewrite Lz; reflexivity).
  rewrite Ey in *. rewrite Ez in *.
  split; eexists; (split; [unfold accel_detect; apply by_component_ok; try (apply fins_nil; assumption); rewrite centred_fins by assumption; eassumption|]);
    (split; [apply zunique_sorted|]); intros i; rewrite in_union3.
  - rewrite IX1, IY1, IZ1. tauto.
  - rewrite IX2, IY2, IZ2. tauto.
Qed.
(** Phase-space detectors, any arithmetic. *)
Lemma phase_detect_union (N : Num) (x y z : list N) : x <> [] -> length y = length x -> length z = length x ->
  exists ix iy iz r, phasespace_thresholding DFloat (centred x) = Ok ix /\ phasespace_thresholding DFloat (centred y) = Ok iy /\
    phasespace_thresholding DFloat (centred z) = Ok iz /\
    phase_detect (x, y, z) = Ok r /\ StronglySorted Z.lt r /\ (forall i, In i r <-> In i ix \/ In i iy \/ In i iz) /\
    forall i, In i r -> 0 <= i < zlen x.
Proof.
  intros Hx Ly Lz. assert (Hy : y <> []) by (destruct x, y; cbn in *; congruence). assert (Hz : z <> []) by (destruct x, z; cbn in *; congruence).
  destruct (phasespace_general N DFloat (centred x) nnan (centred_ne _ _ Hx)) as (? & ? & ? & ix & _ & _ & _ & _ & _ & _ & Ex & _ & Ix).
  destruct (phasespace_general N DFloat (centred y) nnan (centred_ne _ _ Hy)) as (? & ? & ? & iy & _ & _ & _ & _ & _ & _ & Ey & _ & Iy).
  destruct (phasespace_general N DFloat (centred z) nnan (centred_ne _ _ Hz)) as (? & ? & ? & iz & _ & _ & _ & _ & _ & _ & Ez & _ & Iz).
  exists ix, iy, iz, (zunique (ix ++ iy ++ iz)). repeat (split; [assumption|]).
  split; [unfold phase_detect; apply by_component_ok; assumption|]. split; [apply zunique_sorted|]. split; [intros i; apply in_union3|].
  intros i. rewrite in_union3. unfold zlen in *. rewrite !centred_length, ?Ly, ?Lz in *. intros [H|[H|H]]; [apply Ix in H | apply Iy in H | apply Iz in H]; apply H.
Qed.
Lemma sphere_detect_union (N : Num) (pass : Z) (x y z : list N) : 2 <= zlen x -> length y = length x -> length z = length x ->
  exists ix iy iz r,
    spherical_phasespace_thresholding (centred x) pass (ndiv (nsum x) (nofZ (zlen x))) = Ok ix /\
    spherical_phasespace_thresholding (centred y) pass (ndiv (nsum y) (nofZ (zlen y))) = Ok iy /\
    spherical_phasespace_thresholding (centred z) pass (ndiv (nsum z) (nofZ (zlen z))) = Ok iz /\
    sphere_detect pass (x, y, z) = Ok r /\ StronglySorted Z.lt r /\ (forall i, In i r <-> In i ix \/ In i iy \/ In i iz) /\
    forall i, In i r -> 0 <= i < zlen x.
Proof.
  intros Hx Ly Lz. unfold zlen in Hx.
  assert (Hx' : x <> []) by (destruct x; cbn in *; [lia|congruence]).
  assert (Hy : y <> []) by (destruct x, y; cbn in *; congruence). assert (Hz : z <> []) by (destruct x, z; cbn in *; congruence).
  assert (H2 : forall v : list N, length v = length x -> 2 <= zlen (centred v)) by (intros v E; unfold zlen; rewrite centred_length; lia).
  destruct (spherical_general N (centred x) pass (ndiv (nsum x) (nofZ (zlen x))) nnan (H2 x eq_refl)) as (? & ? & ? & ? & ? & ? & ix & _ & _ & _ & _ & _ & _ & _ & Ex & _ & Ix).
  destruct (spherical_general N (centred y) pass (ndiv (nsum y) (nofZ (zlen y))) nnan (H2 y Ly)) as (? & ? & ? & ? & ? & ? & iy & _ & _ & _ & _ & _ & _ & _ & Ey & _ & Iy).
  destruct (spherical_general N (centred z) pass (ndiv (nsum z) (nofZ (zlen z))) nnan (H2 z Lz)) as (? & ? & ? & ? & ? & ? & iz & _ & _ & _ & _ & _ & _ & _ & Ez & _ & Iz).
  exists ix, iy, iz, (zunique (ix ++ iy ++ iz)). repeat (split; [assumption|]).
  split; [unfold sphere_detect; apply by_component_ok; assumption|]. split; [apply zunique_sorted|]. split; [intros i; apply in_union3|].
  intros i. rewrite in_union3. unfold zlen in *. rewrite !centred_length, ?Ly, ?Lz in *. intros [H|[H|H]]; [apply Ix in H | apply Iy in H | apply Iz in H]; apply H.
Qed.
Lemma corr_detect_is (N : Num) (x y z : list N) : x <> [] -> y <> [] -> z <> [] ->
  corr_detect (x, y, z) = velocity_correlation (centred x) (centred y) (centred z).
Proof. intros Hx Hy Hz. unfold corr_detect. rewrite !mean_num_ne by assumption. reflexivity. Qed.

(** ** What repeated interpolation leaves *)
Local Open Scope R_scope.
Lemma filtered_refl l : filtered_from [] l l.
Proof.
  split; [reflexivity|]. split; [reflexivity|]. intros lo hi H x Hx. specialize (H x Hx).
  pose proof (Rmin_l lo (round_dec 3 lo)). pose proof (Rmax_l hi (round_dec 3 hi)). lra.
Qed.
Lemma filtered_step idx hist l m k :
  length m = length l ->
  (forall i, (i < length l)%nat -> ~ In (Z.of_nat i) idx -> nth i m 0 = round_dec 3 (nth i l 0)) ->
  (forall lo hi, (forall x, In x l -> lo <= x <= hi) -> forall x, In x m -> round_dec 3 lo <= x <= round_dec 3 hi) ->
  filtered_from hist m k -> filtered_from (idx :: hist) l k.
Proof.
  intros L1 U1 B1 (L2 & U2 & B2). split; [congruence|]. split.
  - intros i Hi Hn. rewrite U2; [|lia | intros j Hj; apply Hn; right; exact Hj].
    rewrite U1 by (try exact Hi; apply Hn; left; reflexivity). destruct hist; [reflexivity | apply round_dec_idem].
  - intros lo hi H x Hx. specialize (B2 _ _ (B1 lo hi H) x Hx). rewrite !round_dec_idem in B2.
    rewrite Rmin_left in B2 by lra. rewrite Rmax_left in B2 by lra.
    pose proof (Rmin_r lo (round_dec 3 lo)). pose proof (Rmax_r hi (round_dec 3 hi)). lra.
Qed.
Lemma despike_fins (detect : Z -> rec3 XR -> res (list Z)) (len : nat) :
  (forall k x y z, length x = len -> length y = len -> length z = len ->
     exists r, detect k (fins x, fins y, fins z) = Ok r /\ bounded_sorted (Z.of_nat len) r) ->
  forall n k x y z, length x = len -> length y = len -> length z = len ->
  exists hist x' y' z',
    passes (fun i => detect (Z.of_nat i)) (replace3 li3) k (fins x, fins y, fins z) hist (fins x', fins y', fins z') /\
    (length hist = n \/ ((length hist < n)%nat /\ detect (Z.of_nat (k + length hist)) (fins x', fins y', fins z') = Ok [])) /\
    filtered_from hist x x' /\ filtered_from hist y y' /\ filtered_from hist z z'.
Proof.
  intros HD. induction n as [|n IH]; intros k x y z Lx Ly Lz.
  - exists [], x, y, z. split; [constructor|]. split; [left; reflexivity|]. split; [apply filtered_refl|]. split; apply filtered_refl.
  - destruct (HD (Z.of_nat k) x y z Lx Ly Lz) as (idx & E & HS & HB).
    destruct idx as [|j0 idx0] eqn:Ei.
    + exists [], x, y, z. split; [constructor|]. split; [right; split; [cbn; lia | rewrite Nat.add_0_r; exact E]|].
      split; [apply filtered_refl|]. split; apply filtered_refl.
    + rewrite <- Ei in *. assert (Hne : idx <> []) by (rewrite Ei; discriminate).
      destruct (li_fins x idx 3 Hne HS) as (x1 & X1 & X2 & X3 & X4); [unfold zlen; rewrite Lx; exact HB|].
      destruct (li_fins y idx 3 Hne HS) as (y1 & Y1 & Y2 & Y3 & Y4); [unfold zlen; rewrite Ly; exact HB|].
      destruct (li_fins z idx 3 Hne HS) as (z1 & Z1 & Z2 & Z3 & Z4); [unfold zlen; rewrite Lz; exact HB|].
      destruct (IH (S k) x1 y1 z1 ltac:(congruence) ltac:(congruence) ltac:(congruence)) as (h & x' & y' & z' & Hp & He & Fx & Fy & Fz).
      exists (idx :: h), x', y', z'. split.
      { econstructor; try eassumption. unfold replace3, li3. rewrite X1, Y1, Z1. reflexivity. }
      split.
      { cbn [length]. replace (k + S (length h))%nat with (S k + length h)%nat by lia.
        destruct He as [He|[He He']]; [left; lia | right; split; [lia | exact He']]. }
      split; [eapply filtered_step; eassumption|]. split; eapply filtered_step; eassumption.
Qed.

(** A despiking script on exact records: it returns; the history; what became of the three components. *)
Definition script_result (script : rec3 XR -> res (rec3 XR)) (detect : nat -> rec3 XR -> res (list Z)) (max : nat) (x y z : list R) : Prop :=
  exists hist x' y' z', script (fins x, fins y, fins z) = Ok (fins x', fins y', fins z') /\
    despiked detect (replace3 (fun v idx => linear_interpolation DFloat v idx 3)) max (fins x, fins y, fins z) hist (fins x', fins y', fins z') /\
    filtered_from hist x x' /\ filtered_from hist y y' /\ filtered_from hist z z'.
Lemma phase_filtered (x y z : list R) : x <> [] -> length y = length x -> length z = length x ->
  script_result phase_script (fun _ => phase_detect) 10 x y z.
Proof.
  intros Hx Ly Lz.
  destruct (despike_fins (fun _ => phase_detect) (length x)) with (n := 10%nat) (k := O) (x := x) (y := y) (z := z) as (h & x' & y' & z' & Hp & He & Fx & Fy & Fz);
    try assumption; try reflexivity.
  - intros _ a b c La Lb Lc. destruct (phase_detect_union XR (fins a) (fins b) (fins c)) as (_ & _ & _ & r & _ & _ & _ & E & HS & _ & HB).
    + apply fins_nil. destruct a, x; cbn in *; congruence.
    + rewrite !fins_length. congruence.
    + rewrite !fins_length. congruence.
    + exists r. split; [exact E|]. split; [exact HS|]. rewrite zlen_fins in HB. unfold zlen in HB. rewrite La in HB. exact HB.
  - exists h, x', y', z'. assert (HD : despiked (fun _ : nat => phase_detect) (replace3 li3) 10 (fins x, fins y, fins z) h (fins x', fins y', fins z')) by (split; assumption).
    split; [apply phase_history; exists h; exact HD|]. split; [exact HD|]. auto.
Qed.
Lemma sphere_filtered (x y z : list R) : (2 <= length x)%nat -> length y = length x -> length z = length x ->
  script_result sphere_script (fun pass => sphere_detect (Z.of_nat pass)) 3 x y z.
Proof.
  intros Hx Ly Lz.
  destruct (despike_fins sphere_detect (length x)) with (n := 3%nat) (k := O) (x := x) (y := y) (z := z) as (h & x' & y' & z' & Hp & He & Fx & Fy & Fz);
    try assumption; try reflexivity.
  - intros k a b c La Lb Lc. destruct (sphere_detect_union XR k (fins a) (fins b) (fins c)) as (_ & _ & _ & r & _ & _ & _ & E & HS & _ & HB).
    + rewrite zlen_fins. unfold zlen. lia.
    + rewrite !fins_length. congruence.
    + rewrite !fins_length. congruence.
    + exists r. split; [exact E|]. split; [exact HS|]. rewrite zlen_fins in HB. unfold zlen in HB. rewrite La in HB. exact HB.
  - exists h, x', y', z'. assert (HD : despiked (fun p : nat => sphere_detect (Z.of_nat p)) (replace3 li3) 3 (fins x, fins y, fins z) h (fins x', fins y', fins z')) by (split; assumption).
    split; [apply sphere_history; exists h; exact HD|]. split; [exact HD|]. auto.
Qed.
Lemma even_of_nat p : Z.even (Z.of_nat p) = Nat.even p.
Proof.
  induction p as [|p IH]; [reflexivity|]. rewrite Nat2Z.inj_succ, Z.even_succ, <- Z.negb_even, IH, Nat.even_succ, <- Nat.negb_even. reflexivity.
Qed.
Lemma passes_ext {S} (d d' : nat -> S -> res (list Z)) r : (forall k s, d k s = d' k s) ->
  forall k s h s', passes d r k s h s' -> passes d' r k s h s'.
Proof. intros H k s h s' Hp. induction Hp; [constructor|]. econstructor; try eassumption. rewrite <- H. assumption. Qed.
Lemma accel_filtered (x y z : list R) : x <> [] -> length y = length x -> length z = length x ->
  script_result accel_script (fun pass => accel_detect (if Nat.even pass then 2 else 1)) 10 x y z.
Proof.
  intros Hx Ly Lz.
  destruct (despike_fins (fun i => accel_detect (pass_tag i)) (length x)) with (n := 10%nat) (k := O) (x := x) (y := y) (z := z) as (h & x' & y' & z' & Hp & He & Fx & Fy & Fz);
    try assumption; try reflexivity.
  - intros k a b c La Lb Lc. assert (Ha : a <> []) by (destruct a, x; cbn in *; congruence).
    destruct (accel_detect_exact a b c Ha ltac:(congruence) ltac:(congruence)) as [(r1 & E1 & S1 & I1) (r2 & E2 & S2 & I2)].
    unfold pass_tag. destruct (Z.even k); [exists r2 | exists r1]; (split; [assumption|]; split; [assumption|]); intros i Hi;
      [apply I2 in Hi | apply I1 in Hi]; unfold zlen in Hi; rewrite La in Hi; apply Hi.
  - exists h, x', y', z'.
    assert (HD : despiked (fun p : nat => accel_detect (if Nat.even p then 2 else 1)) (replace3 li3) 10 (fins x, fins y, fins z) h (fins x', fins y', fins z')).
    { split.
      - revert Hp. apply passes_ext. intros k s. unfold pass_tag. rewrite even_of_nat. reflexivity.
      - revert He. unfold pass_tag. rewrite even_of_nat. exact (fun H => H). }
    split; [apply accel_history; exists h; exact HD|]. split; [exact HD|]. auto.
Qed.

(** ** The correlation script *)
Lemma passes_inv {S} (P : list (list Z) -> S -> S -> Prop) d r :
  (forall s, P [] s s) -> (forall s idx t h s', r s idx = Ok t -> P h t s' -> P (idx :: h) s s') ->
  forall k s h s', passes d r k s h s' -> P h s s'.
Proof. intros H0 H1 k s h s' Hp. induction Hp; [apply H0 | eapply H1; eassumption]. Qed.
Lemma corr_keeps (N : Num) (x y z x' y' z' : list N) hist :
  despiked (fun _ => corr_detect) (replace3 (mean_value DFloat)) 10 (x, y, z) hist (x', y', z') ->
  same_unless hist x x' /\ same_unless hist y y' /\ same_unless hist z z'.
Proof.
  intros [Hp _].
  apply (passes_inv (fun h (s s' : rec3 N) => let '(x, y, z) := s in let '(x', y', z') := s' in
    same_unless h x x' /\ same_unless h y y' /\ same_unless h z z') _ _) in Hp; [exact Hp| |].
  - intros [[a b] c]. repeat split; reflexivity.
  - intros [[a b] c] idx [[a1 b1] c1] h [[a2 b2] c2] E (Ha & Hb & Hc).
    unfold replace3 in E. apply bind_ok in E. destruct E as (a0 & Ea & E). apply bind_ok in E. destruct E as (b0 & Eb & E).
    apply bind_ok in E. destruct E as (c0 & Ec & E). injection E as -> -> ->.
    assert (HK : forall v r w : list N, mean_value DFloat v idx = Ok r -> same_unless h r w -> same_unless (idx :: h) v w).
    { intros v r w Ev [L1 K1]. destruct (mean_value_keeps N DFloat v r idx Ev) as [L0 K0]. split; [congruence|].
      intros i Hi Hn. rewrite K1.
      - apply K0; [exact Hi|]. apply Hn. left. reflexivity.
      - lia.
      - intros j Hj. unfold zlen in *. rewrite L0. apply Hn. right. exact Hj. }
    split; [eapply HK; eassumption|]. split; eapply HK; eassumption.
Qed.

(** A record in which nothing is found is returned as it is. *)
Lemma accel_untouched (N : Num) (s : rec3 N) : accel_detect 2 s = Ok [] -> accel_script s = Ok s.
Proof. intros H. unfold accel_script. cbn [accel_loop]. cbv zeta. change (1 =? 1)%Z with true. cbn iota. rewrite H. reflexivity. Qed.
Lemma phase_untouched (N : Num) (s : rec3 N) : phase_detect s = Ok [] -> phase_script s = Ok s.
Proof. intros H. unfold phase_script. cbn [despike]. rewrite H. reflexivity. Qed.
Lemma sphere_untouched (N : Num) (s : rec3 N) : sphere_detect 0 s = Ok [] -> sphere_script s = Ok s.
Proof. intros H. unfold sphere_script. cbn [despike]. rewrite H. reflexivity. Qed.
Lemma corr_untouched (N : Num) (s : rec3 N) : corr_detect s = Ok [] -> corr_script s = Ok s.
Proof. intros H. unfold corr_script. cbn [despike]. rewrite H. reflexivity. Qed.
Lemma scripts_untouched (N : Num) (s : rec3 N) :
  (accel_detect 2 s = Ok [] -> accel_script s = Ok s) /\ (phase_detect s = Ok [] -> phase_script s = Ok s) /\
  (sphere_detect 0 s = Ok [] -> sphere_script s = Ok s) /\ (corr_detect s = Ok [] -> corr_script s = Ok s).
Proof.
  split; [apply accel_untouched|]. split; [apply phase_untouched|]. split; [apply sphere_untouched | apply corr_untouched].
Qed.

(** ** The acceleration script stops before looking for rising spikes *)
Lemma accel_no_falling (x y z : list R) : x <> [] -> length y = length x -> length z = length x ->
  (forall i, (0 <= i < zlen x)%Z -> ~ falling x i /\ ~ falling y i /\ ~ falling z i) ->
  accel_script (fins x, fins y, fins z) = Ok (fins x, fins y, fins z).
Proof.
  intros Hx Ly Lz H. apply accel_untouched. destruct (accel_detect_exact x y z Hx Ly Lz) as [_ (r & E & _ & I)].
  rewrite E. f_equal. destruct r as [|i r]; [reflexivity|]. exfalso. destruct (proj1 (I i) (or_introl eq_refl)) as [Hi HF].
  specialize (H i Hi). tauto.
Qed.
Definition wit_spike : list R := [0; 0; 90; 0; 0; 0].
Lemma wit_mean : rmean wit_spike = 15.
Proof. unfold rmean, wit_spike. cbn. lra. Qed.
Lemma wit_std : 33 < rstd wit_spike < 34.
Proof.
  unfold rstd, rvar, rmoment. rewrite wit_mean. unfold rmean, wit_spike. cbn [map length Rsum].
  replace (INR 6) with 6 by (cbn; lra).
  match goal with |- 33 < sqrt ?e < 34 => replace e with 1125 by (cbn; lra) end.
  split.
  - replace 33 with (sqrt (33 * 33)) by (apply sqrt_square; lra). apply sqrt_lt_1; lra.
  - replace 34 with (sqrt (34 * 34)) by (apply sqrt_square; lra). apply sqrt_lt_1; lra.
Qed.
Lemma accel_misses_rising : exists x y z : list R, exists i r, length y = length x /\ length z = length x /\
  accel_script (fins x, fins y, fins z) = Ok (fins x, fins y, fins z) /\ accel_detect 1 (fins x, fins y, fins z) = Ok r /\
  In i r /\ rising x i.
Proof.
  assert (HR : rising wit_spike 2).
  { pose proof wit_std. unfold rising. rewrite wit_mean. unfold raccel. change (Z.to_nat 2) with 2%nat. change (Z.to_nat (2 - 1)) with 1%nat. cbn [Z.eqb nth wit_spike]. lra. }
  assert (HF : forall i, ~ falling wit_spike i).
  { intros i [_ H]. pose proof wit_std. rewrite wit_mean in H.
    assert (0 <= nth (Z.to_nat i) wit_spike 0); [|lra].
    destruct (Z.to_nat i) as [|[|[|[|[|[|[|]]]]]]]; cbn; lra. }
  exists wit_spike, wit_spike, wit_spike, 2%Z.
  destruct (accel_detect_exact wit_spike wit_spike wit_spike ltac:(discriminate) eq_refl eq_refl) as [(r & E & _ & I) _].
  exists r. split; [reflexivity|]. split; [reflexivity|].
  split; [apply accel_no_falling; [discriminate | reflexivity | reflexivity | intros; split; [|split]; apply HF]|].
  split; [exact E|]. split; [apply I; split; [cbn; lia | left; exact HR] | exact HR].
Qed.
