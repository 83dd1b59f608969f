(** Repaired records and the variance of the record. (C164) *)
From Coq Require Import Reals Lra Psatz.
From Flocq Require Import Core.Raux.
From Verif Require Import Num NpBase Lib XR LibR Spec Spec5 Spec28 Spec30 M_descriptive M_series M_replacement M_detection M_pipeline P_series P_replacement P_interp P_order P_moment P_ineq P_hist P_smooth P_pipeline P_polyrep P_sph P_range.
Local Open Scope R_scope.

Lemma fancy_set_pt {A} (y : A) idx : forall v r, fancy_set v idx y = Ok r -> length r = length v /\ forall k d, nth k r d = nth k v d \/ nth k r d = y.
Proof.
  unfold fancy_set. induction idx as [|i idx IH]; intros v r E; cbn [foldM] in E.
  - assert (v = r) by congruence. subst r. split; [reflexivity|]. intros k d. left. reflexivity.
  - apply bind_ok in E. destruct E as (m & E1 & E2). apply IH in E2. destruct E2 as [L H].
    unfold setz in E1. destruct (pyidx (zlen v) i) as [j|] eqn:Ej; [|discriminate]. assert (m = upd v j y) by congruence. subst m.
    rewrite upd_length in L. split; [exact L|]. intros k d. destruct (H k d) as [H1|H1]; [|right; exact H1]. rewrite H1.
    destruct (Nat.eq_dec j k) as [->|Hn]; [|left; apply nth_upd_other; exact Hn].
    destruct (Nat.lt_ge_cases k (length v)) as [Hk|Hk]; [right; apply nth_upd_same; exact Hk|]. left. rewrite !nth_overflow by (rewrite ?upd_length; exact Hk). reflexivity.
Qed.
Lemma Rsum_le_nth (f : R -> R) : forall l m, length m = length l -> (forall k, (k < length l)%nat -> f (nth k m 0) <= f (nth k l 0)) -> Rsum (map f m) <= Rsum (map f l).
Proof.
  induction l as [|x l IH]; intros [|y m] HL H; try discriminate HL; [cbn; lra|]. cbn [map Rsum].
  pose proof (H O ltac:(cbn; lia)) as H0. cbn [nth] in H0. assert (Rsum (map f m) <= Rsum (map f l)).
  { apply IH; [injection HL as HL; exact HL|]. intros k Hk. exact (H (S k) ltac:(cbn; lia)). }
  lra.
Qed.
Lemma sum_sq c l : Rsum (map (fun x => (x - c) ^ 2) l) = Rsum (map (fun x => x ^ 2) l) - 2 * c * Rsum l + INR (length l) * c ^ 2.
Proof. induction l as [|x l IH]; [cbn; ring|]. cbn [map Rsum length]. rewrite IH, S_INR. ring. Qed.
Lemma var_about l c : l <> [] -> INR (length l) * rvar l <= Rsum (map (fun x => (x - c) ^ 2) l).
Proof.
  intros Hl. rewrite <- rvar_sum by exact Hl. rewrite !sum_sq. pose proof (INR_len_pos l Hl) as Hn. unfold rmean.
  set (s := Rsum l). set (n := INR (length l)) in *. assert (0 <= n * (s / n - c) ^ 2) by (apply Rmult_le_pos; [lra | apply pow2_ge_0]).
  assert (n * (s / n - c) ^ 2 = - (- 2 * (s / n) * s + n * (s / n) ^ 2) + (- 2 * c * s + n * c ^ 2)) by (field; lra). lra.
Qed.
Lemma var_closer l m : l <> [] -> length m = length l -> (forall k, (k < length l)%nat -> (nth k m 0 - rmean l) ^ 2 <= (nth k l 0 - rmean l) ^ 2) -> rvar m <= rvar l.
Proof.
  intros Hl HL H. pose proof (INR_len_pos l Hl) as Hn. assert (Hm : m <> []) by (intros ->; destruct l; [contradiction|discriminate HL]).
  apply (Rmult_le_reg_l (INR (length l))); [lra|]. rewrite <- (rvar_sum l Hl). rewrite <- HL. eapply Rle_trans; [apply (var_about m (rmean l) Hm)|].
  apply Rsum_le_nth; assumption.
Qed.
Lemma mean_shrinks (l : list R) idx r : @mean_value XR DFloat (fins l) idx = Ok r -> exists m, r = fins m /\ length m = length l /\ rvar m <= rvar l.
Proof.
  intros E. destruct (mean_range l idx r E) as (m & -> & HL & _). exists m. split; [reflexivity|]. split; [exact HL|].
  destruct l as [|x0 l0]; [destruct m; [lra|discriminate HL]|]. set (l := x0 :: l0) in *. assert (Hl : l <> []) by discriminate.
  apply var_closer; [exact Hl | exact HL|]. intros k Hk.
  unfold mean_value in E. rewrite mean_of_ne in E by discriminate. cbn [bind storable] in E. apply fancy_set_pt in E. destruct E as [_ H].
  specialize (H k (Fin 0)). rewrite (np_mean_fins l Hl) in H. rewrite !fins_nth in H. destruct H as [H|H].
  - assert (E : nth k m 0 = nth k l 0) by congruence. rewrite E. lra.
  - assert (E : nth k m 0 = rmean l) by congruence. rewrite E. replace (rmean l - rmean l) with 0 by ring. pose proof (pow2_ge_0 (nth k l 0 - rmean l)). lra.
Qed.
Lemma corr_shrinks (x y z : list R) r : corr_script (fins x, fins y, fins z) = Ok r ->
  exists x' y' z', r = (fins x', fins y', fins z') /\ rvar x' <= rvar x /\ rvar y' <= rvar y /\ rvar z' <= rvar z.
Proof.
  intros E. apply corr_history in E. destruct E as (hist & Hp & _).
  refine (passes_inv (fun _ (s s' : rec3 XR) => forall x y z, s = (fins x, fins y, fins z) ->
    exists x' y' z', s' = (fins x', fins y', fins z') /\ rvar x' <= rvar x /\ rvar y' <= rvar y /\ rvar z' <= rvar z) _ _ _ _ _ _ _ _ Hp x y z eq_refl).
  - intros s a b c ->. exists a, b, c. split; [reflexivity|]. lra.
  - intros s idx t h s' Er IH a b c ->. unfold replace3 in Er. apply bind_ok in Er. destruct Er as (a1 & Ea & Er). apply bind_ok in Er. destruct Er as (b1 & Eb & Er).
    apply bind_ok in Er. destruct Er as (c1 & Ec & Er). injection Er as <-.
    apply mean_shrinks in Ea, Eb, Ec. destruct Ea as (a2 & -> & La & Ra), Eb as (b2 & -> & Lb & Rb), Ec as (c2 & -> & Lc & Rc).
    destruct (IH a2 b2 c2 eq_refl) as (x' & y' & z' & -> & H1 & H2 & H3). exists x', y', z'. split; [reflexivity|]. lra.
Qed.

(** ** The others may increase it *)
Lemma var4 a b c d : rvar [a; b; c; d] = (a ^ 2 + b ^ 2 + c ^ 2 + d ^ 2) / 4 - ((a + b + c + d) / 4) ^ 2.
Proof. unfold rvar, rmoment, rmean. cbn [map length Rsum]. replace (INR 4) with 4 by (cbn; lra). field. Qed.
Lemma increases : rvar [-10; 0; -10; 20] = 150 /\
  (@last_valid_data XR (fins [-10; 0; -10; 20]) [1%Z] = Ok (fins [-10; -10; -10; 20]) /\
   @linear_interpolation XR DFloat (fins [-10; 0; -10; 20]) [1%Z] 4 = Ok (fins [-10; -10; -10; 20]) /\ 168 < rvar [-10; -10; -10; 20]) /\
  (@median_value XR DFloat (fins [-10; 0; -10; 20]) [1%Z] = Ok (fins [-10; -5; -10; 20]) /\
   @repl_sma XR DFloat (fins [-10; 0; -10; 20]) [1%Z] 2 = Ok (fins [-10; -5; -10; 20]) /\ 154 < rvar [-10; -5; -10; 20]).
Proof.
  assert (A : forall z, @around XR (Fin (IZR z)) 4 = Fin (IZR z)).
  { intros z. rewrite around_fin, round4_int. reflexivity. }
  split; [rewrite var4; lra|]. split; split; [reflexivity | split | | split].
  - destruct (li_exact [-10; 0; -10; 20] [1%Z] 4) as (r & E & L & H1 & H2); [discriminate | repeat constructor | intros i [<-|[]]; cbn; lia|].
    rewrite E. change (car XR) with xr in *. destruct r as [|r0 [|r1 [|r2 [|r3 [|]]]]]; try (cbn in L; discriminate).
    pose proof (H1 0%Z ltac:(cbn; lia) ltac:(cbn; lia)) as K0. pose proof (H1 2%Z ltac:(cbn; lia) ltac:(cbn; lia)) as K2.
    pose proof (H1 3%Z ltac:(cbn; lia) ltac:(cbn; lia)) as K3. pose proof (H2 1%Z 1%Z 1%Z ltac:(lia)) as K1.
    change (r0 = Fin (-10)) in K0. change (r2 = Fin (-10)) in K2. change (r3 = Fin 20) in K3. subst r0 r2 r3. specialize (K1 ltac:(intros j Hj; left; lia) ltac:(intros [H|[]]; lia) ltac:(intros [H|[]]; lia)).
    change (nth (Z.to_nat 1) [Fin (-10); r1; Fin (-10); Fin 20] (Fin 0)) with r1 in K1.
    assert (E1 : r1 = Fin (-10)).
    { rewrite K1. change ((1 >? 0)%Z) with true. replace ((1 <? zlen [-10; 0; -10; 20] - 1)%Z) with true by reflexivity. cbv iota.
      change (nth (Z.to_nat (1 - 1)) [-10; 0; -10; 20] 0) with (-10). change (nth (Z.to_nat (1 + 1)) [-10; 0; -10; 20] 0) with (-10).
      match goal with |- context [if ?b then Fin (-10) else NaN] => change b with true end. cbv iota. unfold run_value. change (@nisnan XR (Fin (-10))) with false. cbn [negb andb]. rewrite xsub_fin, !xofZ_fin, xdiv_fin by (cbn; lra). rewrite xmul_fin, xadd_fin. f_equal. cbn. lra. }
    rewrite E1. cbn [map]. rewrite A. change (@around XR (Fin 20) 4) with (@around XR (Fin (IZR 20)) 4). rewrite A. reflexivity.
  - rewrite var4. lra.
  - unfold median_value. rewrite (median_correct [-10; 0; -10; 20] [-10; -10; 0; 20]).
    + cbn [bind storable]. replace (rmiddle [-10; -10; 0; 20]) with (-5) by (unfold rmiddle; cbn; lra). reflexivity.
    + discriminate.
    + split; [apply Permutation.perm_skip, Permutation.perm_swap|]. repeat (constructor; [|]); try constructor; repeat (apply Forall_cons || apply Forall_nil); lra.
  - unfold repl_sma. rewrite moving_average_correct by (cbn; lia). cbn [bind].
    change (take_from DFloat (fins [-10; 0; -10; 20]) (fins (map (fun i => rmean (rwindow [-10; 0; -10; 20] (Z.to_nat 2) i)) (seq 0 (length [-10; 0; -10; 20])))) [1%Z])
      with (@Ok (list xr) [Fin (-10); Fin (rmean [-10; 0]); Fin (-10); Fin 20]).
    replace (rmean [-10; 0]) with (-5) by (unfold rmean; cbn; lra). reflexivity.
  - rewrite var4. lra.
Qed.
