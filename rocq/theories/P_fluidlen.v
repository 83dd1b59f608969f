(** Reynolds stresses of components of different lengths (C159). *)
From Coq Require Import Reals Lra Psatz.
From Flocq Require Import Core.Raux.
From Verif Require Import Num NpBase Lib XR LibR Spec Spec31 M_descriptive M_signal P_moment P_corrlen.
Local Open Scope R_scope.

Lemma dev_one x : map (fun y => y - rmean [x]) [x] = [0].
Proof. cbn. f_equal. unfold rmean. cbn. lra. Qed.
Lemma dev_zero u : length u = 1%nat -> map (fun y => y - rmean u) u = [0].
Proof. destruct u as [|x [|x' u]]; intros H; try discriminate H. apply dev_one. Qed.
Lemma mean_zeros (z : list XR) : z <> [] -> (forall x, In x z -> x = Fin 0) -> mean_num z = Ok (Fin 0).
Proof.
  intros Hz H. assert (E : z = fins (map (fun _ => 0) z)).
  { unfold fins. rewrite map_map. rewrite <- (map_id z) at 1. apply map_ext_in. exact H. }
  rewrite E, mean_num_fins by (apply map_nil_iff, Hz). do 2 f_equal. unfold rmean. rewrite Rsum_map_const, map_length.
  rewrite Rmult_0_r. unfold Rdiv. ring.
Qed.
Lemma cross_any (u v : list R) : u <> [] -> v <> [] ->
  let r := (let* uv := bcast (@nmul XR) (fins (map (fun x => x - rmean u) u)) (fins (map (fun x => x - rmean v) v)) in mean_num uv) in
  (multiply u v -> r = Ok (Fin (cov_or_zero u v))) /\
  (~ multiply u v -> bcast (@nmul XR) (fins (map (fun x => x - rmean u) u)) (fins (map (fun x => x - rmean v) v)) = Raise ValueError).
Proof.
  intros Hu Hv. cbv zeta. unfold cov_or_zero. destruct (Nat.eqb_spec (length u) (length v)) as [E|E].
  - rewrite bcast_mul_fins by (rewrite !map_length; exact E). cbn [bind]. rewrite mean_cross by assumption.
    split; [reflexivity|]. intros Hn. exfalso. apply Hn. left. exact E.
  - split.
    + intros [H|[H|H]]; [contradiction| |].
      * rewrite (dev_zero u H). unfold bcast. rewrite !fins_length, map_length.
        destruct (Nat.eqb_spec (length [0]) (length v)) as [E'|E']; [cbn in E'; lia|]. cbn [fins map bind].
        apply mean_zeros; [do 2 apply map_nil_iff; apply map_nil_iff, Hv|].
        intros x Hx. apply in_map_iff in Hx. destruct Hx as (y & <- & Hy). unfold fins in Hy. apply in_map_iff in Hy. destruct Hy as (t & <- & _). rewrite xmul_fin. f_equal. ring.
      * rewrite (dev_zero v H). unfold bcast. rewrite !fins_length, map_length.
        destruct (Nat.eqb_spec (length u) (length [0])) as [E'|E']; [cbn in E'; lia|].
        destruct u as [|x [|x' u]]; [congruence | cbn in E'; lia |]. cbn [fins map bind].
        apply mean_zeros; [discriminate|]. intros y [<-|[<-|Hy]]; try (rewrite xmul_fin; f_equal; ring).
        apply in_map_iff in Hy. destruct Hy as (t & <- & Ht). apply in_map_iff in Ht. destruct Ht as (s & <- & _). rewrite xmul_fin. f_equal. ring.
    + intros Hn. unfold bcast. rewrite !fins_length, !map_length. destruct (Nat.eqb_spec (length u) (length v)) as [E'|_]; [contradiction|].
      destruct u as [|x [|x' u]]; [congruence | exfalso; apply Hn; right; left; reflexivity |].
      destruct v as [|y [|y' v]]; [congruence | exfalso; apply Hn; right; right; reflexivity |]. reflexivity.
Qed.
Lemma multiply_dec u v : multiply u v \/ ~ multiply u v.
Proof. unfold multiply. lia. Qed.
Lemma reynolds_any (u v w : list R) : u <> [] -> v <> [] -> w <> [] ->
  (multiply u v -> multiply u w -> multiply v w -> @reynolds_stresses XR (fins u) (fins v) (fins w) =
     Ok (Fin (rvar u), Fin (rvar v), Fin (rvar w), Fin (cov_or_zero u v), Fin (cov_or_zero u w), Fin (cov_or_zero v w))) /\
  (~ (multiply u v /\ multiply u w /\ multiply v w) -> @reynolds_stresses XR (fins u) (fins v) (fins w) = Raise ValueError).
Proof.
  intros Hu Hv Hw. destruct (cross_any u v Hu Hv) as [A1 A2], (cross_any u w Hu Hw) as [B1 B2], (cross_any v w Hv Hw) as [C1 C2].
  assert (ST : forall (a : res (list XR)) (x : XR), (let* uv := a in mean_num uv) = Ok x -> exists l, a = Ok l /\ mean_num l = Ok x).
  { intros a x H. apply bind_ok in H. exact H. }
  unfold reynolds_stresses. rewrite !fluct_fins by assumption. cbn [bind]. rewrite !mean_sq_fluct by assumption. cbn [bind].
  destruct (multiply_dec u v) as [M1|M1].
  2: { split; [intros ?; contradiction|]. intros _. rewrite (A2 M1). reflexivity. }
  destruct (ST _ _ (A1 M1)) as (l1 & E1 & F1). rewrite E1. cbn [bind]. rewrite F1. cbn [bind].
  destruct (multiply_dec u w) as [M2|M2].
  2: { split; [intros _ ?; contradiction|]. intros _. rewrite (B2 M2). reflexivity. }
  destruct (ST _ _ (B1 M2)) as (l2 & E2 & F2). rewrite E2. cbn [bind]. rewrite F2. cbn [bind].
  destruct (multiply_dec v w) as [M3|M3].
  2: { split; [intros _ _ ?; contradiction|]. intros _. rewrite (C2 M3). reflexivity. }
  destruct (ST _ _ (C1 M3)) as (l3 & E3 & F3). rewrite E3. cbn [bind]. rewrite F3. cbn [bind].
  split; [reflexivity|]. intros Hn. exfalso. apply Hn. auto.
Qed.
Lemma tke_any (N : Num) (u v w : list N) : u <> [] -> v <> [] -> w <> [] -> exists k, kinetic_turbulent_energy u v w = Ok k.
Proof.
  intros Hu Hv Hw. unfold kinetic_turbulent_energy, fluct.
  rewrite !mean_num_ne by assumption. cbn [bind]. rewrite !mean_num_ne by (do 2 apply map_nil_iff; assumption). cbn [bind]. eexists. reflexivity.
Qed.
