(** Expansion of roots into polynomial coefficients (C62) and single sections. *)
From Coq Require Import Reals Lra Psatz Permutation.
From Coquelicot Require Import Complex.
From Flocq Require Import Core.Raux.
From Verif Require Import Num NpBase Lib XR M_butter Spec3 P_cx P_butter.
Local Open Scope R_scope.

(** ** Coefficients over C *)
Definition step (a : list C) (z : C) : list C :=
  zipwith Cplus (a ++ [RtoC 0]) (RtoC 0 :: map (fun v => v * - z)%C a).
Definition coefs_from (a roots : list C) : list C := fold_left step roots a.
Definition coefs (roots : list C) : list C := coefs_from [RtoC 1] roots.

Lemma zipwith_cf a b : zipwith (@cadd XR) (cfs a) (cfs b) = cfs (zipwith Cplus a b).
Proof.
  unfold zipwith, cfs. revert b. induction a as [|x a IH]; intros [|y b]; cbn; try easy.
  f_equal. apply IH.
Qed.
Lemma zipwith_cons {A B D} (f : A -> B -> D) x a y b : zipwith f (x :: a) (y :: b) = f x y :: zipwith f a b.
Proof. reflexivity. Qed.

Lemma poly_step_cf a z : @poly_step XR (cfs a) (cf z) = cfs (step a z).
Proof.
  unfold poly_step, step. rewrite <- zipwith_cf. f_equal.
  - now rewrite cfs_app.
  - cbn [cfs map]. f_equal. unfold cfs. rewrite !map_map. apply map_ext. intros v.
    now rewrite copp_cf, cmul_cf.
Qed.
Lemma fold_poly_cf r a : fold_left (@poly_step XR) (cfs r) (cfs a) = cfs (coefs_from a r).
Proof.
  revert a. induction r as [|z r IH]; intros a; [reflexivity|].
  cbn [cfs map fold_left coefs_from]. rewrite poly_step_cf. apply IH.
Qed.

Lemma step_length a z : length (step a z) = S (length a).
Proof.
  unfold step. rewrite zipwith_length, app_length. cbn [length]. rewrite map_length. lia.
Qed.
Lemma coefs_from_length a r : length (coefs_from a r) = (length a + length r)%nat.
Proof.
  revert a. induction r as [|z r IH]; intros a; cbn [coefs_from fold_left length]; [lia|].
  fold (coefs_from (step a z) r). rewrite IH, step_length. lia.
Qed.

Lemma polyval_snoc a c s : polyval (a ++ [c]) s = (s * polyval a s + c)%C.
Proof.
  induction a as [|x a IH]; cbn [app polyval].
  - cbn. ring.
  - rewrite IH, app_length. cbn [length]. rewrite Nat.add_1_r. cbn [Cpown]. ring.
Qed.
Lemma polyval_zip a b s : length a = length b ->
  polyval (zipwith Cplus a b) s = (polyval a s + polyval b s)%C.
Proof.
  revert b. induction a as [|x a IH]; intros [|y b] H; try easy; [cbn; ring|].
  rewrite zipwith_cons. cbn [polyval].
  cbn in H. rewrite IH by lia. rewrite zipwith_length. replace (length b) with (length a) by lia.
  rewrite Nat.min_id. ring.
Qed.
Lemma polyval_scale a c s : polyval (map (fun v => v * c)%C a) s = (polyval a s * c)%C.
Proof.
  induction a as [|x a IH]; cbn [map polyval]; [ring|]. rewrite IH, map_length. ring.
Qed.
Lemma polyval_step a z s : polyval (step a z) s = ((s - z) * polyval a s)%C.
Proof.
  unfold step. rewrite polyval_zip by (rewrite app_length; cbn [length]; rewrite map_length; lia).
  cbn [polyval]. rewrite polyval_snoc, polyval_scale. ring.
Qed.
Lemma polyval_coefs a r s : polyval (coefs_from a r) s = (from_roots r s * polyval a s)%C.
Proof.
  revert a. induction r as [|z r IH]; intros a; cbn [coefs_from fold_left].
  - unfold from_roots. cbn. ring.
  - fold (coefs_from (step a z) r). rewrite IH, polyval_step. unfold from_roots. cbn [map Cprodl]. ring.
Qed.

Lemma coefs_from_hd a r : a <> [] -> hd (RtoC 0) (coefs_from a r) = hd (RtoC 0) a.
Proof.
  revert a. induction r as [|z r IH]; intros a Ha; [easy|].
  cbn [coefs_from fold_left]. fold (coefs_from (step a z) r). rewrite IH.
  - destruct a; [easy|]. cbn. ring.
  - intros E. apply (f_equal (@length C)) in E. rewrite step_length in E. easy.
Qed.

(** ** Order of the roots does not matter *)
Lemma nth_step a z i :
  nth i (step a z) (RtoC 0)
  = (nth i a (RtoC 0) + match i with O => RtoC 0 | S j => nth j a (RtoC 0) * - z end)%C.
Proof.
  destruct (Nat.lt_ge_cases i (S (length a))) as [H|H].
  - unfold step.
    rewrite (nth_zipwith Cplus _ _ _ (RtoC 0) (RtoC 0) (RtoC 0))
      by (rewrite ?app_length; cbn [length]; rewrite ?map_length; lia).
    f_equal.
    + destruct (Nat.eq_dec i (length a)) as [->|].
      * rewrite app_nth2, Nat.sub_diag by lia. now rewrite (nth_overflow a) by lia.
      * now rewrite app_nth1 by lia.
    + destruct i as [|j]; [easy|]. cbn [nth].
      rewrite (nth_indep _ (RtoC 0) (RtoC 0 * - z)%C) by (rewrite map_length; lia).
      apply (map_nth (fun v => v * - z)%C).
  - rewrite nth_overflow by (rewrite step_length; lia).
    rewrite (nth_overflow a) by lia. destruct i as [|j]; [lia|]. rewrite (nth_overflow a) by lia. ring.
Qed.

Lemma step_comm a x y : step (step a x) y = step (step a y) x.
Proof.
  apply (nth_ext _ _ (RtoC 0) (RtoC 0)); [now rewrite !step_length|].
  intros i _. rewrite !nth_step. destruct i as [|[|j]]; rewrite ?nth_step; ring.
Qed.
Lemma coefs_perm r r' : Permutation r r' -> forall a, coefs_from a r = coefs_from a r'.
Proof.
  induction 1; intros a; cbn [coefs_from fold_left]; [easy|apply IHPermutation| |].
  - now rewrite step_comm.
  - now rewrite IHPermutation1.
Qed.
Lemma step_conj a z : map Cconj (step a z) = step (map Cconj a) (Cconj z).
Proof.
  apply (nth_ext _ _ (RtoC 0) (RtoC 0)); [now rewrite map_length, !step_length, map_length|].
  intros i _. assert (M : forall l j, nth j (map Cconj l) (RtoC 0) = Cconj (nth j l (RtoC 0))).
  { intros l j. rewrite <- (Cconj_real 0) at 1. apply map_nth. }
  rewrite M, !nth_step, Cconj_add, M. destruct i as [|j]; [now rewrite Cconj_real|].
  now rewrite M, Cconj_mul, Cconj_opp.
Qed.
Lemma coefs_conj r a : map Cconj (coefs_from a r) = coefs_from (map Cconj a) (map Cconj r).
Proof.
  revert a. induction r as [|z r IH]; intros a; [easy|].
  cbn [coefs_from fold_left map]. fold (coefs_from (step a z) r). rewrite IH, step_conj. reflexivity.
Qed.
Lemma map_fix {A} (f : A -> A) l : map f l = l -> forall x, In x l -> f x = x.
Proof.
  induction l as [|y l IH]; [easy|]. cbn. intros E x [-> |Hx]; injection E as E1 E2; auto.
Qed.
Lemma coefs_real r : conj_closed r -> forall c, In c (coefs r) -> snd c = 0.
Proof.
  intros H c Hc. apply Cconj_Im0. revert c Hc. apply map_fix. unfold coefs. rewrite coefs_conj.
  cbn [map]. rewrite Cconj_real. now apply coefs_perm.
Qed.

(** ** Sorting *)
Lemma insert_by_perm {A} (leb : A -> A -> bool) x l : Permutation (insert_by leb x l) (x :: l).
Proof.
  induction l as [|y l IH]; cbn; [easy|]. destruct (leb x y); [easy|].
  rewrite IH. apply perm_swap.
Qed.
Lemma sort_by_perm {A} (leb : A -> A -> bool) l : Permutation (sort_by leb l) l.
Proof.
  induction l as [|x l IH]; cbn; [easy|]. rewrite insert_by_perm. now constructor.
Qed.

Definition uncf (v : XR * XR) : C :=
  (match fst v with Fin a => a | _ => 0 end, match snd v with Fin b => b | _ => 0 end).
Lemma uncf_cf z : uncf (cf z) = z. Proof. now destruct z. Qed.
Lemma cfs_perm a b : Permutation (cfs a) (cfs b) -> Permutation a b.
Proof.
  intros H. apply (Permutation_map uncf) in H. unfold cfs in H. rewrite !map_map in H.
  rewrite (map_ext _ _ uncf_cf), (map_ext _ _ uncf_cf) in H. now rewrite !map_id in H.
Qed.
Lemma ceqb_cf a b : @ceqb XR (cf a) (cf b) = true -> cf a = cf b.
Proof.
  unfold ceqb, cf. cbn. intros H. apply andb_prop in H as [H1 H2].
  destruct (Req_bool_spec (fst a) (fst b)); [|easy]. destruct (Req_bool_spec (snd a) (snd b)); [|easy].
  congruence.
Qed.
Lemma ceqb_cf_refl a : @ceqb XR (cf a) (cf a) = true.
Proof. unfold ceqb, cf. cbn. now rewrite !Req_bool_true. Qed.

Lemma all_eqb_eq : forall l l' : list (XR * XR), length l = length l' ->
  (forall v, In v l -> exists z, v = cf z) -> (forall v, In v l' -> exists z, v = cf z) ->
  all_eqb l l' = true -> l = l'.
Proof.
  induction l as [|x l IH]; intros [|y l'] HL H1 H2 HE; try easy. cbn in HE.
  apply andb_prop in HE as [E1 E2].
  destruct (H1 x (or_introl eq_refl)) as [a ->]. destruct (H2 y (or_introl eq_refl)) as [b ->].
  rewrite (ceqb_cf a b E1). f_equal. apply IH; auto.
  - intros v Hv. apply H1. now right.
  - intros v Hv. apply H2. now right.
Qed.

Lemma sorted_eq_perm (a b : list C) : length a = length b ->
  all_eqb (@sort_complex XR (cfs a)) (@sort_complex XR (cfs b)) = true -> Permutation a b.
Proof.
  intros HL H. apply cfs_perm. unfold sort_complex in H.
  pose proof (sort_by_perm (@cleb XR) (cfs a)) as Pa. pose proof (sort_by_perm (@cleb XR) (cfs b)) as Pb.
  enough (E : sort_by (@cleb XR) (cfs a) = sort_by (@cleb XR) (cfs b)) by (rewrite <- Pa, <- Pb; now rewrite E).
  apply all_eqb_eq; [| | |exact H].
  - rewrite (Permutation_length Pa), (Permutation_length Pb), !cfs_length. exact HL.
  - intros v Hv. apply (Permutation_in _ Pa), in_map_iff in Hv as [z [<- _]]. eauto.
  - intros v Hv. apply (Permutation_in _ Pb), in_map_iff in Hv as [z [<- _]]. eauto.
Qed.

Lemma real_part_id l : (forall c, In c l -> snd c = 0) -> @real_part XR (cfs l) = cfs l.
Proof.
  intros H. unfold real_part, cfs. rewrite map_map. apply map_ext_in. intros c Hc.
  unfold cf, re, cre. cbn [fst]. rewrite (H c Hc). reflexivity.
Qed.

Lemma map_cconj_cfs l : map (@cconj XR) (cfs l) = cfs (map Cconj l).
Proof. apply map_cfs. intros; apply cconj_cf. Qed.

Lemma np_poly_cf r : @np_poly XR (cfs r) = cfs (coefs r).
Proof.
  unfold np_poly. rewrite map_cconj_cfs.
  change [@cre XR (@nofZ XR 1)] with (cfs [RtoC 1]). rewrite fold_poly_cf. fold (coefs r).
  destruct (all_eqb _ _) eqn:E; [|easy]. apply real_part_id. apply coefs_real.
  unfold conj_closed. symmetry. apply sorted_eq_perm; [now rewrite map_length|exact E].
Qed.

Lemma filter_cfs (p : XR * XR -> bool) (q : C -> bool) l :
  (forall z, p (cf z) = q z) -> filter p (cfs l) = cfs (filter q l).
Proof.
  intros H. induction l as [|z l IH]; [easy|]. cbn [cfs map filter]. rewrite H.
  destruct (q z); [cbn [map]; apply (f_equal (cons (cf z)))|]; exact IH.
Qed.

Lemma filter3_perm {A} (p q : A -> bool) l : (forall x, p x = true -> q x = false) ->
  Permutation l (filter p l ++ filter q l ++ filter (fun x => negb (p x) && negb (q x)) l).
Proof.
  intros H. induction l as [|x l IH]; cbn; [constructor|].
  destruct (p x) eqn:P, (q x) eqn:Q; cbn.
  - rewrite (H x P) in Q. easy.
  - now constructor.
  - rewrite <- Permutation_middle. now constructor.
  - rewrite !app_assoc, <- Permutation_middle, <- app_assoc. now constructor.
Qed.

Lemma paired_conj_closed (r : list C) :
  Permutation (map Cconj (filter (fun v : C => Rlt_bool (snd v) 0) r)) (filter (fun v : C => Rlt_bool 0 (snd v)) r) ->
  conj_closed r.
Proof.
  intros H. unfold conj_closed.
  pose proof (filter3_perm (fun v : C => Rlt_bool 0 (snd v)) (fun v => Rlt_bool (snd v) 0) r) as F.
  assert (HD : forall x : C, Rlt_bool 0 (snd x) = true -> Rlt_bool (snd x) 0 = false).
  { intros x. destruct (Rlt_bool_spec 0 (snd x)); [|easy]. intros _. apply Rlt_bool_false. lra. }
  specialize (F HD). rewrite F at 1. rewrite !map_app.
  etransitivity; [|symmetry; exact F].
  set (P := filter (fun v : C => Rlt_bool 0 (snd v)) r) in *.
  set (Q := filter (fun v : C => Rlt_bool (snd v) 0) r) in *.
  set (Z := filter (fun x : C => negb ((fun v : C => Rlt_bool 0 (snd v)) x) &&
                     negb ((fun v : C => Rlt_bool (snd v) 0) x)) r) in *.
  assert (EZ : map Cconj Z = Z).
  { unfold Z. clear. induction r as [|v r IH]; [easy|]. cbn [filter].
    destruct (Rlt_bool_spec 0 (snd v)), (Rlt_bool_spec (snd v) 0); cbn [negb andb map]; try easy.
    rewrite IH. f_equal. apply Cconj_Im0. lra. }
  rewrite EZ, !app_assoc. apply Permutation_app_tail.
  assert (H' : Permutation (map Cconj P) Q).
  { apply (Permutation_map Cconj) in H. rewrite map_map in H.
    rewrite (map_ext _ _ Cconj_conj), map_id in H. now symmetry. }
  rewrite Permutation_app_comm. now apply Permutation_app.
Qed.

Lemma real_if_paired_cf r g : (conj_closed r -> forall c, In c g -> snd c = 0) ->
  @real_if_paired XR (cfs r) (cfs g) = cfs g.
Proof.
  intros H. unfold real_if_paired.
  rewrite (filter_cfs (fun v => @nltb XR (@nofZ XR 0) (snd v)) (fun v => Rlt_bool 0 (snd v))) by easy.
  rewrite (filter_cfs (fun v => @nltb XR (snd v) (@nofZ XR 0)) (fun v => Rlt_bool (snd v) 0)) by easy.
  rewrite map_cconj_cfs.
  destruct (_ =? _)%nat eqn:EL; [|easy]. apply Nat.eqb_eq in EL. rewrite !cfs_length in EL.
  destruct (all_eqb _ _) eqn:E; [|easy].
  apply real_part_id, H, paired_conj_closed. apply sorted_eq_perm; [|exact E]. now symmetry.
Qed.

Lemma scale_cfs k l : map (@cmul XR (@cre XR (Fin k))) (cfs l) = cfs (map (Cmult (RtoC k)) l).
Proof. rewrite cre_cf. apply map_cfs. intros; apply cmul_cf. Qed.

Lemma xyz_to_ptf_cf x y k :
  @xyz_to_ptf XR (cfs x) (cfs y) (Fin k) = (cfs (map (Cmult (RtoC k)) (coefs x)), cfs (coefs y)).
Proof.
  unfold xyz_to_ptf. rewrite !np_poly_cf, scale_cfs.
  assert (H1 : @real_if_paired XR (cfs x) (cfs (map (Cmult (RtoC k)) (coefs x)))
               = cfs (map (Cmult (RtoC k)) (coefs x))).
  { apply real_if_paired_cf. intros H c Hc. apply in_map_iff in Hc as [d [<- Hd]].
    apply (coefs_real x H) in Hd. destruct d as [d1 d2]. cbn in *. subst. ring. }
  assert (H2 : @real_if_paired XR (cfs y) (cfs (coefs y)) = cfs (coefs y)).
  { apply real_if_paired_cf. apply coefs_real. }
  rewrite H1, H2. reflexivity.
Qed.

Lemma polyval_scale_l a c s : polyval (map (Cmult c) a) s = (c * polyval a s)%C.
Proof.
  rewrite (map_ext (Cmult c) (fun v => v * c)%C) by (intros; ring). rewrite polyval_scale. ring.
Qed.

Lemma ptf_spec x y k : exists g h,
  @xyz_to_ptf XR (cfs x) (cfs y) (Fin k) = (cfs g, cfs h) /\
  length g = S (length x) /\ length h = S (length y) /\
  hd (RtoC 0) g = RtoC k /\ hd (RtoC 0) h = RtoC 1 /\
  (forall s, polyval g s = (RtoC k * from_roots x s)%C) /\
  (forall s, polyval h s = from_roots y s) /\
  (conj_closed x -> forall c, In c g -> snd c = 0) /\
  (conj_closed y -> forall c, In c h -> snd c = 0).
Proof.
  eexists _, _. split; [apply xyz_to_ptf_cf|].
  assert (P1 : forall s, polyval [RtoC 1] s = RtoC 1) by (intros; cbn; ring).
  repeat split.
  - rewrite map_length. unfold coefs. now rewrite coefs_from_length.
  - unfold coefs. now rewrite coefs_from_length.
  - pose proof (coefs_from_hd [RtoC 1] x ltac:(easy)) as E. unfold coefs.
    destruct (coefs_from [RtoC 1] x); cbn in *; [|rewrite E; ring].
    apply (f_equal fst) in E. cbn in E. lra.
  - unfold coefs. now rewrite coefs_from_hd.
  - intros s. rewrite polyval_scale_l. unfold coefs. rewrite polyval_coefs, P1. ring.
  - intros s. unfold coefs. rewrite polyval_coefs, P1. ring.
  - intros H c Hc. apply in_map_iff in Hc as [d [<- Hd]].
    apply (coefs_real x H) in Hd. destruct d as [d1 d2]. cbn in *. subst. ring.
  - apply coefs_real.
Qed.

(** ** One section *)
Lemma re_cfs l : map (@re XR) (cfs l) = fins (map fst l).
Proof. unfold cfs, fins. now rewrite !map_map. Qed.

Lemma pad3_cf g : (length g <= 3)%nat ->
  @pad3 XR (cfs g) = Ok (fins (repeat 0 (3 - length g) ++ map fst g)).
Proof.
  intros H. unfold pad3. rewrite cfs_length.
  destruct (Nat.ltb_spec 3 (length g)); [lia|]. rewrite re_cfs. unfold fins. rewrite map_app.
  do 2 f_equal. generalize (3 - length g)%nat as m. induction m; cbn; [easy|]. now f_equal.
Qed.

Lemma lone_ok x y : (length x <= 2)%nat -> (length y <= 2)%nat -> conj_closed x -> conj_closed y ->
  exists row, @lone_xyzsop XR (cfs x) (cfs y) (@nofZ XR 1) = Ok (fins row) /\ length row = 6%nat /\
    (forall z, num_at row z = from_roots x z) /\ (forall z, den_at row z = from_roots y z).
Proof.
  intros Hx Hy Cx Cy. unfold lone_xyzsop. change (@nofZ XR 1) with (Fin 1).
  destruct (ptf_spec x y 1) as (g & h & E & Lg & Lh & _ & _ & Pg & Ph & Rg & Rh).
  rewrite E. specialize (Rg Cx). specialize (Rh Cy).
  rewrite pad3_cf by lia. cbn [bind]. rewrite pad3_cf by lia. cbn [bind].
  unfold fins. rewrite <- map_app.
  eexists. split; [reflexivity|]. split.
  { rewrite !app_length, !repeat_length, !map_length. unfold C in *. lia. }
  assert (RC : forall c : C, snd c = 0 -> RtoC (fst c) = c) by (intros c Hc; symmetry; now apply real_C).
  assert (G : forall l : list C, (1 <= length l <= 3)%nat -> (forall c, In c l -> snd c = 0) ->
    exists a b c, repeat 0 (3 - length l) ++ map fst l = [a; b; c] /\
    forall z, polyval l z = (RtoC a * (z * z) + RtoC b * z + RtoC c)%C).
  { intros l Hl Hr. destruct l as [|a [|b [|c [|d l]]]]; cbn [length] in Hl; try lia.
    - exists 0, 0, (fst a). split; [reflexivity|]. intros z. rewrite (RC a) by (apply Hr; now left). cbn. ring.
    - exists 0, (fst a), (fst b). split; [reflexivity|]. intros z.
      rewrite (RC a), (RC b) by (apply Hr; cbn; auto). cbn. ring.
    - exists (fst a), (fst b), (fst c). split; [reflexivity|]. intros z.
      rewrite (RC a), (RC b), (RC c) by (apply Hr; cbn; auto). cbn. ring. }
  destruct (G g ltac:(lia) Rg) as (a & b & c & Eg & Vg).
  destruct (G h ltac:(lia) Rh) as (a' & b' & c' & Eh & Vh).
  rewrite Eg, Eh. cbn [app num_at den_at]. split; intros z.
  - rewrite <- Vg, Pg. ring.
  - rewrite <- Vh, Ph. ring.
Qed.
