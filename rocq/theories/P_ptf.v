(** Matrices of zeros and arrays of gains in xyz_to_ptf. *)
From Coq Require Import Reals Lra Lia Permutation.
From Coquelicot Require Import Complex.
From Flocq Require Import Core.Raux.
From Verif Require Import Num NpBase Lib XR M_butter M_ptf Spec3 Spec10 P_cx P_butter P_poly.
Import ListNotations.
Local Open Scope R_scope.

(** ** Sorting does not depend on the order *)
Definition Cle (a b : C) : bool := Rlt_bool (fst a) (fst b) || (Req_bool (fst a) (fst b) && Rle_bool (snd a) (snd b)).
Lemma cleb_cf a b : @cleb XR (cf a) (cf b) = Cle a b.
Proof. reflexivity. Qed.
Lemma Cle_spec a b : Cle a b = true <-> fst a < fst b \/ (fst a = fst b /\ snd a <= snd b).
Proof.
  unfold Cle. destruct (Rlt_bool_spec (fst a) (fst b)), (Req_bool_spec (fst a) (fst b)), (Rle_bool_spec (snd a) (snd b)); cbn; split; intros H'; try tauto; try lra; try discriminate; destruct H' as [?|[? ?]]; try lra; try tauto.
Qed.
Lemma insert_comm x y l : insert_by Cle x (insert_by Cle y l) = insert_by Cle y (insert_by Cle x l).
Proof.
  assert (T : forall a b, Cle a b = false -> fst b < fst a \/ (fst a = fst b /\ snd b < snd a)).
  { intros a b H. destruct (Rtotal_order (fst a) (fst b)) as [L|[L|L]]; [|destruct (Rle_lt_dec (snd a) (snd b))|]; try (now left); try (right; split; assumption);
      rewrite (proj2 (Cle_spec a b)) in H; try discriminate; [left; exact L | right; split; assumption]. }
  assert (A : forall a b, Cle a b = true -> Cle b a = true -> a = b).
  { intros [a1 a2] [b1 b2] H1 H2. apply Cle_spec in H1. apply Cle_spec in H2. cbn in *. destruct H1 as [?|[? ?]], H2 as [?|[? ?]]; try lra. f_equal; lra. }
  assert (TR : forall a b c, Cle a b = true -> Cle b c = true -> Cle a c = true).
  { intros a b c H1 H2. apply Cle_spec in H1. apply Cle_spec in H2. apply Cle_spec. destruct H1 as [?|[? ?]], H2 as [?|[? ?]]; try (left; lra); right; split; lra. }
  assert (TO : forall a b, Cle a b = false -> Cle b a = true) by (intros a b H; apply T in H; apply Cle_spec; destruct H as [?|[? ?]]; [left; lra|right; split; lra]).
  induction l as [|z l IH]; cbn [insert_by].
  - destruct (Cle x y) eqn:E1, (Cle y x) eqn:E2; try reflexivity; [rewrite (A x y E1 E2); reflexivity | pose proof (TO _ _ E1); congruence].
  - destruct (Cle y z) eqn:Ey, (Cle x z) eqn:Ex; cbn [insert_by]; rewrite ?Ex, ?Ey.
    + destruct (Cle x y) eqn:E1, (Cle y x) eqn:E2; try reflexivity; [rewrite (A x y E1 E2); reflexivity | pose proof (TO _ _ E1); congruence].
    + destruct (Cle x y) eqn:E1; [|reflexivity]. rewrite (TR _ _ _ E1 Ey) in Ex. discriminate.
    + destruct (Cle y x) eqn:E1; [|reflexivity]. rewrite (TR _ _ _ E1 Ex) in Ey. discriminate.
    + rewrite IH. reflexivity.
Qed.
Lemma sort_perm_eq a b : Permutation a b -> sort_by Cle a = sort_by Cle b.
Proof.
  induction 1 as [|x l l' _ IH|x y l|l l' l'' _ IH1 _ IH2]; cbn [sort_by fold_right]; [reflexivity| | |congruence].
  - fold (sort_by Cle l). fold (sort_by Cle l'). rewrite IH. reflexivity.
  - apply insert_comm.
Qed.
Lemma insert_cf x l : insert_by (@cleb XR) (cf x) (cfs l) = cfs (insert_by Cle x l).
Proof.
  induction l as [|y l IH]; [reflexivity|]. cbn [cfs map insert_by]. rewrite cleb_cf. destruct (Cle x y); [reflexivity|]. cbn [map]. f_equal. exact IH.
Qed.
Lemma sort_cf l : @sort_complex XR (cfs l) = cfs (sort_by Cle l).
Proof.
  unfold sort_complex, sort_by. induction l as [|x l IH]; [reflexivity|]. cbn [cfs map fold_right]. fold (cfs l). rewrite IH. apply insert_cf.
Qed.
Lemma all_eqb_refl l : all_eqb (cfs l) (cfs l) = true.
Proof. induction l as [|x l IH]; [reflexivity|]. cbn [cfs map all_eqb]. fold (cfs l). rewrite ceqb_cf_refl, IH. reflexivity. Qed.
Lemma poly_is_real_cf r : @poly_is_real XR (cfs r) = true <-> conj_closed r.
Proof.
  unfold poly_is_real. rewrite map_cconj_cfs. split.
  - intros E. unfold conj_closed. symmetry. apply sorted_eq_perm; [now rewrite map_length|exact E].
  - intros H. rewrite !sort_cf, (sort_perm_eq _ _ H). apply all_eqb_refl.
Qed.

(** ** The loop *)
Lemma real_part_cf l : @real_part XR (cfs l) = cfs (map drop_im l).
Proof. unfold real_part, cfs. rewrite !map_map. reflexivity. Qed.
Lemma loop_cf real (xs : list (list C)) (ks : list R) : (length xs <= length ks)%nat ->
  ptf_loop real (map cfs xs) (fins ks) =
  Ok (map (fun p : list C * R => let g := map (Cmult (RtoC (snd p))) (coefs (fst p)) in cfs (if real : bool then map drop_im g else g)) (combine xs ks)).
Proof.
  revert ks. induction xs as [|x xs IH]; intros ks H; [reflexivity|]. destruct ks as [|k ks]; [cbn in H; lia|].
  cbn [map ptf_loop combine fins]. fold (fins ks). rewrite (IH ks) by (cbn in H; lia). cbn [bind fst snd]. rewrite np_poly_cf, scale_cfs. destruct real; [rewrite real_part_cf|]; reflexivity.
Qed.

Lemma gains_expand (ks : list R) (m : nat) : enough ks m -> exists ks', (m <= length ks')%nat /\ (forall i, (i < m)%nat -> nth i ks' 0 = gain_of ks i) /\
  match fins ks with [z0] => repeat z0 m | _ => fins ks end = fins ks'.
Proof.
  intros H. destruct ks as [|k [|k2 ks]].
  - destruct H as [H|H]; [discriminate|]. exists []. split; [exact H|]. split; [intros i Hi; cbn in H; lia|reflexivity].
  - exists (repeat k m). split; [rewrite repeat_length; lia|]. split; [intros i Hi; cbn; rewrite nth_indep with (d' := k) by (rewrite repeat_length; exact Hi); apply nth_repeat|]. clear. cbn [fins map]. induction m as [|m IH]; [reflexivity|]. cbn [repeat fins map]. f_equal. exact IH.
  - destruct H as [H|H]; [discriminate|]. exists (k :: k2 :: ks). split; [exact H|]. split; reflexivity.
Qed.

Theorem ptf_rows_real n (xs : list (list C)) y ks x0 rest : xs = x0 :: rest -> (1 <= n)%nat -> conj_closed x0 -> enough ks (length xs) ->
  exists gs h, @ptf_rows XR n (map cfs xs) (cfs y) (fins ks) = Ok (map cfs gs, cfs h) /\ length gs = length xs /\
    (forall s, polyval h s = from_roots y s) /\
    forall i x, nth_error xs i = Some x -> exists g, nth_error gs i = Some (map drop_im g) /\ length g = S (length x) /\
      (forall s, polyval g s = (RtoC (gain_of ks i) * from_roots x s)%C) /\ (conj_closed x -> map drop_im g = g).
Proof.
  intros E Hn Hc He. destruct (gains_expand ks (length xs) He) as (ks' & Lk & Gk & Ek).
  destruct (ptf_spec [] y 1) as (g0 & h & Eh & _ & _ & _ & _ & _ & Hh & _ & _).
  exists (map (fun p : list C * R => map drop_im (map (Cmult (RtoC (snd p))) (coefs (fst p)))) (combine xs ks')), h.
  assert (EH : @real_if_paired XR (cfs y) (@np_poly XR (cfs y)) = cfs h) by (unfold xyz_to_ptf in Eh; injection Eh as _ Eh; exact Eh).
  split.
  - unfold ptf_rows. rewrite E in *. cbn [map]. destruct (Nat.eqb_spec n 0) as [|_]; [lia|]. rewrite (proj2 (poly_is_real_cf x0) Hc).
    change (length (cfs x0 :: map cfs rest)) with (S (length (map cfs rest))). rewrite map_length. cbn [length] in Ek. cbv zeta. rewrite Ek.
    change (cfs x0 :: map cfs rest) with (map cfs (x0 :: rest)). rewrite loop_cf by exact Lk. cbn [bind]. rewrite EH, map_map. reflexivity.
  - split; [rewrite map_length, combine_length; lia|]. split; [exact Hh|].
    intros i x Hx. exists (map (Cmult (RtoC (gain_of ks i))) (coefs x)).
    assert (Hi : (i < length xs)%nat) by (apply nth_error_Some; congruence).
    assert (HC : nth_error (combine xs ks') i = Some (x, gain_of ks i)).
    { rewrite <- (Gk i Hi). assert (G : (i < length ks')%nat) by lia. clear - Hx G. revert ks' i Hx G. induction xs as [|a xs IH]; intros [|k ks'] [|i] Hx G; cbn in *; try discriminate; try lia.
      - injection Hx as ->. reflexivity.
      - apply IH; [exact Hx|lia]. }
    rewrite nth_error_map, HC. split; [reflexivity|].
    destruct (ptf_spec x y (gain_of ks i)) as (g & h' & Eg & Lg & _ & _ & _ & Pg & _ & Cg & _). rewrite xyz_to_ptf_cf in Eg. injection Eg as Eg _.
    assert (Eg' : map (Cmult (RtoC (gain_of ks i))) (coefs x) = g).
    { apply (f_equal (map uncf)) in Eg. unfold cfs in Eg. rewrite !map_map in Eg. rewrite (map_ext _ _ (fun z => uncf_cf _)) in Eg. rewrite (map_ext (fun z => uncf (cf z)) (fun z => z) uncf_cf), map_id in Eg. exact Eg. }
    rewrite Eg'. split; [exact Lg|]. split; [exact Pg|]. intros Hcx. specialize (Cg Hcx). rewrite <- (map_id g) at 2. apply map_ext_in. intros c Hcc. destruct c as [c1 c2]. specialize (Cg _ Hcc). cbn in Cg. subst c2. reflexivity.
Qed.
Theorem ptf_rows_complex n (xs : list (list C)) y ks x0 rest : xs = x0 :: rest -> (1 <= n)%nat -> ~ conj_closed x0 -> enough ks (length xs) ->
  @ptf_rows XR n (map cfs xs) (cfs y) (fins ks) = Raise ValueError.
Proof.
  intros E Hn Hc He. destruct (gains_expand ks (length xs) He) as (ks' & Lk & Gk & Ek).
  unfold ptf_rows. rewrite E in *. cbn [map]. destruct (Nat.eqb_spec n 0) as [|_]; [lia|].
  destruct (poly_is_real (cfs x0)) eqn:Er; [exfalso; apply Hc; apply poly_is_real_cf; exact Er|].
  change (length (cfs x0 :: map cfs rest)) with (S (length (map cfs rest))). rewrite map_length. cbn [length] in Ek. cbv zeta. rewrite Ek.
  change (cfs x0 :: map cfs rest) with (map cfs (x0 :: rest)). rewrite loop_cf by exact Lk. reflexivity.
Qed.
Theorem ptf_rows_errors (N : Num) n (xs : list (list (N * N))) y (z : list N) :
  (xs = [] -> ptf_rows n xs y z = Raise IndexError) /\
  (xs <> [] -> ptf_rows 0 xs y z = Raise AttributeError) /\
  ((1 <= n)%nat -> (length z < length xs)%nat -> length z <> 1%nat -> ptf_rows n xs y z = Raise IndexError).
Proof.
  split; [intros ->; reflexivity|]. split; [intros H; destruct xs; [congruence|reflexivity]|].
  intros Hn H H1. destruct xs as [|x0 rest]; [cbn in H; lia|]. unfold ptf_rows. destruct (Nat.eqb_spec n 0) as [|_]; [lia|]. cbv zeta.
  assert (G : forall real (xs : list (list (N * N))) z, (length z < length xs)%nat -> ptf_loop real xs z = Raise IndexError).
  { clear. intros real xs. induction xs as [|x xs IH]; intros z H; [cbn in H; lia|]. destruct z as [|k z]; [reflexivity|]. cbn [ptf_loop]. rewrite (IH z) by (cbn in H; lia). reflexivity. }
  destruct z as [|z0 [|z1 z]]; [| cbn in H1; congruence |]; rewrite G by exact H; reflexivity.
Qed.
Theorem ptf_rows_refuted : exists xs y g h z, @ptf_rows XR 1 (map cfs xs) (cfs y) (fins [1]) = Ok (map cfs g, h) /\
  nth_error xs 1 = Some [z] /\ exists g1, nth_error g 1 = Some g1 /\ polyval g1 z <> RtoC 0.
Proof.
  destruct (ptf_rows_real 1 [[RtoC 1]; [Ci]] [] [1] [RtoC 1] [[Ci]] eq_refl (le_n 1)) as (gs & h & E & _ & _ & H); [unfold conj_closed; cbn; rewrite Cconj_real; constructor; constructor | left; reflexivity|].
  exists [[RtoC 1]; [Ci]], [], gs, (cfs h), Ci. split; [exact E|]. split; [reflexivity|].
  destruct (H 1%nat [Ci] eq_refl) as (g & Hg & Lg & Pg & _). exists (map drop_im g). split; [exact Hg|].
  destruct g as [|a [|b [|]]]; try discriminate Lg.
  pose proof (Pg (RtoC 0)) as P0. pose proof (Pg (RtoC 1)) as P1. cbn in P0, P1. destruct a as [a1 a2], b as [b1 b2]. unfold gain_of in *.
  cbn. intros E0. injection P0 as A1 A2. injection P1 as B1 B2. injection E0 as C1 C2. cbn in *. lra.
Qed.

(** ** An array of gains with 1-D zeros *)
Lemma zip_cfs (ks : list R) (p : list C) : zipwith (fun zi pi => @cmul XR (@cre XR zi) pi) (fins ks) (cfs p) = cfs (map (fun q : R * C => (RtoC (fst q) * snd q)%C) (combine ks p)).
Proof.
  unfold zipwith, fins, cfs. revert p. induction ks as [|k ks IH]; intros [|a p]; cbn [map combine]; try reflexivity.
  rewrite <- IH. cbn [fst snd]. rewrite cre_cf, cmul_cf. reflexivity.
Qed.
Theorem ptf_gains_law x y ks : length ks <> 1%nat -> x <> [] ->
  (length ks <> S (length x) -> @ptf_gains XR (cfs x) (cfs y) (fins ks) = Raise ValueError) /\
  (length ks = S (length x) -> exists p g h, @ptf_gains XR (cfs x) (cfs y) (fins ks) = Ok (cfs g, cfs h) /\
    length p = S (length x) /\ (forall s, polyval p s = from_roots x s) /\ (forall s, polyval h s = from_roots y s) /\
    g = map (fun q : R * C => (RtoC (fst q) * snd q)%C) (combine ks p)).
Proof.
  intros H1 Hx. assert (LP : length (coefs x) = S (length x)) by (unfold coefs; rewrite coefs_from_length; cbn; lia).
  assert (E : (let* g := match fins ks, cfs (coefs x) with
    | [z0], _ => Ok (map (cmul (cre z0)) (cfs (coefs x)))
    | _, [p0] => Ok (map (fun zi => cmul (cre zi) p0) (fins ks))
    | _, _ => if (length (fins ks) =? length (cfs (coefs x)))%nat then Ok (zipwith (fun zi pi => @cmul XR (@cre XR zi) pi) (fins ks) (cfs (coefs x))) else Raise ValueError
    end in Ok (@real_if_paired XR (cfs x) g, @real_if_paired XR (cfs y) (@np_poly XR (cfs y)))) =
    (let* g := if (length ks =? S (length x))%nat then Ok (zipwith (fun zi pi => @cmul XR (@cre XR zi) pi) (fins ks) (cfs (coefs x))) else Raise ValueError in
     Ok (@real_if_paired XR (cfs x) g, @real_if_paired XR (cfs y) (@np_poly XR (cfs y))))).
  { replace (length (fins ks)) with (length ks) by (symmetry; apply map_length); rewrite cfs_length, LP. destruct x as [|x0 x]; [congruence|]. destruct (coefs (x0 :: x)) as [|c0 [|c1 c]]; try (cbn in LP; discriminate LP).
    destruct ks as [|k0 [|k1 ks]]; [reflexivity | cbn in H1; congruence | reflexivity]. }
  unfold ptf_gains. rewrite np_poly_cf. cbv zeta. rewrite E. clear E. split; intros HL.
  - rewrite (proj2 (Nat.eqb_neq _ _) HL). reflexivity.
  - rewrite HL, Nat.eqb_refl. cbn [bind]. rewrite zip_cfs.
    destruct (ptf_spec x y 1) as (g0 & h & Eh & _ & _ & _ & _ & Pg & Hh & Cx & _).
    assert (EH : @real_if_paired XR (cfs y) (@np_poly XR (cfs y)) = cfs h) by (unfold xyz_to_ptf in Eh; injection Eh as _ Eh; exact Eh).
    rewrite EH. exists (coefs x), (map (fun q : R * C => (RtoC (fst q) * snd q)%C) (combine ks (coefs x))), h.
    rewrite real_if_paired_cf.
    + split; [reflexivity|]. split; [exact LP|]. split; [|split; [exact Hh|reflexivity]].
      intros s. rewrite xyz_to_ptf_cf in Eh. injection Eh as Eg _.
      assert (Eg' : map (Cmult (RtoC 1)) (coefs x) = g0).
      { apply (f_equal (map uncf)) in Eg. unfold cfs in Eg. rewrite !map_map in Eg. rewrite (map_ext _ _ (fun z => uncf_cf _)) in Eg. rewrite (map_ext (fun z => uncf (cf z)) (fun z => z) uncf_cf), map_id in Eg. exact Eg. }
      rewrite <- (map_id (coefs x)). rewrite (map_ext (fun v => v) (Cmult (RtoC 1))) by (intros v; ring). rewrite Eg', Pg. ring.
    + intros Hc c Hcc. apply in_map_iff in Hcc. destruct Hcc as ([k d] & <- & Hd). apply in_combine_r in Hd. apply (coefs_real x Hc) in Hd. cbn in *. rewrite Hd. ring.
Qed.
