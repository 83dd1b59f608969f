(** Roots that do not come in conjugate pairs. *)
From Coq Require Import Reals Lra Lia Permutation Sorted.
From Coquelicot Require Import Complex.
From Flocq Require Import Core.Raux.
From Verif Require Import Num NpBase Lib XR M_butter Spec3 Spec12 P_cx P_butter P_poly P_cxr F64.

(** ** The runs *)
Lemma run_lengths_maximal (N : Num) (me : N) (xp : list (cx N)) :
  concat (cut (run_lengths me xp) xp) = xp /\
  maximal_runs (fun a b => nleb (nsub (fst b) (fst a)) (nmul me (cabs a))) (cut (run_lengths me xp) xp).
Proof.
  set (link := fun a b : cx N => nleb (nsub (fst b) (fst a)) (nmul me (cabs a))).
  induction xp as [|a xp [IHc IHm]]; [cbn; auto|]. destruct xp as [|b xp].
  - cbn. split; [reflexivity|]. repeat split. discriminate.
  - assert (HR : exists k ks, run_lengths me (b :: xp) = S k :: ks).
    { clear. revert b. induction xp as [|c xp IH]; intros b; [exists 0%nat, []; reflexivity|].
      destruct (IH c) as (k & ks & E). change (run_lengths me (b :: c :: xp)) with
        (if nleb (nsub (fst c) (fst b)) (nmul me (cabs b)) then match run_lengths me (c :: xp) with k :: ks => S k :: ks | [] => [1%nat] end else 1%nat :: run_lengths me (c :: xp)).
      rewrite E. destruct (nleb _ _); [exists (S k), ks | exists 0%nat, (S k :: ks)]; reflexivity. }
    destruct HR as (k & ks & E).
    change (run_lengths me (a :: b :: xp)) with
        (if link a b then match run_lengths me (b :: xp) with k :: ks => S k :: ks | [] => [1%nat] end else 1%nat :: run_lengths me (b :: xp)).
    rewrite E in *. cbn [cut firstn skipn concat maximal_runs] in IHc, IHm.
    destruct (link a b) eqn:EL.
    + cbn [cut firstn skipn concat maximal_runs]. split; [cbn [app] in *; f_equal; exact IHc|].
      destruct IHm as (H1 & H2 & H3 & H4). split; [discriminate|]. split; [split; [exact EL | exact H2]|]. split; [exact H3|].
      destruct (cut ks (skipn k xp)) as [|[|c r] rs]; [exact I | exact I |]. intros d. apply H4.
    + cbn [cut firstn skipn concat maximal_runs]. split; [cbn [app] in *; f_equal; exact IHc|].
      split; [discriminate|]. split; [exact I|]. split; [exact IHm|]. intros d. exact EL.
Qed.

(** ** Every arithmetic *)
Lemma sort_chunks_perm (N : Num) lens : forall l : list (cx N), Permutation (sort_chunks lens l) l.
Proof. induction lens as [|k lens IH]; intros l; [reflexivity|]. cbn [sort_chunks]. rewrite IH, sort_by_perm, firstn_skipn. reflexivity. Qed.
Lemma filter_le {A} (p : A -> bool) l : (length (filter p l) <= length l)%nat.
Proof. induction l as [|a l IH]; cbn; [lia|]. destruct (p a); cbn; lia. Qed.
Lemma filter_all {A} (p : A -> bool) l : length (filter p l) = length l -> filter (fun v => negb (p v)) l = [].
Proof.
  induction l as [|a l IH]; [reflexivity|]. cbn. pose proof (filter_le p l) as HL. destruct (p a); cbn; intros HE; [apply IH; lia | lia].
Qed.

Lemma filter_filter {A} (p q : A -> bool) l : filter p (filter q l) = filter (fun v => q v && p v) l.
Proof. induction l as [|a l IH]; [reflexivity|]. cbn. destruct (q a); cbn; rewrite IH; reflexivity. Qed.
Lemma existsb_zip {A B} (f : A -> B -> bool) ps ns : existsb (fun b => b) (zipwith f ps ns) = false ->
  forall k p n, nth_error ps k = Some p -> nth_error ns k = Some n -> f p n = false.
Proof.
  revert ns. induction ps as [|a ps IH]; intros ns H [|k] p n Hp Hn; try discriminate; destruct ns as [|b ns]; try discriminate.
  - cbn in Hp, Hn. injection Hp as <-. injection Hn as <-. unfold zipwith in H. cbn in H. apply orb_false_elim in H. apply H.
  - cbn in Hp, Hn. unfold zipwith in H. cbn in H. apply orb_false_elim in H. apply (IH ns (proj2 H) k); assumption.
Qed.

Lemma cxr_cases (N : Num) (x : list (cx N)) :
  let xs := filter near_real (sort_by lex_re_absim x) in
  let ps := filter above (sort_by lex_re_absim x) in
  let ns := filter below (sort_by lex_re_absim x) in
  let lens := run_lengths cxr_tol ps in
  cxr x = if (length xs =? length x)%nat then Ok ([], map (fun v => cre (re v)) xs) else
    if negb (length ps =? length ns)%nat then Raise ValueError else
    if existsb (fun b => b) (zipwith too_far (sort_chunks lens ps) (sort_chunks lens ns)) then Raise ValueError
    else Ok (zipwith (fun p n => cdiv (cadd p (cconj n)) (cre (nofZ 2))) (sort_chunks lens ps) (sort_chunks lens ns), map (fun v => cre (re v)) xs).
Proof.
  cbv zeta. assert (FA : forall l : list (cx N), filter (fun v => nltb (nofZ 0) (snd v)) (filter (fun v => negb (near_real v)) l) = filter above l)
    by (intros l; rewrite filter_filter; reflexivity).
  assert (FB : forall l : list (cx N), filter (fun v => nltb (snd v) (nofZ 0)) (filter (fun v => negb (near_real v)) l) = filter below l)
    by (intros l; rewrite filter_filter; reflexivity).
  rewrite <- FA, <- FB. unfold cxr. destruct x as [|v x]; [reflexivity|]. rewrite map_length.
  rewrite (Permutation_length (sort_by_perm lex_re_absim (v :: x))). reflexivity.
Qed.
Lemma cxr_unbalanced (N : Num) (x : list (cx N)) :
  length (filter above x) <> length (filter below x) -> cxr x = Raise ValueError.
Proof.
  intros H. rewrite cxr_cases. set (m := sort_by lex_re_absim x).
  assert (PM : Permutation m x) by apply sort_by_perm.
  assert (LA := Permutation_length (filter_perm above _ _ PM)). assert (LB := Permutation_length (filter_perm below _ _ PM)).
  destruct (Nat.eqb_spec (length (filter near_real m)) (length x)) as [E|E].
  - exfalso. rewrite <- (Permutation_length PM) in E. apply filter_all in E. apply H. rewrite <- LA, <- LB.
    unfold above, below. rewrite <- !filter_filter. fold (filter (fun v : cx N => negb (near_real v)) m).
    rewrite E. reflexivity.
  - rewrite LA, LB. destruct (Nat.eqb_spec (length (filter above x)) (length (filter below x))); [contradiction | reflexivity].
Qed.
Lemma cxr_sound (N : Num) (x : list (cx N)) xc xr : cxr x = Ok (xc, xr) ->
  exists rs ps ns, Permutation rs (filter near_real x) /\ Permutation ps (filter above x) /\ Permutation ns (filter below x) /\
    length ps = length ns /\ (forall k p n, nth_error ps k = Some p -> nth_error ns k = Some n -> too_far p n = false) /\
    xr = map (fun v => (fst v, nofZ 0)) rs /\
    xc = map (fun pn => cdiv (nadd (fst (fst pn)) (fst (snd pn)), nadd (snd (fst pn)) (nopp (snd (snd pn)))) (nofZ 2, nofZ 0)) (combine ps ns).
Proof.
  rewrite cxr_cases. set (m := sort_by lex_re_absim x). assert (PM : Permutation m x) by apply sort_by_perm.
  destruct (Nat.eqb_spec (length (filter near_real m)) (length x)) as [E|E].
  - intros H. injection H as <- <-. rewrite <- (Permutation_length PM) in E. apply filter_all in E.
    assert (A0 : filter above m = []) by (unfold above; rewrite <- filter_filter; rewrite E; reflexivity).
    assert (B0 : filter below m = []) by (unfold below; rewrite <- filter_filter; rewrite E; reflexivity).
    exists (filter near_real m), [], []. split; [apply filter_perm, PM|]. split; [rewrite <- A0; apply filter_perm, PM|].
    split; [rewrite <- B0; apply filter_perm, PM|]. split; [reflexivity|]. split; [intros [|k]; discriminate|]. split; reflexivity.
  - destruct (Nat.eqb_spec (length (filter above m)) (length (filter below m))) as [EL|]; [|discriminate]. cbn [negb].
    set (lens := run_lengths cxr_tol (filter above m)).
    destruct (existsb _ _) eqn:EX; [discriminate|]. intros H. injection H as <- <-.
    exists (filter near_real m), (sort_chunks lens (filter above m)), (sort_chunks lens (filter below m)).
    split; [apply filter_perm, PM|]. split; [rewrite sort_chunks_perm; apply filter_perm, PM|]. split; [rewrite sort_chunks_perm; apply filter_perm, PM|].
    split; [rewrite !(Permutation_length (sort_chunks_perm N _ _)); exact EL|]. split; [apply existsb_zip, EX|]. split; [reflexivity|].
    unfold zipwith. apply map_ext. intros [p n]. reflexivity.
Qed.
Lemma cxr_only (N : Num) (x : list (cx N)) e : cxr x = Raise e -> e = ValueError.
Proof.
  rewrite cxr_cases. destruct (_ =? _)%nat; [discriminate|]. destruct (negb _); [congruence|]. destruct (existsb _ _); congruence.
Qed.

(** ** Exact arithmetic *)
Lemma modulus_cf v : @modulus XR (cf v) = Fin (Cmod v).
Proof. exact (cabs_cf v). Qed.
Lemma near_real_cf v : @near_real XR (cf v) = ri v.
Proof. exact (ri_cf v). Qed.
Lemma above_cf v : @above XR (cf v) = upper_root v.
Proof.
  unfold above. rewrite near_real_cf. unfold ri, upper_root. change (@nltb XR (@nofZ XR 0) (snd (cf v))) with (Rlt_bool 0 (snd v)).
  pose proof tol_pos. pose proof (Cmod_ge_0 v). assert (0 <= 100 / 2 ^ 52 * Cmod v)%R by (apply Rmult_le_pos; lra).
  destruct (Rlt_bool_spec 0 (snd v)).
  - rewrite Rabs_pos_eq by lra. destruct (Rle_bool_spec (snd v) (100 / 2 ^ 52 * Cmod v)), (Rlt_bool_spec (100 / 2 ^ 52 * Cmod v) (snd v)); try reflexivity; lra.
  - rewrite andb_false_r. symmetry. apply Rlt_bool_false. lra.
Qed.
Lemma below_cf v : @below XR (cf v) = lower_root v.
Proof.
  unfold below. rewrite near_real_cf. unfold ri, lower_root. change (@nltb XR (snd (cf v)) (@nofZ XR 0)) with (Rlt_bool (snd v) 0).
  pose proof tol_pos. pose proof (Cmod_ge_0 v). assert (0 <= 100 / 2 ^ 52 * Cmod v)%R by (apply Rmult_le_pos; lra).
  destruct (Rlt_bool_spec (snd v) 0).
  - rewrite Rabs_left by lra. destruct (Rle_bool_spec (- snd v) (100 / 2 ^ 52 * Cmod v)), (Rlt_bool_spec (100 / 2 ^ 52 * Cmod v) (- snd v)); try reflexivity; lra.
  - rewrite andb_false_r. symmetry. apply Rlt_bool_false. lra.
Qed.
Lemma filter_cfs (p : XR * XR -> bool) (q : C -> bool) l : (forall v, p (cf v) = q v) -> length (filter p (cfs l)) = length (filter q l).
Proof. intros H. unfold cfs. rewrite filter_map_comm, map_length. f_equal. apply filter_ext. exact H. Qed.
Lemma unbalanced_raises l : unbalanced l -> @cxr XR (cfs l) = Raise ValueError.
Proof.
  intros H. apply cxr_unbalanced. rewrite (filter_cfs above upper_root l above_cf), (filter_cfs below lower_root l below_cf). exact H.
Qed.
Lemma unbalanced_pad l n : unbalanced l -> unbalanced (l ++ repeat (RtoC 0) n).
Proof.
  assert (H0 : forall p : C -> bool, p (RtoC 0) = false -> length (filter p (l ++ repeat (RtoC 0) n)) = length (filter p l)).
  { intros p Hp. rewrite filter_app, app_length. assert (E : filter p (repeat (RtoC 0) n) = []) by (induction n as [|n IH]; cbn; [|rewrite Hp]; auto).
    rewrite E. apply Nat.add_0_r. }
  unfold unbalanced. rewrite !H0; auto; unfold upper_root, lower_root; rewrite Cmod_0, Rmult_0_r; cbn [snd RtoC]; apply Rlt_bool_false; lra.
Qed.
Lemma cfs_pad l n : cfs l ++ repeat (@cre XR (nofZ 0)) n = cfs (l ++ repeat (RtoC 0) n).
Proof.
  rewrite cfs_app. f_equal. induction n as [|n IH]; [reflexivity|]. cbn [repeat]. rewrite IH. reflexivity.
Qed.
Lemma cxr_two (x y : list C) {A} (k : _ -> _ -> res A) : unbalanced x \/ unbalanced y ->
  (let* xx := @cxr XR (cfs x) in let* yy := @cxr XR (cfs y) in k xx yy) = Raise ValueError.
Proof.
  intros [H|H].
  - rewrite (unbalanced_raises x H). reflexivity.
  - destruct (@cxr XR (cfs x)) as [xx|e] eqn:E; [cbn [bind]; rewrite (unbalanced_raises y H); reflexivity|].
    apply (cxr_only XR) in E. subst e. reflexivity.
Qed.
Lemma unbalanced_nonempty l : unbalanced l -> l <> [].
Proof. intros H ->. apply H. reflexivity. Qed.
Lemma sop_unbalanced argsort (x y : list C) (k : XR) pg ag : unbalanced x \/ unbalanced y ->
  @xyz_to_sop XR argsort (cfs x) (cfs y) k pg ag = Raise ValueError.
Proof.
  intros H. unfold xyz_to_sop. set (s := match pg with None => _ | Some s => s end).
  assert (HE : (length (cfs x) =? 0)%nat && (length (cfs y) =? 0)%nat = false).
  { apply andb_false_iff. destruct H as [H|H]; apply unbalanced_nonempty in H; [left | right]; rewrite cfs_length; destruct x, y; (reflexivity || contradiction). }
  rewrite HE. clear HE.
  assert (HG : forall p, (let* pre :=
      if negb (is_ml p) then
        let y := cfs y ++ repeat (cre (nofZ 0)) (length (cfs x) - length (cfs y)) in
        let x := cfs x ++ repeat (cre (nofZ 0)) (length y - length (cfs x)) in
        let c_parts := Nat.div (Nat.max (length y) (length x) + 1) 2 in
        let '(y, x) :=
          if (Nat.modulo (length y) 2 =? 1)%nat && match p with PNr => true | _ => false end
          then (y ++ [cre (nofZ 0)], x ++ [cre (nofZ 0)]) else (y, x) in
        if negb (length y =? length x)%nat then Raise AssertionError
        else Ok (y, x, c_parts)
      else if (length (cfs y) <? length (cfs x))%nat then Raise ValueError
      else Ok (cfs y, cfs x, Nat.div (length (cfs y) + 1) 2) in
    let '(y, x, c_parts) := pre in
    let* xx := @cxr XR x in
    let x := fst xx ++ snd xx in
    let* yy := cxr y in
    let y := fst yy ++ snd yy in
    let* st := foldM (sop_step argsort ag p) (y, x, []) (rev (zrange 0 (Z.of_nat c_parts))) in
    let '(y, x, sop) := st in
    if negb ((length y =? length x)%nat && (length x =? 0)%nat) then Raise AssertionError
    else scale_first k sop) = Raise ValueError).
  { intros p. destruct (is_ml p).
    - cbn [negb]. destruct (_ <? _)%nat; [reflexivity|]. cbn [bind]. apply cxr_two. exact H.
    - cbn [negb]. cbv zeta. rewrite !cfs_pad. rewrite !cfs_length.
      set (x1 := x ++ repeat (RtoC 0) (length (y ++ repeat (RtoC 0) (length x - length y)) - length x)).
      set (y1 := y ++ repeat (RtoC 0) (length x - length y)).
      assert (H1 : unbalanced x1 \/ unbalanced y1) by (destruct H; [left | right]; apply unbalanced_pad; assumption).
      assert (L1 : length y1 = length x1) by (unfold x1, y1; rewrite !app_length, !repeat_length; lia).
      destruct ((_ =? 1)%nat && _).
      + change [@cre XR (nofZ 0)] with (repeat (@cre XR (nofZ 0)) 1). rewrite !cfs_pad, !cfs_length, !app_length, L1, Nat.eqb_refl.
        cbn [negb bind]. apply cxr_two. destruct H1; [left | right]; apply unbalanced_pad; assumption.
      + rewrite !cfs_length, L1, Nat.eqb_refl. cbn [negb bind]. apply cxr_two. exact H1. }
  destruct (String.eqb s "nr"); [cbn [bind]; destruct (ag && negb (is_ml PNr)); [reflexivity | apply HG]|].
  destruct (String.eqb s "kd"); [cbn [bind]; destruct (ag && negb (is_ml PKd)); [reflexivity | apply HG]|].
  destruct (String.eqb s "ml"); [cbn [bind]; destruct (ag && negb (is_ml PMl)); [reflexivity | apply HG]|]. reflexivity.
Qed.
Lemma cxr_pair (p n : C) : upper_root p = true -> lower_root n = true -> (Cmod (p - Cconj n)%C <= 100 / 2 ^ 52 * Cmod n)%R ->
  @cxr XR (cfs [p; n]) = Ok (cfs [(p + Cconj n) / RtoC 2]%C, []) /\ @cxr XR (cfs [n; p]) = Ok (cfs [(p + Cconj n) / RtoC 2]%C, []).
Proof.
  intros HP HN HD. set (m2 := @cdiv XR (@cadd XR (cf p) (@cconj XR (cf n))) (@cre XR (nofZ 2))).
  assert (EM : [m2] = cfs [(p + Cconj n) / RtoC 2]%C).
  { unfold m2. rewrite cconj_cf, cadd_cf. change (@cre XR (@nofZ XR 2)) with (cf (RtoC 2)). rewrite cdiv_cf by apply C2_nz. reflexivity. }
  assert (AP : @above XR (cf p) = true) by (rewrite above_cf; exact HP). assert (BN : @below XR (cf n) = true) by (rewrite below_cf; exact HN).
  pose proof tol_pos. pose proof (Cmod_ge_0 p). pose proof (Cmod_ge_0 n).
  assert (0 <= 100 / 2 ^ 52 * Cmod p)%R by (apply Rmult_le_pos; lra). assert (0 <= 100 / 2 ^ 52 * Cmod n)%R by (apply Rmult_le_pos; lra).
  assert (SP : (0 < snd p)%R) by (unfold upper_root in HP; destruct (Rlt_bool_spec (100 / 2 ^ 52 * Cmod p) (snd p)); [lra | discriminate]).
  assert (SN : (snd n < 0)%R) by (unfold lower_root in HN; destruct (Rlt_bool_spec (100 / 2 ^ 52 * Cmod n) (- snd n)); [lra | discriminate]).
  assert (RP : @near_real XR (cf p) = false) by (unfold above in AP; destruct (near_real (cf p)); [discriminate | reflexivity]).
  assert (RN : @near_real XR (cf n) = false) by (unfold below in BN; destruct (near_real (cf n)); [discriminate | reflexivity]).
  assert (BP : @below XR (cf p) = false) by (rewrite below_cf; unfold lower_root; apply Rlt_bool_false; lra).
  assert (AN : @above XR (cf n) = false) by (rewrite above_cf; unfold upper_root; apply Rlt_bool_false; lra).
  assert (TF : @too_far XR (cf p) (cf n) = false).
  { unfold too_far. change (@nsub XR (fst (cf p)) (fst (cf n)), @nsub XR (snd (cf p)) (@nopp XR (snd (cf n)))) with (@csub XR (cf p) (@cconj XR (cf n))).
    rewrite cconj_cf, csub_cf, !modulus_cf. change (@eps100 XR) with (@cxr_tol XR). rewrite cxr_tol_fin. apply Rlt_bool_false. exact HD. }
  assert (G : forall l, Permutation l [p; n] -> sort_by lex_re_absim (cfs l) = [cf p; cf n] \/ sort_by lex_re_absim (cfs l) = [cf n; cf p] -> @cxr XR (cfs l) = Ok ([m2], [])).
  { intros l PL HS. rewrite cxr_cases. assert (LL : length (cfs l) = 2%nat) by (rewrite cfs_length, (Permutation_length PL); reflexivity). rewrite LL.
    destruct HS as [-> | ->]; cbn [filter]; rewrite ?RP, ?RN, ?AP, ?BN, ?BP, ?AN; cbn [filter length Nat.eqb negb run_lengths sort_chunks firstn skipn app map];
      unfold sort_by; cbn [fold_right insert_by]; unfold zipwith; cbn [combine map existsb fst snd]; cbn [app combine map existsb fst snd]; rewrite TF; reflexivity. }
  rewrite <- EM. split; (apply G; [|unfold cfs, sort_by; cbn [map fold_right insert_by]; destruct (lex_re_absim _ _); auto]).
  - reflexivity.
  - apply perm_swap.
Qed.

(** ** Binary64: pairs within the tolerance that are rejected *)
Definition frac51 {N : Num} (a : Z) : N := ndiv (nofZ a) (nofZ (2 ^ 51)).
Lemma near_pairs_rejected (L : Libm) : exists p1 n1 p2 n2 : F64 L * F64 L,
  map above [p1; p2] = [true; true] /\ map below [n1; n2] = [true; true] /\
  too_far p1 n1 = false /\ too_far p2 n2 = false /\ @cxr (F64 L) [p1; n1; p2; n2] = Raise ValueError.
Proof.
  exists (frac51 (-3 * 2 ^ 51), frac51 (2 ^ 53 - 8)), (frac51 (-3 * 2 ^ 51), frac51 (- 2 ^ 53)),
    (frac51 (-3 * 2 ^ 51 + 240), frac51 (2 ^ 53)), (frac51 (-3 * 2 ^ 51 + 260), frac51 (- (2 ^ 53 - 8))).
  split; [vm_compute; reflexivity|]. split; [vm_compute; reflexivity|]. split; [vm_compute; reflexivity|]. split; [vm_compute; reflexivity|].
  match goal with |- @cxr ?N ?l = _ => assert (H : match @cxr N l with Raise ValueError => true | _ => false end = true) by (vm_compute; reflexivity); destruct (@cxr N l) as [?|[]]; try discriminate end.
  reflexivity.
Qed.
