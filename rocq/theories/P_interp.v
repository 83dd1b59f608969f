(** Lemmas about linear_interpolation: decomposition of an ascending index list into maximal runs. *)
From Coq Require Import Reals Lra.
From Flocq Require Import Core.Raux.
From Verif Require Export P_replacement.
Local Open Scope Z_scope.

Fixpoint starts_from (x : Z) (l : list Z) : list Z :=
  match l with
  | [] => []
  | y :: l' => if 1 <? y - x then y :: starts_from y l' else starts_from y l'
  end.
Fixpoint ends_from (x : Z) (l : list Z) : list Z :=
  match l with
  | [] => [x]
  | y :: l' => if 1 <? y - x then x :: ends_from y l' else ends_from y l'
  end.
Fixpoint runs_from (a x : Z) (l : list Z) : list (Z * Z) :=
  match l with
  | [] => [(a, x)]
  | y :: l' => if 1 <? y - x then (a, x) :: runs_from y y l' else runs_from a y l'
  end.

Lemma zdiff_length x l : length (zdiff (x :: l)) = length l.
Proof. revert x. induction l as [|y l IH]; intros x; [reflexivity|]. change (zdiff (x :: y :: l)) with (y - x :: zdiff (y :: l)). cbn [length]. f_equal. apply IH. Qed.
Lemma starts_mask x l : mask_get (x :: l) (true :: map (fun d => 1 <? d) (zdiff (x :: l))) = Ok (x :: starts_from x l).
Proof.
  unfold mask_get. cbn [length]. rewrite map_length, zdiff_length, Nat.eqb_refl. cbn [combine filter snd map fst].
  f_equal. f_equal. revert x. induction l as [|y l IH]; intros x; [reflexivity|].
  change (zdiff (x :: y :: l)) with (y - x :: zdiff (y :: l)). cbn [map combine filter snd starts_from].
  destruct (1 <? y - x); cbn [map fst]; rewrite IH; reflexivity.
Qed.
Lemma ends_mask x l : mask_get (x :: l) (map (fun d => 1 <? d) (zdiff (x :: l)) ++ [true]) = Ok (ends_from x l).
Proof.
  unfold mask_get. rewrite app_length, map_length, zdiff_length. cbn [length].
  rewrite (proj2 (Nat.eqb_eq (S (length l)) (length l + 1))) by lia. f_equal.
  revert x. induction l as [|y l IH]; intros x; [reflexivity|].
  change (zdiff (x :: y :: l)) with (y - x :: zdiff (y :: l)).
  cbn [map app]. change (combine (x :: y :: l) ((1 <? y - x) :: map (fun d => 1 <? d) (zdiff (y :: l)) ++ [true]))
    with ((x, 1 <? y - x) :: combine (y :: l) (map (fun d => 1 <? d) (zdiff (y :: l)) ++ [true])).
  cbn [filter snd ends_from]. destruct (1 <? y - x); cbn [map fst]; rewrite IH; reflexivity.
Qed.
Lemma runs_combine a x l : combine (a :: starts_from x l) (ends_from x l) = runs_from a x l.
Proof.
  revert a x. induction l as [|y l IH]; intros a x; [reflexivity|]. cbn [starts_from ends_from runs_from].
  destruct (1 <? y - x); cbn [combine]; [f_equal|]; rewrite <- IH; reflexivity.
Qed.

(** Runs are non-empty intervals, separated by at least one index, covering exactly the list. *)
Definition separated (p q : Z * Z) : Prop := snd p + 1 < fst q.
Lemma runs_sep a x l : a <= x -> StronglySorted Z.lt (x :: l) ->
  StronglySorted separated (runs_from a x l) /\ Forall (fun p => a <= fst p /\ fst p <= snd p) (runs_from a x l).
Proof.
  revert a x. induction l as [|y l IH]; intros a x Ha HS.
  - cbn. split; repeat constructor; cbn; lia.
  - apply StronglySorted_inv in HS. destruct HS as [HS Hlt]. rewrite Forall_forall in Hlt.
    pose proof (Hlt y (or_introl eq_refl)) as Hxy. cbn [runs_from]. destruct (Z.ltb_spec 1 (y - x)) as [H|H].
    + destruct (IH y y ltac:(lia) HS) as [I1 I2]. split.
      * constructor; [exact I1|]. eapply Forall_impl; [|exact I2]. intros p Hp. unfold separated. cbn [fst snd]. cbn beta in Hp. lia.
      * constructor; [cbn; lia|]. eapply Forall_impl; [|exact I2]. intros p Hp. cbn beta in Hp |- *. lia.
    + apply IH; [lia | exact HS].
Qed.
Lemma runs_cover a x l i : a <= x -> StronglySorted Z.lt (x :: l) ->
  (exists p, In p (runs_from a x l) /\ fst p <= i <= snd p) <-> (a <= i <= x \/ In i l).
Proof.
  revert a x. induction l as [|y l IH]; intros a x Ha HS.
  - cbn. split.
    + intros (p & [<-|[]] & H). left. exact H.
    + intros [H|[]]. exists (a, x). cbn. auto.
  - apply StronglySorted_inv in HS. destruct HS as [HS Hlt]. rewrite Forall_forall in Hlt.
    pose proof (Hlt y (or_introl eq_refl)) as Hxy. cbn [runs_from]. destruct (Z.ltb_spec 1 (y - x)) as [H|H].
    + specialize (IH y y ltac:(lia) HS). split.
      * intros (p & [<-|Hp] & Hi); [left; exact Hi|]. right.
        destruct (proj1 IH (ex_intro _ p (conj Hp Hi))) as [He|He]; [left; lia | right; exact He].
      * intros [Hi|[<-|Hi]].
        -- exists (a, x). split; [left; reflexivity | exact Hi].
        -- destruct (proj2 IH (or_introl (conj (Z.le_refl y) (Z.le_refl y)))) as (p & Hp & Hi). exists p. split; [right; exact Hp | exact Hi].
        -- destruct (proj2 IH (or_intror Hi)) as (p & Hp & Hi'). exists p. split; [right; exact Hp | exact Hi'].
    + assert (y = x + 1) by lia. subst y. specialize (IH a (x + 1) ltac:(lia) HS). rewrite IH. split.
      * intros [Hi|Hi]; [|right; right; exact Hi]. destruct (Z.eq_dec i (x + 1)) as [->|]; [right; left; reflexivity | left; lia].
      * intros [Hi|[<-|Hi]]; [left; lia | left; lia | right; exact Hi].
Qed.

(** ** One run *)
Lemma slice_set_length (N : Num) (l : list N) lo hi x : length (slice_set l lo hi x) = length l.
Proof. unfold slice_set. rewrite map_length, combine_length, seq_length. lia. Qed.
Lemma nth_slice_set (N : Num) (l : list N) a b x k d : 0 <= a -> 0 <= b <= zlen l -> (k < length l)%nat ->
  nth k (slice_set l a b x) d = if (a <=? Z.of_nat k) && (Z.of_nat k <? b) then x else nth k l d.
Proof.
  intros Ha Hb Hk. unfold slice_set.
  rewrite (nth_map_in _ _ k (O, d)) by (rewrite combine_length, seq_length; lia).
  rewrite combine_nth by (rewrite seq_length; reflexivity). rewrite seq_nth by exact Hk. cbn [fst snd Nat.add].
  unfold slice_bound. destruct (Z.ltb_spec a 0); [lia|]. destruct (Z.ltb_spec b 0); [lia|].
  unfold zlen in *.
  destruct (Z.leb_spec a (Z.of_nat k)), (Z.ltb_spec (Z.of_nat k) b);
    destruct (Nat.leb_spec (Z.to_nat (Z.min a (Z.of_nat (length l)))) k), (Nat.ltb_spec k (Z.to_nat (Z.min b (Z.of_nat (length l)))));
    cbn [andb]; try reflexivity; lia.
Qed.

(** Value given to position [k] of the run [a..b] whose neighbours are [vs] and [ve]. *)
Definition run_value {N : Num} (v : list N) (vs ve : N) (a b k : Z) : N :=
  if negb (nisnan vs) && negb (nisnan ve) then nadd vs (nmul (ndiv (nsub ve vs) (nofZ (b - a + 2))) (nofZ (k - a + 1)))
  else if nisnan ve then np_mean (valid_only v) else np_nanmean [vs; ve].

Lemma enum_fill (N : Num) (g : Z -> N) a b (s : list N) d : 0 <= a -> a <= b + 1 -> b < zlen s ->
  exists s', foldM (fun m p => setz m (snd p) (g (fst p))) s (combine (zrange 0 (b + 1 - a)) (zrange a (b + 1))) = Ok s' /\
    length s' = length s /\
    forall k, (k < length s)%nat -> nth k s' d = if (a <=? Z.of_nat k) && (Z.of_nat k <=? b) then g (Z.of_nat k - a) else nth k s d.
Proof.
  intros Ha Hab Hb.
  assert (HC : forall n c o, Z.to_nat (b + 1 - c) = n -> c <= b + 1 ->
     combine (zrange o (o + (b + 1 - c))) (zrange c (b + 1)) = map (fun i => (i - c + o, i)) (zrange c (b + 1))).
  { induction n as [|n IH]; intros c o Hn Hc.
    - rewrite !zrange_nil by lia. reflexivity.
    - rewrite (zrange_cons o), (zrange_cons c) by lia. cbn [combine map]. f_equal; [f_equal; lia|].
      replace (o + (b + 1 - c)) with ((o + 1) + (b + 1 - (c + 1))) by lia. rewrite IH by lia.
      apply map_ext. intros i. f_equal. lia. }
  specialize (HC _ a 0 eq_refl Hab). rewrite Z.add_0_l in HC. rewrite HC.
  assert (HM : forall l s, foldM (fun m p => setz m (snd p) (g (fst p))) s (map (fun i => (i - a + 0, i)) l) =
                           foldM (fun m i => setz m i (g (i - a))) s l).
  { induction l as [|i l IH]; intros s0; [reflexivity|]. cbn [map foldM fst snd]. rewrite Z.add_0_r.
    destruct (setz s0 i (g (i - a))); cbn [bind]; [apply IH | reflexivity]. }
  rewrite HM.
  destruct (foldM_fill (fun m i => setz m i (g (i - a))) (fun i => g (i - a)) a (b + 1) s d) as (s' & E & HL & H1 & H2).
  - lia.
  - lia.
  - intros i s' Hi HL _ _. reflexivity.
  - exists s'. split; [exact E|]. split; [exact HL|]. intros k Hk.
    rewrite <- (Nat2Z.id k) at 1. destruct (Z.leb_spec a (Z.of_nat k)), (Z.leb_spec (Z.of_nat k) b); cbn [andb].
    + apply H1. lia.
    + rewrite H2 by lia. rewrite Nat2Z.id. reflexivity.
    + rewrite H2 by lia. rewrite Nat2Z.id. reflexivity.
    + rewrite H2 by lia. rewrite Nat2Z.id. reflexivity.
Qed.

Lemma li_run_ok (N : Num) (v m : list N) a b d : valid_only v <> [] -> length m = length v -> 0 <= a <= b -> b < zlen v ->
  let vs := if a >? 0 then nth (Z.to_nat (a - 1)) m d else nnan in
  let ve := if b <? zlen v - 1 then nth (Z.to_nat (b + 1)) m d else nnan in
  exists m', li_run v m a b = Ok m' /\ length m' = length m /\
    forall k, (k < length m)%nat ->
      nth k m' d = if (a <=? Z.of_nat k) && (Z.of_nat k <=? b) then run_value v vs ve a b (Z.of_nat k) else nth k m d.
Proof.
  intros Hv HL Ha Hb vs ve. unfold li_run.
  assert (Hz : zlen m = zlen v) by (unfold zlen; lia).
  assert (E1 : (if a >? 0 then getz m (a - 1) else Ok nnan) = Ok vs).
  { unfold vs. destruct (Z.gtb_spec a 0); [|reflexivity]. apply getz_ok. lia. }
  assert (E2 : (if b <? zlen v - 1 then getz m (b + 1) else Ok nnan) = Ok ve).
  { unfold ve. destruct (Z.ltb_spec b (zlen v - 1)); [|reflexivity]. apply getz_ok. lia. }
  rewrite E1, E2. cbn [bind]. unfold run_value.
  destruct (negb (nisnan vs) && negb (nisnan ve)).
  - destruct (enum_fill N (fun i => nadd vs (nmul (ndiv (nsub ve vs) (nofZ (b - a + 2))) (nofZ (i + 1)))) a b m d) as (m' & E & HL' & H); [lia|lia|lia|].
    exists m'. split; [exact E|]. split; [exact HL'|]. intros k Hk. rewrite (H k Hk). reflexivity.
  - destruct (nisnan ve).
    + rewrite mean_of_ne by exact Hv. cbn [bind storable]. eexists. split; [reflexivity|].
      split; [apply slice_set_length|]. intros k Hk. rewrite nth_slice_set by lia.
      destruct (Z.leb_spec a (Z.of_nat k)), (Z.ltb_spec (Z.of_nat k) (b + 1)), (Z.leb_spec (Z.of_nat k) b); try lia; reflexivity.
    + eexists. split; [reflexivity|].
      split; [apply slice_set_length|]. intros k Hk. rewrite nth_slice_set by lia.
      destruct (Z.leb_spec a (Z.of_nat k)), (Z.ltb_spec (Z.of_nat k) (b + 1)), (Z.leb_spec (Z.of_nat k) b); try lia; reflexivity.
Qed.

(** ** All runs *)
Definition in_run (p : Z * Z) (k : nat) : Prop := fst p <= Z.of_nat k <= snd p.
Lemma li_fold (N : Num) (v : list N) d : valid_only v <> [] -> forall (rs : list (Z * Z)) (m : list N),
  length m = length v ->
  StronglySorted separated rs -> Forall (fun p => 0 <= fst p <= snd p /\ snd p < zlen v) rs ->
  exists m', foldM (fun m se => li_run v m (fst se) (snd se)) m rs = Ok m' /\ length m' = length m /\
    (forall k, (k < length m)%nat -> (forall p, In p rs -> ~ in_run p k) -> nth k m' d = nth k m d) /\
    (forall p k, In p rs -> in_run p k ->
       nth k m' d = run_value v (if fst p >? 0 then nth (Z.to_nat (fst p - 1)) m d else nnan)
                                (if snd p <? zlen v - 1 then nth (Z.to_nat (snd p + 1)) m d else nnan)
                                (fst p) (snd p) (Z.of_nat k)).
Proof.
  intros Hv. induction rs as [|[a b] rs IH]; intros m HL HS HF.
  - exists m. split; [reflexivity|]. split; [reflexivity|]. split; [reflexivity|]. intros p k [].
  - apply StronglySorted_inv in HS. destruct HS as [HS Hsep]. rewrite Forall_forall in Hsep.
    inversion HF as [|? ? Hab HF']; subst. cbn [fst snd] in Hab. cbn [foldM fst snd].
    destruct (li_run_ok N v m a b d Hv HL ltac:(lia) ltac:(lia)) as (m1 & E1 & HL1 & H1). cbv zeta in H1.
    rewrite E1. cbn [bind].
    destruct (IH m1 ltac:(lia) HS HF') as (m' & E & HL' & H2 & H3).
    rewrite Forall_forall in HF'.
    assert (Hout : forall k, (k < length m)%nat -> ~ (a <= Z.of_nat k <= b) -> nth k m1 d = nth k m d).
    { intros k Hk Hn. rewrite (H1 k Hk).
      destruct (Z.leb_spec a (Z.of_nat k)), (Z.leb_spec (Z.of_nat k) b); cbn [andb]; try reflexivity. lia. }
    exists m'. split; [exact E|]. split; [lia|]. split.
    + intros k Hk Hn. rewrite H2 by (try lia; intros p Hp; apply Hn; right; exact Hp).
      apply Hout; [exact Hk|]. exact (Hn (a, b) (or_introl eq_refl)).
    + intros p k [<-|Hp] Hin.
      * unfold in_run in Hin. cbn [fst snd] in *. unfold zlen in Hab.
        rewrite H2.
        -- rewrite (H1 k) by lia. destruct (Z.leb_spec a (Z.of_nat k)), (Z.leb_spec (Z.of_nat k) b); try lia. reflexivity.
        -- lia.
        -- intros q Hq Hi. specialize (Hsep q Hq). unfold separated, in_run in *. cbn [fst snd] in *. lia.
      * rewrite (H3 p k Hp Hin). specialize (Hsep p Hp). pose proof (HF' p Hp) as Hpb.
        unfold separated in Hsep. cbn [snd] in Hsep. unfold zlen in *.
        f_equal.
        -- destruct (Z.gtb_spec (fst p) 0); [|reflexivity]. apply Hout; lia.
        -- destruct (Z.ltb_spec (snd p) (Z.of_nat (length v) - 1)); [|reflexivity]. apply Hout; lia.
Qed.

(** [a..b] is a maximal block of flagged indices. *)
Lemma run_in_runs x l a b : StronglySorted Z.lt (x :: l) -> a <= b ->
  (forall k, a <= k <= b -> In k (x :: l)) -> ~ In (a - 1) (x :: l) -> ~ In (b + 1) (x :: l) ->
  In (a, b) (runs_from x x l).
Proof.
  intros HS Hab Hin Hb Ha.
  assert (HC : forall i, (exists p, In p (runs_from x x l) /\ fst p <= i <= snd p) <-> In i (x :: l)).
  { intros i. rewrite (runs_cover x x l i ltac:(lia) HS). cbn. split; intros [H|H]; auto; left; lia. }
  destruct (runs_sep x x l ltac:(lia) HS) as [Hsep HF]. rewrite Forall_forall in HF.
  destruct (proj2 (HC a) (Hin a ltac:(lia))) as (p & Hp & Hpa).
  assert (Hs : forall i, fst p <= i <= snd p -> In i (x :: l)) by (intros i Hi; apply HC; exists p; auto).
  assert (Hf : fst p = a).
  { destruct (Z.eq_dec (fst p) a); [assumption|]. exfalso. apply Hb. apply Hs. lia. }
  assert (Hle : snd p <= b).
  { destruct (Z_le_gt_dec (snd p) b); [assumption|]. exfalso. apply Ha. apply Hs. lia. }
  assert (Hn : ~ In (snd p + 1) (x :: l)).
  { intros H. apply HC in H. destruct H as (q & Hq & Hi).
    assert (Hpq : p = q \/ separated p q \/ separated q p).
    { clear -Hsep Hp Hq. induction Hsep as [|r rs HS IH HF]; [destruct Hp|]. rewrite Forall_forall in HF.
      destruct Hp as [<-|Hp], Hq as [<-|Hq]; auto. }
    pose proof (HF p Hp). pose proof (HF q Hq). unfold separated in Hpq. destruct Hpq as [<-|[H'|H']]; lia. }
  assert (snd p = b).
  { destruct (Z.eq_dec (snd p) b); [assumption|]. exfalso. apply Hn. apply Hin. lia. }
  destruct p as [pa pb]. cbn in *. subst. exact Hp.
Qed.

Lemma li_general (N : Num) (v : list N) (idx : list Z) (dec : Z) d :
  valid_only v <> [] -> idx <> [] -> StronglySorted Z.lt idx -> (forall i, In i idx -> 0 <= i < zlen v) ->
  exists m, linear_interpolation DFloat v idx dec = Ok (map (fun x => around x dec) m) /\ length m = length v /\
    (forall i, 0 <= i < zlen v -> ~ In i idx -> nth (Z.to_nat i) m d = nth (Z.to_nat i) v d) /\
    (forall a b k, a <= k <= b -> (forall j, a <= j <= b -> In j idx) -> ~ In (a - 1) idx -> ~ In (b + 1) idx ->
       nth (Z.to_nat k) m d =
         run_value v (if a >? 0 then nth (Z.to_nat (a - 1)) v d else nnan)
                     (if b <? zlen v - 1 then nth (Z.to_nat (b + 1)) v d else nnan) a b k).
Proof.
  intros Hv Hne HS HB. unfold linear_interpolation.
  destruct (fancy_set_ok idx (@nnan N) v) as (m0 & E0 & HL0 & H0).
  { intros i Hi. specialize (HB i Hi). lia. }
  rewrite E0. cbn [bind]. destruct idx as [|x l]; [congruence|].
  rewrite starts_mask. cbn [bind]. rewrite ends_mask. cbn [bind]. rewrite runs_combine.
  assert (HC : forall i, (exists p, In p (runs_from x x l) /\ fst p <= i <= snd p) <-> In i (x :: l)).
  { intros i. rewrite (runs_cover x x l i ltac:(lia) HS). cbn. split; intros [H|H]; auto; left; lia. }
  destruct (runs_sep x x l ltac:(lia) HS) as [Hsep HF].
  assert (Horig : forall i, 0 <= i < zlen v -> ~ In i (x :: l) -> nth (Z.to_nat i) m0 d = nth (Z.to_nat i) v d).
  { intros i Hi Hn. unfold zlen in Hi. apply H0; [lia|]. intros (j & Hj & Had). pose proof (HB j Hj).
    unfold addresses, zlen in *. apply Hn. replace i with j by lia. exact Hj. }
  destruct (li_fold N v d Hv (runs_from x x l) m0 HL0 Hsep) as (m & E & HL & H1 & H2).
  { rewrite Forall_forall in HF |- *. intros p Hp. pose proof (HF p Hp) as Hfp.
    assert (Hf1 : In (fst p) (x :: l)) by (apply HC; exists p; split; [exact Hp | lia]).
    assert (Hf2 : In (snd p) (x :: l)) by (apply HC; exists p; split; [exact Hp | lia]).
    pose proof (HB _ Hf1). pose proof (HB _ Hf2). lia. }
  exists m. rewrite E. cbn [bind]. split; [reflexivity|]. split; [lia|]. split.
  - intros i Hi Hn. rewrite H1.
    + apply Horig; assumption.
    + unfold zlen in Hi. lia.
    + intros p Hp Hin. apply Hn. apply HC. exists p. split; [exact Hp|]. unfold in_run in Hin. lia.
  - intros a b k Hk Hin Hb Ha.
    assert (Hp : In (a, b) (runs_from x x l)) by (apply run_in_runs; try assumption; lia).
    pose proof (HB a (Hin a ltac:(lia))) as Ha0. pose proof (HB b (Hin b ltac:(lia))) as Hb0.
    rewrite (H2 (a, b)) by (try exact Hp; unfold in_run; cbn; lia). cbn [fst snd]. rewrite Z2Nat.id by lia. f_equal.
    + destruct (Z.gtb_spec a 0); [|reflexivity]. apply Horig; [lia | exact Hb].
    + destruct (Z.ltb_spec b (zlen v - 1)); [|reflexivity]. apply Horig; [lia | exact Ha].
Qed.

Lemma li_empty (N : Num) dt (v : list N) dec : linear_interpolation dt v [] dec = Raise (match dt with DFloat => IndexError | DInt => ValueError end).
Proof. destruct dt; reflexivity. Qed.
Lemma li_int (N : Num) (v : list N) idx dec : linear_interpolation DInt v idx dec = Raise ValueError.
Proof. reflexivity. Qed.

(** ** Theorem-level statements *)
Lemma valid_only_ne (N : Num) (v : list N) i d : 0 <= i < zlen v -> nisnan (nth (Z.to_nat i) v d) = false -> valid_only v <> [].
Proof.
  intros Hi Hn E. assert (H : In (nth (Z.to_nat i) v d) (valid_only v)).
  { unfold valid_only. apply filter_In. split; [apply nth_In; unfold zlen in Hi; lia | rewrite Hn; reflexivity]. }
  rewrite E in H. exact H.
Qed.
Lemma nth_around (N : Num) (m : list N) dec k d : (k < length m)%nat ->
  nth k (map (fun x => around x dec) m) d = around (nth k m d) dec.
Proof. intros Hk. apply (nth_map_in (fun x => around x dec)). exact Hk. Qed.

Lemma li_chord (N : Num) (v : list N) (idx : list Z) (dec : Z) d a b :
  StronglySorted Z.lt idx -> (forall i, In i idx -> 0 <= i < zlen v) ->
  0 < a <= b -> b < zlen v - 1 -> (forall j, a <= j <= b -> In j idx) -> ~ In (a - 1) idx -> ~ In (b + 1) idx ->
  let vs := nth (Z.to_nat (a - 1)) v d in let ve := nth (Z.to_nat (b + 1)) v d in
  nisnan vs = false -> nisnan ve = false ->
  exists r, linear_interpolation DFloat v idx dec = Ok r /\ length r = length v /\
    forall k, a <= k <= b ->
      nth (Z.to_nat k) r d = around (nadd vs (nmul (ndiv (nsub ve vs) (nofZ (b - a + 2))) (nofZ (k - a + 1)))) dec.
Proof.
  intros HS HB Ha Hb Hin Hna Hnb vs ve Hvs Hve.
  assert (Hne : idx <> []) by (intros ->; apply (Hin a); lia).
  destruct (li_general N v idx dec d) as (m & E & HL & H1 & H2); try assumption.
  { apply (valid_only_ne N v (a - 1) d); [lia | exact Hvs]. }
  eexists. split; [exact E|]. split; [rewrite map_length; exact HL|]. intros k Hk.
  rewrite nth_around by (unfold zlen in *; lia). f_equal. rewrite (H2 a b k) by (try assumption; lia).
  destruct (Z.gtb_spec a 0); [|lia]. destruct (Z.ltb_spec b (zlen v - 1)); [|lia].
  unfold run_value. fold vs ve. rewrite Hvs, Hve. reflexivity.
Qed.

Lemma around_fin dec x : @around XR (Fin x) dec = Fin (round_dec dec x).
Proof.
  pose proof (map_around_fins [x] dec) as H. cbn in H. injection H as H. exact H.
Qed.
Lemma fins_not_nan (l : list R) k d : (k < length l)%nat -> nisnan (nth k (fins l) d) = false.
Proof. intros H. rewrite nth_indep_fins by exact H. reflexivity. Qed.
Lemma li_chord_exact (l : list R) (idx : list Z) (dec : Z) a b :
  StronglySorted Z.lt idx -> (forall i, In i idx -> 0 <= i < zlen l) ->
  0 < a <= b -> b < zlen l - 1 -> (forall j, a <= j <= b -> In j idx) -> ~ In (a - 1) idx -> ~ In (b + 1) idx ->
  exists r, @linear_interpolation XR DFloat (fins l) idx dec = Ok r /\ length r = length l /\
    forall k, a <= k <= b -> nth_error r (Z.to_nat k) = Some (Fin (round_dec dec
      (nth (Z.to_nat (a - 1)) l 0 + (nth (Z.to_nat (b + 1)) l 0 - nth (Z.to_nat (a - 1)) l 0) * (IZR (k - (a - 1)) / IZR (b + 1 - (a - 1))))))%R.
Proof.
  intros HS HB Ha Hb Hin Hna Hnb.
  destruct (li_chord XR (fins l) idx dec (Fin 0) a b) as (r & E & HL & H); try assumption.
  - rewrite zlen_fins. exact HB.
  - rewrite zlen_fins. exact Hb.
  - apply fins_not_nan. unfold zlen in *. lia.
  - apply fins_not_nan. unfold zlen in *. lia.
  - rewrite fins_length in HL. exists r. split; [exact E|]. split; [exact HL|]. intros k Hk. specialize (H k Hk).
    rewrite (nth_error_nth' r (Fin 0 : XR)) by (unfold zlen in *; lia). rewrite H. rewrite !fins_nth, !xofZ_fin, xsub_fin.
    rewrite xdiv_fin by (apply not_0_IZR; lia). rewrite xmul_fin, xadd_fin, around_fin. do 4 f_equal.
    replace (k - (a - 1)) with (k - a + 1) by lia. replace (b + 1 - (a - 1)) with (b - a + 2) by lia.
    field. apply not_0_IZR. lia.
Qed.

Lemma valid_only_fins (l : list R) : valid_only (fins l) = fins l.
Proof.
  induction l as [|x l IH]; [reflexivity|]. unfold valid_only in *.
  change (fins (x :: l)) with ((Fin x : XR) :: fins l). cbn [filter nisnan XR negb]. f_equal. exact IH.
Qed.
Lemma li_exact (l : list R) (idx : list Z) (dec : Z) :
  idx <> [] -> StronglySorted Z.lt idx -> (forall i, In i idx -> 0 <= i < zlen l) ->
  exists m, @linear_interpolation XR DFloat (fins l) idx dec = Ok (map (fun x => around x dec) m) /\ length m = length l /\
    (forall i, 0 <= i < zlen l -> ~ In i idx -> nth (Z.to_nat i) m (Fin 0) = Fin (nth (Z.to_nat i) l 0%R)) /\
    (forall a b k, a <= k <= b -> (forall j, a <= j <= b -> In j idx) -> ~ In (a - 1) idx -> ~ In (b + 1) idx ->
       nth (Z.to_nat k) m (Fin 0) =
         @run_value XR (fins l) (if a >? 0 then Fin (nth (Z.to_nat (a - 1)) l 0%R) else NaN)
                     (if b <? zlen l - 1 then Fin (nth (Z.to_nat (b + 1)) l 0%R) else NaN) a b k).
Proof.
  intros Hne HS HB. assert (Hl : l <> []).
  { intros ->. destruct idx as [|i idx]; [congruence|]. specialize (HB i (or_introl eq_refl)). unfold zlen in HB. cbn in HB. lia. }
  destruct (li_general XR (fins l) idx dec (Fin 0)) as (m & E & HL & H1 & H2); try assumption.
  - rewrite valid_only_fins. apply fins_nil. exact Hl.
  - rewrite zlen_fins. exact HB.
  - exists m. split; [exact E|]. rewrite fins_length in HL. split; [exact HL|]. split.
    + intros i Hi Hn. rewrite H1 by (rewrite ?zlen_fins; assumption). apply fins_nth.
    + intros a b k Hk Hin Hna Hnb. rewrite (H2 a b k) by assumption. rewrite !fins_nth, zlen_fins. reflexivity.
Qed.
Lemma li_keeps_rounded (N : Num) (v : list N) (idx : list Z) (dec : Z) d i :
  valid_only v <> [] -> idx <> [] -> StronglySorted Z.lt idx -> (forall i, In i idx -> 0 <= i < zlen v) ->
  0 <= i < zlen v -> ~ In i idx ->
  exists r, linear_interpolation DFloat v idx dec = Ok r /\ length r = length v /\
    nth (Z.to_nat i) r d = around (nth (Z.to_nat i) v d) dec.
Proof.
  intros Hv Hne HS HB Hi Hn. destruct (li_general N v idx dec d) as (m & E & HL & H1 & H2); try assumption.
  eexists. split; [exact E|]. split; [rewrite map_length; exact HL|].
  rewrite nth_around by (unfold zlen in *; lia). rewrite H1 by assumption. reflexivity.
Qed.
Lemma round_dec_err dec x : (Rabs (round_dec dec x - x) <= / 2 * powerRZ 10 (- dec))%R.
Proof.
  assert (H10 : forall n, 0 <= n -> (0 < IZR (10 ^ n))%R) by (intros n Hn; apply IZR_lt; apply Z.pow_pos_nonneg; lia).
  assert (HZ : forall y, (Rabs (IZR (Round_NE.ZnearestE y) - y) <= / 2)%R).
  { intros y. rewrite Rabs_minus_sym. apply (Generic_fmt.Znearest_half (fun z => negb (Z.even z))). }
  assert (HP : forall n, 0 <= n -> powerRZ 10 n = IZR (10 ^ n)).
  { intros n Hn. rewrite <- (Z2Nat.id n) by exact Hn. rewrite <- pow_powerRZ. rewrite <- pow_IZR. reflexivity. }
  unfold round_dec. destruct (Z.leb_spec 0 dec) as [Hd|Hd].
  - pose proof (H10 dec Hd) as Hp. set (p := IZR (10 ^ dec)) in *.
    assert (Hpw : powerRZ 10 (- dec) = (/ p)%R).
    { unfold p. rewrite <- HP by exact Hd. apply powerRZ_neg'. }
    rewrite Hpw. replace (IZR (Round_NE.ZnearestE (x * p)) / p - x)%R with ((IZR (Round_NE.ZnearestE (x * p)) - x * p) * / p)%R by (field; lra).
    rewrite Rabs_mult, (Rabs_pos_eq (/ p)) by (left; apply Rinv_0_lt_compat; exact Hp).
    apply Rmult_le_compat_r; [left; apply Rinv_0_lt_compat; exact Hp | apply HZ].
  - pose proof (H10 (- dec) ltac:(lia)) as Hp. rewrite HP by lia. set (p := IZR (10 ^ (- dec))) in *.
    replace (IZR (Round_NE.ZnearestE (x / p)) * p - x)%R with ((IZR (Round_NE.ZnearestE (x / p)) - x / p) * p)%R by (field; lra).
    rewrite Rabs_mult, (Rabs_pos_eq p) by lra.
    apply Rmult_le_compat_r; [lra | apply HZ].
Qed.
Lemma li_unflagged_exact (l : list R) (idx : list Z) (dec : Z) i :
  idx <> [] -> StronglySorted Z.lt idx -> (forall i, In i idx -> 0 <= i < zlen l) ->
  0 <= i < zlen l -> ~ In i idx ->
  exists r y, @linear_interpolation XR DFloat (fins l) idx dec = Ok r /\ length r = length l /\
    nth_error r (Z.to_nat i) = Some (Fin y) /\ (Rabs (y - nth (Z.to_nat i) l 0) <= / 2 * powerRZ 10 (- dec))%R.
Proof.
  intros Hne HS HB Hi Hn. destruct (li_exact l idx dec Hne HS HB) as (m & E & HL & H1 & _).
  eexists. exists (round_dec dec (nth (Z.to_nat i) l 0%R)). split; [exact E|]. split; [rewrite map_length; exact HL|].
  split; [|apply round_dec_err].
  rewrite (nth_error_nth' _ (Fin 0 : XR)) by (rewrite map_length; unfold zlen in *; lia). f_equal.
  rewrite nth_around by (unfold zlen in *; lia). rewrite H1 by assumption. apply around_fin.
Qed.

(** Leading and trailing runs. *)
Lemma li_leading (l : list R) (idx : list Z) (dec : Z) b :
  StronglySorted Z.lt idx -> (forall i, In i idx -> 0 <= i < zlen l) ->
  0 <= b < zlen l - 1 -> (forall j, 0 <= j <= b -> In j idx) -> ~ In (b + 1) idx ->
  exists r, @linear_interpolation XR DFloat (fins l) idx dec = Ok r /\
    forall k, 0 <= k <= b -> nth_error r (Z.to_nat k) = Some (Fin (round_dec dec (nth (Z.to_nat (b + 1)) l 0%R))).
Proof.
  intros HS HB Hb Hin Hnb.
  assert (Hne : idx <> []) by (intros ->; apply (Hin 0); lia).
  destruct (li_exact l idx dec Hne HS HB) as (m & E & HL & _ & H2).
  eexists. split; [exact E|]. intros k Hk.
  rewrite (nth_error_nth' _ (Fin 0 : XR)) by (rewrite map_length; unfold zlen in *; lia). f_equal.
  rewrite nth_around by (unfold zlen in *; lia). rewrite (H2 0 b k); try assumption.
  - cbn [Z.gtb Z.compare]. destruct (Z.ltb_spec b (zlen l - 1)); [|lia].
    unfold run_value. cbn [nisnan XR negb andb]. unfold np_nanmean, valid_only.
    cbn [map filter nisnan XR negb nsum xsum fold_right]. rewrite !xofZ_fin. cbn [xadd].
    change (zlen [Fin (nth (Z.to_nat (b + 1)) l 0%R)]) with 1. cbn [ndiv XR xdiv].
    rewrite Req_bool_false by lra. rewrite around_fin. do 2 f_equal. field.
  - intros H. specialize (HB _ H). lia.
Qed.
Lemma li_trailing (l : list R) (idx : list Z) (dec : Z) a :
  StronglySorted Z.lt idx -> (forall i, In i idx -> 0 <= i < zlen l) ->
  0 <= a < zlen l -> (forall j, a <= j < zlen l -> In j idx) -> ~ In (a - 1) idx ->
  exists r, @linear_interpolation XR DFloat (fins l) idx dec = Ok r /\
    forall k, a <= k < zlen l -> nth_error r (Z.to_nat k) = Some (Fin (round_dec dec (rmean l))).
Proof.
  intros HS HB Ha Hin Hna.
  assert (Hne : idx <> []) by (intros ->; apply (Hin a); lia).
  assert (Hl : l <> []) by (intros ->; unfold zlen in Ha; cbn in Ha; lia).
  destruct (li_exact l idx dec Hne HS HB) as (m & E & HL & _ & H2).
  eexists. split; [exact E|]. intros k Hk.
  rewrite (nth_error_nth' _ (Fin 0 : XR)) by (rewrite map_length; unfold zlen in *; lia). f_equal.
  rewrite nth_around by (unfold zlen in *; lia). rewrite (H2 a (zlen l - 1) k); try assumption.
  - destruct (Z.ltb_spec (zlen l - 1) (zlen l - 1)); [lia|].
    unfold run_value. cbn [nisnan XR negb]. rewrite andb_false_r. rewrite valid_only_fins.
    rewrite np_mean_fins by exact Hl. apply around_fin.
  - lia.
  - intros j Hj. apply Hin. lia.
  - intros H. specialize (HB _ H). lia.
Qed.

Lemma round_dec_0 x : round_dec 0 x = IZR (Generic_fmt.Znearest (fun n => negb (Z.even n)) x).
Proof. unfold round_dec. cbn [Z.leb Z.compare Z.pow]. rewrite Rmult_1_r. lra. Qed.
Lemma li_leading_not_mean : exists (l : list R) (r : list XR),
  @linear_interpolation XR DFloat (fins l) [0] 0 = Ok r /\ nth_error r 0 <> Some (Fin (round_dec 0 (rmean l))).
Proof.
  exists [9; 1; 2]%R.
  destruct (li_leading [9; 1; 2]%R [0] 0 0) as (r & E & H).
  - repeat constructor.
  - intros i [<-|[]]. cbn. lia.
  - cbn. lia.
  - intros j Hj. left. lia.
  - cbn. lia.
  - exists r. split; [exact E|]. specialize (H 0 ltac:(lia)). change (Z.to_nat 0) with 0%nat in H. rewrite H.
    intros HC. injection HC as HC. change (nth (Z.to_nat (0 + 1)) [9; 1; 2]%R 0%R) with 1%R in HC.
    replace (rmean [9; 1; 2]%R) with 4%R in HC by (unfold rmean; cbn; lra).
    rewrite !round_dec_0, (Generic_fmt.Znearest_imp _ _ 1), (Generic_fmt.Znearest_imp _ _ 4) in HC; [lra| |];
      apply Rabs_def1; lra.
Qed.
Lemma li_unflagged_changed : exists (l : list R) (r : list XR),
  @linear_interpolation XR DFloat (fins l) [0] 0 = Ok r /\ nth_error r 1 <> nth_error (fins l) 1.
Proof.
  exists [1; / 4; 2]%R.
  destruct (li_exact [1; / 4; 2]%R [0] 0) as (m & E & HL & H1 & _).
  - discriminate.
  - repeat constructor.
  - intros i [<-|[]]. cbn. lia.
  - exists (map (fun x => around x 0) m). split; [exact E|]. specialize (H1 1 ltac:(cbn; lia) ltac:(cbn; lia)).
    destruct m as [|m0 [|m1 m]]; try discriminate HL. change (m1 = Fin (/ 4)) in H1. cbn [map nth_error fins]. subst m1.
    rewrite around_fin. intros HC. injection HC as HC.
    rewrite round_dec_0, (Generic_fmt.Znearest_imp _ _ 0) in HC; [lra|]. apply Rabs_def1; lra.
Qed.
