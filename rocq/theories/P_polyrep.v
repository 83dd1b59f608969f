(** Lemmas about polynomial_replacement. *)
From Verif Require Export P_cubic.
Local Open Scope Z_scope.

Lemma poly_single (N : Num) regress dt (v : list N) i window degree dec :
  polynomial_replacement regress dt v [i] window degree dec = Raise TypeError.
Proof. reflexivity. Qed.
Lemma poly_none (N : Num) regress dt (v : list N) window degree dec :
  polynomial_replacement regress dt v [] window degree dec = Ok (around_arr dt v dec).
Proof. reflexivity. Qed.

Lemma filter_none {A} (p : A -> bool) l : (forall x, In x l -> p x = false) -> filter p l = [].
Proof.
  induction l as [|x l IH]; intros H; [reflexivity|]. cbn. rewrite (H x (or_introl eq_refl)).
  apply IH. intros y Hy. apply H. right. exact Hy.
Qed.
(** Exactly one spike among 1..9 (first of several). *)
Lemma poly_one_small (N : Num) regress dt (v : list N) i rest window degree dec :
  1 <= i <= 9 -> i < zlen v -> rest <> [] -> (forall j, In j rest -> 10 <= j) ->
  polynomial_replacement regress dt v (i :: rest) window degree dec = Raise ValueError.
Proof.
  intros Hi Hv Hr Hj. unfold polynomial_replacement. destruct rest as [|j rest]; [congruence|].
  cbn [foldM]. unfold poly_step at 1. rewrite (proj2 (Z.eqb_neq i 0)) by lia.
  rewrite (proj2 (Z.leb_le 1 i)), (proj2 (Z.leb_le i 10)) by lia. cbn [andb Z.eqb].
  replace (filter (fun j => j <? 10) (i :: j :: rest)) with [i].
  - cbn [li_squeezed]. destruct dt; [|reflexivity]. rewrite setz_ok by lia. reflexivity.
  - cbn [filter]. rewrite (proj2 (Z.ltb_lt i 10)) by lia. f_equal. symmetry.
    apply (filter_none (fun j => j <? 10) (j :: rest)). intros k Hk. apply Z.ltb_ge. apply Hj. exact Hk.
Qed.
(** Spike 10 and nothing below it. *)
Lemma poly_ten_first (N : Num) regress (v : list N) rest window degree dec :
  rest <> [] -> (forall j, In j rest -> 10 <= j) ->
  polynomial_replacement regress DFloat v (10 :: rest) window degree dec = Raise IndexError.
Proof.
  intros Hr Hj. unfold polynomial_replacement. destruct rest as [|j rest]; [congruence|].
  cbn [foldM]. unfold poly_step at 1. cbn [Z.eqb Z.leb Z.compare andb Pos.compare Pos.compare_cont].
  replace (filter (fun j => j <? 10) (10 :: j :: rest)) with (@nil Z).
  - reflexivity.
  - cbn [filter]. change (10 <? 10) with false. cbv iota. symmetry.
    apply (filter_none (fun j => j <? 10) (j :: rest)). intros k Hk. apply Z.ltb_ge. apply Hj. exact Hk.
Qed.
(** Spikes in 1..10 only: one interpolation over those below 10; index 10 keeps its (rounded) value. *)
Lemma poly_small (N : Num) regress (v : list N) i1 i2 rest window degree dec r :
  let idx := i1 :: i2 :: rest in
  StronglySorted Z.lt idx -> (forall i, In i idx -> 1 <= i <= 10) -> i2 < 10 ->
  linear_interpolation DFloat v (filter (fun j => j <? 10) idx) dec = Ok r ->
  polynomial_replacement regress DFloat v idx window degree dec = Ok (map (fun x => around x dec) r).
Proof.
  intros idx HS HB H2 E. unfold polynomial_replacement, idx. cbn [foldM]. fold idx.
  pose proof (HB i1 (or_introl eq_refl)) as Hi1.
  apply StronglySorted_inv in HS. destruct HS as [HS Hlt]. rewrite Forall_forall in Hlt.
  pose proof (Hlt i2 (or_introl eq_refl)) as H12.
  unfold poly_step at 1. rewrite (proj2 (Z.eqb_neq i1 0)) by lia.
  rewrite (proj2 (Z.leb_le 1 i1)), (proj2 (Z.leb_le i1 10)) by lia. cbn [andb Z.eqb].
  assert (Hli : li_squeezed DFloat v (filter (fun j => j <? 10) idx) dec = Ok r).
  { rewrite <- E. unfold idx. cbn [filter]. rewrite (proj2 (Z.ltb_lt i1 10)), (proj2 (Z.ltb_lt i2 10)) by lia. reflexivity. }
  rewrite Hli. cbn [bind].
  assert (Hrest : forall l, (forall i, In i l -> 1 <= i <= 10) ->
     foldM (poly_step regress DFloat idx window degree dec) (r, 0 + 1) l = Ok (r, 0 + 1)).
  { induction l as [|i l IH]; intros Hl; [reflexivity|]. cbn [foldM].
    pose proof (Hl i (or_introl eq_refl)). unfold poly_step at 1. rewrite (proj2 (Z.eqb_neq i 0)) by lia.
    rewrite (proj2 (Z.leb_le 1 i)), (proj2 (Z.leb_le i 10)) by lia. cbn [andb Z.eqb Z.add bind].
    apply IH. intros j Hj. apply Hl. right. exact Hj. }
  pose proof (Hrest (i2 :: rest) (fun i Hi => HB i (or_intror Hi))) as HR.
  change ((let* s := foldM (poly_step regress DFloat idx window degree dec) (r, 0 + 1) (i2 :: rest) in
          Ok (around_arr DFloat (fst s) dec)) = Ok (map (fun x => around x dec) r)).
  rewrite HR. reflexivity.
Qed.
Lemma poly_ten_kept (N : Num) regress (v : list N) i1 i2 rest window degree dec :
  let idx := i1 :: i2 :: rest in
  StronglySorted Z.lt idx -> (forall i, In i idx -> 1 <= i <= 10) -> i2 < 10 -> 10 < zlen v -> valid_only v <> [] ->
  exists r, polynomial_replacement regress DFloat v idx window degree dec = Ok r /\ length r = length v /\
    nth 10 r nnan = around (around (nth 10 v nnan) dec) dec.
Proof.
  intros idx HS HB H2 Hv Hval.
  assert (HS' : StronglySorted Z.lt (filter (fun j => j <? 10) idx)).
  { clear -HS. induction HS as [|i l HS IH HF]; cbn [filter]; [constructor|].
    destruct (i <? 10); [|exact IH]. constructor; [exact IH|]. rewrite Forall_forall in *.
    intros j Hj. apply filter_In in Hj. apply HF, Hj. }
  destruct (li_keeps_rounded N v (filter (fun j => j <? 10) idx) dec nnan 10) as (r & E & HL & H).
  - exact Hval.
  - pose proof HS as HS0. apply StronglySorted_inv in HS0. destruct HS0 as [_ Hlt]. rewrite Forall_forall in Hlt.
    pose proof (Hlt i2 (or_introl eq_refl)). unfold idx. cbn [filter]. rewrite (proj2 (Z.ltb_lt i1 10)) by lia. discriminate.
  - exact HS'.
  - intros i Hi. apply filter_In in Hi. pose proof (HB i (proj1 Hi)). destruct Hi as [_ Hi]. apply Z.ltb_lt in Hi. lia.
  - lia.
  - intros Hi. apply filter_In in Hi. destruct Hi as [_ Hi]. discriminate.
  - exists (map (fun x => around x dec) r). split; [apply (poly_small N regress v i1 i2 rest window degree dec r HS HB H2 E)|].
    split; [rewrite map_length; exact HL|]. rewrite nth_around by (unfold zlen in Hv; lia). change 10%nat with (Z.to_nat 10). rewrite H. reflexivity.
Qed.

(** Spikes from index 11 on: each is the regression prediction from the already repaired samples before it. *)
Lemma firstn_skipn_ext {A} (l m : list A) a n d : length l = length m -> (a + n <= length l)%nat ->
  (forall k, (a <= k < a + n)%nat -> nth k l d = nth k m d) -> firstn n (skipn a l) = firstn n (skipn a m).
Proof.
  intros HL Hn H. apply (list_eq_nth _ _ d).
  - rewrite !firstn_length, !skipn_length. lia.
  - intros k Hk. rewrite firstn_length, skipn_length in Hk. rewrite !nth_firstn_skipn by lia. apply H. lia.
Qed.
Lemma poly_large_fold (N : Num) regress spikes window degree dec : 0 < window ->
  forall idx (m : list N) a r a', StronglySorted Z.lt idx -> (forall i, In i idx -> 11 <= i < zlen m) ->
  foldM (poly_step regress DFloat spikes window degree dec) (m, a) idx = Ok (r, a') ->
  length r = length m /\
  (forall k, ~ In (Z.of_nat k) idx -> nth k r nnan = nth k m nnan) /\
  (forall i, In i idx -> let lo := if i <? window then 0 else i - window in
     regress (firstn (Z.to_nat (i - lo)) (skipn (Z.to_nat lo) r)) (zrange lo i) i degree = Ok (nth (Z.to_nat i) r nnan)).
Proof.
  intros Hw. induction idx as [|i idx IH]; intros m a r a' HS HB E.
  - injection E as <- <-. split; [reflexivity|]. split; [reflexivity|]. intros i [].
  - apply StronglySorted_inv in HS. destruct HS as [HS Hlt]. rewrite Forall_forall in Hlt.
    pose proof (HB i (or_introl eq_refl)) as Hi. cbn [foldM] in E.
    set (lo := if i <? window then 0 else i - window).
    assert (Hlo : 0 <= lo < i) by (unfold lo; destruct (Z.ltb_spec i window); lia).
    assert (Est : poly_step regress DFloat spikes window degree dec (m, a) i =
       let* x := regress (firstn (Z.to_nat (i - lo)) (skipn (Z.to_nat lo) m)) (zrange lo i) i degree in
       Ok (upd m (Z.to_nat i) x, a)).
    { unfold poly_step. rewrite (proj2 (Z.eqb_neq i 0)) by lia.
      destruct (Z.leb_spec i 10); [lia|]. rewrite andb_false_r. destruct (Z.leb_spec 11 i); [|lia]. cbn [andb].
      assert (HZ : forall lo, 0 <= lo < i ->
        create_model regress (pyslice m lo i) (zrange lo i) i degree = regress (firstn (Z.to_nat (i - lo)) (skipn (Z.to_nat lo) m)) (zrange lo i) i degree).
      { clear -Hi. intros lo Hlo. unfold create_model. rewrite pyslice_nonneg by lia.
        unfold zlen at 1 2 3. rewrite zrange_length, firstn_length, skipn_length.
        rewrite (proj2 (Z.eqb_neq (Z.of_nat (Z.to_nat (i - lo))) 0)) by lia. cbn [orb].
        rewrite (proj2 (Z.eqb_eq _ _)) by (unfold zlen in *; lia). reflexivity. }
      unfold lo. destruct (Z.leb_spec i (window - 1)), (Z.ltb_spec i window); try lia.
      - rewrite HZ by lia.
        match goal with |- bind ?q _ = _ => destruct q as [x|e] end; cbn [bind storable]; [|reflexivity].
        rewrite setz_ok by lia. reflexivity.
      - rewrite HZ by lia.
        match goal with |- bind ?q _ = _ => destruct q as [x|e] end; cbn [bind storable]; [|reflexivity].
        rewrite setz_ok by lia. reflexivity. }
    rewrite Est in E. 
    destruct (regress (firstn (Z.to_nat (i - lo)) (skipn (Z.to_nat lo) m)) (zrange lo i) i degree) as [x|e] eqn:Ex;
      cbn [bind] in E; [|discriminate].
    destruct (IH (upd m (Z.to_nat i) x) a r a' HS) as (I1 & I2 & I3).
    { intros j Hj. rewrite zlen_upd. apply HB. right. exact Hj. }
    { exact E. }
    rewrite upd_length in I1. split; [exact I1|]. split.
    + intros k Hk. rewrite I2 by (intros H; apply Hk; right; exact H). apply nth_upd_other. intros H. apply Hk. left. lia.
    + intros j [<-|Hj].
      * cbv zeta. fold lo.
        assert (Hni : ~ In i idx) by (intros H; specialize (Hlt i H); lia).
        assert (Hx : nth (Z.to_nat i) r nnan = x).
        { rewrite I2 by (rewrite Z2Nat.id by lia; exact Hni). apply nth_upd_same. unfold zlen in Hi. lia. }
        rewrite Hx, <- Ex. f_equal. apply (firstn_skipn_ext _ _ _ _ nnan); [exact I1 | unfold zlen in *; lia|].
        intros k Hk. rewrite I2 by (intros H; specialize (Hlt _ H); lia). apply nth_upd_other. lia.
      * apply I3. exact Hj.
Qed.
Lemma poly_large (N : Num) regress (v : list N) idx window degree dec r : 0 < window ->
  StronglySorted Z.lt idx -> (forall i, In i idx -> 11 <= i < zlen v) ->
  polynomial_replacement regress DFloat v idx window degree dec = Ok r ->
  exists m, r = map (fun x => around x dec) m /\ length m = length v /\
    (forall i, 0 <= i < zlen v -> ~ In i idx -> nth (Z.to_nat i) m nnan = nth (Z.to_nat i) v nnan) /\
    (forall i, In i idx -> let lo := if i <? window then 0 else i - window in
       regress (firstn (Z.to_nat (i - lo)) (skipn (Z.to_nat lo) m)) (zrange lo i) i degree = Ok (nth (Z.to_nat i) m nnan)).
Proof.
  intros Hw HS HB E.
  assert (E' : (let* s := foldM (poly_step regress DFloat idx window degree dec) (v, 0) idx in Ok (around_arr DFloat (fst s) dec)) = Ok r).
  { unfold polynomial_replacement in E. destruct idx as [|i [|j idx]]; [exact E | discriminate | exact E]. }
  apply bind_ok in E'. destruct E' as ([m a] & Em & Er). cbn [fst around_arr] in Er. injection Er as <-.
  exists m. split; [reflexivity|].
  destruct (poly_large_fold N regress idx window degree dec Hw idx v 0 m a HS HB Em) as (H1 & H2 & H3).
  split; [exact H1|]. split; [|exact H3]. intros i Hi Hn. apply H2. rewrite Z2Nat.id by lia. exact Hn.
Qed.
Lemma poly_large_returns (N : Num) regress (v : list N) i1 i2 rest window degree dec : 0 < window ->
  let idx := i1 :: i2 :: rest in
  (forall i, In i idx -> 11 <= i < zlen v) -> (forall y x t dg, exists p, regress y x t dg = Ok p) ->
  exists r, polynomial_replacement regress DFloat v idx window degree dec = Ok r.
Proof.
  intros Hw idx HB Hreg. unfold polynomial_replacement. fold idx. unfold idx at 1.
  assert (HF : forall l (m : list N) a, (forall i, In i l -> 11 <= i < zlen m) ->
    exists s, foldM (poly_step regress DFloat idx window degree dec) (m, a) l = Ok s).
  { induction l as [|i l IH]; intros m a Hl; [eexists; reflexivity|]. cbn [foldM].
    pose proof (Hl i (or_introl eq_refl)) as Hi.
    unfold poly_step at 1. rewrite (proj2 (Z.eqb_neq i 0)) by lia.
    destruct (Z.leb_spec i 10); [lia|]. rewrite andb_false_r. destruct (Z.leb_spec 11 i); [|lia]. cbn [andb].
    assert (HZ : forall lo, 0 <= lo < i -> exists p, create_model regress (pyslice m lo i) (zrange lo i) i degree = Ok p).
    { clear -Hi Hreg. intros lo Hlo. unfold create_model. rewrite pyslice_nonneg by lia.
      unfold zlen at 1 2 3. rewrite zrange_length, firstn_length, skipn_length.
      rewrite (proj2 (Z.eqb_neq (Z.of_nat (Z.to_nat (i - lo))) 0)) by lia. cbn [orb].
      rewrite (proj2 (Z.eqb_eq _ _)) by (unfold zlen in *; lia). apply Hreg. }
    destruct (Z.leb_spec i (window - 1)).
    - destruct (HZ 0 ltac:(lia)) as (p & ->). cbn [bind storable]. rewrite setz_ok by lia. cbn [bind].
      apply IH. intros j Hj. rewrite zlen_upd. apply Hl. right. exact Hj.
    - destruct (HZ (i - window) ltac:(lia)) as (p & ->). cbn [bind storable]. rewrite setz_ok by lia. cbn [bind].
      apply IH. intros j Hj. rewrite zlen_upd. apply Hl. right. exact Hj. }
  destruct (HF idx v 0 HB) as (s & ->). cbn [bind]. eexists. reflexivity.
Qed.
