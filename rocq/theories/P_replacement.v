(** Lemmas about replacements.py: copying, constant and moving-average replacements. *)
From Coq Require Import Reals Lra.
From Flocq Require Import Core.Raux.
From Verif Require Export P_series P_order P_ssa2 M_replacement.
Local Open Scope Z_scope.

(** ** Index writes *)
Lemma pyidx_addresses n i k : 0 <= n -> pyidx n i = Some k -> addresses n i k /\ Z.of_nat k < n.
Proof. intros Hn H. apply pyidx_some in H; [|exact Hn]. unfold addresses. lia. Qed.
Lemma addresses_pyidx n i k : Z.of_nat k < n -> addresses n i k -> pyidx n i = Some k.
Proof.
  intros Hk [->| ->].
  - rewrite pyidx_nonneg by lia. f_equal. lia.
  - rewrite pyidx_neg by lia. f_equal. lia.
Qed.
Lemma addresses_inj n i j k : Z.of_nat k < n -> 0 <= j < n -> addresses n i k -> addresses n i (Z.to_nat j) -> Z.of_nat k = j.
Proof. unfold addresses. lia. Qed.

Lemma keeps_refl {A} (v : list A) idx : keeps_unflagged v idx v.
Proof. split; [reflexivity|]. reflexivity. Qed.
Lemma keeps_upd {A} (v r : list A) idx i k x : keeps_unflagged v idx r -> In i idx ->
  pyidx (zlen v) i = Some k -> keeps_unflagged v idx (upd r k x).
Proof.
  intros [HL HK] Hi Hk. apply pyidx_addresses in Hk; [|apply zlen_nonneg]. split; [rewrite upd_length; exact HL|].
  intros j Hj Hn. rewrite nth_error_upd_other; [apply HK; assumption|].
  intros <-. apply Hn. exists i. split; [exact Hi | apply Hk].
Qed.
Lemma keeps_setz {A} (v r r' : list A) idx i x : keeps_unflagged v idx r -> In i idx ->
  setz r i x = Ok r' -> keeps_unflagged v idx r'.
Proof.
  intros HK Hi H. apply setz_inv in H. destruct H as (k & Hk & -> & _).
  apply (keeps_upd v r idx i); [exact HK | exact Hi |].
  unfold zlen in *. rewrite <- (proj1 HK). exact Hk.
Qed.
Lemma foldM_keeps {A B} (f : list A -> B -> res (list A)) (g : B -> Z) (v : list A) idx bs r :
  (forall b, In b bs -> In (g b) idx) ->
  (forall s b s', f s b = Ok s' -> exists x, setz s (g b) x = Ok s') ->
  foldM f v bs = Ok r -> keeps_unflagged v idx r.
Proof.
  intros Hb Hf H. refine (foldM_inv f (keeps_unflagged v idx) bs v r (keeps_refl v idx) _ H).
  intros s b s' Hin Hs Hs'. destruct (Hf _ _ _ Hs') as (x & Hx).
  exact (keeps_setz v s s' idx (g b) x Hs (Hb b Hin) Hx).
Qed.

Lemma fancy_set_keeps {A} (v r : list A) idx x : fancy_set v idx x = Ok r -> keeps_unflagged v idx r.
Proof.
  apply (foldM_keeps _ (fun i => i)); [auto|]. intros s b s' H. exists x. exact H.
Qed.
Lemma fancy_set_many_keeps {A} (v r : list A) idx xs : fancy_set_many v idx xs = Ok r -> keeps_unflagged v idx r.
Proof.
  apply (foldM_keeps _ fst).
  - intros [i x] H. apply in_combine_l in H. exact H.
  - intros s b s' H. exists (snd b). exact H.
Qed.

Lemma last_valid_keeps (N : Num) (v r : list N) idx : last_valid_data v idx = Ok r -> keeps_unflagged v idx r.
Proof.
  apply (foldM_keeps _ (fun i => i)); [auto|].
  intros s b s' H. apply bind_ok in H. destruct H as (x & _ & H). exists x. exact H.
Qed.
Lemma mean_value_keeps (N : Num) dt (v r : list N) idx : mean_value dt v idx = Ok r -> keeps_unflagged v idx r.
Proof.
  unfold mean_value. intros H. apply bind_ok in H. destruct H as (m & _ & H).
  apply bind_ok in H. destruct H as (x & _ & H). exact (fancy_set_keeps _ _ _ _ H).
Qed.
Lemma median_value_keeps (N : Num) dt (v r : list N) idx : median_value dt v idx = Ok r -> keeps_unflagged v idx r.
Proof.
  unfold median_value. intros H. apply bind_ok in H. destruct H as (m & _ & H).
  apply bind_ok in H. destruct H as (x & _ & H). exact (fancy_set_keeps _ _ _ _ H).
Qed.
Lemma take_from_keeps (N : Num) dt (v a r : list N) idx : take_from dt v a idx = Ok r -> keeps_unflagged v idx r.
Proof.
  unfold take_from. intros H. apply bind_ok in H. destruct H as (m & _ & H). exact (fancy_set_many_keeps _ _ _ _ H).
Qed.
Lemma sma_keeps (N : Num) dt (v r : list N) idx w : repl_sma dt v idx w = Ok r -> keeps_unflagged v idx r.
Proof. unfold repl_sma. intros H. apply bind_ok in H. destruct H as (m & _ & H). exact (take_from_keeps _ _ _ _ _ _ H). Qed.
Lemma ema_keeps (N : Num) dt (v r : list N) idx a : repl_ema dt v idx a = Ok r -> keeps_unflagged v idx r.
Proof. unfold repl_ema. intros H. apply bind_ok in H. destruct H as (m & _ & H). exact (take_from_keeps _ _ _ _ _ _ H). Qed.
Lemma wma_keeps (N : Num) dt (v r : list N) idx p : repl_wma dt v idx p = Ok r -> keeps_unflagged v idx r.
Proof.
  unfold repl_wma. intros H. apply bind_ok in H. destruct H as ([b w] & _ & H).
  destruct b; cbn [negb] in H; [exact (take_from_keeps _ _ _ _ _ _ H) | discriminate].
Qed.
Lemma ssa_keeps (N : Num) eigh dt (v r : list N) idx fs f : repl_ssa eigh dt v idx fs f = Ok r -> keeps_unflagged v idx r.
Proof. unfold repl_ssa. intros H. apply bind_ok in H. destruct H as (m & _ & H). exact (take_from_keeps _ _ _ _ _ _ H). Qed.

(** ** Writing a scalar at the flagged positions *)
Lemma foldM_setz_bad {A B} (f : list A -> B -> res (list A)) (g : B -> Z) bs : forall (v : list A),
  (forall s b, length s = length v -> In b bs -> exists x, f s b = setz s (g b) x) ->
  (exists b, In b bs /\ ~ (- zlen v <= g b < zlen v)) -> foldM f v bs = Raise IndexError.
Proof.
  induction bs as [|b bs IH]; intros v Hf (b0 & Hb0 & Hbad); [destruct Hb0|].
  cbn [foldM]. destruct (Hf v b eq_refl (or_introl eq_refl)) as (x & ->).
  destruct (setz v (g b) x) as [v'|e] eqn:E; cbn [bind].
  - assert (HL : length v' = length v) by (exact (setz_length _ _ _ _ E)).
    apply IH.
    + intros s b' Hs Hb'. apply Hf; [congruence | right; exact Hb'].
    + exists b0. destruct Hb0 as [<-|Hb0].
      * exfalso. apply Hbad. apply setz_inv in E. destruct E as (k & Hk & _). apply pyidx_addresses in Hk; [|apply zlen_nonneg].
        unfold addresses in Hk. lia.
      * split; [exact Hb0|]. unfold zlen in *. rewrite HL. exact Hbad.
  - unfold setz in E. destruct (pyidx (zlen v) (g b)); congruence.
Qed.
Lemma in_bounds_dec n idx : in_bounds n idx \/ exists i, In i idx /\ ~ (- n <= i < n).
Proof.
  induction idx as [|i idx [IH|(j & Hj & Hb)]].
  - left. intros i [].
  - destruct (Z_le_gt_dec (- n) i); [destruct (Z_lt_le_dec i n)|].
    + left. intros j [<-|Hj]; [lia | apply IH, Hj].
    + right. exists i. split; [left; reflexivity | lia].
    + right. exists i. split; [left; reflexivity | lia].
  - right. exists j. split; [right; exact Hj | exact Hb].
Qed.
Lemma fancy_set_bad {A} (v : list A) idx x : ~ in_bounds (zlen v) idx -> fancy_set v idx x = Raise IndexError.
Proof.
  intros H. apply (foldM_setz_bad _ (fun i => i)).
  - intros s b _ _. exists x. reflexivity.
  - destruct (in_bounds_dec (zlen v) idx) as [Hb|Hb]; [contradiction | exact Hb].
Qed.

Lemma flagged_cons n i idx k : flagged n (i :: idx) k <-> addresses n i k \/ flagged n idx k.
Proof.
  unfold flagged. split.
  - intros (j & [<-|Hj] & Ha); [left; exact Ha | right; exists j; auto].
  - intros [Ha|(j & Hj & Ha)]; [exists i | exists j]; cbn; auto.
Qed.
Lemma flagged_dec n idx k : flagged n idx k \/ ~ flagged n idx k.
Proof.
  induction idx as [|i idx IH].
  - right. intros (j & [] & _).
  - rewrite flagged_cons. unfold addresses. destruct IH as [IH|IH]; [tauto|].
    destruct (Z.eq_dec i (Z.of_nat k)); [tauto|]. destruct (Z.eq_dec i (Z.of_nat k - n)); tauto.
Qed.
Lemma fancy_set_ok {A} (idx : list Z) (x : A) : forall v, in_bounds (zlen v) idx ->
  exists r, fancy_set v idx x = Ok r /\ length r = length v /\
    forall k d, (k < length v)%nat ->
      (flagged (zlen v) idx k -> nth k r d = x) /\ (~ flagged (zlen v) idx k -> nth k r d = nth k v d).
Proof.
  unfold fancy_set. induction idx as [|i idx IH]; intros v Hb.
  - exists v. split; [reflexivity|]. split; [reflexivity|]. intros k d Hk. split; [|reflexivity].
    intros (j & [] & _).
  - cbn [foldM]. unfold setz at 1.
    assert (Hi : exists k, pyidx (zlen v) i = Some k).
    { specialize (Hb i (or_introl eq_refl)). destruct (Z_lt_le_dec i 0).
      - rewrite pyidx_neg by lia. eauto.
      - rewrite pyidx_nonneg by lia. eauto. }
    destruct Hi as (k0 & Hk0). rewrite Hk0. cbn [bind].
    destruct (IH (upd v k0 x)) as (r & E & HL & H).
    { rewrite zlen_upd. intros j Hj. apply Hb. right. exact Hj. }
    exists r. split; [exact E|]. split; [rewrite HL; apply upd_length|].
    intros k d Hk. rewrite zlen_upd, upd_length in H. specialize (H k d Hk). rewrite flagged_cons.
    pose proof (pyidx_addresses _ _ _ (zlen_nonneg v) Hk0) as [Ha Hl].
    assert (Hdec : flagged (zlen v) idx k \/ ~ flagged (zlen v) idx k) by apply flagged_dec.
    split.
    + intros [Hf|Hf].
      * destruct Hdec as [Hd|Hd]; [apply H; exact Hd|]. rewrite (proj2 H Hd).
        assert (k = k0) as -> by (unfold addresses in *; unfold zlen in *; lia).
        apply nth_upd_same. exact Hk.
      * apply H. exact Hf.
    + intros Hn. rewrite (proj2 H) by tauto. apply nth_upd_other. intros ->. apply Hn. left. exact Ha.
Qed.

Lemma list_eq_nth {A} (l m : list A) d : length l = length m -> (forall k, (k < length l)%nat -> nth k l d = nth k m d) -> l = m.
Proof. intros. apply (nth_ext l m d d); assumption. Qed.

(** ** C21 *)
Lemma mean_value_spec (N : Num) (v : list N) idx : v <> [] -> in_bounds (zlen v) idx ->
  exists r, mean_value DFloat v idx = Ok r /\ length r = length v /\
    forall k d, (k < length v)%nat -> flagged (zlen v) idx k -> nth k r d = np_mean v.
Proof.
  intros Hv Hb. unfold mean_value. rewrite mean_of_ne by exact Hv. cbn [bind storable].
  destruct (fancy_set_ok idx (np_mean v) v Hb) as (r & E & HL & H). exists r.
  split; [exact E|]. split; [exact HL|]. intros k d Hk Hf. apply H; assumption.
Qed.
Lemma mean_value_exact (l : list R) idx : l <> [] -> in_bounds (zlen l) idx ->
  exists r, @mean_value XR DFloat (fins l) idx = Ok r /\ length r = length l /\
    forall k, (k < length l)%nat -> flagged (zlen l) idx k -> nth_error r k = Some (Fin (rmean l)).
Proof.
  intros Hl Hb. destruct (mean_value_spec XR (fins l) idx) as (r & E & HL & H).
  - apply fins_nil. exact Hl.
  - rewrite zlen_fins. exact Hb.
  - exists r. rewrite fins_length in HL. split; [exact E|]. split; [exact HL|]. intros k Hk Hf.
    rewrite (nth_error_nth' r nnan) by lia. f_equal. rewrite zlen_fins, fins_length in H.
    rewrite (H k nnan Hk Hf). apply np_mean_fins. exact Hl.
Qed.
Lemma mean_value_errors (N : Num) dt (v : list N) idx :
  (v = [] -> mean_value dt v idx = Raise ValueError) /\
  (v <> [] -> ~ in_bounds (zlen v) idx -> dt = DFloat -> mean_value dt v idx = Raise IndexError).
Proof.
  split.
  - intros ->. reflexivity.
  - intros Hv Hb ->. unfold mean_value. rewrite mean_of_ne by exact Hv. cbn [bind storable]. apply fancy_set_bad. exact Hb.
Qed.

Lemma median_value_exact (l s : list R) idx : l <> [] -> is_sorting s l -> in_bounds (zlen l) idx ->
  exists r, @median_value XR DFloat (fins l) idx = Ok r /\ length r = length l /\
    forall k, (k < length l)%nat -> flagged (zlen l) idx k -> nth_error r k = Some (Fin (rmiddle s)).
Proof.
  intros Hl Hs Hb. unfold median_value. rewrite (median_correct l s) by assumption. cbn [bind storable].
  destruct (fancy_set_ok idx (Fin (rmiddle s) : XR) (fins l)) as (r & E & HL & H).
  { rewrite zlen_fins. exact Hb. }
  exists r. rewrite fins_length in HL. split; [exact E|]. split; [exact HL|]. intros k Hk Hf.
  rewrite (nth_error_nth' r nnan) by lia. f_equal. rewrite zlen_fins, fins_length in H. apply H; assumption.
Qed.
Lemma median_value_errors (N : Num) dt (v : list N) idx :
  (v = [] -> median_value dt v idx = Raise ValueError) /\
  (v <> [] -> ~ in_bounds (zlen v) idx -> dt = DFloat -> median_value dt v idx = Raise IndexError).
Proof.
  split.
  - intros ->. reflexivity.
  - intros Hv Hb ->. unfold median_value. rewrite desc_median_farr by exact Hv. cbn [bind storable]. apply fancy_set_bad. exact Hb.
Qed.

(** ** C27: copying from another array *)
Lemma fancy_get_ok {A} (a : list A) idx d : in_bounds (zlen a) idx ->
  fancy_get a idx = Ok (map (fun i => nth (Z.to_nat (if i <? 0 then i + zlen a else i)) a d) idx).
Proof.
  intros Hb. apply mapM_all_ok. intros i Hi. specialize (Hb i Hi).
  destruct (Z.ltb_spec i 0); [apply getz_neg; lia | apply getz_ok; lia].
Qed.
Lemma fancy_get_bad {A} (a : list A) idx : ~ in_bounds (zlen a) idx -> fancy_get a idx = Raise IndexError.
Proof.
  intros H. destruct (in_bounds_dec (zlen a) idx) as [Hb|(i & Hi & Hb)]; [contradiction|].
  clear H. unfold fancy_get. induction idx as [|j idx IH]; [destruct Hi|]. cbn [mapM].
  destruct (getz a j) as [x|e] eqn:E; cbn [bind].
  - destruct Hi as [->|Hi]; [rewrite getz_out in E by lia; discriminate|]. rewrite IH by exact Hi. reflexivity.
  - unfold getz in E. destruct (pyidx (zlen a) j); [destruct (nth_error a n)|]; congruence.
Qed.
Lemma take_from_ok (N : Num) dt (a : list N) idx : forall v, length a = length v -> in_bounds (zlen v) idx ->
  exists r, take_from dt v a idx = Ok r /\ length r = length v /\
    forall k d, (k < length v)%nat -> flagged (zlen v) idx k -> nth k r d = store dt (nth k a d).
Proof.
  intros v Ha Hb. unfold take_from.
  assert (Hz : zlen a = zlen v) by (unfold zlen; lia).
  rewrite (fancy_get_ok a idx nnan) by (rewrite Hz; exact Hb). cbn [bind]. rewrite map_map.
  set (g := fun i => store dt (nth (Z.to_nat (if i <? 0 then i + zlen a else i)) a nnan)).
  assert (Hg : forall i k, (k < length v)%nat -> addresses (zlen v) i k -> g i = store dt (nth k a nnan)).
  { intros i k Hk Had. unfold g. do 2 f_equal. unfold addresses, zlen in *. destruct (Z.ltb_spec i 0); lia. }
  assert (HF : forall idx v', length v' = length v -> in_bounds (zlen v) idx ->
     exists r, fancy_set_many v' idx (map g idx) = Ok r /\ length r = length v /\
       forall k, (k < length v)%nat -> (flagged (zlen v) idx k -> nth k r nnan = store dt (nth k a nnan)) /\
                                       (~ flagged (zlen v) idx k -> nth k r nnan = nth k v' nnan)).
  { clear idx Hb. unfold fancy_set_many. induction idx as [|i idx IH]; intros v' Hv' Hb.
    - exists v'. split; [reflexivity|]. split; [exact Hv'|]. intros k Hk. split; [|reflexivity]. intros (j & [] & _).
    - cbn [map combine foldM fst snd]. unfold setz at 1. replace (zlen v') with (zlen v) by (unfold zlen; lia).
      assert (Hi : exists k, pyidx (zlen v) i = Some k).
      { specialize (Hb i (or_introl eq_refl)). destruct (Z_lt_le_dec i 0).
        - rewrite pyidx_neg by lia. eauto.
        - rewrite pyidx_nonneg by lia. eauto. }
      destruct Hi as (k0 & Hk0). rewrite Hk0. cbn [bind].
      destruct (IH (upd v' k0 (g i))) as (r & E & HL & H).
      { rewrite upd_length. exact Hv'. }
      { intros j Hj. apply Hb. right. exact Hj. }
      exists r. split; [exact E|]. split; [exact HL|].
      intros k Hk. specialize (H k Hk). rewrite flagged_cons.
      pose proof (pyidx_addresses _ _ _ (zlen_nonneg v) Hk0) as [Had Hl].
      destruct (flagged_dec (zlen v) idx k) as [Hd|Hd].
      + split; [intros _; apply H; exact Hd | tauto].
      + rewrite (proj2 H Hd). split.
        * intros [Hf|Hf]; [|contradiction].
          assert (k = k0) as -> by (unfold addresses in *; unfold zlen in *; lia).
          rewrite nth_upd_same by lia. apply Hg; assumption.
        * intros Hn. apply nth_upd_other. intros ->. apply Hn. left. exact Had. }
  destruct (HF idx v eq_refl Hb) as (r & E & HL & H). exists r. split; [exact E|]. split; [exact HL|].
  intros k d Hk Hf. rewrite (nth_indep r d nnan) by lia. rewrite (nth_indep a d nnan) by lia. apply H; assumption.
Qed.

Lemma sma_repl_exact (l : list R) (w : Z) idx : 0 < w <= zlen l -> in_bounds (zlen l) idx ->
  exists r, @repl_sma XR DFloat (fins l) idx w = Ok r /\ length r = length l /\
    forall k, (k < length l)%nat -> flagged (zlen l) idx k ->
      nth_error r k = Some (Fin (rmean (rwindow l (Z.to_nat w) k))).
Proof.
  intros Hw Hb. unfold repl_sma. rewrite moving_average_correct by exact Hw. cbn [bind].
  destruct (take_from_ok XR DFloat (fins (map (fun i => rmean (rwindow l (Z.to_nat w) i)) (seq 0 (length l)))) idx (fins l))
    as (r & E & HL & H).
  { rewrite !fins_length, map_length, seq_length. reflexivity. }
  { rewrite zlen_fins. exact Hb. }
  exists r. rewrite fins_length, zlen_fins in *. split; [exact E|]. split; [exact HL|]. intros k Hk Hf.
  rewrite (nth_error_nth' r nnan) by lia. f_equal. rewrite (H k nnan Hk Hf). cbn [store].
  rewrite nth_indep_fins by (rewrite map_length, seq_length; exact Hk). f_equal.
  rewrite (nth_map_in _ _ _ O) by (rewrite seq_length; exact Hk). rewrite seq_nth by exact Hk. reflexivity.
Qed.
Lemma ema_repl_exact (l : list R) (a : R) idx : (0 < a <= 1)%R -> l <> [] -> in_bounds (zlen l) idx ->
  exists r, @repl_ema XR DFloat (fins l) idx (Fin a) = Ok r /\ length r = length l /\
    forall k, (k < length l)%nat -> flagged (zlen l) idx k -> nth_error r k = Some (Fin (rema a l k)).
Proof.
  intros Ha Hl Hb. unfold repl_ema. rewrite ema_exact by assumption. cbn [bind].
  destruct (take_from_ok XR DFloat (fins (map (rema a l) (seq 0 (length l)))) idx (fins l)) as (r & E & HL & H).
  { rewrite !fins_length, map_length, seq_length. reflexivity. }
  { rewrite zlen_fins. exact Hb. }
  exists r. rewrite fins_length, zlen_fins in *. split; [exact E|]. split; [exact HL|]. intros k Hk Hf.
  rewrite (nth_error_nth' r nnan) by lia. f_equal. rewrite (H k nnan Hk Hf). cbn [store].
  rewrite nth_indep_fins by (rewrite map_length, seq_length; exact Hk). f_equal.
  rewrite (nth_map_in _ _ _ O) by (rewrite seq_length; exact Hk). rewrite seq_nth by exact Hk. reflexivity.
Qed.
Lemma wma_repl_exact (l : list R) (p : Z) (i : Z) : 0 < p -> 0 <= i < zlen l - p ->
  exists r, @repl_wma XR DFloat (fins l) [i] p = Ok r /\
    nth_error r (Z.to_nat i) = Some (Fin (rwmean (firstn (Z.to_nat p) (skipn (Z.to_nat i) l)))).
Proof.
  intros Hp Hi. unfold repl_wma. rewrite wma_exact by lia. cbn [bind].
  rewrite (proj2 (Z.ltb_lt p (zlen l))) by lia. cbn [negb].
  set (f := fun k => rwmean (firstn (Z.to_nat p) (skipn k l))).
  unfold take_from, fancy_get. cbn [mapM].
  rewrite (getz_ok _ _ (Fin 0 : XR)) by (rewrite zlen_fins; unfold zlen; rewrite map_length, seq_length; unfold zlen in *; lia).
  cbn [bind map store]. unfold fancy_set_many. cbn [combine foldM fst snd].
  rewrite setz_ok by (rewrite zlen_fins; lia). cbn [bind]. eexists. split; [reflexivity|].
  rewrite nth_error_upd_same by (rewrite fins_length; unfold zlen in *; lia). f_equal.
  rewrite fins_nth. f_equal. rewrite (nth_map_in _ _ _ O) by (rewrite seq_length; unfold zlen in *; lia).
  rewrite seq_nth by (unfold zlen in *; lia). reflexivity.
Qed.
Lemma wma_repl_errors (N : Num) dt (v : list N) idx (p : Z) :
  (0 < p < zlen v -> ~ in_bounds (zlen v - p) idx -> repl_wma dt v idx p = Raise IndexError) /\
  (0 < p -> p = zlen v -> repl_wma dt v idx p = Raise TypeError).
Proof.
  split.
  - intros Hp Hb. unfold repl_wma. rewrite wma_loop by lia. cbn [bind].
    rewrite (proj2 (Z.ltb_lt p (zlen v))) by lia. cbn [negb]. unfold take_from. rewrite fancy_get_bad; [reflexivity|].
    rewrite zlen_map. unfold zlen at 1. rewrite seq_length. unfold zlen in *.
    replace (Z.of_nat (length v - Z.to_nat p)) with (Z.of_nat (length v) - p) by lia. exact Hb.
  - intros Hp Hz. unfold repl_wma. rewrite wma_loop by lia. cbn [bind].
    rewrite (proj2 (Z.ltb_ge p (zlen v))) by lia. reflexivity.
Qed.

(** ** C28 *)
Lemma kalman_never (N : Num) dt (v : list N) arg x0 p0 q rr r : repl_kalman dt v arg x0 p0 q rr <> Ok (Some r).
Proof.
  unfold repl_kalman. destruct (kalman_filter v x0 p0 q rr) as [f|e]; cbn [bind]; [|discriminate].
  destruct arg as [l|i]; [discriminate|]. destruct (getz f i); cbn [bind]; [|discriminate].
  destruct (setz v i _); cbn [bind]; discriminate.
Qed.
Lemma kalman_array (N : Num) dt (v : list N) idx x0 p0 q rr f : kalman_filter v x0 p0 q rr = Ok f ->
  repl_kalman dt v (SArr idx) x0 p0 q rr = Raise TypeError.
Proof. intros H. unfold repl_kalman. rewrite H. reflexivity. Qed.

(** ** C19, C20 *)
(** Ascending lists of in-range, non-negative indices. *)
Lemma last_valid_gen (N : Num) (idx : list Z) : forall (v : list N) d,
  StronglySorted Z.lt idx -> (forall i, In i idx -> 0 <= i < zlen v) ->
  exists r, last_valid_data v idx = Ok r /\ length r = length v /\
    (forall i, 0 <= i < zlen v -> ~ In i idx -> nth (Z.to_nat i) r d = nth (Z.to_nat i) v d) /\
    (forall i, In i idx -> 0 < i -> nth (Z.to_nat i) r d = nth (Z.to_nat (i - 1)) r d) /\
    (In 0 idx -> nth 0 r d = nth (length v - 1) v d).
Proof.
  unfold last_valid_data. induction idx as [|i idx IH]; intros v d HS HB.
  - exists v. cbn. split; [reflexivity|]. split; [reflexivity|]. split; [reflexivity|]. split; intros; contradiction.
  - apply StronglySorted_inv in HS. destruct HS as [HS Hlt]. rewrite Forall_forall in Hlt.
    pose proof (HB i (or_introl eq_refl)) as Hi. cbn [foldM].
    set (x := nth (Z.to_nat (if i =? 0 then zlen v - 1 else i - 1)) v d).
    assert (Hg : getz v (i - 1) = Ok x).
    { unfold x. destruct (Z.eqb_spec i 0) as [->|Hn].
      - rewrite (getz_neg _ _ d) by lia. do 3 f_equal. lia.
      - rewrite (getz_ok _ _ d) by lia. reflexivity. }
    rewrite Hg. cbn [bind]. rewrite setz_ok by lia. cbn [bind].
    destruct (IH (upd v (Z.to_nat i) x) d HS) as (r & E & HL & H1 & H2 & H3).
    { intros j Hj. rewrite zlen_upd. apply HB. right. exact Hj. }
    rewrite zlen_upd in H1. rewrite upd_length in HL, H3.
    assert (Hni : ~ In i idx) by (intros H; specialize (Hlt i H); lia).
    exists r. split; [exact E|]. split; [exact HL|].
    assert (Hxi : nth (Z.to_nat i) r d = x).
    { rewrite H1 by (try exact Hni; lia). apply nth_upd_same. unfold zlen in Hi. lia. }
    split; [|split].
    + intros j Hj Hn. rewrite H1 by (try lia; intros H; apply Hn; right; exact H).
      apply nth_upd_other. intros Heq. apply Hn. left. lia.
    + intros j [<-|Hj] Hp.
      * rewrite Hxi. unfold x. rewrite (proj2 (Z.eqb_neq i 0)) by lia.
        rewrite H1; [|lia|intros H; specialize (Hlt _ H); lia].
        symmetry. apply nth_upd_other. lia.
      * apply H2; assumption.
    + intros [->|H0]; [|specialize (Hlt 0 H0); lia].
      change (nth (Z.to_nat 0) r d = nth (length v - 1) v d). rewrite Hxi. unfold x. cbn [Z.eqb]. f_equal. unfold zlen. lia.
Qed.
Lemma last_valid_nearest (N : Num) (v : list N) idx d :
  StronglySorted Z.lt idx -> (forall i, In i idx -> 0 < i < zlen v) ->
  exists r, last_valid_data v idx = Ok r /\
    forall i j, 0 <= j < i -> i < zlen v -> ~ In j idx -> (forall k, j < k <= i -> In k idx) ->
      nth (Z.to_nat i) r d = nth (Z.to_nat j) v d.
Proof.
  intros HS HB. destruct (last_valid_gen N idx v d HS) as (r & E & HL & H1 & H2 & _).
  { intros i Hi. specialize (HB i Hi). lia. }
  exists r. split; [exact E|]. intros i j Hj Hi Hn Hrun.
  remember (Z.to_nat (i - j)) as n eqn:En. revert i Hj Hi Hrun En.
  induction n as [|n IH]; intros i Hj Hi Hrun En; [lia|].
  rewrite H2 by (try lia; apply Hrun; lia).
  destruct (Z.eq_dec (i - 1) j) as [->|Hne].
  - apply H1; [lia | exact Hn].
  - apply IH; try lia. intros k Hk. apply Hrun. lia.
Qed.
Lemma last_valid_exists_before idx n : (forall i, In i idx -> 0 < i < n) ->
  forall i, In i idx -> exists j, 0 <= j < i /\ ~ In j idx /\ forall k, j < k <= i -> In k idx.
Proof.
  intros HB i Hi. assert (H0 : 0 <= i) by (specialize (HB i Hi); lia).
  revert Hi. pattern i. apply Zlt_0_ind; [|exact H0].
  clear i H0. intros i IH _ Hi. pose proof (HB i Hi) as Hb.
  destruct (in_dec Z.eq_dec (i - 1) idx) as [Hp|Hp].
  - destruct (IH (i - 1)) as (j & Hj & Hn & Hrun); [lia | exact Hp|].
    exists j. split; [lia|]. split; [exact Hn|]. intros k Hk.
    destruct (Z.eq_dec k i) as [->|]; [exact Hi | apply Hrun; lia].
  - exists (i - 1). split; [lia|]. split; [exact Hp|]. intros k Hk. replace k with i by lia. exact Hi.
Qed.
Lemma last_valid_first_wraps (N : Num) (v : list N) idx d :
  StronglySorted Z.lt idx -> (forall i, In i idx -> 0 <= i < zlen v) -> In 0 idx ->
  exists r, last_valid_data v idx = Ok r /\ nth 0 r d = nth (length v - 1) v d.
Proof.
  intros HS HB H0. destruct (last_valid_gen N idx v d HS HB) as (r & E & _ & _ & _ & H). exists r. split; [exact E | apply H, H0].
Qed.
