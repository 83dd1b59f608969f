(** The median restores a constant record (C167). *)
From Coq Require Import Reals Lra Psatz.
From Verif Require Import Num NpBase Lib XR LibR Spec M_descriptive M_series M_signal M_replacement P_series P_order P_signal P_replacement P_moment P_noise P_noisemean P_restore P_roundtrip P_greedy.
Local Open Scope R_scope.

Definition differs (c x : R) : bool := if Req_EM_T x c then false else true.
Lemma differs_true c x : differs c x = true <-> x <> c.
Proof. unfold differs. destruct (Req_EM_T x c); split; congruence. Qed.
Lemma filter_all {A} (f : A -> bool) l : (forall x, In x l -> f x = true) -> filter f l = l.
Proof. induction l as [|x l IH]; intros H; [reflexivity|]. cbn. rewrite (H x (or_introl eq_refl)). f_equal. apply IH. intros y Hy. apply H. right. exact Hy. Qed.
Lemma filter_perm_length {A} (f : A -> bool) l l' : Permutation l l' -> length (filter f l) = length (filter f l').
Proof. intros H. induction H; cbn; repeat match goal with |- context [f ?x] => destruct (f x) end; cbn; congruence || lia. Qed.

Lemma sorted_mid c s k : StronglySorted Rle s -> (k < length s)%nat ->
  (length (filter (differs c) s) < S k)%nat -> (length (filter (differs c) s) < length s - k)%nat -> nth k s 0 = c.
Proof.
  intros HS Hk H1 H2. destruct (Req_EM_T (nth k s 0) c) as [E|E]; [exact E|exfalso].
  assert (Hsp : s = firstn k s ++ skipn k s) by (symmetry; apply firstn_skipn).
  assert (Hsp' : s = firstn (S k) s ++ skipn (S k) s) by (symmetry; apply firstn_skipn).
  assert (HN : forall i j, (i <= j < length s)%nat -> nth i s 0 <= nth j s 0).
  { intros i j Hij. destruct (Nat.eq_dec i j) as [->|Hn]; [lra|]. apply (sorted_nth Rle s 0 HS). lia. }
  destruct (Rtotal_order (nth k s 0) c) as [C|[C|C]]; [|contradiction|].
  - assert (A : filter (differs c) (firstn (S k) s) = firstn (S k) s).
    { apply filter_all. intros x Hx. apply differs_true. apply (In_nth _ _ 0) in Hx. destruct Hx as (i & Hi & <-). rewrite firstn_length in Hi.
      rewrite nth_firstn by lia. pose proof (HN i k ltac:(lia)). lra. }
    rewrite Hsp', filter_app, app_length, A, firstn_length in H1. lia.
  - assert (A : filter (differs c) (skipn k s) = skipn k s).
    { apply filter_all. intros x Hx. apply differs_true. apply (In_nth _ _ 0) in Hx. destruct Hx as (i & Hi & <-). rewrite skipn_length in Hi.
      rewrite nth_skipn. pose proof (HN k (k + i)%nat ltac:(lia)). lra. }
    rewrite Hsp, filter_app, app_length, A, skipn_length in H2. rewrite <- Hsp in H2. lia.
Qed.
Lemma rmiddle_majority c s : StronglySorted Rle s -> (2 * length (filter (differs c) s) < length s)%nat -> rmiddle s = c.
Proof.
  intros HS H. unfold rmiddle. pose proof (Nat.div_mod_eq (length s) 2) as D. pose proof (Nat.mod_upper_bound (length s) 2 ltac:(lia)) as B.
  destruct (Nat.odd (length s)) eqn:O.
  - apply Nat.odd_spec in O. destruct O as [q O]. apply sorted_mid; [exact HS|lia|lia|lia].
  - assert (O' : Nat.even (length s) = true) by (rewrite <- Nat.negb_odd, O; reflexivity). apply Nat.even_spec in O'. destruct O' as [q O'].
    rewrite (sorted_mid c s (length s / 2 - 1)), (sorted_mid c s (length s / 2)) by (exact HS || lia). lra.
Qed.
Lemma filter_map_length {A B} (f : B -> bool) (g : A -> B) l : length (filter f (map g l)) = length (filter (fun x => f (g x)) l).
Proof. induction l as [|x l IH]; [reflexivity|]. cbn. destruct (f (g x)); cbn; rewrite IH; reflexivity. Qed.
Lemma differs_few c (m : list R) (idx : list Z) : (forall i, (0 <= i < zlen m)%Z -> ~ In i idx -> nth (Z.to_nat i) m 0 = c) ->
  (length (filter (differs c) m) <= length idx)%nat.
Proof.
  intros H. assert (E : m = map (fun i => nth i m 0) (seq 0 (length m))).
  { apply (list_eq_nth _ _ 0); [rewrite map_length, seq_length; reflexivity|]. intros i Hi.
    rewrite (nth_map_in _ (seq 0 (length m)) i O) by (rewrite seq_length; exact Hi). rewrite seq_nth by exact Hi. reflexivity. }
  transitivity (length (filter (differs c) (map (fun i => nth i m 0) (seq 0 (length m))))); [rewrite <- E; apply Nat.le_refl|].
  rewrite filter_map_length. rewrite <- (map_length Z.to_nat idx). apply NoDup_incl_length; [apply NoDup_filter, seq_NoDup|].
  intros i Hi. apply filter_In in Hi. destruct Hi as [Hi D]. apply in_seq in Hi. apply differs_true in D.
  destruct (in_dec Z.eq_dec (Z.of_nat i) idx) as [A|A]; [apply in_map_iff; exists (Z.of_nat i); split; [lia|exact A]|].
  exfalso. apply D. specialize (H (Z.of_nat i)). rewrite Nat2Z.id in H. apply H; [unfold zlen; lia|exact A].
Qed.

Lemma restore_median (c : R) (n : nat) (r : list R) (p : R) draws idx :
  (forall i, In i draws -> (0 <= i < Z.of_nat n)%Z) -> length r = n ->
  @random_index XR (Z.of_nat n) (Fin p) draws = Some (Ok idx) -> (2 * length idx < n)%nat ->
  exists m, @synthetic_noise XR (fins (repeat c n)) (Fin p) draws (fins r) = Some (Ok (fins m)) /\
    @median_value XR DFloat (fins m) idx = Ok (fins (repeat c n)).
Proof.
  intros Hd Hr E H2. assert (Hn : (0 < n)%nat) by lia.
  destruct (const_polluted c n r p draws idx Hn Hd Hr E) as (m & Em & Lm & HS & HB & H1 & _).
  exists m. split; [exact Em|]. assert (HZm : zlen m = Z.of_nat n) by (unfold zlen; lia).
  assert (HM : is_sorting (rsort m) m) by (exact (rsort_is_sorting m)).
  assert (HR : rmiddle (rsort m) = c).
  { apply rmiddle_majority; [apply HM|]. rewrite <- (filter_perm_length _ _ _ (proj1 HM)), <- (Permutation_length (proj1 HM)).
    rewrite <- HZm in H1. pose proof (differs_few c m idx H1). lia. }
  destruct (median_value_exact m (rsort m) idx) as (s & F & Ls & K).
  - intros ->. cbn in Lm. lia.
  - exact HM.
  - intros i Hi. specialize (HB i Hi). lia.
  - rewrite F. f_equal. destruct (median_value_keeps XR _ _ _ _ F) as [_ K1]. rewrite fins_length in K1.
    apply (list_eq_nth _ _ (Fin 0 : XR)); [rewrite fins_length, repeat_length; lia|]. intros k Hk. change (car XR) with xr in *. rewrite Ls, Lm in Hk.
    rewrite nth_fins_repeat by exact Hk. apply nth_error_nth.
    destruct (in_dec Z.eq_dec (Z.of_nat k) idx) as [A|A].
    + rewrite K, HR; [reflexivity|lia|]. exists (Z.of_nat k). split; [exact A|]. left. reflexivity.
    + rewrite K1; [|lia|].
      * rewrite (nth_error_nth' _ (Fin 0 : xr)) by (rewrite fins_length; lia). rewrite fins_nth. f_equal. f_equal.
        specialize (H1 (Z.of_nat k)). rewrite Nat2Z.id in H1. apply H1; [lia|exact A].
      * intros (i & Hi & Ha). apply A. specialize (HB i Hi). unfold addresses in Ha. rewrite zlen_fins, HZm in Ha. replace (Z.of_nat k) with i; [exact Hi|]. lia.
Qed.
