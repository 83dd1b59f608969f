(** Proofs about the heap model: refinement to the pure models, the caller's heap is a prefix of the new one. *)
From Verif Require Import Lib M_heap.

Section HeapProofs.
Context {N : Num}.
Notation heap := (heap N).
Notation M A := (M (N := N) A).

(** Running [m] on [h ++ t] keeps [h]; the outcome corresponds to [r], related by [Q]. *)
Definition sim {A B} (h t : heap) (m : M A) (r : res B) (Q : A -> B -> heap -> Prop) : Prop :=
  exists t', fst (m (h ++ t)) = h ++ t' /\
    match r with
    | Ok b => exists a, snd (m (h ++ t)) = Ok a /\ Q a b t'
    | Raise e => snd (m (h ++ t)) = Raise e
    end.

Lemma sim_bind {A B A' B'} h t (m : M A) (r : res B) Q (k : A -> M A') (k' : B -> res B') R :
  sim h t m r Q -> (forall a b t', Q a b t' -> sim h t' (k a) (k' b) R) ->
  sim h t (mbind m k) (bind r k') R.
Proof.
  intros [t' [E1 E2]] H. unfold sim, mbind in *. destruct (m (h ++ t)) as [h1 o]. cbn in *. subst h1.
  destruct r as [b|e]; cbn [bind].
  - destruct E2 as [a [-> HQ]]. exact (H a b t' HQ).
  - subst o. exists t'. now split.
Qed.
Lemma sim_skip {A A' B} h t t' (m : M A) a (k : A -> M A') (r : res B) R :
  m (h ++ t) = (h ++ t', Ok a) -> sim h t' (k a) r R -> sim h t (mbind m k) r R.
Proof. intros E H. unfold sim, mbind in *. now rewrite E. Qed.
Lemma sim_lift {A} h t (r : res A) (Q : A -> A -> heap -> Prop) : (forall a, r = Ok a -> Q a a t) -> sim h t (lift r) r Q.
Proof. intros H. exists t. cbn. split; [easy|]. destruct r; [eexists; split; [reflexivity|auto]|easy]. Qed.
Lemma sim_ret {A B} h t (a : A) (b : B) (Q : A -> B -> heap -> Prop) : Q a b t -> sim h t (mret a) (Ok b) Q.
Proof. intros H. exists t. cbn. eauto. Qed.
Lemma sim_raise {A B} h t e (Q : A -> B -> heap -> Prop) : sim h t (lift (Raise e)) (Raise e) Q.
Proof. exists t. now split. Qed.

Lemma sim_stop {A A' B} h t t' (m : M A) e (k : A -> M A') R :
  m (h ++ t) = (h ++ t', Raise e) -> sim (B := B) h t (mbind m k) (Raise e) R.
Proof. intros E. unfold sim, mbind. rewrite E. now exists t'. Qed.
Lemma sim_new h t dt l : sim h t (h_alloc (Data dt l)) (Ok l) (fun m l t => (length h <= m)%nat /\ nth_error (h ++ t) m = Some (Data dt l)).
Proof.
  exists (t ++ [Data dt l]). unfold h_alloc. cbn [fst snd]. rewrite app_assoc. split; [easy|].
  eexists. split; [reflexivity|]. split; [rewrite app_length; lia|].
  rewrite nth_error_app2, Nat.sub_diag by lia. reflexivity.
Qed.

(** [lift] followed by the rest: the usual case. *)
Lemma sim_let {A A' B'} h t (r : res A) (k : A -> M A') (k' : A -> res B') R :
  (forall a, r = Ok a -> sim h t (k a) (k' a) R) -> sim h t (mbind (lift r) k) (bind r k') R.
Proof.
  intros H. apply sim_bind with (Q := fun a b t' => a = b /\ t' = t /\ r = Ok a).
  - apply sim_lift. auto.
  - intros a b t' (-> & -> & E). auto.
Qed.

Lemma nth_error_h (h t : heap) a c : nth_error h a = Some c -> nth_error (h ++ t) a = Some c.
Proof. intros H. rewrite nth_error_app1; [exact H|]. apply nth_error_Some. congruence. Qed.
Lemma h_data_eq (h : heap) a dt l : nth_error h a = Some (Data dt l) -> h_data a h = (h, Ok (dt, l)).
Proof. intros E. unfold h_data. now rewrite E. Qed.
Lemma h_index_eq (h : heap) a l : nth_error h a = Some (Index l) -> h_index a h = (h, Ok l).
Proof. intros E. unfold h_index. now rewrite E. Qed.

(** A local array: allocated after [h]. *)
Definition loc (h t : heap) (m : nat) (dt : dtype) (l : list N) : Prop :=
  (length h <= m)%nat /\ nth_error (h ++ t) m = Some (Data dt l).

Lemma upd_app_r {A} (h t : list A) m v : (length h <= m)%nat -> upd (h ++ t) m v = h ++ upd t (m - length h) v.
Proof.
  revert m. induction h as [|x h IH]; intros m H; cbn [app length] in *; [now rewrite Nat.sub_0_r|].
  destruct m as [|m]; [lia|]. cbn [upd]. rewrite IH by lia. reflexivity.
Qed.
Lemma upd_nth_same {A} (l : list A) m v : (m < length l)%nat -> nth_error (upd l m v) m = Some v.
Proof.
  revert m. induction l as [|x l IH]; intros m H; cbn [length] in H; [lia|].
  destruct m; [reflexivity|]. cbn. apply IH. lia.
Qed.
Lemma upd_nth_other {A} (l : list A) m n v : m <> n -> nth_error (upd l m v) n = nth_error l n.
Proof.
  revert m n. induction l as [|x l IH]; intros m n H; [now destruct m, n|].
  destruct m, n; try easy; cbn. apply IH. lia.
Qed.

Lemma sim_update h t m dt l f (Q : unit -> list N -> heap -> Prop) : loc h t m dt l ->
  (forall l' t', loc h t' m dt l' -> f l = Ok l' -> t' = upd t (m - length h) (Data dt l') -> Q tt l' t') ->
  sim h t (h_update m f) (f l) Q.
Proof.
  intros [Hm E] H. unfold sim, h_update. rewrite E. destruct (f l) as [l'|e] eqn:Ef.
  - cbn [fst snd]. exists (upd t (m - length h) (Data dt l')). rewrite upd_app_r by easy. split; [easy|].
    exists tt. split; [easy|]. apply H; try easy. split; [easy|]. rewrite <- upd_app_r by easy.
    apply upd_nth_same. apply nth_error_Some. congruence.
  - cbn [fst snd]. now exists t.
Qed.
Lemma sim_copy {A B} h t a dt l (k : nat -> M A) (r : res B) R : nth_error h a = Some (Data dt l) ->
  (forall m t', loc h t' m dt l -> sim h t' (k m) r R) -> sim h t (mbind (h_copy a) k) r R.
Proof.
  intros E H. eapply sim_skip with (t' := t ++ [Data dt l]) (a := length (h ++ t)).
  - unfold h_copy, mbind. rewrite (h_data_eq _ a dt l) by now apply nth_error_h.
    unfold h_alloc. cbn [fst snd]. now rewrite app_assoc.
  - apply H. split; [rewrite app_length; lia|].
    rewrite app_assoc, nth_error_app2, Nat.sub_diag by lia. reflexivity.
Qed.
Lemma sim_alloc {A B} h t c (k : nat -> M A) (r : res B) R :
  (forall m t', (length h <= m)%nat -> nth_error (h ++ t') m = Some c -> t' = t ++ [c] -> m = length (h ++ t) -> sim h t' (k m) r R) ->
  sim h t (mbind (h_alloc c) k) r R.
Proof.
  intros H. eapply sim_skip with (t' := t ++ [c]) (a := length (h ++ t)).
  - unfold h_alloc. now rewrite app_assoc.
  - apply H; try easy; [rewrite app_length; lia|].
    rewrite app_assoc, nth_error_app2, Nat.sub_diag by lia. reflexivity.
Qed.
Lemma sim_mfor {I S} h t (body : I -> M unit) (f : S -> I -> res S) (inv : heap -> S -> Prop) l s :
  inv t s ->
  (forall t s i, inv t s -> sim h t (body i) (f s i) (fun _ s' t' => inv t' s')) ->
  sim h t (mfor body l) (foldM f s l) (fun _ s' t' => inv t' s').
Proof.
  intros H0 H. revert t s H0. induction l as [|i l IH]; intros t s H0; cbn [mfor foldM].
  - now apply sim_ret.
  - apply sim_bind with (Q := fun _ s' t' => inv t' s'); [now apply H|]. intros _ s' t' H'. now apply IH.
Qed.
Lemma sim_data {A B} h t a dt l (k : dtype * list N -> M A) (r : res B) R :
  nth_error (h ++ t) a = Some (Data dt l) -> sim h t (k (dt, l)) r R -> sim h t (mbind (h_data a) k) r R.
Proof. intros E H. eapply sim_skip; [apply h_data_eq; exact E|exact H]. Qed.
Lemma sim_index {A B} h t a l (k : list Z -> M A) (r : res B) R :
  nth_error h a = Some (Index l) -> sim h t (k l) r R -> sim h t (mbind (h_index a) k) r R.
Proof. intros E H. eapply sim_skip; [apply h_index_eq, nth_error_h; exact E|exact H]. Qed.

(** The result array. *)
Definition result h dt : nat -> list N -> heap -> Prop := fun m l t => loc h t m dt l.
Definition localq h m dt : unit -> list N -> heap -> Prop := fun _ l t => loc h t m dt l.

Lemma bind_ok_r {A} (r : res A) : bind r (fun x => Ok x) = r.
Proof. now destruct r. Qed.
(** Returning the local array after the last step. *)
Lemma sim_return h t m dt (c : M unit) r : sim h t c r (localq h m dt) ->
  sim h t (mbind c (fun _ => mret m)) r (result h dt).
Proof.
  intros H. rewrite <- (bind_ok_r r). eapply sim_bind; [exact H|]. intros [] b t' L. now apply sim_ret.
Qed.
Lemma sim_set h t m dt l f : loc h t m dt l -> sim h t (h_update m f) (f l) (localq h m dt).
Proof. intros L. eapply sim_update; [exact L|]. now intros. Qed.

Section Call.
Variables (h : heap) (v s : nat) (dt : dtype) (vel : list N) (idx : list Z).
Hypothesis Hv : nth_error h v = Some (Data dt vel).
Hypothesis Hs : nth_error h s = Some (Index idx).
Let Hv' t : nth_error (h ++ t) v = Some (Data dt vel) := nth_error_h h t v _ Hv.

Lemma sim_last_valid t : sim h t (h_last_valid_data v s) (last_valid_data vel idx) (result h dt).
Proof.
  unfold h_last_valid_data, last_valid_data. eapply sim_copy; [exact Hv|]. intros m t1 L.
  eapply sim_index; [exact Hs|]. apply sim_return.
  apply (sim_mfor h t1 _ _ (fun t l => loc h t m dt l)); [exact L|]. clear t1 L. intros t1 l i L.
  eapply sim_data; [apply L|]. cbn [snd]. apply sim_let. intros x _. now apply sim_set with (l := l) (f := fun l => setz l i x).
Qed.
Lemma sim_mean t : sim h t (h_mean_value v s) (mean_value dt vel idx) (result h dt).
Proof.
  unfold h_mean_value, mean_value. eapply sim_copy; [exact Hv|]. intros m t1 L.
  eapply sim_data; [apply Hv'|]. cbn [fst snd]. apply sim_let. intros o _. apply sim_let. intros x _.
  eapply sim_index; [exact Hs|]. apply sim_return. now apply (sim_set h t1 m dt vel (fun l => fancy_set l idx x)).
Qed.
Lemma sim_median t : sim h t (h_median_value v s) (median_value dt vel idx) (result h dt).
Proof.
  unfold h_median_value, median_value. eapply sim_copy; [exact Hv|]. intros m t1 L.
  eapply sim_data; [apply Hv'|]. cbn [fst snd]. apply sim_let. intros o _. apply sim_let. intros x _.
  eapply sim_index; [exact Hs|]. apply sim_return. now apply (sim_set h t1 m dt vel (fun l => fancy_set l idx x)).
Qed.
Lemma sim_li_run t m l a b : dt = DFloat -> loc h t m dt l ->
  sim h t (h_li_run v m a b) (li_run vel l a b) (localq h m dt).
Proof.
  intros D L. unfold h_li_run, li_run. eapply sim_data; [apply Hv'|]. eapply sim_data; [apply L|]. cbn [fst snd].
  apply sim_let. intros x _. apply sim_let. intros y _.
  destruct (_ && _) eqn:E1.
  - apply (sim_mfor h t _ (fun m0 p => setz m0 (snd p) _) (fun t l => loc h t m dt l)); [exact L|].
    clear t l L. intros t l i L. now apply (sim_set h t m dt l (fun l => setz l (snd i) _)).
  - destruct (nisnan y) eqn:E2.
    + apply sim_let. intros o _. apply sim_let. intros z _.
      now apply (sim_set h t m dt l (fun l => Ok (slice_set l a (b + 1) z))).
    + now apply (sim_set h t m dt l (fun l => Ok (slice_set l a (b + 1) _))).
Qed.
Lemma sim_li t decimals :
  sim h t (h_linear_interpolation v s decimals) (linear_interpolation dt vel idx decimals) (result h DFloat).
Proof.
  unfold h_linear_interpolation, linear_interpolation. eapply sim_copy; [exact Hv|]. intros m t1 L.
  eapply sim_index; [exact Hs|]. unfold h_nan. destruct dt eqn:D.
  - apply sim_bind with (Q := localq h m DFloat).
    { eapply sim_data; [apply L|]. cbn [fst]. now apply (sim_set h t1 m DFloat vel (fun l => fancy_set l idx nnan)). }
    clear t1 L. intros [] l t1 L. apply sim_let. intros ss _. apply sim_let. intros se _.
    apply sim_bind with (Q := localq h m DFloat).
    { apply (sim_mfor h t1 _ (fun m0 se => li_run vel m0 (fst se) (snd se)) (fun t l => loc h t m DFloat l)); [exact L|].
      clear t1 l L. intros t1 l i L. rewrite <- D in *. now apply sim_li_run. }
    clear t1 l L. intros [] l t1 L. eapply sim_data; [apply L|]. cbn [snd].
    exact (sim_new h t1 DFloat (map (fun x => around x decimals) l)).
  - eapply sim_stop with (t' := t1). unfold mbind. rewrite (h_data_eq _ m DInt vel) by apply L. reflexivity.
Qed.

Lemma sim_cubic t spline decimals :
  sim h t (h_cubic spline v s decimals) (cubic_12points_polynomial spline dt vel idx decimals) (result h DFloat).
Proof.
  unfold h_cubic, cubic_12points_polynomial. eapply sim_copy; [exact Hv|]. intros m t1 L.
  eapply sim_index; [exact Hs|]. unfold h_nan. destruct dt eqn:D.
  - apply sim_bind with (Q := localq h m DFloat).
    { eapply sim_data; [apply L|]. cbn [fst]. now apply (sim_set h t1 m DFloat vel (fun l => fancy_set l idx nnan)). }
    clear t1 L. intros [] l t1 L.
    apply sim_bind with (Q := localq h m DFloat).
    { apply (sim_mfor h t1 _ (cubic_step spline vel) (fun t l => loc h t m DFloat l)); [exact L|].
      clear t1 l L. intros t1 l i L. unfold cubic_step.
      eapply sim_data; [apply Hv'|]. eapply sim_data; [apply L|]. cbn [fst snd].
      destruct (_ || _).
      - apply sim_let. intros p _. apply sim_let. intros n _. now apply (sim_set h t1 m DFloat l (fun l => setz l i _)).
      - apply sim_let. intros y _. destruct (negb _); [apply sim_raise|].
        now apply (sim_set h t1 m DFloat l (fun l => setz l i _)). }
    clear t1 l L. intros [] l t1 L. eapply sim_data; [apply L|]. cbn [snd].
    exact (sim_new h t1 DFloat (map (fun x => around x decimals) l)).
  - eapply sim_stop with (t' := t1). unfold mbind. rewrite (h_data_eq _ m DInt vel) by apply L. reflexivity.
Qed.
End Call.

(** The averages; the array they are called on keeps its contents. *)
Definition has (h t : heap) m dt (l : list N) : Prop := nth_error (h ++ t) m = Some (Data dt l).
Definition two h m dt l d2 : nat -> list N -> heap -> Prop := fun a r t => has h t m dt l /\ loc h t a d2 r.
Lemma two_step h m dt l a d2 t l2 (f : list N -> res (list N)) :
  a <> m -> has h t m dt l -> loc h t a d2 l2 ->
  sim h t (h_update a f) (f l2) (fun _ r t => has h t m dt l /\ loc h t a d2 r).
Proof.
  intros Ha Lm La. eapply sim_update; [exact La|]. intros l' t' La' _ ->. split; [|exact La'].
  red. rewrite <- upd_app_r by apply La. now rewrite upd_nth_other.
Qed.
Lemma sim_ma h t m dt vel w : has h t m dt vel ->
  sim h t (h_moving_average m w) (moving_average 1 vel w) (two h m dt vel DFloat).
Proof.
  intros L. unfold h_moving_average, moving_average. eapply sim_data; [apply L|]. cbn [fst snd].
  destruct (w <=? 0)%Z; [apply sim_raise|]. destruct (zlen vel =? 0)%Z.
  { exists (t ++ [Data DFloat []]). unfold h_alloc. cbn [fst snd]. rewrite app_assoc. split; [easy|].
    eexists. split; [reflexivity|]. split.
    - red. rewrite app_assoc. now apply nth_error_h.
    - split; [rewrite app_length; lia|]. rewrite app_assoc, nth_error_app2, Nat.sub_diag by lia. reflexivity. }
  cbn [Z.eqb negb]. change (1 =? 1)%Z with true. cbn [negb].
  destruct (_ <? _)%Z; [apply sim_raise|].
  eapply sim_alloc. intros a t1 Ba Ea Et Eq.
  assert (Ham : a <> m).
  { red in L. assert (m < length (h ++ t))%nat by (apply nth_error_Some; congruence). lia. }
  assert (Lm : has h t1 m dt vel).
  { red. subst t1. rewrite app_assoc. now apply nth_error_h. }
  assert (La : loc h t1 a DFloat (repeat (nofZ 0) (length vel))) by now split.
  clear Ea Et Eq L t Ba.
  apply sim_bind with (Q := fun _ r t => has h t m dt vel /\ loc h t a DFloat r).
  { apply (sim_mfor h t1 _ (ma_head vel) (fun t l => has h t m dt vel /\ loc h t a DFloat l)); [now split|].
    intros t l i [L1 L2]. unfold ma_head. eapply sim_data; [apply L1|]. cbn [snd]. apply sim_let. intros x _.
    now apply (two_step h m dt vel a DFloat t l (fun l => setz l i x)). }
  clear La Lm t1. intros [] l t1 [L1 L2]. rewrite <- (bind_ok_r (foldM _ _ _)).
  apply sim_bind with (Q := fun _ r t => has h t m dt vel /\ loc h t a DFloat r).
  { apply (sim_mfor h t1 _ (ma_tail vel w) (fun t l => has h t m dt vel /\ loc h t a DFloat l)); [now split|].
    clear - Ham. intros t l i [L1 L2]. unfold ma_tail. eapply sim_data; [apply L1|]. eapply sim_data; [apply L2|]. cbn [snd].
    apply sim_let. intros x _. apply sim_let. intros y _. apply sim_let. intros z _.
    now apply (two_step h m dt vel a DFloat t l (fun l => setz l i _)). }
  intros [] r t2 LL. now apply sim_ret.
Qed.
Lemma sim_ema_fn h t m dt vel al : has h t m dt vel ->
  sim h t (h_exponential_moving_average m al) (exponential_moving_average dt vel al) (two h m dt vel dt).
Proof.
  intros L. unfold h_exponential_moving_average, exponential_moving_average. eapply sim_data; [apply L|]. cbn [fst snd].
  destruct (_ || _); [apply sim_raise|].
  eapply sim_alloc. intros a t1 Ba Ea Et Eq.
  assert (Ham : a <> m).
  { red in L. assert (m < length (h ++ t))%nat by (apply nth_error_Some; congruence). lia. }
  assert (Lm : has h t1 m dt vel).
  { red. subst t1. rewrite app_assoc. now apply nth_error_h. }
  assert (La : loc h t1 a dt (repeat (nofZ 0) (length vel))) by now split.
  clear Ea Et Eq L t Ba. apply sim_let. intros d0 _.
  apply sim_bind with (Q := fun _ r t => has h t m dt vel /\ loc h t a dt r).
  { now apply (two_step h m dt vel a dt t1 _ (fun l => setz l 0 _)). }
  clear La Lm t1. intros [] l t1 [L1 L2]. rewrite <- (bind_ok_r (foldM _ _ _)).
  apply sim_bind with (Q := fun _ r t => has h t m dt vel /\ loc h t a dt r).
  { apply (sim_mfor h t1 _ (ema_step dt vel al) (fun t l => has h t m dt vel /\ loc h t a dt l)); [now split|].
    clear - Ham. intros t l i [L1 L2]. unfold ema_step. eapply sim_data; [apply L1|]. cbn [snd].
    apply sim_let. intros x _. eapply sim_data; [apply L2|]. cbn [fst snd]. apply sim_let. intros y _.
    now apply (two_step h m dt vel a dt t l (fun l => setz l i _)). }
  intros [] r t2 LL. now apply sim_ret.
Qed.
Lemma sim_take h t m dt l a d2 r idx : loc h t m dt l -> loc h t a d2 r ->
  sim h t (h_take_from m a idx) (take_from dt l r idx) (localq h m dt).
Proof.
  intros Lm La. unfold h_take_from, take_from. eapply sim_data; [apply La|]. cbn [snd]. apply sim_let. intros vs _.
  eapply sim_data; [apply Lm|]. cbn [fst]. now apply (sim_set h t m dt l (fun l => fancy_set_many l idx _)).
Qed.

Section Call2.
Variables (h : heap) (v s : nat) (dt : dtype) (vel : list N) (idx : list Z).
Hypothesis Hv : nth_error h v = Some (Data dt vel).
Hypothesis Hs : nth_error h s = Some (Index idx).

Lemma sim_sma t w : sim h t (h_sma v s w) (repl_sma dt vel idx w) (result h dt).
Proof.
  unfold h_sma, repl_sma. eapply sim_copy; [exact Hv|]. intros m t1 L.
  eapply sim_bind; [apply sim_ma with (dt := dt); apply L|]. intros a r t2 [L1 L2].
  assert (loc h t2 m dt vel) by (split; [apply L|exact L1]).
  eapply sim_index; [exact Hs|]. apply sim_return. now apply sim_take with (d2 := DFloat).
Qed.
Lemma sim_ema t al : sim h t (h_ema v s al) (repl_ema dt vel idx al) (result h dt).
Proof.
  unfold h_ema, repl_ema. eapply sim_copy; [exact Hv|]. intros m t1 L.
  eapply sim_bind; [apply sim_ema_fn with (dt := dt); apply L|]. intros a r t2 [L1 L2].
  assert (loc h t2 m dt vel) by (split; [apply L|exact L1]).
  eapply sim_index; [exact Hs|]. apply sim_return. now apply sim_take with (d2 := dt).
Qed.
Lemma loc_ext t m l c : loc h t m dt l -> loc h (t ++ [c]) m dt l.
Proof. intros [B E]. split; [easy|]. rewrite app_assoc. now apply nth_error_h. Qed.
Lemma sim_wma t p : sim h t (h_wma v s p) (repl_wma dt vel idx p) (result h dt).
Proof.
  unfold h_wma, repl_wma. eapply sim_copy; [exact Hv|]. intros m t1 L. eapply sim_data; [apply L|]. cbn [snd].
  apply sim_let. intros [arr w] _. eapply sim_index; [exact Hs|]. cbn [fst snd].
  destruct (negb arr); [apply sim_raise|]. eapply sim_alloc. intros a t2 B E -> _.
  apply sim_return. apply sim_take with (d2 := DFloat); [now apply loc_ext|now split].
Qed.
Lemma sim_ssa t eigh fs f : sim h t (h_ssa eigh v s fs f) (repl_ssa eigh dt vel idx fs f) (result h dt).
Proof.
  unfold h_ssa, repl_ssa. eapply sim_copy; [exact Hv|]. intros m t1 L. eapply sim_data; [apply L|]. cbn [snd].
  apply sim_let. intros xf _. eapply sim_alloc. intros a t2 B E -> _.
  eapply sim_index; [exact Hs|].
  apply sim_return. apply sim_take with (d2 := DFloat); [now apply loc_ext|now split].
Qed.
Lemma sim_kalman t i x0 p0 q r :
  sim h t (h_kalman v (match i with SArr _ => inl s | SInt z => inr z end) x0 p0 q r)
    (repl_kalman dt vel i x0 p0 q r) (fun _ o _ => o = None).
Proof.
  unfold h_kalman, repl_kalman. eapply sim_copy; [exact Hv|]. intros m t1 L. eapply sim_data; [apply L|]. cbn [fst snd].
  apply sim_let. intros fl _. destruct i as [l|z]; [apply sim_raise|]. apply sim_let. intros x _.
  destruct (sim_set h t1 m dt vel (fun l => setz l z (store dt x)) L) as [t' [E1 E2]].
  exists t'. split; [exact E1|]. destruct (setz vel z (store dt x)) as [l'|e]; cbn [bind]; [|exact E2].
  destruct E2 as [a [E2 _]]. exists a. now split.
Qed.
End Call2.

Lemma sim_rebase {A B} h t t0 (m : M A) (r : res B) (Q Q' : A -> B -> heap -> Prop) : sim (h ++ t) t0 m r Q ->
  (forall a b t', Q a b t' -> Q' a b (t ++ t')) -> sim h (t ++ t0) m r Q'.
Proof.
  intros [t' [E1 E2]] H. rewrite <- app_assoc in E1, E2. exists (t ++ t'). rewrite E1, app_assoc. split; [easy|].
  destruct r; [|exact E2]. destruct E2 as [b [E2 HQ]]. exists b. split; [exact E2|auto].
Qed.
Lemma loc_rebase h t t' m dt l : loc (h ++ t) t' m dt l -> loc h (t ++ t') m dt l.
Proof. intros [B E]. rewrite app_length in B. split; [lia|]. now rewrite app_assoc. Qed.

Lemma sim_li_squeezed h t m dt l idx decimals : loc h t m dt l ->
  sim h t (h_li_squeezed m idx decimals) (li_squeezed dt l idx decimals) (result h dt).
Proof.
  intros L.
  assert (G : sim h t (mbind (h_alloc (Index idx)) (fun s => h_linear_interpolation m s decimals))
                (linear_interpolation dt l idx decimals) (result h dt)).
  { eapply sim_alloc. intros s t1 B E Et _.
    rewrite <- (app_nil_r t1). destruct dt eqn:D.
    - eapply sim_rebase; [apply (sim_li (h ++ t1) m s DFloat l idx) with (t := [])|].
      + destruct L as [_ E']. subst t1. rewrite app_assoc. now apply nth_error_h.
      + exact E.
      + intros a b t' L'. now apply loc_rebase.
    - destruct (sim_li (h ++ t1) m s DInt l idx) with (t := @nil (cell N)) (decimals := decimals) as [t' [E1 E2]].
      + destruct L as [_ E']. subst t1. rewrite app_assoc. now apply nth_error_h.
      + exact E.
      + cbn [linear_interpolation] in *. rewrite <- !app_assoc in *. exists (t1 ++ t').
        now split. }
  unfold h_li_squeezed, li_squeezed. destruct idx as [|i [|j idx]]; try exact G. clear G.
  (* one spike *)
  assert (Em : nth_error (h ++ t) m = Some (Data dt l)) by apply L.
  eapply sim_skip with (t' := t ++ [Data dt l]) (a := length (h ++ t)).
  { unfold h_copy, mbind. rewrite (h_data_eq _ m dt l) by exact Em. unfold h_alloc. cbn [fst snd]. now rewrite app_assoc. }
  assert (L' : loc h (t ++ [Data dt l]) (length (h ++ t)) dt l).
  { split; [rewrite app_length; lia|]. rewrite app_assoc, nth_error_app2, Nat.sub_diag by lia. reflexivity. }
  eapply sim_data; [apply L'|]. cbn [fst]. destruct dt; [|apply sim_raise].
  eapply sim_bind; [now apply (sim_set h _ _ DFloat l (fun l => setz l i nnan))|]. intros. apply sim_raise.
Qed.

Lemma sim_poly_step h t regress dt idx window degree decimals m a l i : loc h t m dt l ->
  sim h t (h_poly_step regress idx window degree decimals (m, a) i)
    (poly_step regress dt idx window degree decimals (l, a) i)
    (fun s p t => loc h t (fst s) dt (fst p) /\ snd s = snd p).
Proof.
  intros L. unfold h_poly_step, poly_step. eapply sim_data; [apply L|]. cbn [fst snd].
  destruct (i =? 0)%Z.
  { apply sim_let. intros x _. eapply sim_bind; [now apply (sim_set h t m dt l (fun l => setz l i x))|].
    intros [] l' t' L'. now apply sim_ret. }
  destruct (_ && _).
  { destruct (a =? 0)%Z; [|now apply sim_ret].
    eapply sim_bind; [now apply sim_li_squeezed|]. intros m' l' t' L'. now apply sim_ret. }
  destruct (_ && _).
  all: apply sim_let; intros x _; apply sim_let; intros y _;
    eapply sim_bind; [now apply (sim_set h t m dt l (fun l => setz l i y))|];
    intros [] l' t' L'; now apply sim_ret.
Qed.

Lemma sim_poly h t v s dt vel idx regress window degree decimals :
  nth_error h v = Some (Data dt vel) -> nth_error h s = Some (Index idx) ->
  sim h t (h_polynomial regress v s window degree decimals)
    (polynomial_replacement regress dt vel idx window degree decimals) (result h dt).
Proof.
  intros Hv Hs. unfold h_polynomial, polynomial_replacement. eapply sim_copy; [exact Hv|]. intros m t1 L.
  eapply sim_index; [exact Hs|].
  assert (G : sim h t1 (mbind (h_poly_loop (h_poly_step regress idx window degree decimals) (m, 0%Z) idx)
       (fun s => mbind (h_data (fst s)) (fun d => h_alloc (Data (fst d) (around_arr (fst d) (snd d) decimals)))))
     (let* s := foldM (poly_step regress dt idx window degree decimals) (vel, 0%Z) idx in
      Ok (around_arr dt (fst s) decimals)) (result h dt)).
  { apply sim_bind with (Q := fun s p t => loc h t (fst s) dt (fst p) /\ snd s = snd p).
    - assert (HL : forall is t m a l, loc h t m dt l ->
        sim h t (h_poly_loop (h_poly_step regress idx window degree decimals) (m, a) is)
          (foldM (poly_step regress dt idx window degree decimals) (l, a) is)
          (fun s p t => loc h t (fst s) dt (fst p) /\ snd s = snd p)).
      { induction is as [|i is IH]; intros t0 m0 a l L0; cbn [h_poly_loop foldM].
        - now apply sim_ret.
        - eapply sim_bind; [now apply sim_poly_step|]. intros [m1 a1] [l1 b1] t' [L1 E1]. cbn in E1, L1. subst b1.
          now apply IH. }
      now apply HL.
    - clear. intros [m a] [l b] t1 [L _]. cbn [fst snd] in *. eapply sim_data; [apply L|]. cbn [fst snd].
      exact (sim_new h t1 dt (around_arr dt l decimals)). }
  destruct idx as [|i [|j idx]]; try exact G. apply sim_raise.
Qed.

(** ** phasespace premodification works on the array itself *)
Lemma upd_upd {A} (l : list A) k x y : upd (upd l k x) k y = upd l k y.
Proof. revert k. induction l; intros [|k]; cbn; try easy. now rewrite IHl. Qed.
Lemma upd_same {A} (l : list A) k x : nth_error l k = Some x -> upd l k x = l.
Proof. revert k. induction l; intros [|k] H; cbn in *; try easy; [congruence|]. now rewrite IHl. Qed.

Lemma premod_heap (h : M_heap.heap N) a dt d c1 c2 : nth_error h a = Some (Data dt d) ->
  match premodification d c1 c2 with
  | Ok (d', unremovable) => h_premodification a c1 c2 h = (upd h a (Data dt d'), Ok (a, unremovable))
  | Raise e => snd (h_premodification a c1 c2 h) = Raise e
  end.
Proof.
  intros E. remember (h_premodification a c1 c2 h) as o eqn:Eo.
  unfold h_premodification, mbind at 1 in Eo. rewrite (h_data_eq h a dt d E) in Eo. cbn [fst snd] in Eo.
  unfold premodification.
  match goal with |- context [foldM _ d ?r] => set (rem := r) in * end.
  match goal with |- context [Ok (_, ?r)] => set (un := r) in * end. clearbody un rem.
  assert (A1 : (a < length h)%nat) by (apply nth_error_Some; congruence).
  set (B := fun i : Z => mbind (h_data (N := N) a) (fun d => mbind (lift (getz (snd d) (i - 1)))
                  (fun v => h_update a (fun l => setz l i v)))).
  fold B in Eo. set (f := fun (d : list N) i => let* v := getz d (i - 1) in setz d i v).
  assert (HB : forall s i, B i (upd h a (Data dt s)) =
    match f s i with Ok s' => (upd h a (Data dt s'), Ok tt) | Raise e => (upd h a (Data dt s), Raise e) end).
  { intros s i. assert (Eh : nth_error (upd h a (Data dt s)) a = Some (Data dt s)) by now apply upd_nth_same.
    unfold B, f, mbind, lift. rewrite (h_data_eq _ a dt s Eh). cbn [snd].
    destruct (getz s (i - 1)) as [x|e]; cbn [bind]; [|reflexivity].
    unfold h_update. rewrite Eh. destruct (setz s i x) as [s'|e]; [|reflexivity]. now rewrite upd_upd. }
  clearbody B f.
  assert (G : forall s, match foldM f s rem with
    | Ok d' => mfor B rem (upd h a (Data dt s)) = (upd h a (Data dt d'), Ok tt)
    | Raise e => snd (mfor B rem (upd h a (Data dt s))) = Raise e
    end).
  { clear Eo. induction rem as [|i rem IH]; intros s; cbn [foldM mfor]; [reflexivity|].
    unfold mbind. rewrite HB. destruct (f s i) as [s'|e]; cbn [bind]; [apply IH|reflexivity]. }
  specialize (G d). rewrite upd_same in G by exact E.
  unfold mbind in Eo. subst o. destruct (foldM f d rem) as [d'|e]; cbn [bind].
  - now rewrite G.
  - destruct (mfor B rem h) as [h1 [u|e1]]; cbn in *; [easy|]. congruence.
Qed.

(** ** Final forms *)
(** The call leaves every array of the caller's heap as it was, whether it returns or raises; the
    array returned is a new object with the contents [r]. *)
Definition leaves_caller (h : heap) (m : M nat) (dt : dtype) (r : res (list N)) : Prop :=
  exists new, fst (m h) = h ++ new /\
    match r with
    | Ok l => exists b, snd (m h) = Ok b /\ nth_error h b = None /\ nth_error (fst (m h)) b = Some (Data dt l)
    | Raise e => snd (m h) = Raise e
    end.
Lemma sim_leaves h m dt r : sim h [] m r (result h dt) -> leaves_caller h m dt r.
Proof.
  intros [t [E1 E2]]. rewrite app_nil_r in E1, E2. exists t. split; [exact E1|]. destruct r as [l|e]; [|exact E2].
  destruct E2 as [b [E2 [B E3]]]. exists b. split; [exact E2|]. rewrite E1. split; [|exact E3].
  now apply nth_error_None.
Qed.

Lemma replacement_heap (h : M_heap.heap N) v s dt vel idx :
  nth_error h v = Some (Data dt vel) -> nth_error h s = Some (Index idx) ->
  leaves_caller h (h_last_valid_data v s) dt (last_valid_data vel idx) /\
  leaves_caller h (h_mean_value v s) dt (mean_value dt vel idx) /\
  leaves_caller h (h_median_value v s) dt (median_value dt vel idx) /\
  (forall d, leaves_caller h (h_linear_interpolation v s d) DFloat (linear_interpolation dt vel idx d)) /\
  (forall spline d, leaves_caller h (h_cubic spline v s d) DFloat (cubic_12points_polynomial spline dt vel idx d)) /\
  (forall w, leaves_caller h (h_sma v s w) dt (repl_sma dt vel idx w)) /\
  (forall al, leaves_caller h (h_ema v s al) dt (repl_ema dt vel idx al)) /\
  (forall p, leaves_caller h (h_wma v s p) dt (repl_wma dt vel idx p)) /\
  (forall eigh fs f, leaves_caller h (h_ssa eigh v s fs f) dt (repl_ssa eigh dt vel idx fs f)) /\
  (forall regress w g d, leaves_caller h (h_polynomial regress v s w g d) dt
                           (polynomial_replacement regress dt vel idx w g d)).
Proof.
  intros Hv Hs. repeat split; intros; apply sim_leaves.
  - now apply sim_last_valid.
  - now apply sim_mean.
  - now apply sim_median.
  - now apply sim_li with (dt := dt).
  - now apply sim_cubic.
  - now apply sim_sma.
  - now apply sim_ema.
  - now apply sim_wma.
  - now apply sim_ssa.
  - now apply sim_poly.
Qed.
Lemma kalman_heap (h : M_heap.heap N) v s dt vel x0 p0 q r : nth_error h v = Some (Data dt vel) ->
  exists new, fst (h_kalman v s x0 p0 q r h) = h ++ new.
Proof.
  intros Hv. destruct s as [s|z].
  - destruct (sim_kalman h v s dt vel Hv [] (SArr []) x0 p0 q r) as [t [E _]].
    rewrite app_nil_r in E. now exists t.
  - destruct (sim_kalman h v 0%nat dt vel Hv [] (SInt z) x0 p0 q r) as [t [E _]].
    rewrite app_nil_r in E. now exists t.
Qed.
Lemma averages_heap (h : M_heap.heap N) v dt vel : nth_error h v = Some (Data dt vel) ->
  (forall w, leaves_caller h (h_moving_average v w) DFloat (moving_average 1 vel w)) /\
  (forall al, leaves_caller h (h_exponential_moving_average v al) dt (exponential_moving_average dt vel al)).
Proof.
  intros Hv. split; intros; apply sim_leaves.
  - destruct (sim_ma h [] v dt vel w) as [t [E1 E2]]; [red; now apply nth_error_h|]. exists t. split; [exact E1|].
    destruct (moving_average 1 vel w); [|exact E2]. destruct E2 as [b [E2 [_ L]]]. exists b. now split.
  - destruct (sim_ema_fn h [] v dt vel al) as [t [E1 E2]]; [red; now apply nth_error_h|]. exists t. split; [exact E1|].
    destruct (exponential_moving_average dt vel al); [|exact E2]. destruct E2 as [b [E2 [_ L]]]. exists b. now split.
Qed.
End HeapProofs.
