(** Values on one-dimensional arrays, the empty integer array, and the array operations of the Kalman filter. *)
From Coq Require Import Reals Lra Lia.
From Verif Require Import Num Lib XR F64 Spec Spec2 Spec6 Spec9 Spec16 M_arrays M_kalman P_descriptive P_moment P_series P_phase P_arrays P_kalmannd.
Import ListNotations.
Local Open Scope R_scope.

Lemma skewness_values (N : Num) parse (items : list (pyval N)) xs : items <> [] -> mapM to_num items = Ok xs ->
  skewness_c parse (CArr (NDA 1 items)) = moment_skewness xs.
Proof.
  intros Hi E.
  assert (H : existsb is_str items = false).
  { clear Hi. revert xs E. induction items as [|v l IH]; intros xs E; [reflexivity|]. cbn [existsb]. destruct v; cbn in E |- *; try discriminate;
      destruct (mapM to_num l) as [ys|]; try discriminate; exact (IH ys eq_refl). }
  assert (L : length xs = length items) by (destruct (to_num_ok N items H) as (ys & Ey & Ly); rewrite E in Ey; injection Ey as <-; exact Ly).
  assert (S : spread_std (NDA 1 items) = spread_std (farr xs)).
  { unfold spread_std, farr. cbn [nd_ndim nd_items]. change (negb (1 =? 1)%Z) with false. cbv iota. rewrite H.
    assert (F : existsb is_str (map (@PyFloat N) xs) = false) by (clear; induction xs; [reflexivity|assumption]). rewrite F.
    assert (M : forall l : list N, mapM to_num (map (@PyFloat N) l) = Ok l) by (clear; intros l; induction l as [|x l IH]; [reflexivity|]; cbn [map mapM to_num bind]; rewrite IH; reflexivity).
    destruct items as [|v l]; [congruence|]. rewrite E. destruct xs as [|x xs]; [discriminate|]. cbn [map]. change (PyFloat x :: map (@PyFloat N) xs) with (map (@PyFloat N) (x :: xs)). rewrite M. reflexivity. }
  assert (MM : mean_of xs = Ok (MVal (ndiv (nsum xs) (nofZ (zlen items))))).
  { assert (M : forall l : list N, mapM to_num (map (@PyFloat N) l) = Ok l) by (clear; intros l; induction l as [|x l IH]; [reflexivity|]; cbn [map mapM to_num bind]; rewrite IH; reflexivity).
    assert (F : existsb is_str (map (@PyFloat N) xs) = false) by (clear; induction xs; [reflexivity|assumption]).
    unfold mean_of. rewrite (mean_seq N _ _ xs F); [|destruct xs; [destruct items; [congruence|discriminate]|discriminate]|apply M].
    replace (zlen (map (@PyFloat N) xs)) with (zlen items) by (unfold zlen; rewrite map_length, L; reflexivity). reflexivity. }
  unfold skewness_c, moment_skewness. cbn [mean_c std_c]. change (1 <=? 0)%Z with false. change (1 =? 1)%Z with true. cbv iota.
  rewrite (mean_seq N parse items xs H Hi E), MM, S, E. unfold zlen. rewrite L. reflexivity.
Qed.
Lemma int_mean_empty (N : Num) (parse : string -> option N) : @int_mean N [] = Ok MInvalid /\ desc_mean parse (ASeq (map PyInt [])) = Ok MInvalid.
Proof. split; reflexivity. Qed.

(** ** [np.dot] *)
Lemma inner_fins (l k : list R) : length l = length k -> @inner XR (fins l) (fins k) = Fin (rdot l k).
Proof.
  intros H. rewrite rdot_zip by exact H. revert k H. induction l as [|x l IH]; intros [|y k] H; try discriminate; [reflexivity|].
  injection H as H. specialize (IH k H). unfold zipwith in *. cbn [combine map fst snd Rsum].
  destruct l as [|x' l].
  - destruct k; [|discriminate]. cbn. f_equal. ring.
  - change (xadd (xmul (Fin x) (Fin y)) (@inner XR (fins (x' :: l)) (fins k)) = Fin (x * y + Rsum (map (fun p : R * R => fst p * snd p) (combine (x' :: l) k)))). rewrite IH. reflexivity.
Qed.
Lemma map_nth_len {A B} (l : list A) (f : A -> B) d : map (fun i => f (nth i l d)) (seq 0 (length l)) = map f l.
Proof. induction l as [|x l IH]; [reflexivity|]. cbn [length seq map nth]. f_equal. rewrite <- IH, <- seq_shift, map_map. reflexivity. Qed.
Lemma column_finm (m : list (list R)) j : @column XR (length m) (finm m) j = fins (rcolumn j m).
Proof.
  unfold column, rcolumn, fins, finm. rewrite map_map. rewrite <- (map_nth_len m (fun row => Fin (nth j row 0)) []).
  apply map_ext. intros i. unfold entry. replace (@nil (car XR)) with (fins []) by reflexivity. rewrite (map_nth fins). change (nofZ 0) with (Fin 0). apply fins_nth.
Qed.
Lemma fins_map {A} (g : A -> R) l : fins (map g l) = map (fun x => Fin (g x)) l.
Proof. unfold fins. apply map_map. Qed.
Lemma finm_map {A} (g : A -> list R) l : finm (map g l) = map (fun x => fins (g x)) l.
Proof. unfold finm. apply map_map. Qed.
Lemma dot_exact :
  (forall l k, @np_dot XR (A1 (fins l)) (A1 (fins k)) = if (length l =? length k)%nat then Ok (A0 (Fin (rdot l k) : XR)) else Raise ValueError) /\
  (forall l c m, @np_dot XR (A1 (fins l)) (A2 (length m) c (finm m)) =
     if (length l =? length m)%nat then Ok (A1 (fins (map (fun j => rdot l (rcolumn j m)) (seq 0 c)))) else Raise ValueError) /\
  (forall m c l, (forall row, In row m -> length row = c) -> @np_dot XR (A2 (length m) c (finm m)) (A1 (fins l)) =
     if (c =? length l)%nat then Ok (A1 (fins (map (fun row => rdot row l) m))) else Raise ValueError) /\
  (forall m c k d, (forall row, In row m -> length row = c) -> @np_dot XR (A2 (length m) c (finm m)) (A2 (length k) d (finm k)) =
     if (c =? length k)%nat then Ok (A2 (length m) d (finm (map (fun row => map (fun j => rdot row (rcolumn j k)) (seq 0 d)) m))) else Raise ValueError) /\
  (forall (x : R) a, @np_dot XR (A0 (Fin x : XR)) a = Ok (amap (nmul (Fin x : XR)) a)) /\
  (forall (x : R) a, @np_dot XR a (A0 (Fin x : XR)) = Ok (amap (fun y => nmul y (Fin x : XR)) a)).
Proof.
  assert (RC : forall m j, length (rcolumn j m) = length m) by (intros; unfold rcolumn; apply map_length).
  split; [|split; [|split; [|split; [|split]]]].
  - intros l k. cbn [np_dot]. rewrite !fins_length. destruct (Nat.eqb_spec (length l) (length k)); [|reflexivity]. rewrite inner_fins by assumption. reflexivity.
  - intros l c m. cbn [np_dot]. rewrite !fins_length. destruct (Nat.eqb_spec (length l) (length m)) as [H|]; [|reflexivity]. do 2 f_equal.
    rewrite fins_map. apply map_ext. intros j. rewrite column_finm. apply inner_fins. rewrite RC. exact H.
  - intros m c l HR. cbn [np_dot]. rewrite !fins_length. destruct (Nat.eqb_spec c (length l)) as [H|]; [|reflexivity]. do 2 f_equal.
    rewrite fins_map. unfold finm. rewrite !map_map. apply map_ext_in. intros row Hr. apply inner_fins. rewrite (HR row Hr). exact H.
  - intros m c k d HR. cbn [np_dot]. destruct (Nat.eqb_spec c (length k)) as [H|]; [|reflexivity]. do 2 f_equal.
    rewrite finm_map. refine (eq_trans (map_map fins _ m) _). apply map_ext_in. intros row Hr. rewrite fins_map. apply map_ext. intros j.
    rewrite column_finm. apply inner_fins. rewrite RC, (HR row Hr). exact H.
  - intros x a. reflexivity.
  - intros x a. destruct a as [y|l|r c m]; cbn [np_dot amap]; reflexivity.
Qed.

(** ** Element-wise operators *)
Lemma clip_mod n i : (i < n)%nat \/ n = 1%nat -> clip n i = (i mod n)%nat.
Proof.
  intros H. unfold clip. destruct (Nat.eqb_spec n 1) as [->|E]; [rewrite Nat.mod_1_r; reflexivity|]. rewrite Nat.mod_small by lia. reflexivity.
Qed.
Lemma bdim_fit m n : dims_fit m n -> bdim m n = Some (if (m =? 1)%nat then n else m).
Proof. unfold dims_fit, bdim. intros H. destruct (Nat.eqb_spec m n); destruct (Nat.eqb_spec m 1); destruct (Nat.eqb_spec n 1); subst; (reflexivity || lia). Qed.
Lemma bdim_none m n : ~ dims_fit m n -> bdim m n = None.
Proof. unfold dims_fit, bdim. intros H. destruct (Nat.eqb_spec m n); destruct (Nat.eqb_spec m 1); destruct (Nat.eqb_spec n 1); subst; (reflexivity || (exfalso; tauto)). Qed.
Lemma fit_dec m n : dims_fit m n \/ ~ dims_fit m n.
Proof. unfold dims_fit. destruct (Nat.eq_dec m n), (Nat.eq_dec m 1), (Nat.eq_dec n 1); tauto. Qed.
Lemma nth_map_seq {A} (f : nat -> A) n j d : (j < n)%nat -> nth j (map f (seq 0 n)) d = f j.
Proof. intros H. rewrite (nth_indep _ d (f O)) by (rewrite map_length, seq_length; exact H). rewrite map_nth, seq_nth by exact H. reflexivity. Qed.
Lemma broadcast_spec (N : Num) (f : N -> N -> N) (a b : arr N) :
  let '(ra, ca) := shape2 a in
  let '(rb, cb) := shape2 b in
  (~ (dims_fit ra rb /\ dims_fit ca cb) -> M_kalman.bcast f a b = Raise ValueError) /\
  (dims_fit ra rb -> dims_fit ca cb -> exists v, M_kalman.bcast f a b = Ok v /\ ndim v = Nat.max (ndim a) (ndim b) /\
     shape2 v = ((if (ra =? 1)%nat then rb else ra), (if (ca =? 1)%nat then cb else ca)) /\
     forall i j, (i < fst (shape2 v))%nat -> (j < snd (shape2 v))%nat ->
       at2 v i j = f (at2 a (i mod ra)%nat (j mod ca)%nat) (at2 b (i mod rb)%nat (j mod cb)%nat)).
Proof.
  destruct (shape2 a) as (ra, ca) eqn:Ea. destruct (shape2 b) as (rb, cb) eqn:Eb. split.
  - intros H. unfold M_kalman.bcast. rewrite Ea, Eb. destruct (fit_dec ra rb) as [F|F]; [|rewrite (bdim_none _ _ F); reflexivity].
    destruct (fit_dec ca cb) as [G|G]; [tauto|]. rewrite (bdim_fit _ _ F), (bdim_none _ _ G). reflexivity.
  - intros F G. unfold M_kalman.bcast. rewrite Ea, Eb, (bdim_fit _ _ F), (bdim_fit _ _ G).
    set (r := if (ra =? 1)%nat then rb else ra). set (c := if (ca =? 1)%nat then cb else ca).
    assert (CR : forall i, (i < r)%nat -> clip ra i = (i mod ra)%nat /\ clip rb i = (i mod rb)%nat).
    { intros i Hi. unfold r, dims_fit in *. split; apply clip_mod; destruct (Nat.eqb_spec ra 1); lia. }
    assert (CC : forall i, (i < c)%nat -> clip ca i = (i mod ca)%nat /\ clip cb i = (i mod cb)%nat).
    { intros i Hi. unfold c, dims_fit in *. split; apply clip_mod; destruct (Nat.eqb_spec ca 1); lia. }
    eexists. split; [reflexivity|].
    destruct (Nat.max (ndim a) (ndim b)) as [|[|k]] eqn:D.
    + destruct a, b; try discriminate D. injection Ea as <- <-. injection Eb as <- <-.
      split; [reflexivity|]. split; [reflexivity|]. intros i j _ _. reflexivity.
    + assert (R1 : ra = 1%nat /\ rb = 1%nat).
      { destruct a, b; try discriminate D; injection Ea as <- <-; injection Eb as <- <-; split; reflexivity. }
      destruct R1 as (-> & ->). split; [reflexivity|]. split; [cbn [shape2]; rewrite map_length, seq_length; reflexivity|].
      cbn [shape2 fst snd at2]. rewrite map_length, seq_length. intros i j Hi Hj. rewrite nth_map_seq by exact Hj.
      destruct (CC j Hj) as (-> & ->). assert (i = O) as -> by lia. reflexivity.
    + assert (k = O) as -> by (destruct a, b; cbn in D; congruence). split; [reflexivity|]. split; [reflexivity|].
      cbn [shape2 fst snd at2]. intros i j Hi Hj. unfold entry. rewrite nth_map_seq by exact Hi. rewrite nth_map_seq by exact Hj.
      destruct (CR i Hi) as (-> & ->). destruct (CC j Hj) as (-> & ->). reflexivity.
Qed.

(** ** [np.linalg.inv], [np.eye] and [len] *)
Lemma parts_spec (N : Num) inv :
  (forall x : N, np_inv inv (A0 x) = Raise LinAlgError /\ np_len (A0 x) = Raise TypeError) /\
  (forall l : list N, np_inv inv (A1 l) = Raise LinAlgError /\ np_len (A1 l) = Ok (length l)) /\
  (forall r c (m : list (list N)), np_len (A2 r c m) = Ok r /\ (r <> c -> np_inv inv (A2 r c m) = Raise LinAlgError)) /\
  (forall x : N, np_inv inv (A2 1 1 [[x]]) = if neqb x (nofZ 0) then Raise LinAlgError else Ok (A2 1 1 [[ndiv (nofZ 1) x]])) /\
  (forall n (m : list (list N)), n <> 1%nat -> np_inv inv (A2 n n m) = match inv m with Some k => Ok (A2 n n k) | None => Raise LinAlgError end) /\
  (forall n, shape2 (@np_eye N n) = (n, n) /\ ndim (@np_eye N n) = 2%nat /\
     (forall i, (i < n)%nat -> at2 (@np_eye N n) i i = nofZ 1) /\ (forall i j, (i < n)%nat -> (j < n)%nat -> i <> j -> at2 (@np_eye N n) i j = nofZ 0)).
Proof.
  split; [split; reflexivity|]. split; [split; reflexivity|]. split; [|split; [|split]].
  - intros r c m. split; [reflexivity|]. intros H. cbn [np_inv]. destruct (Nat.eqb_spec r c); [contradiction|reflexivity].
  - reflexivity.
  - intros n m H. cbn [np_inv]. rewrite Nat.eqb_refl. cbn [negb]. destruct (Nat.eqb_spec n 1); [contradiction|reflexivity].
  - intros n. split; [reflexivity|]. split; [reflexivity|].
    assert (E : forall i j, (i < n)%nat -> (j < n)%nat -> at2 (@np_eye N n) i j = if (i =? j)%nat then nofZ 1 else nofZ 0).
    { intros i j Hi Hj. unfold np_eye. cbn [at2]. unfold entry. rewrite nth_map_seq by exact Hi. rewrite nth_map_seq by exact Hj. reflexivity. }
    split; [intros i Hi; rewrite E, Nat.eqb_refl by exact Hi; reflexivity|]. intros i j Hi Hj D. rewrite E by assumption. destruct (Nat.eqb_spec i j); [contradiction|reflexivity].
Qed.
