(** Shapes in the Kalman filter. *)
From Coq Require Import Reals Lra Lia.
From Verif Require Import Num Lib Spec9 M_kalman.
Import ListNotations.

Section Rows.
Context {N : Num}.
Implicit Types (l : list N) (x a : N).
Lemma map_nth_seq (B : Type) (f : N -> B) l : map (fun j => f (nth j l (nofZ 0))) (seq 0 (length l)) = map f l.
Proof.
  induction l as [|x l IH]; [reflexivity|]. cbn [length seq map nth]. f_equal. rewrite <- IH, <- seq_shift, map_map. reflexivity.
Qed.
Lemma map_nth2 (f : N -> N) (g : N -> N -> N) l :
  map (fun j => g (nth j l (nofZ 0)) (nth j (map f l) (nofZ 0))) (seq 0 (length l)) = map (fun x => g x (f x)) l.
Proof.
  induction l as [|x l IH]; [reflexivity|]. cbn [length seq map nth]. f_equal. rewrite <- IH, <- seq_shift, map_map. reflexivity.
Qed.
Lemma clip_lt n j : (j < n)%nat -> clip n j = j.
Proof. unfold clip. destruct (Nat.eqb_spec n 1); lia. Qed.
Lemma bdim_1 n : bdim 1 n = Some n.
Proof. unfold bdim. destruct (Nat.eqb_spec 1 n); [subst|]; reflexivity. Qed.
Lemma bdim_same n : bdim n n = Some n.
Proof. unfold bdim. rewrite Nat.eqb_refl. reflexivity. Qed.
Lemma bcast_scalar (f : N -> N -> N) x l : bcast f (A0 x) (A2 1 (length l) [l]) = Ok (A2 1 (length l) [map (f x) l]).
Proof.
  unfold bcast. cbn [shape2 ndim Nat.max seq map]. rewrite (bdim_1 (length l)). change (bdim 1 1) with (Some 1%nat). cbv iota beta. change (seq 0 1) with [0%nat]. cbn [map]. do 3 f_equal.
  rewrite <- (map_nth_seq _ (f x)). apply map_ext_in. intros j Hj. apply in_seq in Hj. rewrite (clip_lt (length l) j) by lia. reflexivity.
Qed.
Lemma bcast_rows (f : N -> N) (g : N -> N -> N) l :
  bcast g (A2 1 (length l) [l]) (A2 1 (length l) [map f l]) = Ok (A2 1 (length l) [map (fun x => g x (f x)) l]).
Proof.
  unfold bcast. cbn [shape2 ndim Nat.max seq map]. rewrite (bdim_same (length l)). change (bdim 1 1) with (Some 1%nat). cbv iota beta. change (seq 0 1) with [0%nat]. cbn [map]. do 3 f_equal.
  rewrite <- (map_nth2 f g). apply map_ext_in. intros j Hj. apply in_seq in Hj. rewrite (clip_lt (length l) j) by lia. reflexivity.
Qed.
Lemma bcast_row_vec (f : N -> N) (g : N -> N -> N) l :
  bcast g (A2 1 (length l) [l]) (A1 (map f l)) = Ok (A2 1 (length l) [map (fun x => g x (f x)) l]).
Proof.
  unfold bcast. cbn [shape2 ndim Nat.max seq map]. rewrite map_length, (bdim_same (length l)). change (bdim 1 1) with (Some 1%nat). cbv iota beta. change (seq 0 1) with [0%nat]. cbn [map]. do 3 f_equal.
  rewrite <- (map_nth2 f g). apply map_ext_in. intros j Hj. apply in_seq in Hj. rewrite (clip_lt (length l) j) by lia. reflexivity.
Qed.
Lemma dot_row a l : np_dot (A2 1 1 [[a]]) (A2 1 (length l) [l]) = Ok (A2 1 (length l) [map (fun y => nmul a y) l]).
Proof. cbn [np_dot Nat.eqb map]. do 3 f_equal. apply (map_nth_seq _ (nmul a)). Qed.
Lemma dot_vec_row a l : np_dot (A1 [a]) (A2 1 (length l) [l]) = Ok (A1 (map (fun y => nmul a y) l)).
Proof. cbn [np_dot Nat.eqb length map]. do 2 f_equal. apply (map_nth_seq _ (nmul a)). Qed.

Definition upd (g m x : N) : N := nadd (nmul (nofZ 1) x) (nmul g (nsub m (nmul (nofZ 1) (nmul (nofZ 1) x)))).
Lemma state_part st l m : row st l -> exists ps hx inn, np_dot one11 st = Ok ps /\ np_dot one11 ps = Ok hx /\ bcast nsub (A0 m) hx = Ok inn /\
  forall G g, G = A1 [g] \/ G = A2 1 1 [[g]] -> exists co st', np_dot G inn = Ok co /\ bcast nadd ps co = Ok st' /\ np_len st' = Ok 1%nat /\ row st' (map (upd g m) l).
Proof.
  intros Hst. destruct st as [x|k|rr cc mm]; cbn [row] in Hst.
  - subst l. do 3 eexists. split; [reflexivity|]. split; [reflexivity|]. split; [reflexivity|]. intros G g [-> | ->]; do 2 eexists;
      (split; [reflexivity|]; split; [reflexivity|]; split; [reflexivity|]; split; [reflexivity|]; split; reflexivity).
  - destruct Hst as [-> Hl]. destruct l as [|x [|]]; try discriminate Hl. do 3 eexists. split; [reflexivity|]. split; [reflexivity|]. split; [reflexivity|].
    intros G g [-> | ->]; do 2 eexists; (split; [reflexivity|]; split; [reflexivity|]; split; [reflexivity|]; split; reflexivity).
  - destruct Hst as (-> & -> & <-). set (l1 := map (fun y => nmul (nofZ 1) y) l). assert (E1 : length l1 = length l) by apply map_length.
    set (l2 := map (fun y => nmul (nofZ 1) y) l1). assert (E2 : length l2 = length l1) by apply map_length.
    set (l3 := map (nsub m) l2). assert (E3 : length l3 = length l2) by apply map_length.
    exists (A2 1 (length l) [l1]), (A2 1 (length l) [l2]), (A2 1 (length l) [l3]). split; [apply dot_row|]. rewrite <- E1. split; [apply dot_row|].
    rewrite <- E2. split; [apply bcast_scalar|]. rewrite <- E3.
    assert (E : forall g, map (fun x => nadd x (nmul g (nsub m (nmul (nofZ 1) x)))) l1 = map (upd g m) l) by (intros g; unfold l1; rewrite map_map; reflexivity).
    intros G g [-> | ->].
    + exists (A1 (map (fun y => nmul g y) l3)), (A2 1 (length l1) [map (upd g m) l]). split; [apply dot_vec_row|]. rewrite E3, E2. split; [|split; [reflexivity|split; [reflexivity|split; [reflexivity|rewrite map_length; symmetry; exact E1]]]].
      unfold l3, l2. rewrite !map_map. rewrite bcast_row_vec, E. reflexivity.
    + exists (A2 1 (length l3) [map (fun y => nmul g y) l3]), (A2 1 (length l1) [map (upd g m) l]). split; [apply dot_row|]. rewrite E3, E2. split; [|split; [reflexivity|split; [reflexivity|split; [reflexivity|rewrite map_length; symmetry; exact E1]]]].
      unfold l3, l2. rewrite !map_map. rewrite bcast_rows, E. reflexivity.
Qed.

Variable inv : list (list N) -> option (list (list N)).
Variables Q R : arr N.
Variables q r : N.
Hypothesis HQ : single Q q.
Hypothesis HR : single R r.
Lemma step_nd st cv l c m : row st l -> single cv c -> ~ is_vector cv \/ is_matrix Q \/ is_matrix R ->
  (exists st' cv' g c', kalman_step_nd inv Q R st cv m = Ok (st', cv') /\ row st' (map (upd g m) l) /\ single cv' c' /\
     (~ is_vector cv' \/ is_matrix Q \/ is_matrix R) /\ (forall x, kalman_step q r x c m = Ok (upd g m x, c'))) \/
  (kalman_step_nd inv Q R st cv m = Raise LinAlgError /\ forall x, kalman_step q r x c m = Raise LinAlgError).
Proof.
  intros Hst Hcv Hv. unfold kalman_step.
  set (p := nadd (nmul (nmul (nofZ 1) c) (nofZ 1)) q). set (s := nadd (nmul (nmul (nofZ 1) p) (nofZ 1)) r).
  set (g := nmul (nmul p (nofZ 1)) (ndiv (nofZ 1) s)).
  destruct (state_part st l m Hst) as (ps & hx & inn & SP1 & SP2 & SP3 & SP4).
  destruct (SP4 (A1 [g]) g (or_introl eq_refl)) as (co1 & st1 & SA1 & SA2 & SA3 & SA4).
  destruct (SP4 (A2 1 1 [[g]]) g (or_intror eq_refl)) as (co2 & st2 & SB1 & SB2 & SB3 & SB4). clear SP4.
  destruct (neqb s (nofZ 0)) eqn:Es.
  - right. split; [|reflexivity]. unfold kalman_step_nd. cbv zeta. rewrite SP1. cbn [bind].
    destruct Hcv as [-> | [-> | ->]], HQ as [E | [E | E]], HR as [F | [F | F]]; rewrite E, F in *; cbn in Hv; try (exfalso; tauto); cbn;
      change (nadd (nmul (nmul (nofZ 1) c) (nofZ 1)) q) with p; change (nadd (nmul (nmul (nofZ 1) p) (nofZ 1)) r) with s; rewrite Es; reflexivity.
  - left. set (c' := nmul (nsub (nofZ 1) (nmul g (nofZ 1))) p).
    assert (HI : forall S, S = A2 1 1 [[s]] -> np_inv inv S = Ok (A2 1 1 [[ndiv (nofZ 1) s]])).
    { intros S ->. cbn [np_inv Nat.eqb negb]. change (entry [[s]] 0 0) with s. rewrite Es. reflexivity. }
    assert (D : (forall x, Ok (nadd (nmul (nofZ 1) x) (nmul g (nsub m (nmul (nofZ 1) (nmul (nofZ 1) x)))), c') = Ok (upd g m x, c'))) by reflexivity.
    destruct Hcv as [-> | [-> | ->]], HQ as [E | [E | E]], HR as [F | [F | F]]; rewrite E, F in *; cbn in Hv; try (exfalso; tauto).
    all: unfold kalman_step_nd; cbv zeta; rewrite SP1; cbn [bind].
    all: repeat (first [rewrite SP2 | rewrite SP3 | rewrite HI by reflexivity | rewrite SA1 | rewrite SA2 | rewrite SA3 | rewrite SB1 | rewrite SB2 | rewrite SB3 |
      match goal with |- context [bind ?e] => let v := eval cbn in e in change e with v end]; cbn [bind];
      try change (nadd (nmul (nmul (nofZ 1) c) (nofZ 1)) q) with p; try change (nadd (nmul (nmul (nofZ 1) p) (nofZ 1)) r) with s; try change (nmul (nmul p (nofZ 1)) (ndiv (nofZ 1) s)) with g).
    all: do 4 eexists; (split; [reflexivity|]); (split; [first [exact SA4 | exact SB4]|]); (split; [unfold single; tauto|]); (split; [cbn; tauto|]); exact D.
Qed.
Theorem kalman_nd_ok st cv l c data : row st l -> single cv c -> ~ is_vector cv \/ is_matrix Q \/ is_matrix R ->
  (exists outs, kalman_nd inv data st cv Q R = Ok outs /\ length outs = length data /\
     exists rows, Forall2 row outs rows /\ forall j x, nth_error l j = Some x ->
       exists ys, kalman_filter data x c q r = Ok ys /\ map (fun k => nth_error k j) rows = map Some ys) \/
  (kalman_nd inv data st cv Q R = Raise LinAlgError /\ forall x, kalman_filter data x c q r = Raise LinAlgError).
Proof.
  unfold kalman_filter. revert st cv l c. induction data as [|m data IH]; intros st cv l c Hst Hcv Hv.
  - left. exists []. split; [reflexivity|]. split; [reflexivity|]. exists []. split; [constructor|]. intros j x Hx. exists []. split; reflexivity.
  - cbn [kalman_nd kalman_loop]. destruct (step_nd st cv l c m Hst Hcv Hv) as [(st' & cv' & g & c' & E & Hst' & Hcv' & Hv' & Ex)|[E Ex]].
    + rewrite E. cbn [bind]. destruct (IH st' cv' _ c' Hst' Hcv' Hv') as [(outs & Eo & Lo & rows & Fr & Hr)|[Eo Hr]]; rewrite Eo; cbn [bind].
      * left. exists (st' :: outs). split; [reflexivity|]. split; [cbn; lia|]. exists (map (upd g m) l :: rows). split; [constructor; assumption|].
        intros j x Hx. rewrite Ex. cbn [bind]. destruct (Hr j (upd g m x)) as (ys & Ey & My); [rewrite nth_error_map, Hx; reflexivity|].
        rewrite Ey. cbn [bind]. exists (upd g m x :: ys). split; [reflexivity|]. cbn [map]. rewrite My, nth_error_map, Hx. reflexivity.
      * right. split; [reflexivity|]. intros x. rewrite Ex. cbn [bind]. rewrite Hr. reflexivity.
    + right. rewrite E. split; [reflexivity|]. intros x. rewrite Ex. reflexivity.
Qed.
End Rows.

(** ** The shapes that raise *)
Section Errors.
Context {N : Num}.
Variable inv : list (list N) -> option (list (list N)).
Lemma loop_raise data (st cv Q R : arr N) e : data <> [] -> (forall m, kalman_step_nd inv Q R st cv m = Raise e) -> kalman_nd inv data st cv Q R = Raise e.
Proof. destruct data as [|m data]; [congruence|]. intros _ H. cbn [kalman_nd]. rewrite H. reflexivity. Qed.
Lemma eqb_ne a b : a <> b -> (a =? b)%nat = false. Proof. apply Nat.eqb_neq. Qed.

Theorem kalman_nd_value data (st cv Q R : arr N) : data <> [] -> ~ one_row st \/ ~ one_entry cv \/ ~ one_entry Q ->
  kalman_nd inv data st cv Q R = Raise ValueError.
Proof.
  intros Hd H. apply loop_raise; [exact Hd|]. intros m. unfold kalman_step_nd. cbv zeta.
  assert (S1 : np_dot one11 st = Raise ValueError \/ exists ps, np_dot one11 st = Ok ps /\ one_row st).
  { destruct st as [x|k|a b mm]; [right; eexists; split; [reflexivity|exact I]| |]; cbn [one11 np_dot one_row].
    - destruct (Nat.eq_dec 1 (length k)) as [Ek|Ek]; [rewrite Ek, Nat.eqb_refl; right; eauto | rewrite (eqb_ne _ _ Ek); left; reflexivity].
    - destruct (Nat.eq_dec 1 a) as [Ek|Ek]; [rewrite <- Ek, Nat.eqb_refl; right; eauto | rewrite (eqb_ne _ _ Ek); left; reflexivity]. }
  destruct S1 as [->|(ps & -> & Hs)]; [reflexivity|]. cbn [bind].
  assert (S2 : (let* ac := np_dot one11 cv in np_dot ac one11) = Raise ValueError \/
    (exists c, (let* ac := np_dot one11 cv in np_dot ac one11) = Ok (A1 [c]) \/ (let* ac := np_dot one11 cv in np_dot ac one11) = Ok (A2 1 1 [[c]])) /\ one_entry cv).
  { destruct cv as [x|k|a b mm]; [right; split; [eexists; right; reflexivity|exact I]| |]; cbn [one11 np_dot one_entry].
    - destruct (Nat.eq_dec 1 (length k)) as [Ek|Ek]; [|rewrite (eqb_ne _ _ Ek); left; reflexivity]. rewrite <- Ek. destruct k as [|y [|]]; try discriminate Ek.
      right. split; [eexists; left; reflexivity|reflexivity].
    - destruct (Nat.eq_dec 1 a) as [Ek|Ek]; [|rewrite (eqb_ne _ _ Ek); left; reflexivity]. rewrite <- Ek. change (1 =? 1)%nat with true. cbv iota. cbn [bind]. unfold one11. cbn [np_dot].
      destruct (Nat.eq_dec b 1) as [Eb|Eb]; [|rewrite (eqb_ne _ _ Eb); left; reflexivity]. subst b. right. split; [eexists; right; reflexivity|split; reflexivity]. }
  destruct (np_dot one11 cv) as [ac|]; cbn [bind] in S2 |- *; [|destruct S2 as [E|[[c [E|E]] _]]; congruence].
  destruct S2 as [->|[[c Ec] Hc]]; [reflexivity|]. assert (HQ : ~ one_entry Q) by tauto.
  assert (S3 : forall B, B = A1 [c] \/ B = A2 1 1 [[c]] -> exists P, bcast nadd B Q = Ok P /\
    (np_dot P one11 = Raise ValueError \/ exists ph, np_dot P one11 = Ok ph /\ np_dot one11 P = Raise ValueError)).
  { assert (HB : forall B : arr N, B = A1 [c] \/ B = A2 1 1 [[c]] -> shape2 B = (1, 1)%nat /\ (ndim B = 1 \/ ndim B = 2)%nat) by (intros B [-> | ->]; split; cbn; auto).
    intros B H1. destruct (HB B H1) as [SB NB]. unfold bcast. rewrite SB. destruct Q as [x|k|a b mm]; cbn [shape2 ndim one_entry] in *; [tauto| |].
    - rewrite (bdim_1 (length k)). change (bdim 1 1) with (Some 1%nat). cbv iota beta zeta. destruct NB as [->| ->]; cbn [Nat.max]; eexists; (split; [reflexivity|]); left; unfold one11; cbn [np_dot].
      + rewrite map_length, seq_length, (eqb_ne _ _ HQ). reflexivity.
      + rewrite (eqb_ne _ _ HQ). reflexivity.
    - rewrite (bdim_1 a), (bdim_1 b). cbv iota beta zeta. replace (Nat.max (ndim B) 2) with 2%nat by (destruct NB as [->| ->]; reflexivity). eexists. split; [reflexivity|].
      unfold one11. cbn [np_dot]. destruct (Nat.eq_dec b 1) as [Eb|Eb]; [|left; rewrite (eqb_ne _ _ Eb); reflexivity]. right. rewrite Eb. change (1 =? 1)%nat with true. cbv iota. eexists. split; [reflexivity|].
      rewrite (eqb_ne 1 a) by (intros <-; tauto). reflexivity. }
  destruct Ec as [-> | ->]; cbn [bind].
  - destruct (S3 _ (or_introl eq_refl)) as (P & -> & [E|(ph & E & F)]); cbn [bind]; rewrite E; cbn [bind]; [reflexivity|]. rewrite F. reflexivity.
  - destruct (S3 _ (or_intror eq_refl)) as (P & -> & [E|(ph & E & F)]); cbn [bind]; rewrite E; cbn [bind]; [reflexivity|]. rewrite F. reflexivity.
Qed.
Theorem kalman_nd_linalg data (st R : arr N) c Q : data <> [] -> one_row st -> one_entry Q -> one_entry R -> ~ is_matrix Q -> ~ is_matrix R ->
  kalman_nd inv data st (A1 [c]) Q R = Raise LinAlgError.
Proof.
  intros Hd Hs HQ HR MQ MR. apply loop_raise; [exact Hd|]. intros m. unfold kalman_step_nd. cbv zeta.
  assert (S1 : exists ps, np_dot one11 st = Ok ps).
  { destruct st as [x|k|a b mm]; [eexists; reflexivity| |]; cbn [one11 np_dot one_row] in *; rewrite Hs; eexists; reflexivity. }
  destruct S1 as [ps ->]. cbn [bind].
  destruct Q as [x|[|x [|]]|]; cbn in HQ, MQ; try discriminate HQ; try tauto; destruct R as [y|[|y [|]]|]; cbn in HR, MR; try discriminate HR; try tauto; reflexivity.
Qed.
Theorem kalman_nd_noise data (st cv Q R : arr N) : data <> [] -> ~ one_entry R ->
  kalman_nd inv data st cv Q R = Raise ValueError \/ kalman_nd inv data st cv Q R = Raise LinAlgError.
Proof.
  intros Hd HR. assert (DS : one_row st \/ ~ one_row st) by (destruct st as [x|k|a b mm]; cbn; [tauto|destruct (Nat.eq_dec (length k) 1)|destruct (Nat.eq_dec a 1)]; tauto).
  assert (DE : forall a : arr N, one_entry a \/ ~ one_entry a) by (intros [x|k|a b mm]; cbn; [tauto|destruct (Nat.eq_dec (length k) 1); tauto|destruct (Nat.eq_dec a 1), (Nat.eq_dec b 1); tauto]).
  destruct DS as [Hs|Hs]; [|left; apply kalman_nd_value; tauto]. destruct (DE cv) as [Hc|Hc]; [|left; apply kalman_nd_value; tauto]. destruct (DE Q) as [HQ|HQ]; [|left; apply kalman_nd_value; tauto].
  destruct data as [|m data]; [congruence|]. cbn [kalman_nd].
  enough (G : kalman_step_nd inv Q R st cv m = Raise ValueError \/ kalman_step_nd inv Q R st cv m = Raise LinAlgError) by (destruct G as [-> | ->]; [left|right]; reflexivity).
  unfold kalman_step_nd. cbv zeta.
  assert (S1 : exists ps, np_dot one11 st = Ok ps).
  { destruct st as [x|k|a b mm]; [eexists; reflexivity| |]; cbn [one11 np_dot one_row] in *; rewrite Hs; eexists; reflexivity. }
  destruct S1 as [ps ->]. cbn [bind].
  assert (S2 : exists ac aca P, np_dot one11 cv = Ok ac /\ np_dot ac one11 = Ok aca /\ bcast nadd aca Q = Ok P /\ exists p, P = A1 [p] \/ P = A2 1 1 [[p]]).
  { destruct cv as [x|[|x [|]]|a b mm]; cbn in Hc; try discriminate Hc; [| |destruct Hc as [-> ->]]; (destruct Q as [y|[|y [|]]|a' b' mm']; cbn in HQ; try discriminate HQ; [| |destruct HQ as [-> ->]]);
      do 3 eexists; (split; [reflexivity|]); (split; [reflexivity|]); (split; [reflexivity|]); eexists; first [left; reflexivity | right; reflexivity]. }
  destruct S2 as (ac & aca & P & -> & E2 & E3 & p & HP). cbn [bind]. rewrite E2. cbn [bind]. rewrite E3. cbn [bind]. clear E2 E3 ac aca.
  assert (S3 : forall B b (ph : arr N), (B = A1 [b] \/ B = A2 1 1 [[b]]) -> (exists g, ph = A1 [g] \/ ph = A2 1 1 [[g]]) -> exists S, bcast nadd B R = Ok S /\
    (np_inv inv S = Raise LinAlgError \/ exists si, np_inv inv S = Ok si /\ np_dot ph si = Raise ValueError)).
  { intros B b ph HB [g Hg]. assert (SB : shape2 B = (1, 1)%nat /\ (ndim B = 1 \/ ndim B = 2)%nat) by (destruct HB as [-> | ->]; split; cbn; auto).
    destruct SB as [SB NB]. unfold bcast. rewrite SB. destruct R as [x|k|a b' mm]; cbn [shape2 ndim one_entry] in *; [tauto| |].
    - rewrite (bdim_1 (length k)). change (bdim 1 1) with (Some 1%nat). cbv iota beta zeta. destruct NB as [->| ->]; cbn [Nat.max]; eexists; (split; [reflexivity|]); left; [reflexivity|].
      unfold np_inv. rewrite (eqb_ne 1 (length k)) by congruence. reflexivity.
    - rewrite (bdim_1 a), (bdim_1 b'). cbv iota beta zeta. replace (Nat.max (ndim B) 2) with 2%nat by (destruct NB as [->| ->]; reflexivity). eexists. split; [reflexivity|].
      unfold np_inv. destruct (Nat.eq_dec a b') as [<-|Eab]; [|left; rewrite (eqb_ne _ _ Eab); reflexivity]. rewrite Nat.eqb_refl. cbn [negb].
      assert (Ha : a <> 1%nat) by tauto. rewrite (eqb_ne _ _ Ha). match goal with |- context [inv ?M] => destruct (inv M) as [si|] end; [right|left; reflexivity].
      eexists. split; [reflexivity|]. destruct Hg as [-> | ->]; cbn [np_dot length]; rewrite (eqb_ne 1 a) by congruence; reflexivity. }
  assert (S4 : exists ph hp hph, np_dot P one11 = Ok ph /\ np_dot one11 P = Ok hp /\ np_dot hp one11 = Ok hph /\ (exists g, ph = A1 [g] \/ ph = A2 1 1 [[g]]) /\ exists b, hph = A1 [b] \/ hph = A2 1 1 [[b]]).
  { destruct HP as [-> | ->]; do 3 eexists; (split; [reflexivity|]); (split; [reflexivity|]); (split; [reflexivity|]); split; eexists; first [left; reflexivity | right; reflexivity]. }
  destruct S4 as (ph & hp & hph & -> & E2 & E3 & Hg & b & Hb). cbn [bind]. rewrite E2. cbn [bind]. rewrite E3. cbn [bind].
  destruct (S3 hph b ph Hb Hg) as (S & -> & [E|(si & E & F)]); cbn [bind]; rewrite E; cbn [bind]; [right; reflexivity|]. rewrite F. left. reflexivity.
Qed.
End Errors.

Theorem kalman_shapes (N : Num) inv data (st cv Q R : arr N) l c q r :
  row st l -> single cv c -> single Q q -> single R r -> ~ is_vector cv \/ is_matrix Q \/ is_matrix R ->
  (exists outs, kalman_nd inv data st cv Q R = Ok outs /\ length outs = length data /\
     exists rows, Forall2 row outs rows /\ forall j x, nth_error l j = Some x ->
       exists ys, kalman_filter data x c q r = Ok ys /\ map (fun k => nth_error k j) rows = map Some ys) \/
  (kalman_nd inv data st cv Q R = Raise LinAlgError /\ forall x, kalman_filter data x c q r = Raise LinAlgError).
Proof. intros Hs Hc HQ HR Hv. exact (kalman_nd_ok inv Q R q r HQ HR st cv l c data Hs Hc Hv). Qed.
Theorem kalman_value (N : Num) inv data (st cv Q R : arr N) : data <> [] -> ~ one_row st \/ ~ one_entry cv \/ ~ one_entry Q ->
  kalman_nd inv data st cv Q R = Raise ValueError.
Proof. exact (kalman_nd_value inv data st cv Q R). Qed.
Theorem kalman_linalg (N : Num) inv data (st Q R : arr N) c : data <> [] -> one_row st -> one_entry Q -> one_entry R -> ~ is_matrix Q -> ~ is_matrix R ->
  kalman_nd inv data st (A1 [c]) Q R = Raise LinAlgError.
Proof. exact (kalman_nd_linalg inv data st R c Q). Qed.
Theorem kalman_noise (N : Num) inv data (st cv Q R : arr N) : data <> [] -> ~ one_entry R ->
  kalman_nd inv data st cv Q R = Raise ValueError \/ kalman_nd inv data st cv Q R = Raise LinAlgError.
Proof. exact (kalman_nd_noise inv data st cv Q R). Qed.
