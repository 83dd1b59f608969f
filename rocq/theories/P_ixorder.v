(** Does the order of the spike indices matter? (C161) *)
From Coq Require Import Reals Lra Psatz.
From Flocq Require Import Core.Raux.
From Verif Require Import Num NpBase Lib XR LibR Spec Spec33 M_descriptive M_series M_replacement P_series P_replacement P_interp P_order P_moment P_pipeline P_cubic P_sph.
Local Open Scope Z_scope.

Lemma fancy_set_set {A} (v : list A) idx idx' x : in_bounds (zlen v) idx -> same_set idx idx' -> fancy_set v idx x = fancy_set v idx' x.
Proof.
  intros HB HS. assert (HB' : in_bounds (zlen v) idx') by (intros i Hi; apply HB, HS, Hi).
  destruct (fancy_set_ok idx x v HB) as (r & E & L & H). destruct (fancy_set_ok idx' x v HB') as (s & F & M & K). rewrite E, F. f_equal.
  apply (list_eq_nth _ _ x); [lia|]. intros k Hk. rewrite L in Hk. destruct (H k x Hk) as [H1 H2]. destruct (K k x Hk) as [K1 K2].
  destruct (in_zmem_dec (Z.of_nat k) idx) as [I1|I1]; [|destruct (in_zmem_dec (Z.of_nat k - zlen v) idx) as [I2|I2]].
  - rewrite H1, K1; [reflexivity | |]; exists (Z.of_nat k); (split; [|left; reflexivity]); [apply HS|]; exact I1.
  - rewrite H1, K1; [reflexivity | |]; exists (Z.of_nat k - zlen v); (split; [|right; reflexivity]); [apply HS|]; exact I2.
  - rewrite H2, K2; [reflexivity | |]; intros (i & Hi & [->| ->]); (contradiction || (apply HS in Hi; contradiction)).
Qed.
Lemma set_many_at {A} (g : Z -> A) d idx : forall v, (forall i, In i idx -> 0 <= i < zlen v) ->
  exists r, fancy_set_many v idx (map g idx) = Ok r /\ length r = length v /\
    forall k, (k < length v)%nat -> (In (Z.of_nat k) idx -> nth k r d = g (Z.of_nat k)) /\ (~ In (Z.of_nat k) idx -> nth k r d = nth k v d).
Proof.
  unfold fancy_set_many. induction idx as [|i idx IH]; intros v HB.
  - exists v. split; [reflexivity|]. split; [reflexivity|]. intros k _. split; [intros []|reflexivity].
  - cbn [map combine foldM fst snd]. pose proof (HB i (or_introl eq_refl)) as Hi. rewrite setz_ok by exact Hi. cbn [bind].
    destruct (IH (upd v (Z.to_nat i) (g i))) as (r & E & L & H).
    { intros j Hj. unfold zlen. rewrite upd_length. apply HB. right. exact Hj. }
    rewrite upd_length in L, H. exists r. split; [exact E|]. split; [exact L|]. intros k Hk. destruct (H k Hk) as [H1 H2].
    destruct (in_zmem_dec (Z.of_nat k) idx) as [Hin|Hin].
    + split; [intros _; apply H1; exact Hin|]. intros Hn. exfalso. apply Hn. right. exact Hin.
    + rewrite (H2 Hin). split.
      * intros [->|Hc]; [|contradiction]. rewrite Nat2Z.id. apply nth_upd_same. exact Hk.
      * intros Hn. apply nth_upd_other. intros Hc. apply Hn. left. lia.
Qed.
Lemma take_from_set (N : Num) dt (v a : list N) idx idx' : (forall i, In i idx -> 0 <= i < zlen v) -> same_set idx idx' ->
  take_from dt v a idx = take_from dt v a idx'.
Proof.
  intros HB HS. assert (HB' : forall i, In i idx' -> 0 <= i < zlen v) by (intros i Hi; apply HB, HS, Hi). unfold take_from.
  destruct (in_bounds_dec (zlen a) idx) as [Hb|(i & Hi & Hb)].
  - assert (Hb' : in_bounds (zlen a) idx') by (intros i Hi; apply Hb, HS, Hi).
    rewrite (fancy_get_ok a idx nnan), (fancy_get_ok a idx' nnan) by assumption. cbn [bind]. rewrite !map_map.
    set (g := fun i => _). destruct (set_many_at g nnan idx v HB) as (r & E & L & H). destruct (set_many_at g nnan idx' v HB') as (s & F & M & K).
    rewrite E, F. f_equal. apply (list_eq_nth _ _ nnan); [lia|]. intros k Hk. rewrite L in Hk. destruct (H k Hk) as [H1 H2]. destruct (K k Hk) as [K1 K2].
    destruct (in_zmem_dec (Z.of_nat k) idx) as [I1|I1].
    + rewrite H1, K1; [reflexivity | apply HS; exact I1 | exact I1].
    + rewrite H2, K2; [reflexivity | intros Hc; apply HS in Hc; contradiction | exact I1].
  - rewrite !fancy_get_bad; [reflexivity | |]; intros Hc; specialize (Hc i); [apply HS in Hi|]; specialize (Hc Hi); lia.
Qed.

Lemma mean_set (N : Num) dt (v : list N) idx idx' : in_bounds (zlen v) idx -> same_set idx idx' ->
  mean_value dt v idx = mean_value dt v idx' /\ median_value dt v idx = median_value dt v idx'.
Proof.
  intros HB HS. unfold mean_value, median_value. split.
  - destruct (mean_of v); cbn [bind]; [|reflexivity]. destruct (storable dt _); cbn [bind]; [|reflexivity]. apply fancy_set_set; assumption.
  - destruct (desc_median _); cbn [bind]; [|reflexivity]. destruct (storable dt _); cbn [bind]; [|reflexivity]. apply fancy_set_set; assumption.
Qed.
Lemma averages_set (N : Num) dt (v : list N) idx idx' : (forall i, In i idx -> 0 <= i < zlen v) -> same_set idx idx' ->
  (forall w, repl_sma dt v idx w = repl_sma dt v idx' w) /\ (forall a, repl_ema dt v idx a = repl_ema dt v idx' a) /\
  (forall p, repl_wma dt v idx p = repl_wma dt v idx' p) /\ (forall eigh fs f, repl_ssa eigh dt v idx fs f = repl_ssa eigh dt v idx' fs f).
Proof.
  intros HB HS. repeat split.
  - intros w. unfold repl_sma. destruct (moving_average 1 v w); cbn [bind]; [|reflexivity]. apply take_from_set; assumption.
  - intros a. unfold repl_ema. destruct (exponential_moving_average dt v a); cbn [bind]; [|reflexivity]. apply take_from_set; assumption.
  - intros p. unfold repl_wma. destruct (weighted_moving_average v p) as [[b m]|]; cbn [bind]; [|reflexivity]. destruct b; cbn [negb]; [|reflexivity]. apply take_from_set; assumption.
  - intros eigh fs f. unfold repl_ssa. destruct (ssa eigh v fs f); cbn [bind]; [|reflexivity]. apply take_from_set; assumption.
Qed.

(** ** Where the order matters *)
Lemma lvd_order (N : Num) (a b c : N) : last_valid_data [a; b; c] [1; 2] = Ok [a; a; a] /\ last_valid_data [a; b; c] [2; 1] = Ok [a; a; b].
Proof. split; reflexivity. Qed.
Lemma around_NaN dec : @around XR NaN dec = NaN.
Proof. unfold around. destruct (0 <=? dec); reflexivity. Qed.
Lemma li_order (a b c d : R) dec : @linear_interpolation XR DFloat (fins [a; b; c; d]) [2; 1] dec = Ok [Fin (round_dec dec a); NaN; NaN; Fin (round_dec dec d)].
Proof.
  unfold linear_interpolation. change (@fancy_set XR (fins [a; b; c; d]) [2; 1] (@nnan XR)) with (@Ok (list xr) [Fin a; NaN; NaN; Fin d]).
  cbn [bind]. change (mask_get [2; 1] (true :: map (fun d0 => 1 <? d0) (zdiff [2; 1]))) with (Ok [2]).
  change (mask_get [2; 1] (map (fun d0 => 1 <? d0) (zdiff [2; 1]) ++ [true])) with (Ok [1]). cbn [bind combine foldM fst snd].
  assert (E : @li_run XR (fins [a; b; c; d]) [Fin a; NaN; NaN; Fin d] 2 1 = Ok [Fin a; NaN; NaN; Fin d]).
  { unfold li_run. change (2 >? 0) with true. change (1 <? zlen (fins [a; b; c; d]) - 1) with true. cbv iota.
    change (@getz XR [Fin a; NaN; NaN; Fin d] (2 - 1)) with (@Ok xr NaN). change (@getz XR [Fin a; NaN; NaN; Fin d] (1 + 1)) with (@Ok xr NaN).
    cbn [bind]. change (@nisnan XR NaN) with true. cbn [negb andb]. change (valid_only (fins [a; b; c; d])) with (fins [a; b; c; d]).
    rewrite mean_of_ne by discriminate. cbn [bind storable]. reflexivity. }
  change (car XR) with xr in *. rewrite E. cbn [bind map]. rewrite !around_fin. rewrite around_NaN. reflexivity.
Qed.
Lemma cubic_order spline (k : Z) :
  @cubic_12points_polynomial XR spline DFloat (fins [0; IZR (4 * k); 7; 0]%R) [1; 2] 4 = Ok (fins [0; 0; IZR (2 * k); 0]%R) /\
  @cubic_12points_polynomial XR spline DFloat (fins [0; IZR (4 * k); 7; 0]%R) [2; 1] 4 = Ok (fins [0; IZR k; IZR (2 * k); 0]%R).
Proof.
  assert (A : forall z, @around XR (Fin (IZR z)) 4 = Fin (IZR z)).
  { intros z. rewrite around_fin, round4_int. reflexivity. }
  assert (D : forall x y z, (x + y = 2 * IZR z)%R -> @around XR (@ndiv XR (@nadd XR (Fin x) (Fin y)) (@nofZ XR 2)) 4 = Fin (IZR z)).
  { intros x y z H. rewrite xadd_fin, xofZ_fin, xdiv_fin by lra. replace ((x + y) / 2)%R with (IZR z) by lra. apply A. }
  assert (G : forall a b c, @map xr xr (fun x => @around XR x 4) [Fin (IZR 0); Fin (IZR a); Fin (IZR b); Fin (IZR c)] = [Fin (IZR 0); Fin (IZR a); Fin (IZR b); Fin (IZR c)]).
  { intros a b c. cbn [map]. rewrite !A. reflexivity. }
  set (v := fins [0; IZR (4 * k); 7; 0]%R).
  assert (S1 : @cubic_step XR spline v [Fin 0; NaN; NaN; Fin 0] 1 = Ok [Fin 0; Fin 0; NaN; Fin 0]).
  { transitivity (@Ok (list xr) [Fin 0; @around XR (@ndiv XR (@nadd XR (Fin 0) (Fin 0)) (@nofZ XR 2)) 4; NaN; Fin 0]); [reflexivity|].
    rewrite (D _ _ 0) by lra. reflexivity. }
  assert (S2 : @cubic_step XR spline v [Fin 0; Fin 0; NaN; Fin 0] 2 = Ok [Fin 0; Fin 0; Fin (IZR (2 * k)); Fin 0]).
  { transitivity (@Ok (list xr) [Fin 0; Fin 0; @around XR (@ndiv XR (@nadd XR (Fin (IZR (4 * k))) (Fin 0)) (@nofZ XR 2)) 4; Fin 0]); [reflexivity|].
    rewrite (D _ _ (2 * k)) by (rewrite !mult_IZR; lra). reflexivity. }
  assert (S3 : @cubic_step XR spline v [Fin 0; NaN; NaN; Fin 0] 2 = Ok [Fin 0; NaN; Fin (IZR (2 * k)); Fin 0]).
  { transitivity (@Ok (list xr) [Fin 0; NaN; @around XR (@ndiv XR (@nadd XR (Fin (IZR (4 * k))) (Fin 0)) (@nofZ XR 2)) 4; Fin 0]); [reflexivity|].
    rewrite (D _ _ (2 * k)) by (rewrite !mult_IZR; lra). reflexivity. }
  assert (S4 : @cubic_step XR spline v [Fin 0; NaN; Fin (IZR (2 * k)); Fin 0] 1 = Ok [Fin 0; Fin (IZR k); Fin (IZR (2 * k)); Fin 0]).
  { transitivity (@Ok (list xr) [Fin 0; @around XR (@ndiv XR (@nadd XR (Fin 0) (Fin (IZR (2 * k)))) (@nofZ XR 2)) 4; Fin (IZR (2 * k)); Fin 0]); [reflexivity|].
    rewrite (D _ _ k) by (rewrite !mult_IZR; lra). reflexivity. }
  unfold cubic_12points_polynomial. change (@fancy_set XR v [1; 2] (@nnan XR)) with (@Ok (list xr) [Fin 0; NaN; NaN; Fin 0]).
  change (@fancy_set XR v [2; 1] (@nnan XR)) with (@Ok (list xr) [Fin 0; NaN; NaN; Fin 0]).
  cbn [bind foldM]. change (car XR) with xr in *. rewrite S1, S3. cbn [bind]. rewrite S2, S4. cbn [bind]. split; f_equal; apply G.
Qed.
