(** The density with array-valued parameters in exact arithmetic, of integer arrays; extrema and tests of arrays of any dimension. *)
From Coq Require Import Reals Lra Lia.
From Flocq Require Import Core IEEE754.BinarySingleNaN.
From Verif Require Import Num Lib XR F64 Spec Spec2 Spec9 Spec15 M_pdf P_gauss P_normal P_normtest P_float P_intmean P_arrays P_order P_pdf.
Import ListNotations.
Local Open Scope R_scope.

Local Existing Instance F64.prec_gt_0_53.
Local Existing Instance F64.prec_lt_emax_53.

(** ** Errors *)
Lemma pdf_nd_errors (N : Num) (a sd mu : nd N) :
  (nd_data a = [] -> pdf_nd a sd mu = Raise ValueError) /\
  ((exists x, In x (nd_data a) /\ nisnan x = true) -> pdf_nd a sd mu = Raise TypeError).
Proof.
  split; [intros E; unfold pdf_nd; rewrite E; reflexivity|]. intros [x [Hx Hn]]. unfold pdf_nd.
  assert (E : existsb nisnan (nd_data a) = true) by (apply existsb_exists; exists x; auto). rewrite E. destruct (nd_data a); [contradiction Hx | reflexivity].
Qed.
(** ** Exact arithmetic *)
Definition xval (x : xr) : R := match x with Fin r => r | _ => 0 end.
Lemma nth_fins l j : nth j (fins l) (Fin 0 : xr) = Fin (nth j l 0).
Proof. unfold fins. apply (map_nth (fun x => Fin x : xr) l 0 j). Qed.
Lemma entry_fins s l ix : entry s (fins l) ix (@nofZ XR 0) = Fin (entry s l ix 0).
Proof. unfold entry. apply nth_fins. Qed.
Lemma pdf_broadcast_exact (sa ss sm : list nat) (a sd mu : list R) :
  filled sa a -> filled ss sd -> filled sm mu -> a <> [] -> Forall (fun s => 0 < s) sd ->
  fitting sa sm -> fitting sa ss -> fitting sm ss ->
  exists o r, @pdf_nd XR (ND sa (fins a)) (ND ss (fins sd)) (ND sm (fins mu)) = Ok (ND o (fins r)) /\ common [sa; sm; ss] o /\ filled o r /\
  forall ix, index_of o ix -> entry o r ix 0 = gauss (entry sm mu ix 0) (entry ss sd ix 0) (entry sa a ix 0).
Proof.
  intros Fa Fs Fm Hne Hpos F1 F2 F3. assert (FF : forall s l, filled s l -> filled s (fins l)) by (intros s l H; unfold filled; rewrite fins_length; exact H).
  destruct (pdf_broadcast XR (ND sa (fins a)) (ND ss (fins sd)) (ND sm (fins mu))) as [H _]; try (apply FF; assumption); try assumption.
  - cbn. destruct a; [contradiction | discriminate].
  - apply no_nan, fins_no_nan.
  - cbn [nd_shape nd_data] in H. destruct (H F1 F2 F3) as (o & r & E & C & Fr & Hx).
    assert (Hs : forall ix, index_of o ix -> 0 < entry ss sd ix 0).
    { intros ix Hi. rewrite Forall_forall in Hpos. apply Hpos. apply (common_in [sa; sm; ss] o); try assumption. right; right; left; reflexivity. }
    assert (G : forall ix, index_of o ix -> entry o r ix (@nofZ XR 0) = (Fin (gauss (entry sm mu ix 0) (entry ss sd ix 0) (entry sa a ix 0)) : XR)).
    { intros ix Hi. specialize (Hx ix Hi). rewrite !entry_fins in Hx. change [Fin (entry sa a ix 0)] with (fins [entry sa a ix 0]) in Hx.
      rewrite (proj1 (pdf_exact [1%Z] [entry sa a ix 0] 0 (entry sm mu ix 0) (entry ss sd ix 0) ltac:(discriminate) (Hs ix Hi))) in Hx.
      injection Hx as Hx. symmetry. exact Hx. }
    exists o, (map xval r). assert (Er : fins (map xval r) = r).
    { unfold fins. rewrite map_map. rewrite <- (map_id r) at 2. apply map_ext_in. intros v Hv. destruct (In_nth r v (@nofZ XR 0) Hv) as (j & Hj & <-).
      unfold filled in Fr. rewrite Fr in Hj. destruct (unrank o j Hj) as (ix & Hi & Ej). specialize (G ix Hi). unfold entry at 1 in G. rewrite Ej in G. rewrite G. reflexivity. }
    split; [rewrite Er; exact E|]. split; [exact C|]. split; [unfold filled; rewrite map_length; exact Fr|].
    intros ix Hi. specialize (G ix Hi). rewrite <- Er, entry_fins in G. injection G as G. exact G.
Qed.
(** ** Integer arrays *)
Definition bell (w s : R) : R := exp (- w / (2 * (s * s))) / (s * sqrt (2 * PI)).
Lemma wrap_spec z : (- 2 ^ 63 <= wrap64 z < 2 ^ 63)%Z /\ exists k, wrap64 z = (z - k * 2 ^ 64)%Z.
Proof.
  unfold wrap64. pose proof (Z.mod_pos_bound (z + 2 ^ 63) (2 ^ 64) ltac:(lia)) as B. pose proof (Z.div_mod (z + 2 ^ 63) (2 ^ 64) ltac:(lia)) as D.
  split; [lia|]. exists ((z + 2 ^ 63) / 2 ^ 64)%Z. lia.
Qed.
Lemma wrap_unique z w k : (- 2 ^ 63 <= w < 2 ^ 63)%Z -> w = (z - k * 2 ^ 64)%Z -> wrap64 z = w.
Proof. intros H E. destruct (wrap_spec z) as [B [k' E']]. lia. Qed.
Lemma wrap_sq d : wrap64 (wrap64 d * wrap64 d) = wrap64 (d * d).
Proof.
  destruct (wrap_spec d) as [_ [k Ek]]. destruct (wrap_spec (d * d)) as [B [q Eq]]. rewrite Ek.
  apply (wrap_unique _ _ (q + (k * k * 2 ^ 64 - 2 * d * k)))%Z; [exact B|]. rewrite Eq. ring.
Qed.
Lemma xofZ' z : @nofZ XR z = (Fin (IZR z) : XR). Proof. reflexivity. Qed.
Lemma bell_val w s : (0 < s)%Z ->
  @nexp XR (@nsub XR (Fin (- (1 / 2) * ln (2 * PI) - ln (IZR s))) (@ndiv XR (@nofZ XR w) (@nofZ XR (2 * (s * s))))) = Fin (bell (IZR w) (IZR s)).
Proof.
  intros Hs. assert (Hr : 0 < IZR s) by (apply IZR_lt; exact Hs). rewrite !xofZ', !mult_IZR. pose proof (Rmult_lt_0_compat _ _ Hr Hr) as Q.
  rewrite xdiv_fin by lra. rewrite xsub_fin. cbn [nexp XR xexp]. f_equal. unfold bell.
  pose proof two_PI_pos as P0. assert (P : 0 < sqrt (2 * PI)) by (apply sqrt_lt_R0; exact P0).
  replace (- (1 / 2) * ln (2 * PI) - ln (IZR s) - IZR w / (2 * (IZR s * IZR s))) with (- IZR w / (2 * (IZR s * IZR s)) + - ln (IZR s * sqrt (2 * PI))).
  2:{ rewrite ln_mult, ln_sqrt by assumption. field. lra. }
  rewrite exp_plus, exp_Ropp, exp_ln by (apply Rmult_lt_0_compat; assumption). reflexivity.
Qed.
Lemma pdf_int_val (l : list Z) s m : l <> [] -> (0 < s)%Z ->
  @pdf_int XR l s m = Ok (fins (map (fun x => bell (IZR (wrap64 ((x - m) * (x - m)))) (IZR s)) l)).
Proof.
  intros Hl Hs. destruct l as [|x0 l0]; [contradiction|]. unfold pdf_int. cbv zeta. f_equal. unfold fins. rewrite map_map. apply map_ext. intros x. cbv beta.
  rewrite wrap_sq. rewrite <- (bell_val _ s Hs). f_equal. f_equal. apply (log_norm_fin (IZR s)). apply IZR_lt. exact Hs.
Qed.
Lemma bell_gauss x m s : gauss m s x = bell ((x - m) * (x - m)) s. Proof. reflexivity. Qed.
Lemma bell_lt v w s : 0 < s -> (bell v s < bell w s <-> w < v).
Proof.
  intros Hs. unfold bell. pose proof two_PI_pos as P0. assert (P : 0 < s * sqrt (2 * PI)) by (apply Rmult_lt_0_compat; [exact Hs | apply sqrt_lt_R0; exact P0]).
  pose proof (Rmult_lt_0_compat _ _ Hs Hs) as Q. assert (Pi : 0 < / (s * sqrt (2 * PI))) by (apply Rinv_0_lt_compat; exact P). assert (Qi : 0 < / (2 * (s * s))) by (apply Rinv_0_lt_compat; lra).
  assert (MON : forall a b, a < b -> exp (- b / (2 * (s * s))) / (s * sqrt (2 * PI)) < exp (- a / (2 * (s * s))) / (s * sqrt (2 * PI))).
  { intros a b Hab. apply Rmult_lt_compat_r; [exact Pi|]. apply exp_increasing. apply Rmult_lt_compat_r; [exact Qi | lra]. }
  split; [|apply MON]. intros H. destruct (Rlt_le_dec w v) as [C|C]; [exact C|]. exfalso. destruct (Rle_lt_or_eq_dec _ _ C) as [D|D].
  - specialize (MON _ _ D). lra.
  - subst. lra.
Qed.
(** What is computed: the square is taken modulo 2^64; the peak is exceeded exactly when it becomes negative. *)
Lemma pdf_int_wraps (l : list Z) (s m : Z) : l <> [] -> (0 < s)%Z ->
  exists r, @pdf_int XR l s m = Ok (fins r) /\ Forall2 (fun x v => exists w k, (w = (x - m) * (x - m) - k * 2 ^ 64)%Z /\ (- 2 ^ 63 <= w < 2 ^ 63)%Z /\
    v = exp (- IZR w / (2 * (IZR s * IZR s))) / (IZR s * sqrt (2 * PI)) /\ (gauss (IZR m) (IZR s) (IZR m) < v <-> (w < 0)%Z)) l r.
Proof.
  intros Hl Hs. rewrite pdf_int_val by assumption. eexists. split; [reflexivity|]. clear Hl. induction l as [|x l IH]; [constructor|]. cbn [map]. constructor; [|exact IH].
  destruct (wrap_spec ((x - m) * (x - m))) as [B [k E]]. exists (wrap64 ((x - m) * (x - m))), k. split; [exact E|]. split; [exact B|]. split; [reflexivity|].
  rewrite bell_gauss. rewrite bell_lt by (apply IZR_lt; exact Hs). rewrite Rminus_diag_eq, Rmult_0_l by reflexivity. split; [apply lt_IZR | apply IZR_lt].
Qed.
Lemma pdf_int_refuted (s m : Z) : (0 < s)%Z ->
  (forall k, k <> 0%Z -> @pdf_int XR [m + 2 ^ 32 * k]%Z s m = Ok (fins [gauss (IZR m) (IZR s) (IZR m)]) /\
     gauss (IZR m) (IZR s) (IZR (m + 2 ^ 32 * k)) < gauss (IZR m) (IZR s) (IZR m)) /\
  (exists v, @pdf_int XR [m + 3037000500]%Z s m = Ok (fins [v]) /\ gauss (IZR m) (IZR s) (IZR m) < v).
Proof.
  intros Hs. assert (Hr : 0 < IZR s) by (apply IZR_lt; exact Hs). split.
  - intros k Hk. split.
    + rewrite pdf_int_val by (discriminate || exact Hs). do 2 f_equal. cbn [map]. f_equal. rewrite bell_gauss. rewrite Rminus_diag_eq, Rmult_0_l by reflexivity.
      f_equal. apply (f_equal IZR (y := 0%Z)). apply (wrap_unique _ _ (k * k)); [lia | ring].
    + rewrite !bell_gauss. apply bell_lt; [exact Hr|]. rewrite Rminus_diag_eq, Rmult_0_l by reflexivity. rewrite <- minus_IZR, <- mult_IZR. apply IZR_lt. nia.
  - rewrite pdf_int_val by (discriminate || exact Hs). eexists. split; [reflexivity|]. rewrite bell_gauss. apply bell_lt; [exact Hr|]. rewrite Rminus_diag_eq, Rmult_0_l by reflexivity.
    apply IZR_lt. replace ((m + 3037000500 - m) * (m + 3037000500 - m))%Z with 9223372037000250000%Z by ring. reflexivity.
Qed.
Lemma pdf_int_true (l : list Z) (s m : Z) : l <> [] -> (0 < s)%Z -> Forall (fun x => (Z.abs (x - m) <= 3037000499)%Z) l ->
  @pdf_int XR l s m = Ok (fins (map (fun x => gauss (IZR m) (IZR s) (IZR x)) l)).
Proof.
  intros Hl Hs H. rewrite pdf_int_val by assumption. do 2 f_equal. apply map_ext_in. intros x Hx. rewrite Forall_forall in H. specialize (H x Hx).
  rewrite bell_gauss. f_equal. rewrite (wrap_unique _ ((x - m) * (x - m)) 0)%Z; [rewrite mult_IZR, minus_IZR; reflexivity | nia | ring].
Qed.
(** *** binary64 *)
Lemma ofZ_unique (p : f64) n : (Z.abs n <= 2 ^ 53)%Z -> is_finite p = true -> B2R p = IZR n -> (n = 0%Z -> Bsign p = false) -> p = f64_ofZ n.
Proof.
  intros Hn F E S. destruct (ofZ_fl n Hn) as [F1 E1]. destruct (Z.eq_dec n 0) as [->|Hz].
  - specialize (S eq_refl). destruct p as [b|b| |b mm e HH]; try discriminate F; [cbn in S; subst b; reflexivity|].
    exfalso. assert (NZ : B2R (B754_finite b mm e HH) <> 0); [|exact (NZ E)]. cbn [B2R]. intros C. apply (eq_0_F2R radix2) in C. destruct b; discriminate C.
  - assert (NZ : IZR n <> 0) by (apply not_0_IZR; exact Hz). apply B2R_inj; [| |congruence].
    + destruct p; try discriminate F; [exfalso; apply NZ; symmetry; exact E | reflexivity].
    + destruct (f64_ofZ n); try discriminate F1; [exfalso; apply NZ; symmetry; exact E1 | reflexivity].
Qed.
Lemma IZR_small n e : (0 <= e < 1024)%Z -> (Z.abs n <= 2 ^ e)%Z -> Rabs (rnd (IZR n)) < pow2 1024.
Proof. intros He H. apply (rnd_lt_max _ e); [lia|]. rewrite <- abs_IZR. rewrite <- (IZR_Zpower radix2 e) by lia. apply IZR_le. exact H. Qed.
Lemma sub_ints a b : (Z.abs a <= 2 ^ 53)%Z -> (Z.abs b <= 2 ^ 53)%Z -> (Z.abs (a - b) <= 2 ^ 53)%Z -> Bminus mode_NE (f64_ofZ a) (f64_ofZ b) = f64_ofZ (a - b).
Proof.
  intros Ha Hb Hd. destruct (ofZ_fl a Ha) as [Fa Ea]. destruct (ofZ_fl b Hb) as [Fb Eb].
  pose proof (Bminus_correct 53 1024 _ _ mode_NE (f64_ofZ a) (f64_ofZ b) Fa Fb) as C. cbn [round_mode] in C. change (SpecFloat.fexp 53 1024) with fexp64 in C.
  rewrite Ea, Eb, <- minus_IZR in C. rewrite Rlt_bool_true in C by (apply (IZR_small _ 53); [lia | exact Hd]). destruct C as (E & F & S). rewrite rnd_gen in E by (apply gen_IZR; exact Hd).
  apply ofZ_unique; try assumption. intros Z0. rewrite S, Z0. rewrite Rcompare_Eq by reflexivity. replace b with a by lia. destruct (Bsign (f64_ofZ a)); reflexivity.
Qed.
Lemma mul_ints a b : (Z.abs a <= 2 ^ 53)%Z -> (Z.abs b <= 2 ^ 53)%Z -> (Z.abs (a * b) <= 2 ^ 53)%Z -> (0 <= a * b)%Z -> (a = 0 <-> b = 0)%Z -> Bmult mode_NE (f64_ofZ a) (f64_ofZ b) = f64_ofZ (a * b).
Proof.
  intros Ha Hb Hd Hp Hz. destruct (ofZ_fl a Ha) as [Fa Ea]. destruct (ofZ_fl b Hb) as [Fb Eb].
  pose proof (Bmult_correct 53 1024 _ _ mode_NE (f64_ofZ a) (f64_ofZ b)) as C. cbn [round_mode] in C. change (SpecFloat.fexp 53 1024) with fexp64 in C.
  rewrite Ea, Eb, <- mult_IZR in C. rewrite Rlt_bool_true in C by (apply (IZR_small _ 53); [lia | exact Hd]). destruct C as (E & F & S). rewrite rnd_gen in E by (apply gen_IZR; exact Hd).
  rewrite Fa, Fb in F. apply ofZ_unique; try assumption. intros Z0. assert (a = 0 /\ b = 0)%Z as [-> ->] by nia. reflexivity.
Qed.
Lemma pdf_int_f64 (L : Libm) (l : list Z) (s m : Z) :
  (0 < s <= 2 ^ 26)%Z -> (Z.abs m <= 2 ^ 53)%Z -> Forall (fun x => (Z.abs x <= 2 ^ 53)%Z /\ (Z.abs (x - m) <= 2 ^ 26)%Z) l ->
  (let* r := @pdf_int (F64 L) l s m in Ok (Arr [zlen l] r)) = pdf (Arr [zlen l] (map (@nofZ (F64 L)) l)) (@nofZ (F64 L) s) (@nofZ (F64 L) m).
Proof.
  intros Hs Hm H. destruct l as [|x0 l0]; [reflexivity|]. set (l := x0 :: l0) in *. unfold pdf.
  assert (NN : existsb nisnan (map (@nofZ (F64 L)) l) = false).
  { apply no_nan. apply Forall_map. eapply Forall_impl; [|exact H]. intros x [Hx _]. destruct (ofZ_fl x Hx) as [F _]. change (is_nan (f64_ofZ x) = false). destruct (f64_ofZ x); try discriminate F; reflexivity. }
  rewrite (nd_check_ok (N := F64 L) (Arr [zlen l] (map (@nofZ (F64 L)) l))) by (discriminate || exact NN). cbn [bind].
  unfold pdf_int. unfold l at 1. cbv zeta. fold l. cbn [bind nd_map]. do 2 f_equal. rewrite map_map. apply map_ext_in. intros x Hx. rewrite Forall_forall in H. destruct (H x Hx) as [H1 H2].
  f_equal. f_equal. rewrite wrap_sq. rewrite (wrap_unique _ ((x - m) * (x - m)) 0)%Z by nia.
  change (Bdiv mode_NE (f64_ofZ ((x - m) * (x - m))) (f64_ofZ (2 * (s * s))) =
    Bdiv mode_NE (Bmult mode_NE (Bminus mode_NE (f64_ofZ x) (f64_ofZ m)) (Bminus mode_NE (f64_ofZ x) (f64_ofZ m))) (Bmult mode_NE (f64_ofZ 2) (Bmult mode_NE (f64_ofZ s) (f64_ofZ s)))).
  rewrite sub_ints by lia. rewrite !mul_ints; try nia. reflexivity.
Qed.
(** ** Extrema and the most frequent value *)
Lemma extrema_any_dim (N : Num) d (data : list (pyval N)) xs : ord_laws N -> (1 <= d)%Z -> Forall2 denotes data xs -> xs <> [] -> (forall x, In x xs -> nisnan x = false) ->
  (exists m, min_c (CArr (NDA d data)) = Ok m /\ In m xs /\ forall x, In x xs -> nleb m x = true) /\
  (exists m, max_c (CArr (NDA d data)) = Ok m /\ In m xs /\ forall x, In x xs -> nleb x m = true).
Proof.
  intros O H D Hne Hn. unfold min_c, max_c. replace (d <=? 0)%Z with false by (symmetry; apply Z.leb_gt; lia). split.
  - destruct (min_correct O data) as [_ Q]. destruct (Q xs D) as [_ Q']. exact (Q' Hne Hn).
  - destruct (max_correct O data) as [_ Q]. destruct (Q xs D) as [_ Q']. exact (Q' Hne Hn).
Qed.
Lemma extrema_errors (N : Num) d (data : list (pyval N)) :
  ((d <= 0)%Z -> min_c (CArr (NDA d data)) = Raise TypeError /\ max_c (CArr (NDA d data)) = Raise TypeError) /\
  ((1 <= d)%Z -> ((exists s, In (PyStr s) data) -> min_c (CArr (NDA d data)) = Raise TypeError /\ max_c (CArr (NDA d data)) = Raise TypeError) /\
     (forall xs, Forall2 denotes data xs -> (xs = [] \/ exists x, In x xs /\ nisnan x = true) -> min_c (CArr (NDA d data)) = Raise ValueError /\ max_c (CArr (NDA d data)) = Raise ValueError)).
Proof.
  split; [intros H; unfold min_c, max_c; replace (d <=? 0)%Z with true by (symmetry; apply Z.leb_le; lia); split; reflexivity|].
  intros H. unfold min_c, max_c. replace (d <=? 0)%Z with false by (symmetry; apply Z.leb_gt; lia). split.
  - intros [s Hs]. assert (E : existsb is_str data = true) by (apply existsb_exists; exists (PyStr s); split; [exact Hs | reflexivity]). unfold desc_min, desc_max. rewrite E. split; reflexivity.
  - intros xs D Hx. assert (E : existsb is_str data = false /\ mapM to_num data = Ok xs).
    { clear Hx. induction D as [|v x l xs' Hd D IH]; [split; reflexivity|]. destruct IH as [I1 I2]. cbn [existsb mapM]. destruct Hd; cbn; rewrite I1, I2; split; reflexivity. }
    destruct E as [E1 E2]. unfold desc_min, desc_max. rewrite E1, E2. cbn [bind]. destruct Hx as [->|[x [Hx Hn]]]; [split; reflexivity|].
    assert (E3 : existsb nisnan xs = true) by (apply existsb_exists; exists x; auto). rewrite E3. split; reflexivity.
Qed.
Lemma mode_any_dim (N : Num) d (data : list (pyval N)) xs : Forall2 denotes data xs ->
  mode_c (CArr (NDA d data)) = desc_mode xs /\ mode_c (CList data) = desc_mode xs.
Proof.
  intros D. assert (E : mapM to_num data = Ok xs).
  { induction D as [|v x l xs' Hd D IH]; [reflexivity|]. cbn [mapM]. destruct Hd; cbn; rewrite IH; reflexivity. }
  unfold mode_c. cbn [nd_items]. rewrite E. split; reflexivity.
Qed.
(** ** The tests of normality *)
Lemma tests_c_never (N : Num) parse (data : container N) rows alt v w : skewtest_c parse data rows alt <> Ok v /\ kurtotest_c parse data rows alt <> Ok w.
Proof.
  split; intros E.
  - unfold skewtest_c in E. cbv zeta in E. destruct (skewness_c parse (CArr (np_array data))); [|discriminate E]. cbn [bind] in E. destruct (rows <? 8)%Z; [discriminate E|].
    rewrite p_value_raises in E. discriminate E.
  - unfold kurtotest_c in E. cbv zeta in E. destruct (nd_ndim (np_array data) <=? 0)%Z; [discriminate E|]. destruct (rows <? 5)%Z; [discriminate E|].
    destruct (kurtosis_c parse (CArr (np_array data))); [|discriminate E]. cbn [bind] in E. rewrite p_value_raises in E. discriminate E.
Qed.
Lemma tests_c_dims (N : Num) parse d (items : list (pyval N)) rows alt : existsb is_str items = false ->
  ((2 <= d)%Z -> skewtest_c parse (CArr (NDA d items)) rows alt = Raise ValueError /\ kurtotest_c parse (CArr (NDA d items)) rows alt = Raise ValueError) /\
  (skewtest_c parse (CArr (NDA 0 items)) rows alt = Raise TypeError /\ kurtotest_c parse (CArr (NDA 0 items)) rows alt = Raise IndexError) /\
  (skewtest_c parse (CList items) rows alt = skewtest_c parse (CArr (NDA 1 items)) rows alt /\ kurtotest_c parse (CList items) rows alt = kurtotest_c parse (CArr (NDA 1 items)) rows alt).
Proof.
  intros H. split; [|split; [split; reflexivity | split; reflexivity]]. intros Hd. destruct (kurtosis_not_flattened N parse d items Hd H) as [K S].
  unfold skewtest_c, kurtotest_c. cbn [np_array nd_ndim]. rewrite K, S. replace (d <=? 0)%Z with false by (symmetry; apply Z.leb_gt; lia). split; [reflexivity|]. destruct (rows <? 5)%Z; reflexivity.
Qed.
