(** Change of unit: multiplication of the records by a positive constant. *)
From Coq Require Import Reals Lra Lia.
From Flocq Require Import Core.Raux Core.Generic_fmt Core.Round_NE.
From Verif Require Export Spec16 P_symm P_kernel.
Local Open Scope Z_scope.

(** ** Extended reals under scaling *)
Definition xsc (c : R) (a : xr) : xr := match a with Fin x => Fin (c * x) | _ => a end.
Local Notation msc c := (@map (car XR) (car XR) (xsc c)).
Section Scale.
Variable c : R.
Hypothesis Hc : (0 < c)%R.
Lemma Req_sc x : Req_bool (c * x) 0 = Req_bool x 0.
Proof.
  destruct (Req_bool_spec (c * x) 0) as [A|A], (Req_bool_spec x 0) as [B|B]; try reflexivity; exfalso.
  - apply Rmult_integral in A. destruct A; lra.
  - subst. apply A. ring.
Qed.
Lemma xneg_sc x : xneg (c * x) = xneg x.
Proof.
  unfold xneg. destruct (Rlt_bool_spec (c * x) 0) as [A|A], (Rlt_bool_spec x 0) as [B|B]; try reflexivity; exfalso.
  - pose proof (Rmult_le_pos c x ltac:(lra) B). lra.
  - pose proof (Rmult_lt_0_compat c (- x) Hc ltac:(lra)). lra.
Qed.
Lemma xmul_sc (a : xr) : xmul (Fin c) a = xsc c a.
Proof.
  destruct a as [x|s|]; cbn; try reflexivity. rewrite Req_bool_false by lra. unfold xneg. rewrite Rlt_bool_false by lra. destruct s; reflexivity.
Qed.
Lemma sc_add (a b : xr) : xadd (xsc c a) (xsc c b) = xsc c (xadd a b).
Proof. destruct a as [x|[]|], b as [y|[]|]; cbn; try reflexivity. f_equal. ring. Qed.
Lemma sc_sub (a b : xr) : xsub (xsc c a) (xsc c b) = xsc c (xsub a b).
Proof. destruct a as [x|[]|], b as [y|[]|]; cbn; try reflexivity. f_equal. ring. Qed.
Lemma sc_mul_l (a b : xr) : xmul (xsc c a) b = xsc c (xmul a b).
Proof.
  destruct a as [x|s|], b as [y|t|]; cbn; try reflexivity.
  - f_equal. ring.
  - rewrite Req_sc, xneg_sc. destruct (Req_bool x 0); reflexivity.
  - destruct (Req_bool y 0); reflexivity.
Qed.
Lemma sc_mul_r (a b : xr) : xmul a (xsc c b) = xsc c (xmul a b).
Proof. rewrite xmul_comm, sc_mul_l, xmul_comm. reflexivity. Qed.
Lemma sc_div_l (a b : xr) : xdiv (xsc c a) b = xsc c (xdiv a b).
Proof.
  destruct a as [x|s|], b as [y|t|]; cbn; try reflexivity.
  - rewrite Req_sc, xneg_sc. destruct (Req_bool y 0); [destruct (Req_bool x 0); reflexivity|]. cbn. f_equal. unfold Rdiv. ring.
  - f_equal. ring.
Qed.
Lemma sc_div (a b : xr) : xdiv (xsc c a) (xsc c b) = xdiv a b.
Proof.
  destruct a as [x|s|], b as [y|t|]; cbn; try reflexivity.
  - rewrite !Req_sc, xneg_sc. destruct (Req_bool_spec y 0) as [|H]; [reflexivity|]. f_equal. field. split; lra.
  - rewrite xneg_sc. reflexivity.
Qed.
Lemma sc_ltb (a b : xr) : xltb (xsc c a) (xsc c b) = xltb a b.
Proof.
  destruct a as [x|s|], b as [y|t|]; cbn; try reflexivity. destruct (Rlt_bool_spec (c * x) (c * y)) as [A|A], (Rlt_bool_spec x y) as [B|B]; try reflexivity; exfalso.
  - apply Rmult_lt_reg_l in A; lra.
  - pose proof (Rmult_lt_compat_l c x y Hc B). lra.
Qed.
Lemma sc_zero : xsc c (Fin 0) = Fin 0. Proof. cbn. f_equal. ring. Qed.
Lemma sc_ltb0 (a : xr) : xltb (Fin 0) (xsc c a) = xltb (Fin 0) a.
Proof. rewrite <- sc_zero at 1. apply sc_ltb. Qed.
Lemma sc_opp (a : xr) : xopp (xsc c a) = xsc c (xopp a).
Proof. destruct a; cbn; try reflexivity. f_equal. ring. Qed.
Lemma sc_sum (l : list XR) : xsum (msc c l) = xsc c (xsum l).
Proof. induction l as [|a l IH]; [symmetry; apply sc_zero|]. change (xadd (xsc c a) (xsum (msc c l)) = xsc c (xadd a (xsum l))). rewrite IH. apply sc_add. Qed.
End Scale.
Lemma sc_sc c d (a : xr) : xsc c (xsc d a) = xsc (c * d) a.
Proof. destruct a; cbn; try reflexivity. f_equal. ring. Qed.
Lemma sq_pos c : (0 < c -> 0 < c * c)%R. Proof. intros H. apply Rmult_lt_0_compat; exact H. Qed.
Lemma sc_sqrt c (a : xr) : (0 < c)%R -> xsqrt (xsc (c * c) a) = xsc c (xsqrt a).
Proof.
  intros H. destruct a as [x|[]|]; cbn; try reflexivity. pose proof (xneg_sc (c * c) (sq_pos c H) x) as E. unfold xneg in E. rewrite E. destruct (Rlt_bool_spec x 0) as [|Hx]; [reflexivity|]. cbn. f_equal.
  rewrite sqrt_mult by (try exact Hx; apply Rlt_le, sq_pos, H). rewrite sqrt_square by lra. reflexivity.
Qed.
Lemma sc_sq c (a : xr) : (0 < c)%R -> xmul (xsc c a) (xsc c a) = xsc (c * c) (xmul a a).
Proof. intros H. rewrite sc_mul_l, sc_mul_r, sc_sc by exact H. reflexivity. Qed.
Lemma sc_ipow2 c (a : xr) : (0 < c)%R -> xipow (xsc c a) 2 = xsc (c * c) (xipow a 2).
Proof. intros H. cbn [xipow]. rewrite !sc_mul_l, sc_mul_r, sc_sc by exact H. reflexivity. Qed.
Lemma scale_list (c : R) (l : list XR) : (0 < c)%R -> map (nmul (Fin c : XR)) l = msc c l.
Proof. intros H. apply map_ext. intros a. apply (xmul_sc c H). Qed.

(** ** Means and deviations *)
Section Stat.
Variable c : R.
Hypothesis Hc : (0 < c)%R.
Lemma np_mean_sc (l : list XR) : np_mean (msc c l) = xsc c (np_mean l).
Proof. unfold np_mean. rewrite zlen_map. cbn [nsum XR]. rewrite (sc_sum c). apply sc_div_l. exact Hc. Qed.
Lemma np_std_sc (l : list XR) : np_std (msc c l) = xsc c (np_std l).
Proof.
  unfold np_std, np_var. rewrite np_mean_sc, map_map. cbn [nsqrt XR]. rewrite <- (sc_sqrt c) by exact Hc. f_equal.
  rewrite (map_ext _ (fun x : XR => xsc (c * c) (sq (nsub x (np_mean l))))).
  - rewrite <- map_map. unfold np_mean at 1 3. rewrite !zlen_map. cbn [nsum XR]. rewrite (sc_sum (c * c)). apply sc_div_l. apply sq_pos, Hc.
  - intros a. unfold sq. cbn [nsub nmul XR]. rewrite (sc_sub c), (sc_sq c) by exact Hc. reflexivity.
Qed.
Lemma std_sc (u : list XR) : spread_std (farr (msc c u)) = (let* s := spread_std (farr u) in Ok (xsc c s : XR)).
Proof. destruct u as [|u0 u']; [reflexivity|]. rewrite !spread_std_farr by discriminate. rewrite np_std_sc. reflexivity. Qed.
Lemma fluct_sc (u : list XR) : fluct (msc c u) = (let* r := fluct u in Ok (msc c r)).
Proof.
  destruct u as [|u0 u']; [reflexivity|]. set (u := u0 :: u'). unfold fluct.
  rewrite !mean_num_ne by (subst u; discriminate). cbn [bind]. rewrite np_mean_sc, !map_map. f_equal. apply map_ext. intros a. apply sc_sub.
Qed.
Lemma nth_sc i (l : list XR) : nth i (msc c l) (Fin 0) = xsc c (nth i l (Fin 0)).
Proof. rewrite <- (map_nth (xsc c)). cbn. f_equal. f_equal. ring. Qed.
(** ** acceleration.py *)
Lemma diff_sc (l : list XR) : np_diff (msc c l) = msc c (np_diff l).
Proof.
  induction l as [|a [|b l] IH]; try reflexivity. 
  change (np_diff (msc c (a :: b :: l))) with (nsub (xsc c b : XR) (xsc c a : XR) :: np_diff (msc c (b :: l))).
  change (np_diff (a :: b :: l)) with (nsub b a :: np_diff (b :: l)). cbn [map]. f_equal; [apply sc_sub | exact IH].
Qed.
End Stat.

(** ** correlation.py *)
Definition bsc (c : R) (b : bval XR) : bval XR := match b with BNum b => @BNum XR (xsc c b) | BPair p q => @BPair XR p q end.
Section Corr.
Variable c : R.
Hypothesis Hc : (0 < c)%R.
Lemma prods_sc (u v : list XR) : bcast nmul (msc c u) (msc c v) = (let* r := bcast nmul u v in Ok (msc (c * c) r)).
Proof. rewrite bcast_map_l, bcast_map_r, <- bcast_post. apply bcast_ext. intros a b. cbn [nmul XR]. rewrite sc_mul_l, sc_mul_r, sc_sc by exact Hc. reflexivity. Qed.
Lemma sumsq_sc (u : list XR) : nsum (map sq (msc c u)) = xsc (c * c) (nsum (map sq u)).
Proof.
  rewrite map_map, (map_ext (fun x : XR => sq (xsc c x : XR)) (fun x : XR => xsc (c * c) (sq x)) (fun x => sc_sq c x Hc)), <- map_map. apply sc_sum.
Qed.
Lemma theta_sc (p : list XR) (q : XR) : natan (ndiv (nsum (msc (c * c) p)) (xsc (c * c) q : XR)) = natan (ndiv (nsum p) q).
Proof. cbn [nsum ndiv XR]. rewrite (sc_sum (c * c)), sc_div by (apply sq_pos, Hc). reflexivity. Qed.
Lemma ab_sc (s1 s2 theta lam : XR) : calculate_ab (xsc c s1 : XR) (xsc c s2 : XR) theta lam =
  (xsc c (fst (calculate_ab s1 s2 theta lam)) : XR, bsc c (snd (calculate_ab s1 s2 theta lam))).
Proof.
  unfold calculate_ab. cbn [fst snd nmul nsub ndiv nipow nsqrt XR]. rewrite !(sc_mul_r c), !(sc_ipow2 c), !(sc_mul_l (c * c)) by (try apply sq_pos; exact Hc).
  rewrite !(sc_sub (c * c)), !(sc_div_l (c * c)) by (apply sq_pos, Hc). rewrite !(sc_sqrt c) by exact Hc.
  change (@nofZ XR 0) with (Fin 0). cbn [nltb XR]. rewrite !(sc_ltb0 (c * c)) by (apply sq_pos, Hc).
  f_equal. match goal with |- context [if ?t then _ else _] => destruct t end; reflexivity.
Qed.
Lemma bcast_len {A B C} (f : A -> B -> C) a b r : bcast f a b = Ok r -> (3 <= length a)%nat -> (3 <= length b)%nat -> (3 <= length r)%nat.
Proof.
  intros E Ha Hb. destruct (Nat.eq_dec (length a) (length b)) as [H|H].
  - rewrite bcast_same in E by exact H. injection E as <-. rewrite zipwith_length. lia.
  - rewrite bcast_bad in E by lia. discriminate.
Qed.
Lemma rho_sc (x y : list XR) (theta a : XR) b : (3 <= length x)%nat -> (3 <= length y)%nat ->
  calculate_rho (msc c x) (msc c y) theta (xsc c a : XR) (bsc c b) = calculate_rho x y theta a b.
Proof.
  intros Hx Hy. unfold calculate_rho.
  assert (S : forall (k : XR) (l : list XR), map (fun v => nmul v k) (msc c l) = msc c (map (fun v => nmul v k) l)).
  { intros k l. rewrite !map_map. apply map_ext. intros v. apply sc_mul_l, Hc. }
  rewrite !S.
  assert (B : forall (f : XR -> XR -> XR) (p q : list XR), (forall a b, f (xsc c a) (xsc c b) = xsc c (f a b)) ->
    bcast f (msc c p) (msc c q) = (let* r := bcast f p q in Ok (msc c r))).
  { intros f p q H. rewrite bcast_map_l, bcast_map_r, <- bcast_post. apply bcast_ext. exact H. }
  rewrite (B nadd), (B nsub) by (intros; apply sc_add || apply sc_sub).
  destruct (bcast nadd _ _) as [xp|e]; cbn [bind]; [|reflexivity].
  destruct (bcast nsub _ _) as [yp|e] eqn:Ey; cbn [bind]; [|reflexivity].
  apply bcast_len in Ey; [|rewrite map_length; assumption|rewrite map_length; assumption].
  destruct b as [b|p q]; cbn [bsc].
  - cbn [bind]. f_equal; rewrite !map_map; apply map_ext; intros v; cbn [ndiv XR]; rewrite (sc_div c) by exact Hc; reflexivity.
  - rewrite !bcast_bad by (rewrite ?map_length; cbn [length]; lia). reflexivity.
Qed.
Lemma fluct_len (u f : list XR) : fluct u = Ok f -> length f = length u.
Proof. destruct u as [|u0 u']; [discriminate|]. unfold fluct. rewrite mean_num_ne by discriminate. cbn [bind]. intros E. injection E as <-. cbn. rewrite map_length. reflexivity. Qed.
Ltac unit_step :=
  match goal with
  | |- (let* x := ?m in _) = (let* z := ?m in _) => destruct m as [?|?] eqn:?; cbn [bind]; [|reflexivity]
  | |- (let* x := (let* y := ?m in _) in _) = (let* z := ?m in _) => destruct m as [?|?] eqn:?; cbn [bind]; [|reflexivity]
  end.
Lemma correlation_unit_pos (u v w : list XR) : (3 <= length u)%nat -> (3 <= length v)%nat -> (3 <= length w)%nat ->
  velocity_correlation (msc c u) (msc c v) (msc c w) = velocity_correlation u v w.
Proof.
  intros Hu Hv Hw. unfold velocity_correlation. rewrite !(fluct_sc c) by exact Hc.
  repeat unit_step.
  repeat match goal with H : fluct _ = Ok _ |- _ => apply fluct_len in H end.
  rewrite !(std_sc c) by exact Hc. repeat unit_step. rewrite zlen_map, !prods_sc, !sumsq_sc. repeat unit_step. rewrite !theta_sc, !ab_sc.
  repeat (match goal with |- context [let (_, _) := calculate_ab ?p ?q ?r ?s in _] => destruct (calculate_ab p q r s) as [? ?] end). cbn [fst snd].
  rewrite !rho_sc by lia. reflexivity.
Qed.
End Corr.
Lemma nmul_opp_list (c : R) (l : list XR) : map (nmul (Fin (- c) : XR)) l = map nopp (map (nmul (Fin c : XR)) l).
Proof. rewrite map_map. apply map_ext. intros a. change (Fin (- c)) with (xopp (Fin c)). apply xmul_opp_l. Qed.
Lemma correlation_unit (c : R) (u v w : list XR) : c <> 0%R -> (3 <= length u)%nat -> (3 <= length v)%nat -> (3 <= length w)%nat ->
  velocity_correlation (map (nmul (Fin c : XR)) u) (map (nmul (Fin c : XR)) v) (map (nmul (Fin c : XR)) w) = velocity_correlation u v w.
Proof.
  intros H Hu Hv Hw. destruct (Rlt_le_dec 0 c) as [P|P].
  - rewrite !scale_list by exact P. apply correlation_unit_pos; assumption.
  - rewrite <- (Ropp_involutive c). rewrite !(nmul_opp_list (- c)).
    rewrite (proj1 (correlation_sign _ _ _)), (proj1 (proj2 (correlation_sign _ _ _))), (proj2 (proj2 (correlation_sign _ _ _))).
    rewrite !scale_list by lra. apply correlation_unit_pos; [lra | assumption..].
Qed.

(** ** acceleration.py *)
Lemma nonzero_ext {A} (f g : A -> bool) l : (forall x, f x = g x) -> nonzero (map f l) = nonzero (map g l).
Proof. intros H. f_equal. apply map_ext, H. Qed.
Lemma acceleration_unit (c : R) (v : list XR) (f : XR) tag (g kg ks : XR) : (0 < c)%R ->
  acceleration_thresholding (map (nmul (Fin c : XR)) v) f tag (nmul (Fin c : XR) g) kg ks = acceleration_thresholding v f tag g kg ks.
Proof.
  intros Hc. rewrite scale_list by exact Hc. change (nmul (Fin c : XR) g) with (xmul (Fin c) g). rewrite (xmul_sc c) by exact Hc. unfold acceleration_thresholding. rewrite (std_sc c), (np_mean_sc c), diff_sc by exact Hc.
  assert (E : @nofZ XR 0 :: map (fun d => nmul d f) (msc c (np_diff v)) = msc c (@nofZ XR 0 :: map (fun d => nmul d f) (np_diff v))).
  { cbn [map]. f_equal; [cbn; f_equal; ring|]. rewrite !map_map. apply map_ext. intros a. apply sc_mul_l, Hc. }
  rewrite E.
  destruct (tag =? 1); [|destruct (tag =? 2); [|reflexivity]]; (destruct (spread_std (farr v)) as [s|e]; cbn [bind]; [|reflexivity]); f_equal; rewrite (map_map (xsc c)), (map_map (xsc c)); f_equal; apply nonzero_ext; intros a; cbn [nmul nadd nsub nltb nopp XR];
    rewrite !(sc_mul_r c) by exact Hc; rewrite ?(sc_add c), ?(sc_sub c) by exact Hc; apply sc_ltb, Hc.
Qed.
(** The two tags are mirror images of each other. *)
Lemma xltb_opp (a b : xr) : xltb (xopp a) (xopp b) = xltb b a.
Proof.
  destruct a as [x|[]|], b as [y|[]|]; cbn; try reflexivity. destruct (Rlt_bool_spec (- x) (- y)), (Rlt_bool_spec y x); try reflexivity; exfalso; lra.
Qed.
Lemma xadd_opp_sub (a b : xr) : xadd (xopp a) b = xopp (xsub a b).
Proof. destruct a as [x|[]|], b as [y|[]|]; cbn; try reflexivity. f_equal. ring. Qed.
Lemma diff_opp (l : list XR) : np_diff (map nopp l) = map nopp (np_diff l).
Proof.
  induction l as [|a [|b l] IH]; try reflexivity. 
  change (np_diff (map nopp (a :: b :: l))) with (nsub (nopp b) (nopp a) :: np_diff (map nopp (b :: l))).
  change (np_diff (a :: b :: l)) with (nsub b a :: np_diff (b :: l)). cbn [map]. f_equal; [apply xsub_opp | exact IH].
Qed.
Lemma acceleration_mirror (v : list XR) (f g kg ks : XR) :
  acceleration_thresholding (map nopp v) f 1 g kg ks = acceleration_thresholding v f 2 g kg ks.
Proof.
  unfold acceleration_thresholding. cbn [Z.eqb Pos.eqb]. rewrite diff_opp. change (@nopp XR) with xopp. rewrite std_opp, np_mean_opp.
  destruct (spread_std (farr v)) as [s|e]; cbn [bind]; [|reflexivity].
  assert (E : @nofZ XR 0 :: map (fun d => nmul d f) (@map (car XR) (car XR) xopp (np_diff v)) = @map (car XR) (car XR) xopp (@nofZ XR 0 :: map (fun d => nmul d f) (np_diff v))).
  { cbn [map]. f_equal; [cbn; f_equal; ring|]. rewrite !map_map. apply map_ext. intros a. apply xmul_opp_l. }
  rewrite E. f_equal. rewrite (map_map xopp), (map_map xopp). f_equal; apply nonzero_ext; intros a; cbn [nmul nadd nsub nltb nopp XR].
  - rewrite xmul_opp_l. rewrite <- (xopp_opp (xmul kg g)) at 1. apply xltb_opp.
  - rewrite xadd_opp_sub. apply xltb_opp.
Qed.

(** ** Small signals: everything is rounded away *)
Lemma ZnearestE_small y : (Rabs y <= / 2)%R -> ZnearestE y = 0.
Proof.
  intros H. destruct (Rle_lt_or_eq_dec _ _ H) as [L|E].
  - apply Znearest_imp. rewrite Rminus_0_r. exact L.
  - assert (A : ZnearestE (/ 2) = 0).
    { unfold Znearest. assert (F : Zfloor (/ 2) = 0) by (apply Zfloor_imp; cbn; lra). rewrite F, Rminus_0_r, Rcompare_Eq by reflexivity. reflexivity. }
    destruct (Rle_lt_dec 0 y) as [P|P].
    + rewrite Rabs_pos_eq in E by exact P. rewrite E. exact A.
    + rewrite Rabs_left in E by exact P. rewrite <- (Ropp_involutive y), E, ZnearestE_neg, A. reflexivity.
Qed.
Lemma round4_small x : (Rabs x <= / 20000)%R -> round_dec 4 x = 0%R.
Proof.
  intros H. unfold round_dec. cbn [Z.leb Z.compare]. change (10 ^ 4) with 10000. rewrite ZnearestE_small; [unfold Rdiv; ring|].
  rewrite Rabs_mult, (Rabs_pos_eq 10000) by lra. lra.
Qed.
Lemma repeat_ext {A} (l : list A) (z d : A) n : length l = n -> (forall i, 0 <= i < Z.of_nat n -> nth (Z.to_nat i) l d = z) -> l = repeat z n.
Proof.
  intros L H. apply (list_ext _ _ d); [rewrite repeat_length; exact L|]. intros i Hi. unfold zlen in Hi. rewrite repeat_length in Hi. rewrite H by exact Hi.
  rewrite (nth_indep _ d z) by (rewrite repeat_length; lia). symmetry. apply nth_repeat'.
Qed.
Lemma fins_zeros n : fins (repeat 0%R n) = repeat (Fin 0) n.
Proof. induction n; cbn; [reflexivity|]. f_equal. exact IHn. Qed.
Lemma Rsum_zeros n : Rsum (repeat 0%R n) = 0%R.
Proof. induction n; cbn; [reflexivity|]. rewrite IHn. ring. Qed.
Lemma map_rep {A B} (f : A -> B) x n : map f (repeat x n) = repeat (f x) n.
Proof. induction n; cbn; [reflexivity|]. f_equal. exact IHn. Qed.
Lemma rstd_zeros n : rstd (repeat 0%R n) = 0%R.
Proof.
  unfold rstd, rvar, rmoment, rmean. rewrite map_length, map_rep, Rsum_zeros. replace ((0 - 0 / _) ^ 2)%R with 0%R by (unfold Rdiv; ring).
  rewrite Rsum_zeros. unfold Rdiv. rewrite Rmult_0_l. apply sqrt_0.
Qed.
Lemma central_still dt (l : list R) : still l ->
  central_loop (N := XR) (fun x => around x 4) dt (fins l) (repeat (@nofZ XR 0) (length (fins l))) = Ok (fins (repeat 0%R (length l))).
Proof.
  intros H. destruct (central_loop_gen XR (fun x => around x 4) dt (fins l) (Fin 0)) as (r & E & L & Hr). rewrite E. f_equal. rewrite fins_zeros.
  apply (repeat_ext _ _ (Fin 0)); [etransitivity; [exact L | apply fins_length]|]. intros i Hi. rewrite Hr by (rewrite zlen_fins; exact Hi). rewrite zlen_fins.
  destruct (Z.ltb_spec 0 i), (Z.ltb_spec i (zlen l - 1)); cbn [andb]; try reflexivity.
  rewrite !fins_nth. rewrite xsub_fin, xofZ_fin, xdiv_fin by lra. rewrite around_fin, round4_small.
  - destruct dt; cbn; [reflexivity|]. f_equal. change 0%R with (IZR 0) at 1. rewrite Ztrunc_IZR. reflexivity.
  - specialize (H (Z.to_nat i)). unfold zlen in *. replace (Z.to_nat (i + 1)) with (Z.to_nat i + 1)%nat by lia. replace (Z.to_nat (i - 1)) with (Z.to_nat i - 1)%nat by lia.
    unfold Rdiv. rewrite Rabs_mult, (Rabs_pos_eq (/ 2)) by lra. specialize (H ltac:(lia) ltac:(lia)). lra.
Qed.
Lemma still_zeros n : still (repeat 0%R n).
Proof. intros i _ _. rewrite !nth_repeat'. rewrite Rminus_0_r, Rabs_R0. lra. Qed.
Lemma rho_nan (theta a b x y : XR) : (nsub (nmul y (ncos theta)) (nmul x (nsin theta)) = NaN \/ (nsub (nmul y (ncos theta)) (nmul x (nsin theta)) = Fin 0 /\ (b = Fin 0 \/ b = NaN))) ->
  rho_at theta a b x y = NaN.
Proof.
  intros H. unfold rho_at. assert (E : ndiv (nsub (nmul y (ncos theta)) (nmul x (nsin theta))) b = NaN).
  { destruct H as [->|[-> [->| ->]]]; cbn; [reflexivity| |reflexivity]. rewrite Req_bool_true by reflexivity. reflexivity. }
  rewrite E. unfold sq. cbn [nmul nadd XR xmul]. match goal with |- xadd ?s _ = _ => destruct s; reflexivity end.
Qed.
Lemma zip_nan (f : XR -> XR -> XR) (x : list R) n : length x = n -> (forall p, f (Fin p) (Fin 0) = NaN) -> zipwith f (fins x) (fins (repeat 0%R n)) = repeat NaN n.
Proof. intros <- H. induction x as [|a x IH]; [reflexivity|]. cbn [length repeat fins map]. unfold zipwith in *. cbn [combine map]. f_equal; [apply H | exact IH]. Qed.
Lemma union_nan n : @union_above_one XR (repeat NaN n) (repeat NaN n) (repeat NaN n) = [].
Proof.
  destruct (in_union_above XR (repeat NaN n) (repeat NaN n) (repeat NaN n) (Z.of_nat n) NaN) as [_ H]; try (unfold zlen; rewrite repeat_length; reflexivity).
  destruct (union_above_one _ _ _) as [|i l]; [reflexivity|]. exfalso. destruct (proj1 (H i)) as [_ D]; [left; reflexivity|].
  rewrite !nth_repeat' in D. cbn in D. destruct D as [D|[D|D]]; discriminate.
Qed.
Lemma phasespace_still dt (l : list R) : l <> [] -> still l -> phasespace_thresholding dt (fins l) = Ok [].
Proof.
  intros Hne HS. set (n := length l). assert (Hn : (0 < n)%nat) by (subst n; destruct l; [congruence | cbn; lia]).
  set (z := repeat 0%R n). assert (Lz : length z = n) by apply repeat_length. assert (Hz : z <> []) by (intros E; rewrite E in Lz; cbn in Lz; lia).
  assert (E1 : ps_derivatives dt (fins l) = Ok (fins z, fins z)).
  { unfold ps_derivatives. rewrite (central_still dt l HS). cbn [bind]. fold n z.
    replace (length (fins l)) with (length (fins z)) by (rewrite !fins_length; exact Lz). rewrite (central_still dt z (still_zeros n)). rewrite Lz. reflexivity. }
  unfold phasespace_thresholding. rewrite E1. cbn [bind].
  unfold ps_parameters. rewrite !std_correct by assumption. cbn [bind]. rewrite bcast_same by (rewrite !fins_length, ?Lz; reflexivity). cbn [bind].
  cbn [p_a1 p_b1 p_a2 p_b2 p_a3 p_b3 p_theta].
  rewrite !rho_num by (rewrite !fins_length, ?Lz; reflexivity). cbn [bind]. f_equal.
  rewrite zlen_fins, univ_fin by exact Hne. rewrite !xmul_fin. assert (RZ : rstd z = 0%R) by apply rstd_zeros. rewrite !RZ, !Rmult_0_r.
  assert (HP : nsum (zipwith nmul (fins l) (fins z)) = Fin 0).
  { unfold z, n. rewrite fins_zeros. clear. induction l as [|a l IH]; [reflexivity|]. cbn [length repeat fins map]. unfold zipwith in *. cbn [combine map fst snd].
    etransitivity; [exact (f_equal (xadd (xmul (Fin a) (Fin 0))) IH) | cbn; f_equal; ring]. }
  rewrite HP. assert (HQ : exists s, nsum (map sq (fins l)) = Fin s).
  { clear. induction l as [|a l [s IH]]; [exists 0%R; reflexivity|]. exists (a * a + s)%R. change (xadd (xmul (Fin a) (Fin a)) (nsum (map sq (fins l))) = Fin (a * a + s)). rewrite IH. reflexivity. }
  destruct HQ as [s HQ]. rewrite HQ.
  assert (T : @natan XR (ndiv (Fin 0) (Fin s)) = NaN \/ @natan XR (ndiv (Fin 0) (Fin s)) = Fin 0).
  { cbn [ndiv XR xdiv]. destruct (Req_bool_spec s 0) as [H|H]; [left; rewrite Req_bool_true by reflexivity; reflexivity|].
    right. cbn. f_equal. unfold Rdiv. rewrite Rmult_0_l. apply atan_0. }
  assert (Z1 : forall p, @nsub XR (nmul (Fin 0) (ncos (Fin 0))) (nmul (Fin p) (nsin (Fin 0))) = Fin 0).
  { intros p. cbn. rewrite sin_0. f_equal. ring. }
  unfold z. change (@nofZ XR 0) with (Fin 0).
  rewrite !(zip_nan _ _ n); [apply union_nan | reflexivity | | apply repeat_length | | reflexivity |].
  - intros p. destruct T as [T|T]; rewrite T.
    + apply rho_nan. left. cbn. reflexivity.
    + apply rho_nan. right. split; [apply Z1|]. left. cbn. rewrite cos_0, sin_0. 
      match goal with |- xdiv (if Rlt_bool ?t _ then _ else _) (Fin ?u) = _ => replace t with 0%R by ring; replace u with 1%R by ring end.
      rewrite Rlt_bool_false by lra. rewrite sqrt_0. cbn. rewrite Req_bool_false by lra. f_equal. unfold Rdiv. ring.
  - intros p. apply rho_nan. right. split; [apply Z1 | left; reflexivity].
  - intros p. apply rho_nan. right. split; [apply Z1 | left; reflexivity].
Qed.
(** Every record, in a unit large enough. *)
Lemma abs_bound (l : list R) : exists M, (0 < M)%R /\ forall x, In x l -> (Rabs x <= M)%R.
Proof.
  induction l as [|a l (M & HM & H)]; [exists 1%R; split; [lra | intros x []]|]. exists (M + Rabs a)%R. pose proof (Rabs_pos a). split; [lra|].
  intros x [<-|Hx]; [lra|]. specialize (H x Hx). lra.
Qed.
Lemma nth_bound (l : list R) M i : (0 < M)%R -> (forall x, In x l -> (Rabs x <= M)%R) -> (Rabs (nth i l 0) <= M)%R.
Proof. intros HM H. destruct (nth_in_or_default i l 0%R) as [Hi|E]; [apply H, Hi | rewrite E, Rabs_R0; lra]. Qed.
Lemma phasespace_large_unit dt (l : list R) : l <> [] ->
  exists c0, (0 < c0)%R /\ forall c, (0 < c <= c0)%R -> phasespace_thresholding dt (fins (map (Rmult c) l)) = Ok [].
Proof.
  intros Hne. destruct (abs_bound l) as (M & HM & H). exists (/ (20000 * M))%R. assert (HI : (0 < / (20000 * M))%R) by (apply Rinv_0_lt_compat; lra). split; [exact HI|].
  intros c [C1 C2]. apply phasespace_still; [destruct l; [congruence | discriminate]|]. intros i _ _.
  assert (E : forall k, nth k (map (Rmult c) l) 0%R = (c * nth k l 0)%R).
  { intros k. replace 0%R with (c * 0)%R at 1 by ring. apply map_nth. }
  rewrite !E, <- Rmult_minus_distr_l, Rabs_mult, (Rabs_pos_eq c) by lra.
  pose proof (nth_bound l M (i + 1) HM H). pose proof (nth_bound l M (i - 1) HM H).
  assert (D : (Rabs (nth (i + 1) l 0 - nth (i - 1) l 0) <= 2 * M)%R) by (unfold Rminus; eapply Rle_trans; [apply Rabs_triang|]; rewrite Rabs_Ropp; lra).
  apply Rle_trans with (/ (20000 * M) * (2 * M))%R; [apply Rmult_le_compat; try lra; apply Rabs_pos | right; field; lra].
Qed.

(** ** spherical.py *)
Lemma nanmean_fins_rmean (l : list R) : l <> [] -> np_nanmean (fins l) = Fin (rmean l).
Proof.
  intros H. unfold np_nanmean.
  assert (E : map (fun x : XR => if nisnan x then nofZ 0 else x) (fins l) = fins l) by (unfold fins; rewrite map_map; reflexivity). rewrite E.
  assert (V : valid_only (fins l) = fins l). { unfold valid_only. clear. induction l as [|a l IH]; [reflexivity|]. cbn. f_equal. exact IH. }
  rewrite V. exact (np_mean_fins l H).
Qed.
Local Notation zer n := (@repeat (car XR) (Fin 0) n).
Lemma gradient_zeros n : (2 <= n)%nat -> np_gradient (N := XR) (zer n) = Ok (zer n).
Proof.
  intros Hn. destruct (np_gradient_gen XR (zer n) (Fin 0)) as (g & E & L & H); [unfold zlen; rewrite repeat_length; lia|].
  rewrite E. f_equal. rewrite repeat_length in L. apply (repeat_ext _ _ (Fin 0)); [exact L|]. intros i Hi. rewrite H by (unfold zlen; rewrite repeat_length; exact Hi).
  rewrite !nth_repeat'.
  assert (Z1 : forall k, k <> 0 -> @ndiv XR (nsub (Fin 0) (Fin 0)) (nofZ k) = Fin 0).
  { intros k Hk. rewrite xsub_fin, xofZ_fin, xdiv_fin by (apply (IZR_neq k 0), Hk). f_equal. unfold Rdiv. ring. }
  destruct (i =? 0); [apply Z1; lia|]. destruct (i =? _); apply Z1; lia.
Qed.
Lemma xsum_zeros n : xsum (zer n) = Fin 0.
Proof. induction n; [reflexivity|]. cbn [repeat]. change (xadd (Fin 0) (xsum (zer n)) = Fin 0). rewrite IHn. cbn. f_equal. ring. Qed.
Lemma around_0 : @around XR (Fin 0) 4 = Fin 0.
Proof. rewrite around_fin, round4_small; [reflexivity|]. rewrite Rabs_R0. lra. Qed.
Lemma nanstd_zeros n : (0 < n)%nat -> @np_nanstd XR (zer n) = Fin 0.
Proof.
  intros Hn. pose proof (nanmean_fins_rmean (repeat 0%R n)) as E. rewrite fins_zeros in E. specialize (E ltac:(destruct n; [lia | discriminate])).
  unfold np_nanstd. etransitivity; [apply (f_equal (fun m : XR => @nsqrt XR (ndiv (nsum (map (fun x : XR => if nisnan x then nofZ 0 else sq (nsub x m)) (zer n))) (nofZ (zlen (valid_only (zer n)))))) E)|].
  unfold rmean. rewrite Rsum_zeros. replace (0 / _)%R with 0%R by (unfold Rdiv; ring).
  assert (V : @valid_only XR (zer n) = zer n). { unfold valid_only. clear. induction n; [reflexivity|]. cbn. f_equal. exact IHn. }
  rewrite V. rewrite map_rep.
  assert (W : (if @nisnan XR (Fin 0) then @nofZ XR 0 else sq (nsub (Fin 0 : XR) (Fin 0))) = Fin 0) by (cbn; f_equal; ring). rewrite W. cbn [nsum XR]. rewrite xsum_zeros.
  unfold zlen. rewrite repeat_length. rewrite xofZ_fin, xdiv_fin by (apply (IZR_neq _ 0); lia). rewrite xsqrt_fin by (unfold Rdiv; lra). f_equal. unfold Rdiv. rewrite Rmult_0_l. apply sqrt_0.
Qed.
Lemma flag_zeros : @sph_flag XR (Fin 0) (Fin 0) (Fin 0) (Fin 0) (Fin 0) (Fin 0) = false.
Proof.
  unfold sph_flag.
  assert (D : @nsqrt XR (nadd (nipow (nmul (nmul (Fin 0) (Fin 0)) (Fin 0)) 2) (nmul (nipow (Fin 0) 2) (nadd (nmul (nipow (Fin 0) 2) (nipow (Fin 0) 2)) (nmul (nipow (Fin 0) 2) (nipow (Fin 0) 2))))) = Fin 0).
  { cbn. match goal with |- context [Rlt_bool ?t 0] => replace t with 0%R by ring end. rewrite Rlt_bool_false, sqrt_0 by lra. reflexivity. }
  rewrite D. assert (Q : @around XR (ndiv (nmul (nmul (nmul (Fin 0) (Fin 0)) (Fin 0)) (Fin 0)) (Fin 0)) 4 = NaN).
  { cbn. rewrite !Req_bool_true by ring. reflexivity. }
  rewrite Q. reflexivity.
Qed.
Lemma spherical_faint (l : list R) i (m : XR) : (2 <= length l)%nat -> faint l -> spherical_phasespace_thresholding (fins l) i m = Ok [].
Proof.
  intros Hn H. set (n := length l) in *. assert (Hne : l <> []) by (intros E; subst n; rewrite E in Hn; cbn in Hn; lia).
  unfold spherical_phasespace_thresholding, sph_descript. rewrite nanmean_fins_rmean by exact Hne.
  assert (E : map (fun x : XR => around (nsub x (Fin (rmean l) : XR)) 4) (fins l) = zer n).
  { unfold n, fins. rewrite map_map. rewrite <- (map_rep (fun _ : R => (Fin 0 : XR)) 0%R). 
    assert (G : forall k, (forall x, In x k -> (Rabs (x - rmean l) <= / 20000)%R) -> map (fun x : R => around (nsub (Fin x : XR) (Fin (rmean l) : XR)) 4) k = map (fun _ : R => (Fin 0 : XR)) (repeat 0%R (length k))); [|apply G, H].
    induction k as [|a k IH]; intros Hk; [reflexivity|]. cbn [map length repeat]. f_equal; [|apply IH; intros x Hx; apply Hk; right; exact Hx].
    rewrite xsub_fin, around_fin, round4_small; [reflexivity|]. apply Hk. left. reflexivity. }
  rewrite E. rewrite gradient_zeros by exact Hn. cbn [bind]. rewrite gradient_zeros by exact Hn. cbn [bind]. rewrite bcast_same by reflexivity. cbn [bind].
  assert (P1 : @nsum XR (zipwith nmul (zer n) (zer n)) = Fin 0).
  { clear. induction n; [reflexivity|]. cbn [repeat]. etransitivity; [exact (f_equal (xadd (xmul (Fin 0) (Fin 0))) IHn) | cbn; f_equal; ring]. }
  assert (P2 : @nsum XR (map sq (zer n)) = Fin 0).
  { clear. induction n; [reflexivity|]. cbn [repeat]. etransitivity; [exact (f_equal (xadd (xmul (Fin 0) (Fin 0))) IHn) | cbn; f_equal; ring]. }
  rewrite P1, P2.
  assert (A : @around XR (natan2 (Fin 0 : XR) (Fin 0 : XR)) 4 = Fin 0).
  { assert (A0 : @natan2 XR (Fin 0 : XR) (Fin 0 : XR) = Fin 0); [|rewrite A0; apply around_0]. cbn. unfold atan2R. rewrite !Rlt_bool_false by lra. reflexivity. }
  rewrite A. unfold sph_rotation. assert (B : @neqb XR (Fin 0) (nofZ 0) = true) by (cbn; apply Req_bool_true; reflexivity). rewrite B. cbn [bind].
  unfold sph_parameters. rewrite nanstd_zeros by lia. unfold zlen. rewrite repeat_length.
  assert (HU : exists u, @around XR (nsqrt (nmul (nofZ 2) (nlog (nofZ (Z.of_nat n))))) 4 = Fin u).
  { eexists. pose proof (univ_fin l Hne) as U. unfold zlen in U. fold n in U. rewrite U, around_fin. reflexivity. }
  destruct HU as [u HU]. rewrite HU, xmul_fin, Rmult_0_r, around_0.
  destruct (sph_indices_gen XR (zer n) (zer n) (zer n) (Fin 0) (Fin 0) (Fin 0) (Fin 0)) as (r & Er & HS & HI); try reflexivity.
  rewrite Er. f_equal. destruct r as [|j r]; [reflexivity|]. exfalso. destruct (proj1 (HI j)) as [_ F]; [left; reflexivity|]. rewrite !nth_repeat' in F. rewrite flag_zeros in F. discriminate.
Qed.
Lemma rmean_scale c (l : list R) : rmean (map (Rmult c) l) = (c * rmean l)%R.
Proof. unfold rmean. rewrite map_length. assert (E : Rsum (map (Rmult c) l) = (c * Rsum l)%R) by (induction l as [|a l IH]; cbn; [ring | rewrite IH; ring]). rewrite E. unfold Rdiv. ring. Qed.
Lemma spherical_large_unit (l : list R) i (m : XR) : (2 <= length l)%nat ->
  exists c0, (0 < c0)%R /\ forall c, (0 < c <= c0)%R -> spherical_phasespace_thresholding (fins (map (Rmult c) l)) i m = Ok [].
Proof.
  intros Hn. destruct (abs_bound l) as (M & HM & H). set (K := (M + Rabs (rmean l))%R). assert (HK : (0 < K)%R) by (pose proof (Rabs_pos (rmean l)); unfold K; lra).
  exists (/ (20000 * K))%R. assert (HI : (0 < / (20000 * K))%R) by (apply Rinv_0_lt_compat; lra). split; [exact HI|].
  intros c [C1 C2]. apply spherical_faint; [rewrite map_length; exact Hn|]. intros x Hx. rewrite rmean_scale. apply in_map_iff in Hx. destruct Hx as (y & <- & Hy).
  rewrite <- Rmult_minus_distr_l, Rabs_mult, (Rabs_pos_eq c) by lra.
  assert (D : (Rabs (y - rmean l) <= K)%R) by (unfold Rminus; eapply Rle_trans; [apply Rabs_triang|]; rewrite Rabs_Ropp; specialize (H y Hy); unfold K; lra).
  apply Rle_trans with (/ (20000 * K) * K)%R; [apply Rmult_le_compat; try lra; apply Rabs_pos | right; field; lra].
Qed.

(** ** phasespace.py on records the rounding leaves alone *)
Definition ps_scaled (c : R) (p : ps_params XR) : ps_params XR :=
  {| p_std_c := xsc c (p_std_c p) : XR; p_std_dc := xsc c (p_std_dc p) : XR; p_std_dc2 := xsc c (p_std_dc2 p) : XR; p_lambda := p_lambda p; p_theta := p_theta p;
     p_a1 := xsc c (p_a1 p) : XR; p_b1 := xsc c (p_b1 p) : XR; p_a2 := xsc c (p_a2 p) : XR; p_b2 := xsc c (p_b2 p) : XR; p_a3 := xsc c (p_a3 p) : XR; p_b3 := xsc c (p_b3 p) : XR |}.
Lemma ps_params_sc c (Hc : (0 < c)%R) (x dx dx2 : list XR) : x <> [] -> dx <> [] -> dx2 <> [] -> length x = length dx2 ->
  ps_parameters (msc c x) (msc c dx) (msc c dx2) = (let* p := ps_parameters x dx dx2 in Ok (ps_scaled c p)).
Proof.
  intros H1 H2 H3 HL. unfold ps_parameters.
  assert (M : forall l : list XR, l <> [] -> msc c l <> []) by (intros [|]; cbn; congruence).
  rewrite !spread_std_farr by auto. cbn [bind]. rewrite !(np_std_sc c) by exact Hc. rewrite (prods_sc c Hc). rewrite !bcast_same by exact HL. cbn [bind].
  rewrite zlen_map, (sumsq_sc c), (theta_sc c) by exact Hc. f_equal. unfold ps_scaled. cbn [p_std_c p_std_dc p_std_dc2 p_lambda p_theta p_a1 p_b1 p_a2 p_b2 p_a3 p_b3].
  cbn [nmul nsub ndiv nipow nsqrt XR]. rewrite !(sc_mul_r c), !(sc_ipow2 c), !(sc_mul_l (c * c)) by (try apply sq_pos; exact Hc).
  rewrite !(sc_sub (c * c)) by (apply sq_pos, Hc). rewrite !(sc_sqrt c) by exact Hc. rewrite !(sc_div_l c) by exact Hc. reflexivity.
Qed.
Lemma rho_at_sc c (Hc : (0 < c)%R) (theta a b x y : XR) : rho_at theta (xsc c a : XR) (xsc c b : XR) (xsc c x : XR) (xsc c y : XR) = rho_at theta a b x y.
Proof.
  unfold rho_at. cbn [nadd nsub nmul ndiv XR]. rewrite !(sc_mul_l c) by exact Hc. rewrite (sc_add c), (sc_sub c) by exact Hc. rewrite !(sc_div c) by exact Hc. reflexivity.
Qed.
Lemma zipwith_sc c (f g : XR -> XR -> XR) x y : (forall a b, f (xsc c a) (xsc c b) = g a b) -> zipwith f (msc c x) (msc c y) = zipwith g x y.
Proof. intros H. rewrite zipwith_map. unfold zipwith. apply map_ext. intros [a b]. apply H. Qed.
Lemma nth_grid step l i : grid_of step l -> exists k : Z, nth i l 0%R = (IZR k * step)%R.
Proof. intros H. destruct (nth_in_or_default i l 0%R) as [Hi|E]; [apply H, Hi | exists 0; rewrite E; ring]. Qed.
Lemma round4_grid k : round_dec 4 (IZR k * / 10000) = (IZR k * / 10000)%R.
Proof. rewrite (round4_at _ k); [unfold Rdiv; reflexivity|]. replace (IZR k * / 10000 * 10000 - IZR k)%R with 0%R by field. rewrite Rabs_R0. lra. Qed.
Lemma central_grid (j : Z) (l : list R) : grid_of (IZR (2 * j) * / 10000) l ->
  rcentral (round_dec 4) l = rcentral (fun x => x) l /\ grid_of (IZR j * / 10000) (rcentral (round_dec 4) l).
Proof.
  intros H.
  assert (D : forall a b, round_dec 4 ((nth a l 0%R - nth b l 0%R) / 2)%R = ((nth a l 0 - nth b l 0) / 2)%R /\ exists k : Z, ((nth a l 0 - nth b l 0) / 2)%R = (IZR k * (IZR j * / 10000))%R).
  { intros a b. destruct (nth_grid _ l a H) as [p Hp], (nth_grid _ l b H) as [q Hq].
    assert (E : ((nth a l 0 - nth b l 0) / 2)%R = (IZR (p - q) * (IZR j * / 10000))%R) by (rewrite Hp, Hq, mult_IZR, minus_IZR; lra).
    split; [|exists (p - q); exact E]. rewrite E, <- Rmult_assoc, <- mult_IZR. apply round4_grid. }
  split.
  - unfold rcentral. apply map_ext. intros i. destruct (_ && _)%bool; [apply D | reflexivity].
  - intros x Hx. unfold rcentral in Hx. apply in_map_iff in Hx. destruct Hx as (i & <- & _). destruct (_ && _)%bool; [|exists 0; ring].
    rewrite (proj1 (D _ _)). apply D.
Qed.
Lemma rcentral_scale c l : rcentral (fun x => x) (map (Rmult c) l) = map (Rmult c) (rcentral (fun x => x) l).
Proof.
  unfold rcentral. rewrite map_map, map_length. apply map_ext. intros i.
  assert (E : forall k, nth k (map (Rmult c) l) 0%R = (c * nth k l 0)%R).
  { intros k. replace 0%R with (c * 0)%R at 1 by ring. apply map_nth. }
  destruct (_ && _)%bool; [rewrite !E; unfold Rdiv; ring | ring].
Qed.
Lemma fins_scale c l : fins (map (Rmult c) l) = msc c (fins l).
Proof. unfold fins. rewrite !map_map. reflexivity. Qed.
Lemma phasespace_unit_pos (c : R) (l : list R) : (0 < c)%R -> grid_of (4 / 10000) l -> grid_of (4 / 10000) (map (Rmult c) l) ->
  phasespace_thresholding DFloat (fins (map (Rmult c) l)) = phasespace_thresholding DFloat (fins l).
Proof.
  intros Hc G1 G2. destruct l as [|l0 l'] eqn:El; [reflexivity|]. rewrite <- El in *. assert (Hne : l <> []) by (rewrite El; discriminate). clear El l0 l'.
  change (4 / 10000)%R with (IZR (2 * 2) * / 10000)%R in G1, G2.
  destruct (central_grid 2 l G1) as [A1 B1]. destruct (central_grid 2 _ G2) as [A2 B2].
  change 2 with (2 * 1) in B1, B2. destruct (central_grid 1 _ B1) as [A3 _]. destruct (central_grid 1 _ B2) as [A4 _].
  set (dc := rcentral (round_dec 4) l) in *. set (dc' := rcentral (round_dec 4) (map (Rmult c) l)) in *.
  set (dc2 := rcentral (round_dec 4) dc) in *. set (dc2' := rcentral (round_dec 4) dc') in *.
  assert (E1 : dc' = map (Rmult c) dc) by (rewrite A1, A2; apply rcentral_scale).
  assert (E2 : dc2' = map (Rmult c) dc2) by (rewrite A3, A4, E1; apply rcentral_scale).
  assert (D : forall k, ps_derivatives DFloat (fins k) = Ok (fins (rcentral (round_dec 4) k), fins (rcentral (round_dec 4) (rcentral (round_dec 4) k)))).
  { intros k. unfold ps_derivatives. rewrite (central_fins (round_dec 4)) by (intros; apply around_fin). cbn [bind].
    replace (length (fins k)) with (length (fins (rcentral (round_dec 4) k))) by (rewrite !fins_length; apply rcentral_length).
    rewrite (central_fins (round_dec 4)) by (intros; apply around_fin). reflexivity. }
  assert (L1 : length dc = length l) by apply rcentral_length.
  assert (L2 : length dc2 = length l) by (unfold dc2; rewrite rcentral_length; exact L1).
  assert (N1 : forall k : list R, length k = length l -> fins k <> []) by (intros [|? k] Hk; [destruct l; [congruence | discriminate] | discriminate]).
  unfold phasespace_thresholding. rewrite !D. cbn [bind]. fold dc dc2 dc'. fold dc2'. rewrite E1, E2, !fins_scale.
  rewrite ps_params_sc; [| exact Hc | apply N1; reflexivity | apply N1, L1 | apply N1, L2 | rewrite !fins_length; congruence].
  destruct (ps_parameters (fins l) (fins dc) (fins dc2)) as [p|e]; cbn [bind]; [|reflexivity].
  rewrite !rho_num by (rewrite ?map_length, !fins_length; congruence). unfold ps_scaled. cbn [p_theta p_a1 p_b1 p_a2 p_b2 p_a3 p_b3 bind].
  rewrite !(zipwith_sc c _ _ _ _ (fun x y => rho_at_sc c Hc _ _ _ x y)). reflexivity.
Qed.
Lemma phasespace_unit (c : R) (l : list R) : c <> 0%R -> grid_of (4 / 10000) l -> grid_of (4 / 10000) (map (Rmult c) l) ->
  phasespace_thresholding DFloat (fins (map (Rmult c) l)) = phasespace_thresholding DFloat (fins l).
Proof.
  intros H G1 G2. destruct (Rlt_le_dec 0 c) as [P|P]; [apply phasespace_unit_pos; assumption|].
  assert (E : fins (map (Rmult c) l) = map nopp (fins (map (Rmult (- c)) l))).
  { unfold fins. rewrite !map_map. apply map_ext. intros x. cbn. f_equal. ring. }
  rewrite E, phasespace_sign. apply phasespace_unit_pos; [lra | exact G1|].
  intros x Hx. apply in_map_iff in Hx. destruct Hx as (y & <- & Hy). destruct (G2 (c * y)%R) as [k Hk]; [apply in_map, Hy|]. exists (- k). rewrite opp_IZR. lra.
Qed.
Lemma phasespace_unit_refuted : exists (l : list R) (c : R), (0 < c)%R /\
  phasespace_thresholding DFloat (fins l) = Ok [0; 1; 2; 3] /\ phasespace_thresholding DFloat (fins (map (Rmult c) l)) = Ok [].
Proof.
  destruct offset_example as (H1 & H2 & H3 & H4). destruct (phasespace_large_unit DFloat [10; 10; 14; 12]%R) as (c0 & P & Q); [discriminate|].
  exists [10; 10; 14; 12]%R, c0. split; [exact P|]. split; [exact (phasespace_offset _ H1 H2 H3 H4) | apply Q; lra].
Qed.
Lemma unit_example : let l := [10; 10; 14; 12]%R in grid_of (4 / 10000) l /\ grid_of (4 / 10000) (map (Rmult (-7 / 2)) l) /\
  phasespace_thresholding DFloat (fins (map (Rmult (-7 / 2)) l)) = Ok [0; 1; 2; 3].
Proof.
  intros l.
  assert (G1 : grid_of (4 / 10000) l) by (intros x [<-|[<-|[<-|[<-|[]]]]]; [exists 25000 | exists 25000 | exists 35000 | exists 30000]; lra).
  assert (G2 : grid_of (4 / 10000) (map (Rmult (-7 / 2)) l)) by (intros x [<-|[<-|[<-|[<-|[]]]]]; [exists (-87500) | exists (-87500) | exists (-122500) | exists (-105000)]; lra).
  split; [exact G1|]. split; [exact G2|]. rewrite phasespace_unit by (assumption || lra).
  destruct offset_example as (H1 & H2 & H3 & H4). exact (phasespace_offset _ H1 H2 H3 H4).
Qed.
Lemma still_example : let l := (map (fun k => IZR k / 10000000) [1; 2; 1; 3; 2; 1; 90; 2; 3; 1]%Z)%R in still l /\ faint l.
Proof.
  intros l. split.
  - intros i Hi Hl. change (length l) with 10%nat in Hl. unfold l.
    do 9 (destruct i as [|i]; [try lia; cbn; apply Rabs_le; lra|]). lia.
  - assert (E : rmean l = (106 / 100000000)%R) by (unfold l, rmean; cbn; lra). intros x Hx. rewrite E. unfold l in Hx. cbn in Hx.
    repeat (destruct Hx as [<-|Hx]; [apply Rabs_le; lra|]). contradiction.
Qed.
