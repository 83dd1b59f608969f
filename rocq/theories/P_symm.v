(** Symmetries of the detectors: change of sign, time reversal, shifts, unused arguments. *)
From Coq Require Import Reals Lra Lia.
From Flocq Require Import Core.Raux Core.Generic_fmt Core.Round_NE.
From Verif Require Export P_sph P_corr.
Local Open Scope Z_scope.

(** ** Extended reals under negation *)
Local Notation mopp := (@map (car XR) (car XR) xopp).
Lemma ZnearestE_neg x : ZnearestE (- x) = - ZnearestE x.
Proof.
  rewrite Znearest_opp. f_equal. unfold Znearest. destruct (Rcompare (x - IZR (Zfloor x)) (/ 2)); try reflexivity.
  rewrite Bool.negb_involutive, Z.even_opp, Z.even_add. change (Z.even 1) with false. destruct (Z.even (Zfloor x)); reflexivity.
Qed.
Lemma xopp_opp (a : xr) : xopp (xopp a) = a.
Proof. destruct a as [x|s|]; cbn; [f_equal; ring | now rewrite Bool.negb_involutive | reflexivity]. Qed.
Lemma xneg_opp x : x <> 0%R -> xneg (- x) = negb (xneg x).
Proof.
  intros H. unfold xneg. destruct (Rlt_bool_spec (- x) 0), (Rlt_bool_spec x 0); try reflexivity; exfalso; lra.
Qed.
Lemma Req_bool_opp x : Req_bool (- x) 0 = Req_bool x 0.
Proof. destruct (Req_bool_spec (- x) 0), (Req_bool_spec x 0); try reflexivity; exfalso; lra. Qed.
Lemma xadd_opp (a b : xr) : xadd (xopp a) (xopp b) = xopp (xadd a b).
Proof. destruct a as [x|[]|], b as [y|[]|]; cbn; try reflexivity. f_equal. ring. Qed.
Lemma xsub_opp (a b : xr) : xsub (xopp a) (xopp b) = xopp (xsub a b).
Proof. destruct a as [x|[]|], b as [y|[]|]; cbn; try reflexivity. f_equal. ring. Qed.
Lemma xsub_swap (a b : xr) : xsub a b = xopp (xsub b a).
Proof. destruct a as [x|[]|], b as [y|[]|]; cbn; try reflexivity. f_equal. ring. Qed.
Lemma xsub_opp_r (a b : xr) : xsub a (xopp b) = xadd a b.
Proof. destruct a as [x|[]|], b as [y|[]|]; cbn; try reflexivity. f_equal. ring. Qed.
Lemma xadd_comm (a b : xr) : xadd a b = xadd b a.
Proof. destruct a as [x|[]|], b as [y|[]|]; cbn; try reflexivity. f_equal. ring. Qed.
Lemma xadd_assoc (a b c : xr) : xadd a (xadd b c) = xadd (xadd a b) c.
Proof. destruct a as [x|[]|], b as [y|[]|], c as [z|[]|]; cbn; try reflexivity. f_equal. ring. Qed.
Lemma xmul_comm (a b : xr) : xmul a b = xmul b a.
Proof. destruct a as [x|[]|], b as [y|[]|]; cbn; try reflexivity. f_equal. ring. Qed.
Lemma xmul_opp_l (a b : xr) : xmul (xopp a) b = xopp (xmul a b).
Proof.
  destruct a as [x|s|], b as [y|t|]; cbn; try reflexivity.
  - f_equal. ring.
  - rewrite Req_bool_opp. destruct (Req_bool_spec x 0) as [|H]; [reflexivity|]. cbn. rewrite xneg_opp by exact H. f_equal. destruct t, (xneg x); reflexivity.
  - destruct (Req_bool y 0); [reflexivity|]. cbn. f_equal. destruct s, (xneg y); reflexivity.
  - f_equal. destruct s, t; reflexivity.
Qed.
Lemma xmul_opp_r (a b : xr) : xmul a (xopp b) = xopp (xmul a b).
Proof. rewrite (xmul_comm a (xopp b)), xmul_opp_l, (xmul_comm b a). reflexivity. Qed.
Lemma xdiv_opp_l (a b : xr) : xdiv (xopp a) b = xopp (xdiv a b).
Proof.
  destruct a as [x|s|], b as [y|t|]; cbn; try reflexivity.
  - rewrite Req_bool_opp. destruct (Req_bool y 0).
    + destruct (Req_bool_spec x 0) as [|H]; [reflexivity|]. cbn. rewrite xneg_opp by exact H. reflexivity.
    + cbn. f_equal. unfold Rdiv. ring.
  - f_equal. ring.
  - f_equal. destruct s, (xneg y); reflexivity.
Qed.
Lemma xsq_opp (a : xr) : xmul (xopp a) (xopp a) = xmul a a.
Proof. rewrite xmul_opp_l, xmul_opp_r, xopp_opp. reflexivity. Qed.
Lemma xround_opp (a : XR) d : around (xopp a : XR) d = xopp (around a d).
Proof.
  unfold around. destruct (0 <=? d).
  - cbn [nmul ndiv XR]. rewrite xmul_opp_l. generalize (xmul a (nofZ (n := XR) (10 ^ d))). intros b.
    rewrite <- xdiv_opp_l. f_equal. destruct b as [x|s|]; cbn; try reflexivity. rewrite ZnearestE_neg, opp_IZR. reflexivity.
  - cbn [nmul ndiv XR]. rewrite xdiv_opp_l. generalize (xdiv a (nofZ (n := XR) (10 ^ (- d)))). intros b.
    rewrite <- xmul_opp_l. f_equal. destruct b as [x|s|]; cbn; try reflexivity. rewrite ZnearestE_neg, opp_IZR. reflexivity.
Qed.
Lemma xtrunc_opp (a : XR) : ntrunc (xopp a : XR) = xopp (ntrunc a).
Proof. destruct a as [x|s|]; cbn; try reflexivity. rewrite Ztrunc_opp, opp_IZR. reflexivity. Qed.
Lemma xstore_opp dt (a : XR) : store dt (xopp a : XR) = xopp (store dt a).
Proof. destruct dt; [reflexivity|] || idtac. all: cbn; try reflexivity; apply xtrunc_opp. Qed.
Lemma xcos_opp (a : XR) : ncos (xopp a : XR) = ncos a.
Proof. destruct a; cbn; try reflexivity. rewrite cos_neg. reflexivity. Qed.
Lemma xsin_opp (a : XR) : nsin (xopp a : XR) = xopp (nsin a).
Proof. destruct a; cbn; try reflexivity. rewrite sin_neg. reflexivity. Qed.
Lemma xatan_opp (a : XR) : natan (xopp a : XR) = xopp (natan a).
Proof. destruct a as [x|[]|]; cbn; try reflexivity; f_equal; [apply atan_opp | lra]. Qed.
Lemma xsum_opp (l : list XR) : xsum (mopp l) = xopp (xsum l).
Proof. induction l as [|a l IH]; [cbn; f_equal; ring|]. change (xadd (xopp a) (xsum (mopp l)) = xopp (xadd a (xsum l))). rewrite IH. apply xadd_opp. Qed.
Lemma xsum_app (l k : list XR) : xsum (l ++ k) = xadd (xsum l) (xsum k).
Proof.
  induction l as [|a l IH].
  - cbn. change (fold_right xadd (Fin 0) k) with (xsum k). destruct (xsum k) as [x|[]|]; cbn; try reflexivity. f_equal. ring.
  - change (xadd a (xsum (l ++ k)) = xadd (xadd a (xsum l)) (xsum k)). rewrite IH. apply xadd_assoc.
Qed.
Lemma xsum_rev (l : list XR) : xsum (rev l) = xsum l.
Proof.
  induction l as [|a l IH]; [reflexivity|]. cbn [rev]. rewrite xsum_app. change (xsum (a :: l)) with (xadd a (xsum l)).
  change (car XR) with xr in *. rewrite IH, xadd_comm. f_equal. destruct a as [x|[]|]; cbn; try reflexivity. f_equal. ring.
Qed.

(** ** Means and deviations *)
Lemma sq_opp (a : XR) : sq (xopp a : XR) = sq a.
Proof. apply xsq_opp. Qed.
Lemma zlen_map {A B} (f : A -> B) l : zlen (map f l) = zlen l.
Proof. unfold zlen. rewrite map_length. reflexivity. Qed.
Lemma zlen_rev {A} (l : list A) : zlen (rev l) = zlen l.
Proof. unfold zlen. rewrite rev_length. reflexivity. Qed.
Lemma np_mean_opp (l : list XR) : np_mean (mopp l) = xopp (np_mean l).
Proof. unfold np_mean. rewrite zlen_map. cbn [nsum XR]. rewrite xsum_opp. apply xdiv_opp_l. Qed.
Lemma np_mean_rev (l : list XR) : np_mean (rev l) = np_mean l.
Proof. unfold np_mean. rewrite zlen_rev. cbn [nsum XR]. rewrite xsum_rev. reflexivity. Qed.
Lemma np_std_opp (l : list XR) : np_std (mopp l) = np_std l.
Proof.
  unfold np_std, np_var. rewrite np_mean_opp. rewrite map_map. do 2 f_equal. apply map_ext. intros a. cbn [nsub XR]. rewrite xsub_opp. apply sq_opp.
Qed.
Lemma np_std_rev (l : list XR) : np_std (rev l) = np_std l.
Proof. unfold np_std, np_var. rewrite np_mean_rev, map_rev, np_mean_rev. reflexivity. Qed.
Lemma nth_opp i (l : list XR) : nth i (mopp l) (Fin 0) = xopp (nth i l (Fin 0)).
Proof. rewrite <- (map_nth xopp). cbn. f_equal. f_equal. ring. Qed.
Lemma list_ext {A} (l k : list A) d : length l = length k -> (forall i, 0 <= i < zlen k -> nth (Z.to_nat i) l d = nth (Z.to_nat i) k d) -> l = k.
Proof.
  intros H E. apply (nth_ext _ _ d d); [exact H|]. intros n Hn. specialize (E (Z.of_nat n)). rewrite Nat2Z.id in E. apply E. unfold zlen. lia.
Qed.
Lemma zipwith_opp2 (f : XR -> XR -> XR) x y : (forall a b, f (xopp a) (xopp b) = f a b) -> zipwith f (mopp x) (mopp y) = zipwith f x y.
Proof. intros H. rewrite zipwith_map. unfold zipwith. apply map_ext. intros [a b]. apply H. Qed.

(** ** phasespace.py: change of sign *)
Lemma central_opp dt (c : list XR) r : central_loop (fun x => around x 4) dt c (repeat (nofZ 0) (length c)) = Ok r ->
  central_loop (N := XR) (fun x => around x 4) dt (mopp c) (repeat (@nofZ XR 0) (length c)) = Ok (mopp r).
Proof.
  intros E. destruct (central_loop_gen XR (fun x => around x 4) dt c (Fin 0)) as (r1 & E1 & L1 & H1). rewrite E in E1. injection E1 as <-.
  destruct (central_loop_gen XR (fun x => around x 4) dt (mopp c) (Fin 0)) as (r2 & E2 & L2 & H2).
  rewrite map_length in E2, L2. rewrite E2. f_equal. apply (list_ext _ _ (Fin 0)); [rewrite map_length; etransitivity; [exact L2 | symmetry; exact L1]|]. intros i Hi.
  assert (Hi' : 0 <= i < zlen c) by (rewrite zlen_map in Hi; unfold zlen in *; rewrite L1 in Hi; exact Hi).
  rewrite H2 by (rewrite zlen_map; exact Hi'). rewrite !nth_opp, H1 by exact Hi'. rewrite zlen_map.
  destruct ((0 <? i) && (i <? zlen c - 1))%bool.
  - cbn [nsub ndiv XR]. rewrite xsub_opp, xdiv_opp_l, xround_opp, xstore_opp. reflexivity.
  - cbn. f_equal. ring.
Qed.
Lemma ps_params_opp (c dc dc2 : list XR) : c <> [] -> dc <> [] -> dc2 <> [] -> length c = length dc2 ->
  ps_parameters (mopp c) (mopp dc) (mopp dc2) = ps_parameters c dc dc2.
Proof.
  intros H1 H2 H3 HL. unfold ps_parameters.
  assert (M : forall l : list XR, l <> [] -> mopp l <> []) by (intros [|]; cbn; congruence).
  rewrite !spread_std_farr by auto. cbn [bind]. rewrite !np_std_opp. rewrite !bcast_same by (rewrite ?map_length; exact HL). cbn [bind].
  rewrite zlen_map, map_map. rewrite (map_ext (fun x : XR => sq (xopp x : XR)) sq sq_opp).
  rewrite (zipwith_opp2 nmul); [reflexivity|]. intros a b. cbn. rewrite xmul_opp_l, xmul_opp_r, xopp_opp. reflexivity.
Qed.
Lemma rho_at_opp (theta a b x y : XR) : rho_at theta a b (xopp x : XR) (xopp y : XR) = rho_at theta a b x y.
Proof.
  unfold rho_at. cbn [nadd nsub nmul ndiv XR]. rewrite !xmul_opp_l, xadd_opp, xsub_opp, !xdiv_opp_l.
  f_equal; apply sq_opp.
Qed.
Lemma phasespace_sign dt (c : list XR) : phasespace_thresholding dt (map nopp c) = phasespace_thresholding dt c.
Proof.
  change (@nopp XR) with xopp. destruct c as [|c0 c']; [reflexivity|]. set (c := c0 :: c').
  destruct (central_loop_gen XR (fun x => around x 4) dt c (Fin 0)) as (dc & E1 & L1 & _).
  destruct (central_loop_gen XR (fun x => around x 4) dt dc (Fin 0)) as (dc2 & E2 & L2 & _).
  assert (F1 := central_opp dt c dc E1). assert (F2 := central_opp dt dc dc2 E2). rewrite L1 in E2. rewrite L1 in F2.
  unfold phasespace_thresholding, ps_derivatives. rewrite (@map_length (car XR) (car XR) xopp c), F1, E1. cbn [bind]. rewrite F2, E2. cbn [bind].
  rewrite ps_params_opp.
  - destruct (ps_parameters c dc dc2) as [p|e]; cbn [bind]; [|reflexivity].
    rewrite !rho_num by (rewrite ?map_length; congruence). rewrite !zipwith_opp2 by (intros; apply rho_at_opp). reflexivity.
  - discriminate.
  - destruct dc; [discriminate L1 | discriminate].
  - destruct dc2; [|discriminate]. destruct dc; [discriminate L1 | discriminate L2].
  - congruence.
Qed.

(** ** correlation.py: change of sign of one component *)
Lemma fluct_opp (u : list XR) : fluct (mopp u) = (let* r := fluct u in Ok (mopp r)).
Proof.
  destruct u as [|u0 u']; [reflexivity|]. set (u := u0 :: u'). unfold fluct.
  rewrite !mean_num_ne by (subst u; discriminate). cbn [bind]. rewrite np_mean_opp, !map_map. f_equal. apply map_ext. intros a. apply xsub_opp.
Qed.
Lemma std_opp (u : list XR) : spread_std (farr (mopp u)) = spread_std (farr u).
Proof. destruct u as [|u0 u']; [reflexivity|]. rewrite !spread_std_farr by discriminate. rewrite np_std_opp. reflexivity. Qed.
Lemma bcast_map_l {A A' B C} (f : A -> B -> C) (g : A' -> A) a b : bcast f (map g a) b = bcast (fun x y => f (g x) y) a b.
Proof.
  unfold bcast. rewrite map_length. destruct (length a =? length b)%nat.
  - f_equal. rewrite <- (map_id b) at 1. apply zipwith_map.
  - destruct a as [|a0 [|a1 a]]; cbn [map]; try reflexivity. destruct b as [|b0 [|b1 b]]; try reflexivity. cbn. rewrite map_map. reflexivity.
Qed.
Lemma bcast_map_r {A B B' C} (f : A -> B -> C) (g : B' -> B) a b : bcast f a (map g b) = bcast (fun x y => f x (g y)) a b.
Proof.
  unfold bcast. rewrite map_length. destruct (length a =? length b)%nat.
  - f_equal. rewrite <- (map_id a) at 1. apply zipwith_map.
  - destruct a as [|a0 [|a1 a]]; destruct b as [|b0 [|b1 b]]; cbn [map]; try reflexivity. rewrite map_map. reflexivity.
Qed.
Lemma bcast_post {A B C D} (f : A -> B -> C) (k : C -> D) a b : bcast (fun x y => k (f x y)) a b = (let* r := bcast f a b in Ok (map k r)).
Proof.
  unfold bcast. destruct (length a =? length b)%nat.
  - cbn [bind]. rewrite map_zipwith. reflexivity.
  - destruct a as [|a0 [|a1 a]]; destruct b as [|b0 [|b1 b]]; cbn [bind]; rewrite ?map_map; reflexivity.
Qed.
Lemma bcast_ext {A B C} (f g : A -> B -> C) a b : (forall x y, f x y = g x y) -> bcast f a b = bcast g a b.
Proof.
  intros H. unfold bcast. destruct (length a =? length b)%nat; [f_equal; unfold zipwith; apply map_ext; intros []; apply H|].
  destruct a as [|a0 [|a1 a]]; destruct b as [|b0 [|b1 b]]; try reflexivity; f_equal; apply map_ext; intros; apply H.
Qed.

Lemma xipow2_opp (a : XR) : nipow (xopp a : XR) 2 = nipow a 2.
Proof. cbn. rewrite !xmul_opp_l, xmul_opp_r, xopp_opp. reflexivity. Qed.
Lemma xipow4_opp (a : XR) : nipow (xopp a : XR) 4 = nipow a 4.
Proof. cbn. rewrite !xmul_opp_l, !xmul_opp_r, !xopp_opp. reflexivity. Qed.
Lemma ab_opp (s1 s2 theta lam : XR) : calculate_ab s1 s2 (xopp theta : XR) lam = calculate_ab s1 s2 theta lam.
Proof. unfold calculate_ab. rewrite xcos_opp, xsin_opp, xipow2_opp, xipow4_opp. reflexivity. Qed.
Lemma scale_opp_l (k : XR) (l : list XR) : map (fun v => nmul v k) (mopp l) = mopp (map (fun v => nmul v k) l).
Proof. rewrite !map_map. apply map_ext. intros v. apply xmul_opp_l. Qed.
Lemma scale_opp_r (k : XR) (l : list XR) : map (fun v => nmul v (xopp k : XR)) l = mopp (map (fun v => nmul v k) l).
Proof. rewrite map_map. apply map_ext. intros v. apply xmul_opp_r. Qed.
Lemma mopp_mopp (l : list XR) : mopp (mopp l) = l.
Proof. rewrite map_map. rewrite <- (map_id l) at 2. apply map_ext. intros a. apply xopp_opp. Qed.
Lemma bcast_opp (f : XR -> XR -> XR) (x y : list XR) : (forall a b, f (xopp a) (xopp b) = xopp (f a b)) ->
  bcast f (mopp x) (mopp y) = (let* r := bcast f x y in Ok (mopp r)).
Proof. intros H. rewrite bcast_map_l, bcast_map_r, <- bcast_post. apply bcast_ext. exact H. Qed.
Lemma rho_opp_l (x y : list XR) (theta a : XR) b : calculate_rho (mopp x) y (xopp theta : XR) a b = calculate_rho x y theta a b.
Proof.
  unfold calculate_rho. rewrite xcos_opp, xsin_opp, !scale_opp_l, !scale_opp_r, !mopp_mopp.
  rewrite (bcast_opp nadd) by apply xadd_opp.
  destruct (bcast nadd _ _) as [xp|e]; cbn [bind]; [|reflexivity].
  destruct (bcast nsub _ _) as [yp|e]; cbn [bind]; [|reflexivity].
  destruct (match b with BNum b0 => _ | BPair b1 b2 => _ end) as [q|e]; cbn [bind]; [|reflexivity].
  f_equal. rewrite map_map. apply map_ext. intros v. cbn [ndiv XR]. rewrite xdiv_opp_l. apply sq_opp.
Qed.
Lemma rho_opp_r (x y : list XR) (theta a : XR) b : calculate_rho x (mopp y) (xopp theta : XR) a b = calculate_rho x y theta a b.
Proof.
  unfold calculate_rho. rewrite xcos_opp, xsin_opp, !scale_opp_l, !scale_opp_r, !mopp_mopp.
  destruct (bcast nadd _ _) as [xp|e]; cbn [bind]; [|reflexivity].
  rewrite (bcast_opp nsub) by apply xsub_opp.
  destruct (bcast nsub _ _) as [yp|e]; cbn [bind]; [|reflexivity].
  destruct b as [b|b1 b2].
  - cbn [bind]. f_equal. rewrite !map_map. apply map_ext. intros v. cbn [ndiv XR]. rewrite xdiv_opp_l. apply sq_opp.
  - rewrite bcast_map_l. rewrite (bcast_ext _ (fun p q : XR => xopp (ndiv p q) : XR)) by (intros; apply xdiv_opp_l). rewrite bcast_post.
    destruct (bcast ndiv _ _) as [q|e]; cbn [bind]; [|reflexivity]. f_equal. rewrite map_map. apply map_ext, sq_opp.
Qed.
Lemma prods_opp_l (u v : list XR) : bcast nmul (mopp u) v = (let* r := bcast nmul u v in Ok (mopp r)).
Proof. rewrite bcast_map_l, <- bcast_post. apply bcast_ext. intros. apply xmul_opp_l. Qed.
Lemma prods_opp_r (u v : list XR) : bcast nmul u (mopp v) = (let* r := bcast nmul u v in Ok (mopp r)).
Proof. rewrite bcast_map_r, <- bcast_post. apply bcast_ext. intros. apply xmul_opp_r. Qed.
Lemma theta_opp (p : list XR) (q : XR) : natan (ndiv (nsum (mopp p)) q) = xopp (natan (ndiv (nsum p) q)).
Proof. cbn [nsum ndiv XR]. rewrite xsum_opp, xdiv_opp_l. apply xatan_opp. Qed.
Lemma sumsq_opp (u : list XR) : nsum (map sq (mopp u)) = nsum (map sq u).
Proof. rewrite map_map, (map_ext (fun x : XR => sq (xopp x : XR)) sq sq_opp). reflexivity. Qed.
Ltac corr_step :=
  match goal with
  | |- (let* x := ?m in _) = (let* x := ?m in _) => destruct m as [?|?]; cbn [bind]; [|reflexivity]
  | |- (let* x := (let* y := ?m in _) in _) = (let* x := ?m in _) => destruct m as [?|?]; cbn [bind]; [|reflexivity]
  end.
Lemma correlation_sign (u v w : list XR) :
  velocity_correlation (map nopp u) v w = velocity_correlation u v w /\
  velocity_correlation u (map nopp v) w = velocity_correlation u v w /\
  velocity_correlation u v (map nopp w) = velocity_correlation u v w.
Proof.
  change (@nopp XR) with xopp. split; [|split]; unfold velocity_correlation; rewrite fluct_opp.
  - repeat corr_step.  rewrite std_opp. repeat corr_step. rewrite zlen_map, !prods_opp_l, sumsq_opp.
    repeat corr_step. rewrite !theta_opp, !ab_opp. 
    repeat (match goal with |- context [let (_, _) := ?c in _] => destruct c end). rewrite !rho_opp_l. reflexivity.
  - repeat corr_step. rewrite std_opp. repeat corr_step. rewrite !prods_opp_r, !prods_opp_l, sumsq_opp.
    repeat corr_step. rewrite !theta_opp, !ab_opp. 
    repeat (match goal with |- context [let (_, _) := ?c in _] => destruct c end). rewrite rho_opp_r, rho_opp_l. reflexivity.
  - repeat corr_step. rewrite std_opp. repeat corr_step. rewrite !prods_opp_r.
    repeat corr_step. rewrite !theta_opp, !ab_opp. 
    repeat (match goal with |- context [let (_, _) := ?c in _] => destruct c end). rewrite !rho_opp_r. reflexivity.
Qed.

(** ** phasespace.py: time reversal *)
Lemma nth_rev_z {A} (l : list A) i d : 0 <= i < zlen l -> nth (Z.to_nat i) (rev l) d = nth (Z.to_nat (zlen l - 1 - i)) l d.
Proof. intros H. unfold zlen in *. rewrite rev_nth by lia. f_equal. lia. Qed.
Lemma zipwith_app {A B C} (f : A -> B -> C) a b a' b' : length a = length b -> zipwith f (a ++ a') (b ++ b') = zipwith f a b ++ zipwith f a' b'.
Proof.
  unfold zipwith. revert b. induction a as [|x a IH]; intros [|y b] H; cbn in *; try discriminate; [reflexivity|]. f_equal. apply IH. lia.
Qed.
Lemma zipwith_rev {A B C} (f : A -> B -> C) a b : length a = length b -> zipwith f (rev a) (rev b) = rev (zipwith f a b).
Proof.
  revert b. induction a as [|x a IH]; intros [|y b] H; cbn in H; try discriminate; [reflexivity|].
  cbn [rev]. rewrite zipwith_app by (rewrite !rev_length; lia). rewrite IH by lia. reflexivity.
Qed.
Lemma central_rev dt (c : list XR) r : central_loop (fun x => around x 4) dt c (repeat (nofZ 0) (length c)) = Ok r ->
  central_loop (N := XR) (fun x => around x 4) dt (rev c) (repeat (@nofZ XR 0) (length c)) = Ok (rev (mopp r)).
Proof.
  intros E. destruct (central_loop_gen XR (fun x => around x 4) dt c (Fin 0)) as (r1 & E1 & L1 & H1). rewrite E in E1. injection E1 as <-.
  destruct (central_loop_gen XR (fun x => around x 4) dt (rev c) (Fin 0)) as (r2 & E2 & L2 & H2).
  rewrite rev_length in E2, L2. rewrite E2. f_equal.
  apply (list_ext _ _ (Fin 0)); [rewrite rev_length, map_length; etransitivity; [exact L2 | symmetry; exact L1]|]. intros i Hi.
  assert (Hr : zlen r = zlen c) by (unfold zlen; rewrite L1; reflexivity).
  assert (Hi' : 0 <= i < zlen c) by (rewrite zlen_rev, zlen_map in Hi; rewrite <- Hr; exact Hi).
  rewrite H2 by (rewrite zlen_rev; exact Hi'). rewrite (nth_rev_z (mopp r)) by (rewrite zlen_map, Hr; exact Hi').
  rewrite nth_opp. rewrite zlen_map, Hr, H1 by lia. rewrite zlen_rev.
  replace ((0 <? zlen c - 1 - i) && (zlen c - 1 - i <? zlen c - 1))%bool with ((0 <? i) && (i <? zlen c - 1))%bool.
  2: { destruct (Z.ltb_spec 0 i), (Z.ltb_spec i (zlen c - 1)), (Z.ltb_spec 0 (zlen c - 1 - i)), (Z.ltb_spec (zlen c - 1 - i) (zlen c - 1)); cbn; try reflexivity; lia. }
  destruct (Z.ltb_spec 0 i), (Z.ltb_spec i (zlen c - 1)); cbn [andb]; try (cbn; f_equal; ring).
  rewrite !nth_rev_z by lia. replace (zlen c - 1 - (i + 1)) with (zlen c - 1 - i - 1) by lia. replace (zlen c - 1 - (i - 1)) with (zlen c - 1 - i + 1) by lia.
  cbn [nsub ndiv XR]. rewrite xsub_swap, xdiv_opp_l, xround_opp, xstore_opp. reflexivity.
Qed.
Lemma ps_params_rev (c dc dc2 : list XR) : c <> [] -> dc <> [] -> dc2 <> [] -> length c = length dc2 ->
  ps_parameters (rev c) (rev (mopp dc)) (rev dc2) = ps_parameters c dc dc2.
Proof.
  intros H1 H2 H3 HL. unfold ps_parameters.
  assert (M : forall l : list XR, l <> [] -> rev l <> []) by (intros [|a l] H E; [congruence|]; apply (f_equal (@length _)) in E; rewrite rev_length in E; discriminate).
  assert (M' : mopp dc <> []) by (destruct dc; cbn; congruence).
  rewrite !spread_std_farr by auto. cbn [bind]. rewrite !np_std_rev, np_std_opp. rewrite !bcast_same by (rewrite ?rev_length; exact HL). cbn [bind].
  rewrite zlen_rev, map_rev, zipwith_rev by exact HL. cbn [nsum XR]. rewrite !xsum_rev. reflexivity.
Qed.
Lemma xmul_0 (x : xr) : xmul x (Fin 0) = Fin 0 \/ xmul x (Fin 0) = NaN.
Proof. destruct x as [x|s|]; cbn; [left; f_equal; ring | right | now right]. destruct (Req_bool_spec 0 0); [reflexivity | congruence]. Qed.
Lemma xmul_0_opp (x : xr) : xopp (xmul x (Fin 0)) = xmul x (Fin 0).
Proof. destruct (xmul_0 x) as [-> | ->]; cbn; [f_equal; ring | reflexivity]. Qed.
Lemma rho_at_opp_r (a b x y : XR) : rho_at (nofZ 0) a b x (xopp y : XR) = rho_at (nofZ 0) a b x y.
Proof.
  unfold rho_at. cbn [nadd nsub nmul ndiv XR nofZ ncos nsin xlift]. rewrite sin_0. rewrite !xmul_opp_l.
  rewrite (xmul_0_opp y). f_equal. rewrite <- (xmul_0_opp x) at 1. rewrite xsub_opp, xdiv_opp_l. apply sq_opp.
Qed.
Lemma rho_at_opp_l (a b x y : XR) : rho_at (nofZ 0) a b (xopp x : XR) y = rho_at (nofZ 0) a b x y.
Proof.
  rewrite <- (rho_at_opp_r a b (xopp x : XR) y). apply rho_at_opp.
Qed.
Lemma mirror_sorted n (l : list Z) : StronglySorted Z.lt l -> StronglySorted Z.lt (rev (map (fun i => n - i) l)).
Proof.
  induction l as [|a l IH]; intros H; [constructor|]. inversion H as [|? ? H1 H2]; subst. cbn [map rev].
  assert (G : forall (k : list Z) b, StronglySorted Z.lt k -> (forall x, In x k -> x < b) -> StronglySorted Z.lt (k ++ [b])).
  { clear. induction k as [|x k IH]; intros b HS HI; cbn; [repeat constructor|]. inversion HS; subst. constructor.
    - apply IH; [assumption | intros; apply HI; right; assumption].
    - apply Forall_app. split; [assumption|]. constructor; [apply HI; left; reflexivity | constructor]. }
  apply G; [apply IH; exact H1|]. intros x Hx. apply in_rev in Hx. apply in_map_iff in Hx. destruct Hx as (y & <- & Hy).
  rewrite Forall_forall in H2. specialize (H2 y Hy). lia.
Qed.
Lemma union_rev (N : Num) (r1 r2 r3 : list N) n (d : N) : zlen r1 = n -> zlen r2 = n -> zlen r3 = n ->
  union_above_one (rev r1) (rev r2) (rev r3) = rev (map (fun i => n - 1 - i) (union_above_one r1 r2 r3)).
Proof.
  intros H1 H2 H3.
  destruct (in_union_above N r1 r2 r3 n d H1 H2 H3) as [S I].
  destruct (in_union_above N (rev r1) (rev r2) (rev r3) n d) as [S' I']; try (rewrite zlen_rev; assumption).
  apply sorted_ext; [exact S' | apply mirror_sorted; exact S|]. intros i. rewrite I', <- in_rev, in_map_iff. split.
  - intros [Hi H]. exists (n - 1 - i). split; [lia|]. apply I. split; [lia|].
    rewrite (nth_rev_z r1), (nth_rev_z r2), (nth_rev_z r3), H1, H2, H3 in H by lia. exact H.
  - intros (j & <- & Hj). apply I in Hj. destruct Hj as [Hj H]. split; [lia|].
    rewrite (nth_rev_z r1), (nth_rev_z r2), (nth_rev_z r3), H1, H2, H3 by lia. replace (n - 1 - (n - 1 - j)) with j by lia. exact H.
Qed.
Lemma phasespace_reverse dt (c : list XR) r : phasespace_thresholding dt c = Ok r ->
  phasespace_thresholding dt (rev c) = Ok (rev (map (fun i => zlen c - 1 - i) r)).
Proof.
  destruct c as [|c0 c']; [discriminate|]. set (c := c0 :: c'). intros E.
  destruct (central_loop_gen XR (fun x => around x 4) dt c (Fin 0)) as (dc & E1 & L1 & _).
  destruct (central_loop_gen XR (fun x => around x 4) dt dc (Fin 0)) as (dc2 & E2 & L2 & _).
  assert (F1 := central_rev dt c dc E1). assert (F2 := central_rev dt (mopp dc) (mopp dc2)).
  rewrite map_length in F2. specialize (F2 (central_opp dt dc dc2 E2)). rewrite mopp_mopp in F2. rewrite L1 in E2. rewrite L1 in F2.
  assert (P : ps_parameters (rev c) (rev (mopp dc)) (rev dc2) = ps_parameters c dc dc2).
  { apply ps_params_rev; [discriminate | destruct dc; [discriminate L1 | discriminate] | | congruence].
    destruct dc2; [|discriminate]. destruct dc; [discriminate L1 | discriminate L2]. }
  unfold phasespace_thresholding, ps_derivatives in E |- *. rewrite rev_length, F1. rewrite E1 in E. cbn [bind] in E |- *.
  rewrite F2. rewrite E2 in E. cbn [bind] in E |- *. rewrite P.
  destruct (ps_parameters c dc dc2) as [p|e]; cbn [bind] in E |- *; [|discriminate].
  rewrite !rho_num in E by congruence. cbn [bind] in E. injection E as <-.
  rewrite !rho_num by (rewrite ?rev_length, ?map_length; congruence). cbn [bind]. f_equal.
  rewrite !zipwith_rev by (rewrite ?map_length; congruence).
  rewrite <- (union_rev XR _ _ _ (zlen c) (Fin 0)).
  - f_equal; f_equal.
    + rewrite <- (map_id c) at 1. rewrite zipwith_map. unfold zipwith. apply map_ext. intros [x y]. apply rho_at_opp_r.
    + rewrite <- (map_id dc2) at 1. rewrite zipwith_map. unfold zipwith. apply map_ext. intros [x y]. apply rho_at_opp_l.
  - apply zlen_zipwith. symmetry. exact L1.
  - etransitivity; [apply zlen_zipwith; symmetry; exact L2|]. unfold zlen. f_equal. exact L1.
  - apply zlen_zipwith. symmetry. etransitivity; [exact L2 | exact L1].
Qed.

(** ** spherical.py *)
Lemma spherical_unused (N : Num) (data : list N) i j (m k : N) :
  spherical_phasespace_thresholding data i m = spherical_phasespace_thresholding data j k.
Proof. reflexivity. Qed.
Lemma nan_opp (a : XR) : nisnan (xopp a : XR) = nisnan a.
Proof. destruct a; reflexivity. Qed.
Lemma valid_opp (l : list XR) : zlen (valid_only (mopp l)) = zlen (valid_only l).
Proof.
  unfold valid_only, zlen. f_equal. induction l as [|a l IH]; [reflexivity|]. cbn [map filter]. rewrite nan_opp. destruct (negb (nisnan a)); cbn [length]; rewrite IH; reflexivity.
Qed.
Lemma nanmean_opp (l : list XR) : np_nanmean (mopp l) = xopp (np_nanmean l).
Proof.
  unfold np_nanmean. rewrite valid_opp. cbn [ndiv XR]. rewrite <- xdiv_opp_l. f_equal. cbn [nsum XR]. rewrite <- xsum_opp. f_equal.
  rewrite !map_map. apply map_ext. intros a. rewrite nan_opp. destruct (nisnan a); [cbn; f_equal; ring | reflexivity].
Qed.
Lemma nanstd_opp (l : list XR) : np_nanstd (mopp l) = np_nanstd l.
Proof.
  unfold np_nanstd. rewrite valid_opp, nanmean_opp, map_map. do 3 f_equal. apply map_ext. intros a. rewrite nan_opp.
  destruct (nisnan a); [reflexivity|]. cbn [nsub XR]. rewrite xsub_opp. apply sq_opp.
Qed.
Lemma gradient_opp (c : list XR) g : np_gradient c = Ok g -> np_gradient (mopp c) = Ok (mopp g).
Proof.
  intros E. destruct (Z.ltb_spec (zlen c) 2) as [H|H].
  { unfold np_gradient in E. destruct (Z.ltb_spec (zlen c) 2); [discriminate | lia]. }
  destruct (np_gradient_gen XR c (Fin 0) H) as (g1 & E1 & L1 & H1). rewrite E in E1. injection E1 as <-.
  destruct (np_gradient_gen XR (mopp c) (Fin 0)) as (g2 & E2 & L2 & H2); [rewrite zlen_map; exact H|].
  rewrite E2. f_equal. rewrite map_length in L2. apply (list_ext _ _ (Fin 0)); [rewrite map_length; etransitivity; [exact L2 | symmetry; exact L1]|].
  intros i Hi. rewrite zlen_map in Hi. assert (Hi' : 0 <= i < zlen c) by (unfold zlen in *; rewrite L1 in Hi; exact Hi).
  rewrite H2 by (rewrite zlen_map; exact Hi'). rewrite !nth_opp, H1 by exact Hi'. rewrite zlen_map, map_length.
  cbn [nsub ndiv XR]. destruct (i =? 0); [|destruct (i =? zlen c - 1)]; rewrite xsub_opp, xdiv_opp_l; reflexivity.
Qed.
Lemma row_opp (c dc dc2 : list XR) (r0 r1 r2 : XR) : sph_row (mopp c) (mopp dc) (mopp dc2) r0 r1 r2 = (let* r := sph_row c dc dc2 r0 r1 r2 in Ok (mopp r)).
Proof.
  unfold sph_row. rewrite !scale_opp_l, (bcast_opp nadd) by apply xadd_opp. destruct (bcast nadd _ _) as [s|e]; cbn [bind]; [|reflexivity].
  rewrite (bcast_opp nadd) by apply xadd_opp. destruct (bcast nadd s _) as [t|e]; cbn [bind]; [|reflexivity].
  f_equal. rewrite !map_map. apply map_ext. intros a. apply xround_opp.
Qed.
Lemma rotation_opp (c dc dc2 : list XR) (theta : XR) : sph_rotation (mopp c) (mopp dc) (mopp dc2) theta =
  (let* (x, y, z) := sph_rotation c dc dc2 theta in Ok (mopp x, mopp y, mopp z)).
Proof.
  unfold sph_rotation. destruct (neqb theta (nofZ 0)); [reflexivity|]. cbv zeta. rewrite !row_opp.
  do 3 (destruct (sph_row _ _ _ _ _ _) as [?|?]; cbn [bind]; [|reflexivity]). reflexivity.
Qed.
Lemma xltb_opp_0 (a : XR) : nltb (xopp a : XR) (nofZ 0) = nltb (nofZ 0) a.
Proof. destruct a as [x|[]|]; cbn; try reflexivity. destruct (Rlt_bool_spec (- x) 0), (Rlt_bool_spec 0 x); try reflexivity; exfalso; lra. Qed.
Lemma xltb_0_opp (a : XR) : nltb (nofZ 0) (xopp a : XR) = nltb a (nofZ 0).
Proof. destruct a as [x|[]|]; cbn; try reflexivity. destruct (Rlt_bool_spec 0 (- x)), (Rlt_bool_spec x 0); try reflexivity; exfalso; lra. Qed.
Lemma flag_opp (a b c x y z : XR) : sph_flag a b c (xopp x : XR) (xopp y : XR) (xopp z : XR) = sph_flag a b c x y z.
Proof.
  unfold sph_flag. rewrite !xipow2_opp. cbn [nmul ndiv XR]. rewrite !xmul_opp_r.
  change (xipow) with (@nipow XR). rewrite !xipow2_opp.
  set (den := nsqrt _). rewrite !xdiv_opp_l, !xround_opp, !xdiv_opp_l, !xipow2_opp. rewrite xltb_opp_0, xltb_0_opp.
  set (zt := around (xmul (nipow c 2) _) 4).
  assert (K : nipow (if nltb (nofZ 0) z then nopp (around (nsqrt zt) 4) else if nltb z (nofZ 0) then around (nsqrt zt) 4 else nofZ 0) 2 =
              nipow (if nltb z (nofZ 0) then nopp (around (nsqrt zt) 4) else if nltb (nofZ 0) z then around (nsqrt zt) 4 else nofZ 0) 2).
  { destruct (nltb (nofZ 0) z) eqn:E1, (nltb z (nofZ 0)) eqn:E2; try reflexivity; try apply xipow2_opp.
    symmetry. apply xipow2_opp. }
  rewrite K. reflexivity.
Qed.
Lemma indices_opp (x y z : list XR) (a b c : XR) : length y = length x -> length z = length x ->
  sph_spike_indices (mopp x) (mopp y) (mopp z) a b c = sph_spike_indices x y z a b c.
Proof.
  intros Ly Lz. destruct (sph_indices_gen XR x y z a b c (Fin 0) Ly Lz) as (r & E & S & I).
  destruct (sph_indices_gen XR (mopp x) (mopp y) (mopp z) a b c (Fin 0)) as (r' & E' & S' & I'); try (rewrite !map_length; assumption).
  rewrite E, E'. f_equal. apply sorted_ext; [exact S' | exact S|]. intros i. rewrite I, I', zlen_map, !nth_opp, flag_opp. reflexivity.
Qed.
Lemma spherical_sign (data : list XR) i (m : XR) :
  spherical_phasespace_thresholding (map nopp data) i m = spherical_phasespace_thresholding data i m.
Proof.
  change (@nopp XR) with xopp. destruct (Z.ltb_spec (zlen data) 2) as [Hs|Hs].
  { rewrite !spherical_short by (rewrite ?(@zlen_map (car XR) (car XR)); exact Hs). reflexivity. }
  unfold spherical_phasespace_thresholding, sph_descript. rewrite nanmean_opp.
  set (mu := np_nanmean data). set (c := map (fun x => around (nsub x mu) 4) data).
  assert (Ec : map (fun x => around (nsub x (xopp mu : XR)) 4) (mopp data) = mopp c).
  { unfold c. rewrite !map_map. apply map_ext. intros a. cbn [nsub XR]. rewrite xsub_opp. apply xround_opp. }
  rewrite Ec. assert (Lc : zlen c = zlen data) by apply zlen_map.
  destruct (np_gradient_gen XR c (Fin 0)) as (dc & E1 & L1 & _); [lia|].
  destruct (np_gradient_gen XR dc (Fin 0)) as (dc2 & E2 & L2 & _); [unfold zlen in *; lia|].
  rewrite E1, (gradient_opp _ _ E1). cbn [bind]. rewrite E2, (gradient_opp _ _ E2). cbn [bind].
  rewrite !bcast_same by (rewrite ?map_length; congruence). cbn [bind]. rewrite sumsq_opp.
  rewrite (zipwith_opp2 nmul) by (intros a b; cbn; rewrite xmul_opp_l, xmul_opp_r, xopp_opp; reflexivity).
  rewrite rotation_opp. set (theta := around (natan2 _ _) 4).
  assert (HR : forall x y z, sph_rotation c dc dc2 theta = Ok (x, y, z) -> length y = length x /\ length z = length x).
  { intros x y z. unfold sph_rotation. destruct (neqb theta (nofZ 0)); [intros H; injection H as <- <- <-; split; congruence|]. cbv zeta.
    destruct (sph_row_gen XR c dc dc2 (around (ncos theta) 4) (around (nofZ 0) 4) (around (nsin theta) 4)) as (x' & -> & Lx & _); [congruence | congruence |].
    destruct (sph_row_gen XR c dc dc2 (around (nofZ 0) 4) (around (nofZ 1) 4) (around (nofZ 0) 4)) as (y' & -> & Ly & _); [congruence | congruence |].
    destruct (sph_row_gen XR c dc dc2 (around (nopp (nsin theta)) 4) (around (nofZ 0) 4) (around (ncos theta) 4)) as (z' & -> & Lz & _); [congruence | congruence |].
    cbn [bind]. intros H. injection H as <- <- <-. split; congruence. }
  destruct (sph_rotation c dc dc2 theta) as [[[x y] z]|e]; cbn [bind]; [|reflexivity].
  destruct (HR x y z eq_refl) as [Ly Lz]. unfold sph_parameters. rewrite !nanstd_opp, zlen_map. apply indices_opp; assumption.
Qed.
Lemma nan_shift k (a : XR) : nisnan (nadd a (Fin k)) = nisnan a.
Proof. destruct a as [x|[]|]; reflexivity. Qed.
Lemma spherical_shift (data : list XR) (k : R) i (m : XR) :
  (forall s, ~ In (Inf s) data) ->
  spherical_phasespace_thresholding (map (fun x => nadd x (Fin k)) data) i m = spherical_phasespace_thresholding data i m.
Proof.
  intros HF. unfold spherical_phasespace_thresholding, sph_descript.
  assert (E : map (fun x => around (nsub x (np_nanmean (map (fun x => nadd x (Fin k)) data))) 4) (map (fun x => nadd x (Fin k)) data) =
              map (fun x => around (nsub x (np_nanmean data)) 4) data); [|rewrite E; reflexivity].
  assert (HS : exists s, nsum (map (fun x : XR => if nisnan x then nofZ 0 else x) data) = Fin s /\
     nsum (map (fun x : XR => if nisnan x then nofZ 0 else x) (map (fun x => nadd x (Fin k)) data)) = Fin (s + IZR (zlen (valid_only data)) * k) /\
     zlen (valid_only (map (fun x : XR => nadd x (Fin k)) data)) = zlen (valid_only data)).
  { clear i m. induction data as [|a l IH]; [exists 0%R; split; [reflexivity|]; split; [cbn; f_equal; ring | reflexivity]|].
    destruct IH as (s & H1 & H2 & H3); [intros t Ht; apply (HF t); right; exact Ht|].
    destruct a as [x|t|]; [| exfalso; apply (HF t); left; reflexivity |].
    - exists (x + s)%R. split; [|split].
      + change (xadd (Fin x) (nsum (map (fun x0 : XR => if nisnan x0 then nofZ 0 else x0) l)) = Fin (x + s)). rewrite H1. reflexivity.
      + cbn [map]. change (xadd (Fin (x + k)) (nsum (map (fun x0 : XR => if nisnan x0 then nofZ 0 else x0) (map (fun x0 => nadd x0 (Fin k)) l))) = Fin (x + s + IZR (zlen (Fin x :: valid_only l)) * k)).
        replace (zlen (Fin x :: valid_only l)) with (zlen (valid_only l) + 1) by (unfold zlen; cbn [length]; rewrite Nat2Z.inj_succ; reflexivity).
        rewrite H2, plus_IZR. cbn [xadd]. f_equal. ring.
      + change (zlen (Fin (x + k) :: valid_only (map (fun x : XR => nadd x (Fin k)) l)) = zlen (Fin x :: valid_only l)).
        unfold zlen in *. cbn [length]. rewrite !Nat2Z.inj_succ. f_equal. exact H3.
    - exists s. split; [|split; [|exact H3]].
      + change (xadd (Fin 0) (nsum (map (fun x0 : XR => if nisnan x0 then nofZ 0 else x0) l)) = Fin s). rewrite H1. cbn. f_equal. ring.
      + change (xadd (Fin 0) (nsum (map (fun x0 : XR => if nisnan x0 then nofZ 0 else x0) (map (fun x0 => nadd x0 (Fin k)) l))) = Fin (s + IZR (zlen (valid_only l)) * k)).
        rewrite H2. cbn. f_equal. ring. }
  destruct HS as (s & H1 & H2 & H3). unfold np_nanmean. rewrite H1, H2, H3, map_map. apply map_ext_in. intros a Ha. f_equal.
  change (@nofZ XR (zlen (valid_only data))) with (Fin (IZR (zlen (valid_only data)))). generalize (IZR (zlen (valid_only data))). intros n.
  destruct a as [x|t|]; [| exfalso; exact (HF t Ha) | reflexivity]. cbn. destruct (Req_bool_spec n 0) as [Hz|Hz].
  - rewrite Hz. replace (s + 0 * k)%R with s by ring. destruct (Req_bool s 0); reflexivity.
  - cbn. f_equal. field. exact Hz.
Qed.

Lemma zrange_sorted a b : StronglySorted Z.lt (zrange a b).
Proof.
  remember (Z.to_nat (b - a)) as k eqn:Ek. revert a Ek. induction k as [|k IH]; intros a Ek.
  - rewrite zrange_nil by lia. constructor.
  - rewrite zrange_cons by lia. constructor; [apply IH; lia|]. apply Forall_forall. intros j Hj. apply in_zrange in Hj. lia.
Qed.

(** ** phasespace.py: the mean of the record is not removed *)
Lemma outside_far (a b x y : R) : (0 < a)%R -> (a < Rabs x)%R -> outside 0 a b x y.
Proof.
  intros Ha Hx. unfold outside. rewrite cos_0, sin_0. replace (x * 1 + y * 0)%R with x by ring.
  assert (H : (1 < (x / a) ^ 2)%R).
  { replace ((x / a) ^ 2)%R with (Rabs x / a * (Rabs x / a))%R.
    - assert (1 < Rabs x / a)%R by (apply (Rmult_lt_reg_r a); [exact Ha|]; unfold Rdiv; rewrite Rmult_assoc, Rinv_l by lra; lra).
      replace 1%R with (1 * 1)%R at 1 by ring. apply Rmult_le_0_lt_compat; lra.
    - unfold Rdiv. replace (Rabs x * / a * (Rabs x * / a))%R with (Rabs x ^ 2 * / a ^ 2)%R by (field; lra). rewrite pow2_abs. field. lra. }
  pose proof (pow2_ge_0 ((y * 1 - x * 0) / b)). lra.
Qed.
Lemma phasespace_offset (l : list R) : (2 <= length l)%nat -> rvar l <> 0%R -> rvar (rcentral (round_dec 4) l) <> 0%R ->
  (forall x, In x l -> (runiv (length l) * rstd l < Rabs x)%R) ->
  phasespace_thresholding DFloat (fins l) = Ok (zrange 0 (zlen l)).
Proof.
  set (dc := rcentral (round_dec 4) l). set (dc2 := rcentral (round_dec 4) dc). intros Hn Hv Hv1 Hx.
  assert (Hne : l <> []) by (intros ->; cbn in Hn; lia).
  assert (Ldc : length dc = length l) by apply rcentral_length.
  assert (Ldc2 : length dc2 = length l) by (unfold dc2; rewrite rcentral_length; exact Ldc).
  assert (Hlam : (0 < runiv (length l))%R) by (apply runiv_pos, Hn).
  assert (Ha1 : (0 < runiv (length l) * rstd l)%R) by (apply Rmult_lt_0_compat; [exact Hlam | apply rstd_pos; assumption]).
  assert (Hne1 : dc <> []) by (intros E; rewrite E in Ldc; destruct l; [congruence | discriminate]).
  assert (Hne2 : dc2 <> []) by (intros E; rewrite E in Ldc2; destruct l; [congruence | discriminate]).
  assert (Hb1 : (0 < runiv (length l) * rstd dc)%R) by (apply Rmult_lt_0_compat; [exact Hlam | apply rstd_pos; assumption]).
  assert (E1 : ps_derivatives DFloat (fins l) = Ok (fins dc, fins dc2)).
  { unfold ps_derivatives. rewrite (central_fins (round_dec 4)) by (intros; apply around_fin). cbn [bind]. fold dc.
    replace (length (fins l)) with (length (fins dc)) by (rewrite !fins_length; exact Ldc).
    rewrite (central_fins (round_dec 4)) by (intros; apply around_fin). reflexivity. }
  assert (HP : exists p, ps_parameters (fins l) (fins dc) (fins dc2) = Ok p /\ p_a1 p = Fin (runiv (length l) * rstd l) /\ p_b1 p = Fin (runiv (length l) * rstd dc)).
  { unfold ps_parameters. rewrite !std_correct by assumption. cbn [bind]. rewrite bcast_same by (rewrite !fins_length; congruence). cbn [bind].
    eexists. split; [reflexivity|]. cbn [p_a1 p_b1]. rewrite zlen_fins, univ_fin by exact Hne. split; reflexivity. }
  destruct HP as (p & Ep & P1 & P2).
  unfold phasespace_thresholding. rewrite E1. cbn [bind]. rewrite Ep. cbn [bind].
  rewrite !rho_num by (rewrite !fins_length; congruence). cbn [bind]. f_equal.
  match goal with |- union_above_one ?r1 ?r2 ?r3 = _ => destruct (in_union_above XR r1 r2 r3 (zlen l) (Fin 0)) as [HS HI] end.
  - rewrite zlen_zipwith, zlen_fins by (rewrite !fins_length; congruence). reflexivity.
  - rewrite zlen_zipwith, zlen_fins by (rewrite !fins_length; congruence). unfold zlen. rewrite Ldc. reflexivity.
  - rewrite zlen_zipwith, zlen_fins by (rewrite !fins_length; congruence). reflexivity.
  - apply sorted_ext; [exact HS | apply zrange_sorted|]. intros i. rewrite HI, in_zrange. split; [tauto|]. intros Hi. split; [exact Hi|]. left.
    rewrite (nth_zipwith _ _ _ _ (Fin 0) (Fin 0)) by (rewrite !fins_length; unfold zlen in Hi; lia).
    rewrite !fins_nth, P1, P2. change (@nofZ XR 0) with (Fin 0). apply rho_outside; [lra | lra |]. apply outside_far; [exact Ha1|].
    apply Hx, nth_In. unfold zlen in Hi. lia.
Qed.
Lemma offset_example : let l := [10; 10; 14; 12]%R in (2 <= length l)%nat /\ rvar l <> 0%R /\ rvar (rcentral (round_dec 4) l) <> 0%R /\
  (forall x, In x l -> (runiv (length l) * rstd l < Rabs x)%R).
Proof.
  intros l.
  assert (E1 : rcentral (round_dec 4) l = [0; 2; 1; 0]%R).
  { unfold l. generalize (round4_int 2) (round4_int 1). generalize (round_dec 4). intros rd H2 H1. unfold rcentral. cbn.
    replace ((14 - 10) / 2)%R with 2%R by lra. replace ((12 - 10) / 2)%R with 1%R by lra. rewrite H1, H2. reflexivity. }
  rewrite E1. split; [cbn; lia|]. split; [unfold l, rvar, rmoment, rmean; cbn; lra|]. split; [unfold rvar, rmoment, rmean; cbn; lra|].
  assert (HV : rvar l = (11 / 4)%R) by (unfold l, rvar, rmoment, rmean; cbn; lra).
  assert (HR : (runiv 4 * rstd l < 10)%R).
  { unfold runiv, rstd. rewrite HV. replace (INR 4) with 4%R by (cbn; ring).
    assert (ln 4 < 3)%R. { rewrite <- (ln_exp 3). apply ln_increasing; [lra|]. pose proof (exp_ineq1 3). lra. }
    assert (0 < ln 4)%R by (rewrite <- ln_1; apply ln_increasing; lra).
    rewrite <- sqrt_mult by lra. rewrite <- (sqrt_square 10) by lra. apply sqrt_lt_1; lra. }
  intros x Hx. change (length l) with 4%nat. assert (10 <= x)%R by (destruct Hx as [<-|[<-|[<-|[<-|[]]]]]; lra).
  rewrite Rabs_pos_eq by lra. lra.
Qed.
