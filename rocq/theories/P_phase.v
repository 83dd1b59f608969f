(** Lemmas about phasespace.py and poincare.py. *)
From Coq Require Import Reals Lra Psatz.
From Flocq Require Import Core.Raux.
From Verif Require Export P_detect.
Local Open Scope Z_scope.

(** ** Structure, every arithmetic *)
Lemma central_loop_gen (N : Num) (f : N -> N) dt (c : list N) d :
  exists r, central_loop f dt c (repeat (nofZ 0) (length c)) = Ok r /\ length r = length c /\
    forall i, 0 <= i < zlen c -> nth (Z.to_nat i) r d =
      if (0 <? i) && (i <? zlen c - 1) then store dt (f (ndiv (nsub (nth (Z.to_nat (i + 1)) c d) (nth (Z.to_nat (i - 1)) c d)) (nofZ 2)))
      else nofZ 0.
Proof.
  unfold central_loop.
  assert (HR : forall i, 0 <= i < zlen c -> nth (Z.to_nat i) (repeat (nofZ 0) (length c)) d = nofZ 0).
  { intros i Hi. rewrite (nth_indep _ d (nofZ 0)) by (rewrite repeat_length; unfold zlen in Hi; lia). apply nth_repeat'. }
  destruct (Z_le_gt_dec (zlen c - 1) 1) as [Hs|Hs].
  - rewrite zrange_nil by lia. cbn [foldM]. eexists. split; [reflexivity|]. split; [apply repeat_length|].
    intros i Hi. destruct (Z.ltb_spec 0 i), (Z.ltb_spec i (zlen c - 1)); try lia; cbn [andb]; apply HR; exact Hi.
  - destruct (foldM_fill (fun d i => let* n := getz c (i + 1) in let* p := getz c (i - 1) in setz d i (store dt (f (ndiv (nsub n p) (nofZ 2)))))
      (fun i => store dt (f (ndiv (nsub (nth (Z.to_nat (i + 1)) c d) (nth (Z.to_nat (i - 1)) c d)) (nofZ 2))))
      1 (zlen c - 1) (repeat (nofZ 0) (length c)) d) as (r & E & HL & H1 & H2).
    + lia.
    + unfold zlen at 2. rewrite repeat_length. unfold zlen. lia.
    + intros i s Hi _ _ _. rewrite (getz_ok c (i + 1) d), (getz_ok c (i - 1) d) by lia. reflexivity.
    + exists r. split; [exact E|]. rewrite repeat_length in HL. split; [exact HL|]. intros i Hi.
      destruct (Z.ltb_spec 0 i), (Z.ltb_spec i (zlen c - 1)); cbn [andb]; try (rewrite H2 by lia; apply HR; exact Hi).
      apply H1. lia.
Qed.
Definition rho_at {N : Num} (theta a b x y : N) : N :=
  nadd (sq (ndiv (nadd (nmul x (ncos theta)) (nmul y (nsin theta))) a))
       (sq (ndiv (nsub (nmul y (ncos theta)) (nmul x (nsin theta))) b)).
Lemma zipwith_map {A B C A' B'} (f : A -> B -> C) (g : A' -> A) (h : B' -> B) a b :
  zipwith f (map g a) (map h b) = zipwith (fun x y => f (g x) (h y)) a b.
Proof.
  unfold zipwith. revert b. induction a as [|x a IH]; intros [|y b]; cbn; try reflexivity. f_equal. apply IH.
Qed.
Lemma map_zipwith {A B C D} (f : C -> D) (g : A -> B -> C) a b : map f (zipwith g a b) = zipwith (fun x y => f (g x y)) a b.
Proof. unfold zipwith. rewrite map_map. reflexivity. Qed.
Lemma zipwith_flip {A B C} (f : A -> B -> C) a b : zipwith f a b = zipwith (fun y x => f x y) b a.
Proof. unfold zipwith. revert b. induction a as [|x a IH]; intros [|y b]; cbn; try reflexivity. f_equal. apply IH. Qed.
Lemma zipwith_zip {A B C D E} (f : C -> D -> E) (g : A -> B -> C) (h : A -> B -> D) a b :
  zipwith f (zipwith g a b) (zipwith h a b) = zipwith (fun x y => f (g x y) (h x y)) a b.
Proof. unfold zipwith. revert b. induction a as [|x a IH]; intros [|y b]; cbn; try reflexivity. f_equal. apply IH. Qed.
Lemma rho_num (N : Num) (x y : list N) theta a b : length x = length y ->
  calculate_rho x y theta a (BNum b) = Ok (zipwith (rho_at theta a b) x y).
Proof.
  intros HL. unfold calculate_rho.
  rewrite (bcast_same nadd (map (fun v => nmul v (ncos theta)) x)) by (rewrite !map_length; exact HL). cbn [bind].
  rewrite bcast_same by (rewrite !map_length; congruence). cbn [bind].
  rewrite bcast_same by (rewrite !map_length, !zipwith_length, !map_length, HL; reflexivity).
  rewrite map_map. rewrite (zipwith_map nadd _ _ x y), (zipwith_map nsub _ _ y x), !map_zipwith. f_equal.
  match goal with |- zipwith nadd ?p (zipwith ?h y x) = _ => rewrite (zipwith_flip h y x) end. rewrite zipwith_zip. reflexivity.
Qed.
Lemma rho_pair (N : Num) (x y : list N) theta a b1 b2 : length x = length y -> (3 <= length x)%nat ->
  calculate_rho x y theta a (BPair b1 b2) = Raise ValueError.
Proof.
  intros HL H3. unfold calculate_rho.
  rewrite bcast_same by (rewrite !map_length; exact HL). cbn [bind].
  rewrite bcast_same by (rewrite !map_length; congruence). cbn [bind].
  assert (Hb : forall q : list N, (3 <= length q)%nat -> bcast ndiv q [b1; b2] = Raise ValueError).
  { intros [|q0 [|q1 [|q2 q]]] Hq; cbn in Hq; try lia. reflexivity. }
  rewrite Hb; [reflexivity|]. rewrite zipwith_length, !map_length. lia.
Qed.
Lemma in_union_above (N : Num) (r1 r2 r3 : list N) n d : zlen r1 = n -> zlen r2 = n -> zlen r3 = n ->
  StronglySorted Z.lt (union_above_one r1 r2 r3) /\
  forall i, In i (union_above_one r1 r2 r3) <-> 0 <= i < n /\
    (nltb (nofZ 1) (nth (Z.to_nat i) r1 d) = true \/ nltb (nofZ 1) (nth (Z.to_nat i) r2 d) = true \/ nltb (nofZ 1) (nth (Z.to_nat i) r3 d) = true).
Proof.
  intros H1 H2 H3. split; [apply zunique_sorted|]. intros i. unfold union_above_one.
  rewrite in_zunique, !in_app_iff, !(in_nonzero_map _ _ i d), H1, H2, H3. tauto.
Qed.
Lemma zlen_zipwith {A B C} (f : A -> B -> C) a b : length a = length b -> zlen (zipwith f a b) = zlen a.
Proof. intros H. unfold zlen. rewrite zipwith_length, H, Nat.min_id. reflexivity. Qed.

Lemma phasespace_general (N : Num) dt (c : list N) d : c <> [] ->
  exists dc dc2 p r,
    ps_derivatives dt c = Ok (dc, dc2) /\ length dc = length c /\ length dc2 = length c /\
    (forall i, 0 <= i < zlen c -> nth (Z.to_nat i) dc d =
       if (0 <? i) && (i <? zlen c - 1) then store dt (around (ndiv (nsub (nth (Z.to_nat (i + 1)) c d) (nth (Z.to_nat (i - 1)) c d)) (nofZ 2)) 4) else nofZ 0) /\
    (forall i, 0 <= i < zlen c -> nth (Z.to_nat i) dc2 d =
       if (0 <? i) && (i <? zlen c - 1) then store dt (around (ndiv (nsub (nth (Z.to_nat (i + 1)) dc d) (nth (Z.to_nat (i - 1)) dc d)) (nofZ 2)) 4) else nofZ 0) /\
    ps_parameters c dc dc2 = Ok p /\
    phasespace_thresholding dt c = Ok r /\ StronglySorted Z.lt r /\
    let rho theta a b x y :=
      nadd (nmul (ndiv (nadd (nmul x (ncos theta)) (nmul y (nsin theta))) a) (ndiv (nadd (nmul x (ncos theta)) (nmul y (nsin theta))) a))
           (nmul (ndiv (nsub (nmul y (ncos theta)) (nmul x (nsin theta))) b) (ndiv (nsub (nmul y (ncos theta)) (nmul x (nsin theta))) b)) in
    forall i, In i r <-> 0 <= i < zlen c /\
      (nltb (nofZ 1) (rho (nofZ 0) (p_a1 p) (p_b1 p) (nth (Z.to_nat i) c d) (nth (Z.to_nat i) dc d)) = true \/
       nltb (nofZ 1) (rho (nofZ 0) (p_a2 p) (p_b2 p) (nth (Z.to_nat i) dc d) (nth (Z.to_nat i) dc2 d)) = true \/
       nltb (nofZ 1) (rho (p_theta p) (p_a3 p) (p_b3 p) (nth (Z.to_nat i) c d) (nth (Z.to_nat i) dc2 d)) = true).
Proof.
  intros Hne.
  destruct (central_loop_gen N (fun x => around x 4) dt c d) as (dc & E1 & L1 & H1).
  destruct (central_loop_gen N (fun x => around x 4) dt dc d) as (dc2 & E2 & L2 & H2).
  rewrite L1 in E2.
  assert (Hd : ps_derivatives dt c = Ok (dc, dc2)) by (unfold ps_derivatives; rewrite E1; cbn [bind]; rewrite E2; reflexivity).
  assert (Hne1 : dc <> []) by (intros ->; destruct c; [congruence | discriminate]).
  assert (Hne2 : dc2 <> []) by (intros ->; rewrite L1 in L2; destruct c; [congruence | discriminate]).
  assert (Hp : exists p, ps_parameters c dc dc2 = Ok p).
  { unfold ps_parameters. rewrite !spread_std_farr by assumption. cbn [bind]. rewrite bcast_same by congruence. eexists. reflexivity. }
  destruct Hp as (p & Hp).
  exists dc, dc2, p, (union_above_one (zipwith (rho_at (nofZ 0) (p_a1 p) (p_b1 p)) c dc) (zipwith (rho_at (nofZ 0) (p_a2 p) (p_b2 p)) dc dc2)
                 (zipwith (rho_at (p_theta p) (p_a3 p) (p_b3 p)) c dc2)).
  split; [exact Hd|]. split; [exact L1|]. split; [congruence|]. split; [exact H1|].
  split; [unfold zlen in H2; rewrite L1 in H2; exact H2|]. split; [exact Hp|]. split.
  { unfold phasespace_thresholding. rewrite Hd. cbn [bind]. rewrite Hp. cbn [bind]. rewrite !rho_num by congruence. reflexivity. }
  destruct (in_union_above N (zipwith (rho_at (nofZ 0) (p_a1 p) (p_b1 p)) c dc) (zipwith (rho_at (nofZ 0) (p_a2 p) (p_b2 p)) dc dc2)
                 (zipwith (rho_at (p_theta p) (p_a3 p) (p_b3 p)) c dc2) (zlen c) d) as [HS HI].
  - apply zlen_zipwith. congruence.
  - rewrite zlen_zipwith by congruence. unfold zlen. rewrite L1. reflexivity.
  - apply zlen_zipwith. congruence.
  - split; [exact HS|]. cbv zeta. intros i. rewrite HI. split; intros [Hi H]; (split; [exact Hi|]);
      rewrite !(nth_zipwith _ _ _ _ d d) in * by (unfold zlen in Hi; lia); exact H.
Qed.
Lemma phasespace_empty (N : Num) dt : @phasespace_thresholding N dt [] = Raise ValueError.
Proof. reflexivity. Qed.

(** ** Exact geometry *)
Lemma central_fins rnd (f : XR -> XR) (l : list R) : (forall x, f (Fin x) = Fin (rnd x)) ->
  central_loop f DFloat (fins l) (repeat (nofZ 0) (length (fins l))) = Ok (fins (rcentral rnd l)).
Proof.
  intros Hf. destruct (central_loop_gen XR f DFloat (fins l) (Fin 0)) as (r & E & HL & H). rewrite E. f_equal.
  rewrite fins_length in HL. apply (fins_build r); [exact HL|]. intros k Hk. specialize (H (Z.of_nat k)).
  rewrite zlen_fins in H. rewrite Nat2Z.id in H. rewrite H by (unfold zlen; lia).
  destruct (Z.ltb_spec 0 (Z.of_nat k)), (Nat.ltb_spec 0 k); try lia; cbn [andb]; [|reflexivity].
  destruct (Z.ltb_spec (Z.of_nat k) (zlen l - 1)), (Nat.ltb_spec (S k) (length l)); try (unfold zlen in *; lia); [|reflexivity].
  rewrite !fins_nth. rewrite xsub_fin, xofZ_fin, xdiv_fin by lra. rewrite Hf. cbn [store]. do 5 f_equal; f_equal; lia.
Qed.
Lemma rcentral_length rnd l : length (rcentral rnd l) = length l.
Proof. unfold rcentral. rewrite map_length, seq_length. reflexivity. Qed.
Lemma rdot_zip l m : length l = length m -> rdot l m = Rsum (zipwith Rmult l m).
Proof. intros H. unfold rdot. rewrite (zipwith_build _ _ _ 0%R 0%R) by exact H. reflexivity. Qed.
Lemma sum_prod_fins l m : length l = length m -> nsum (zipwith (@nmul XR) (fins l) (fins m)) = Fin (rdot l m).
Proof. intros H. rewrite (zipwith_fins Rmult) by reflexivity. rewrite xsum_fins, rdot_zip by exact H. reflexivity. Qed.
Lemma rdot_self l : rdot l l = Rsum (map (fun x => (x ^ 2)%R) l).
Proof.
  rewrite rdot_zip by reflexivity. f_equal. unfold zipwith. induction l as [|x l IH]; cbn; [reflexivity|]. f_equal; [ring|exact IH].
Qed.
Lemma sum_sq_fins l : nsum (map (@sq XR) (fins l)) = Fin (rdot l l).
Proof. rewrite (map_fins (fun x => (x ^ 2)%R)) by apply sq_fin. rewrite xsum_fins, rdot_self. reflexivity. Qed.
Lemma univ_fin {A} (l : list A) : l <> [] -> @nsqrt XR (nmul (nofZ 2) (nlog (nofZ (zlen l)))) = Fin (runiv (length l)).
Proof.
  intros H. pose proof (INR_len_pos l H). rewrite !xofZ_fin, IZR_zlen. rewrite xlog_fin by assumption. rewrite xmul_fin.
  apply xsqrt_fin. assert (0 <= ln (INR (length l)))%R; [|lra].
  rewrite <- ln_1. destruct (Nat.eq_dec (length l) 1) as [E|E]; [rewrite E; cbn; lra|].
  left. apply ln_increasing; [lra|]. apply (lt_INR 1). destruct l; [congruence|]. cbn in *. lia.
Qed.
Lemma runiv_pos n : (2 <= n)%nat -> (0 < runiv n)%R.
Proof.
  intros H. apply sqrt_lt_R0. assert (0 < ln (INR n))%R; [|lra]. rewrite <- ln_1. apply ln_increasing; [lra|]. apply (lt_INR 1). lia.
Qed.
Lemma nipow_fin x k : @nipow XR (Fin x) k = Fin (x ^ k). Proof. apply xipow_fin. Qed.
Lemma xatan_fin x : @natan XR (Fin x) = Fin (atan x). Proof. reflexivity. Qed.
Lemma xcos_fin x : @ncos XR (Fin x) = Fin (cos x). Proof. reflexivity. Qed.
Lemma xsin_fin x : @nsin XR (Fin x) = Fin (sin x). Proof. reflexivity. Qed.
Lemma rho_fin theta a b x y : a <> 0%R -> b <> 0%R ->
  @rho_at XR (Fin theta) (Fin a) (Fin b) (Fin x) (Fin y) =
  Fin (((x * cos theta + y * sin theta) / a) ^ 2 + ((y * cos theta - x * sin theta) / b) ^ 2)%R.
Proof.
  intros Ha Hb. unfold rho_at. rewrite xcos_fin, xsin_fin, !xmul_fin, xadd_fin, xsub_fin, !xdiv_fin by assumption.
  rewrite !sq_fin, xadd_fin. reflexivity.
Qed.
Lemma rho_outside theta a b x y : a <> 0%R -> b <> 0%R ->
  (nltb (nofZ 1) (@rho_at XR (Fin theta) (Fin a) (Fin b) (Fin x) (Fin y)) = true <-> outside theta a b x y).
Proof. intros Ha Hb. rewrite rho_fin by assumption. rewrite xofZ_fin, xltb_fin. apply Rlt_bool_iff. Qed.

(** The parameters, with the quantities under the square roots non-negative. *)
Lemma ps_parameters_exact (l dc dc2 : list R) : length dc = length l -> length dc2 = length l -> rdot l l <> 0%R ->
  let lam := runiv (length l) in let theta := atan (rdot l dc2 / rdot l l) in
  let a1 := (lam * rstd l)%R in let b2 := (lam * rstd dc2)%R in
  let fact := (cos theta ^ 4 - sin theta ^ 4)%R in
  let A := (a1 ^ 2 * cos theta ^ 2 - b2 ^ 2 * sin theta ^ 2)%R in
  let B := (b2 ^ 2 * cos theta ^ 2 - a1 ^ 2 * sin theta ^ 2)%R in
  (0 <= A)%R -> (0 <= B)%R -> fact <> 0%R ->
  exists p, ps_parameters (fins l) (fins dc) (fins dc2) = Ok p /\
    p_lambda p = Fin lam /\ p_theta p = Fin theta /\
    p_a1 p = Fin a1 /\ p_b1 p = Fin (lam * rstd dc) /\ p_a2 p = Fin (lam * rstd dc) /\ p_b2 p = Fin b2 /\
    p_a3 p = Fin (sqrt A / fact) /\ p_b3 p = Fin (sqrt B / fact).
Proof.
  intros L1 L2 Hdot. cbv zeta. intros HA HB Hf.
  assert (Hne : l <> []) by (intros ->; apply Hdot; reflexivity).
  assert (Hne1 : dc <> []) by (intros ->; destruct l; [congruence | discriminate]).
  assert (Hne2 : dc2 <> []) by (intros ->; destruct l; [congruence | discriminate]).
  unfold ps_parameters. rewrite !std_correct by assumption. cbn [bind].
  rewrite bcast_same by (rewrite !fins_length; congruence). cbn [bind].
  rewrite sum_prod_fins by congruence. rewrite sum_sq_fins. rewrite xdiv_fin by exact Hdot. rewrite xatan_fin.
  assert (HU : @nsqrt XR (nmul (nofZ 2) (nlog (nofZ (zlen (fins l))))) = Fin (runiv (length l))).
  { rewrite zlen_fins. apply univ_fin, Hne. }
  rewrite HU. rewrite !xmul_fin, xcos_fin, xsin_fin, !nipow_fin, !xmul_fin, !xsub_fin.
  rewrite !xsqrt_fin by assumption. rewrite !xdiv_fin by assumption.
  eexists. split; [reflexivity|]. repeat split; reflexivity.
Qed.
Lemma phasespace_exact (l : list R) :
  let dc := rcentral (round_dec 4) l in let dc2 := rcentral (round_dec 4) dc in
  let lam := runiv (length l) in let theta := atan (rdot l dc2 / rdot l l) in
  let a1 := (lam * rstd l)%R in let b1 := (lam * rstd dc)%R in let b2 := (lam * rstd dc2)%R in
  let fact := (cos theta ^ 4 - sin theta ^ 4)%R in
  let A := (a1 ^ 2 * cos theta ^ 2 - b2 ^ 2 * sin theta ^ 2)%R in
  let B := (b2 ^ 2 * cos theta ^ 2 - a1 ^ 2 * sin theta ^ 2)%R in
  (2 <= length l)%nat -> rvar l <> 0%R -> rvar dc <> 0%R -> rvar dc2 <> 0%R -> (0 < A)%R -> (0 < B)%R -> fact <> 0%R ->
  exists r, phasespace_thresholding DFloat (fins l) = Ok r /\ StronglySorted Z.lt r /\
    forall i, In (Z.of_nat i) r <-> (i < length l)%nat /\
      (outside 0 a1 b1 (nth i l 0%R) (nth i dc 0%R) \/ outside 0 b1 b2 (nth i dc 0%R) (nth i dc2 0%R) \/
       outside theta (sqrt A / fact) (sqrt B / fact) (nth i l 0%R) (nth i dc2 0%R)).
Proof.
  intros dc dc2 lam theta a1 b1 b2 fact A B Hn Hv Hv1 Hv2 HA HB Hf.
  assert (Hne : l <> []) by (intros ->; cbn in Hn; lia).
  assert (Ldc : length dc = length l) by apply rcentral_length.
  assert (Ldc2 : length dc2 = length l) by (unfold dc2; rewrite rcentral_length; exact Ldc).
  assert (Hne1 : dc <> []) by (intros E; rewrite E in Ldc; destruct l; [congruence | discriminate]).
  assert (Hne2 : dc2 <> []) by (intros E; rewrite E in Ldc2; destruct l; [congruence | discriminate]).
  assert (Hdot : rdot l l <> 0%R).
  { intros E. apply Hv. rewrite rdot_self in E. apply rvar_const_iff; [exact Hne|]. intros x y Hx Hy.
    pose proof (Rsum_zero_inv (fun x => x ^ 2)%R l (fun x _ => pow2_ge_0 x) E) as HZ. cbn beta in HZ.
    pose proof (HZ x Hx) as Zx. pose proof (HZ y Hy) as Zy. rewrite <- Rsqr_pow2 in Zx, Zy. apply Rsqr_0_uniq in Zx, Zy. congruence. }
  destruct (ps_parameters_exact l dc dc2 Ldc Ldc2 Hdot) as (p & Ep & P1 & P2 & P3 & P4 & P5 & P6 & P7 & P8);
    [left; exact HA | left; exact HB | exact Hf |].
  fold lam theta a1 b1 b2 fact A B in P1, P2, P3, P4, P5, P6, P7, P8.
  assert (Hlam : (0 < lam)%R) by (apply runiv_pos, Hn).
  assert (Ha1 : a1 <> 0%R) by (apply Rmult_integral_contrapositive; split; [lra | apply Rgt_not_eq, rstd_pos; assumption]).
  assert (Hb1 : b1 <> 0%R) by (apply Rmult_integral_contrapositive; split; [lra | apply Rgt_not_eq, rstd_pos; assumption]).
  assert (Hb2 : b2 <> 0%R) by (apply Rmult_integral_contrapositive; split; [lra | apply Rgt_not_eq, rstd_pos; assumption]).
  assert (Ha3 : (sqrt A / fact)%R <> 0%R) by (apply Rmult_integral_contrapositive; split; [apply Rgt_not_eq, sqrt_lt_R0, HA | apply Rinv_neq_0_compat, Hf]).
  assert (Hb3 : (sqrt B / fact)%R <> 0%R) by (apply Rmult_integral_contrapositive; split; [apply Rgt_not_eq, sqrt_lt_R0, HB | apply Rinv_neq_0_compat, Hf]).
  assert (E1 : ps_derivatives DFloat (fins l) = Ok (fins dc, fins dc2)).
  { unfold ps_derivatives. rewrite (central_fins (round_dec 4)) by (intros; apply around_fin). cbn [bind]. fold dc.
    replace (length (fins l)) with (length (fins dc)) by (rewrite !fins_length; exact Ldc).
    rewrite (central_fins (round_dec 4)) by (intros; apply around_fin). reflexivity. }
  eexists. split.
  { unfold phasespace_thresholding. rewrite E1. cbn [bind]. rewrite Ep. cbn [bind].
    rewrite !rho_num by (rewrite !fins_length; congruence). cbn [bind]. rewrite P2, P3, P4, P5, P6, P7, P8. reflexivity. }
  match goal with |- StronglySorted _ (union_above_one ?r1 ?r2 ?r3) /\ _ =>
    destruct (in_union_above XR r1 r2 r3 (zlen l) (Fin 0)) as [HS HI] end.
  - rewrite zlen_zipwith, zlen_fins by (rewrite !fins_length; congruence). reflexivity.
  - rewrite zlen_zipwith, zlen_fins by (rewrite !fins_length; congruence). unfold zlen. rewrite Ldc. reflexivity.
  - rewrite zlen_zipwith, zlen_fins by (rewrite !fins_length; congruence). reflexivity.
  - split; [exact HS|]. intros i. rewrite HI, Nat2Z.id.
    destruct (lt_dec i (length l)) as [Hi|Hi]; [|split; [intros [H _]; unfold zlen in H; lia | intros [H _]; lia]].
    rewrite !(nth_zipwith _ _ _ _ (Fin 0) (Fin 0)) by (rewrite fins_length; congruence).
    rewrite !fins_nth. change (@nofZ XR 0) with (Fin 0). rewrite !rho_outside by assumption.
    split; intros [_ H]; (split; [first [exact Hi | unfold zlen; lia] | exact H]).
Qed.

(** A constant record: every test is 0/0. *)
Lemma rvar_repeat n (x : R) : rvar (repeat x n) = 0%R.
Proof.
  destruct n as [|n]; [unfold rvar, rmoment, rmean; cbn; lra|].
  apply rvar_const_iff; [discriminate|]. intros y z Hy Hz. apply repeat_spec in Hy, Hz. congruence.
Qed.
Lemma round_dec_0' d : round_dec d 0 = 0%R.
Proof.
  unfold round_dec. destruct (0 <=? d).
  - rewrite Rmult_0_l. rewrite (Generic_fmt.Znearest_imp _ _ 0); [lra|]. rewrite Rminus_0_r, Rabs_R0. lra.
  - unfold Rdiv. rewrite Rmult_0_l. rewrite (Generic_fmt.Znearest_imp _ _ 0); [lra|]. rewrite Rminus_0_r, Rabs_R0. lra.
Qed.
Lemma rcentral_repeat rnd (x : R) n : rnd 0%R = 0%R -> rcentral rnd (repeat x n) = repeat 0%R n.
Proof.
  intros Hr. apply (nth_ext_len _ _ 0%R); [rewrite rcentral_length, !repeat_length; reflexivity|].
  intros k Hk. rewrite rcentral_length, repeat_length in Hk. unfold rcentral.
  rewrite (nth_map_in _ _ _ O) by (rewrite seq_length, repeat_length; exact Hk). rewrite seq_nth by (rewrite repeat_length; exact Hk).
  cbn [plus]. rewrite repeat_length, nth_repeat'. destruct (Nat.ltb_spec 0 k), (Nat.ltb_spec (S k) n); cbn [andb]; try reflexivity.
  assert (HN : forall j, (j < n)%nat -> nth j (repeat x n) 0%R = x).
  { intros j Hj. rewrite (nth_indep _ 0%R x) by (rewrite repeat_length; exact Hj). apply nth_repeat'. }
  rewrite !HN by lia. replace ((x - x) / 2)%R with 0%R by lra. exact Hr.
Qed.
Lemma xnan_add_r (a : XR) : @nadd XR a NaN = NaN. Proof. destruct a; reflexivity. Qed.
Lemma rho_nan (theta a x y b : XR) : ndiv (nsub (nmul y (ncos theta)) (nmul x (nsin theta))) b = NaN ->
  @rho_at XR theta a b x y = NaN.
Proof. intros H. unfold rho_at. rewrite H. apply (xnan_add_r _). Qed.
Lemma phasespace_constant (x : R) n : (0 < n)%nat -> phasespace_thresholding DFloat (fins (repeat x n)) = Ok [].
Proof.
  intros Hn. set (l := repeat x n). assert (Ll : length l = n) by apply repeat_length.
  assert (Hne : l <> []) by (intros E; rewrite E in Ll; cbn in Ll; lia).
  assert (Hne0 : repeat 0%R n <> []) by (destruct n; [lia | discriminate]).
  assert (E1 : ps_derivatives DFloat (fins l) = Ok (fins (repeat 0%R n), fins (repeat 0%R n))).
  { unfold ps_derivatives. rewrite (central_fins (round_dec 4)) by (intros; apply around_fin). cbn [bind].
    assert (Hc : rcentral (round_dec 4) l = repeat 0%R n) by (apply rcentral_repeat, round_dec_0'). rewrite Hc.
    replace (length (fins l)) with (length (fins (repeat 0%R n))) by (rewrite !fins_length, repeat_length, Ll; reflexivity).
    rewrite (central_fins (round_dec 4)) by (intros; apply around_fin). rewrite rcentral_repeat by apply round_dec_0'. reflexivity. }
  assert (Hs : forall y, rstd (repeat y n) = 0%R) by (intros y; unfold rstd; rewrite rvar_repeat; apply sqrt_0).
  assert (Hdot0 : rdot l (repeat 0%R n) = 0%R).
  { unfold rdot. transitivity (Rsum (map (fun _ => 0%R) (seq 0 (length l)))).
    - apply Rsum_ext. intros i _. rewrite nth_repeat'. ring.
    - rewrite Rsum_map_const. ring. }
  unfold phasespace_thresholding. rewrite E1. cbn [bind].
  assert (HP : exists p, ps_parameters (fins l) (fins (repeat 0%R n)) (fins (repeat 0%R n)) = Ok p /\
            p_b1 p = Fin 0 /\ p_b2 p = Fin 0 /\ ((p_theta p = Fin 0 /\ p_b3 p = Fin 0) \/ p_theta p = NaN)).
  { unfold ps_parameters. rewrite !std_correct by assumption. cbn [bind].
    rewrite bcast_same by (rewrite !fins_length, repeat_length; exact Ll). cbn [bind].
    rewrite sum_prod_fins by (rewrite repeat_length; exact Ll). rewrite sum_sq_fins, Hdot0.
    assert (HU : @nsqrt XR (nmul (nofZ 2) (nlog (nofZ (zlen (fins l))))) = Fin (runiv (length l))).
    { rewrite zlen_fins. apply univ_fin, Hne. }
    rewrite HU. assert (Hsl : rstd l = 0%R) by apply Hs. rewrite Hsl, !Hs. rewrite !xmul_fin, !Rmult_0_r.
    destruct (Req_dec (rdot l l) 0) as [E0|E0].
    - rewrite E0, xdiv_00. eexists. split; [reflexivity|]. split; [reflexivity|]. split; [reflexivity|]. right. reflexivity.
    - rewrite xdiv_fin by exact E0. rewrite xatan_fin. replace (0 / rdot l l)%R with 0%R by (unfold Rdiv; ring). rewrite atan_0.
      rewrite xcos_fin, xsin_fin, cos_0, sin_0, !nipow_fin, !xmul_fin, !xsub_fin.
      rewrite !xsqrt_fin by (cbn; lra). rewrite !xdiv_fin by (cbn; lra).
      eexists. split; [reflexivity|]. split; [reflexivity|]. split; [reflexivity|]. left. split; [reflexivity|].
      cbn [p_b3]. f_equal. replace (0 ^ 2 * 1 ^ 2 - 0 ^ 2 * 0 ^ 2)%R with 0%R by ring. rewrite sqrt_0. unfold Rdiv. ring. }
  destruct HP as (p & Ep & Pb1 & Pb2 & Pth). rewrite Ep. cbn [bind].
  rewrite !rho_num by (rewrite ?fins_length, ?repeat_length; congruence). cbn [bind]. f_equal.
  assert (H0 : forall y, @ndiv XR (nsub (nmul (Fin 0) (ncos (nofZ 0))) (nmul y (nsin (nofZ 0)))) (Fin 0) = NaN \/ exists z, y = Inf z \/ y = NaN).
  { intros [y|s|]; [left| right; exists s; auto | right; exists true; auto].
    rewrite xofZ_fin, xcos_fin, xsin_fin, !xmul_fin, xsub_fin, cos_0, sin_0. replace (0 * 1 - y * 0)%R with 0%R by ring. apply xdiv_00. }
  apply sorted_ext; [apply zunique_sorted | constructor |]. intros i. split; [|intros []].
  unfold union_above_one. rewrite in_zunique, !in_app_iff, !(in_nonzero_map _ _ i (Fin 0)).
  assert (HR : forall k, nth k (fins (repeat 0%R n)) (Fin 0) = Fin 0) by (intros k; rewrite fins_nth, nth_repeat'; reflexivity).
  assert (Ln1 : length (fins l) = n) by (rewrite fins_length; exact Ll).
  assert (Ln2 : length (fins (repeat 0%R n)) = n) by (rewrite fins_length, repeat_length; reflexivity).
  clearbody l.
  intros [[Hi H]|[[Hi H]|[Hi H]]]; exfalso;
    rewrite zlen_zipwith in Hi by congruence; unfold zlen in Hi;
    (assert (Hk : (Z.to_nat i < n)%nat) by (first [rewrite Ln1 in Hi | rewrite Ln2 in Hi]; lia));
    (rewrite (nth_zipwith _ _ _ _ (Fin 0) (Fin 0)) in H by (rewrite fins_length; first [rewrite Ll; exact Hk | rewrite repeat_length; exact Hk]));
    rewrite ?HR in H.
  - rewrite rho_nan in H; [discriminate|]. rewrite Pb1. rewrite fins_nth. destruct (H0 (Fin (nth (Z.to_nat i) l 0%R))) as [E|(s & [E|E])]; [exact E | discriminate | discriminate].
  - rewrite rho_nan in H; [discriminate|]. rewrite Pb2. destruct (H0 (Fin 0)) as [E|(s & [E|E])]; [exact E | discriminate | discriminate].
  - destruct Pth as [[Pt Pb3]|Pt].
    + rewrite rho_nan in H; [discriminate|]. rewrite Pt, Pb3. rewrite fins_nth. destruct (H0 (Fin (nth (Z.to_nat i) l 0%R))) as [E|(s & [E|E])]; [exact E | discriminate | discriminate].
    + rewrite rho_nan in H; [discriminate|]. rewrite Pt, fins_nth. destruct (p_b3 p); reflexivity.
Qed.

(** ** The rotated axes *)
Lemma fact_eq t : (cos t ^ 4 - sin t ^ 4 = cos t ^ 2 - sin t ^ 2)%R.
Proof. pose proof (sin2_cos2 t) as H. unfold Rsqr in H. nra. Qed.
Lemma ab_exact (s1 s2 theta lam : R) :
  let r1 := (lam * s1)%R in let r2 := (lam * s2)%R in let fact := (cos theta ^ 4 - sin theta ^ 4)%R in
  let fa := ((r1 ^ 2 * cos theta ^ 2 - r2 ^ 2 * sin theta ^ 2) / fact)%R in
  let fb := ((r2 ^ 2 * cos theta ^ 2 - r1 ^ 2 * sin theta ^ 2) / fact)%R in
  fact <> 0%R -> (0 < fa)%R ->
  @calculate_ab XR (Fin s1) (Fin s2) (Fin theta) (Fin lam) =
    (Fin (sqrt fa), if Rlt_bool 0 fb then BNum (Fin (sqrt fb)) else BPair (Fin (IZR (10 ^ 10))) (Fin (IZR (10 ^ 10)))).
Proof.
  cbv zeta. intros Hf Ha. unfold calculate_ab.
  rewrite !xmul_fin, xcos_fin, xsin_fin, !nipow_fin, !xmul_fin, !xsub_fin, !xdiv_fin by exact Hf.
  rewrite (xsqrt_fin ((_ * cos theta ^ 2 - (lam * s2) ^ 2 * sin theta ^ 2) / _)) by (left; exact Ha).
  f_equal. rewrite !xofZ_fin, !xltb_fin. rewrite (Rlt_bool_true _ _ Ha). cbn [andb].
  case Rlt_bool_spec; intros H; [|reflexivity]. rewrite xsqrt_fin by (left; exact H). reflexivity.
Qed.
Lemma axes_solve (R1 R2 c2 s2 a2 b2 : R) : (c2 - s2 <> 0)%R -> (c2 + s2 = 1)%R ->
  a2 = ((R1 * c2 - R2 * s2) / (c2 - s2))%R -> b2 = ((R2 * c2 - R1 * s2) / (c2 - s2))%R ->
  (a2 * c2 + b2 * s2 = R1 /\ a2 * s2 + b2 * c2 = R2)%R.
Proof.
  intros Hf H1 -> ->. replace c2 with (1 - s2)%R in * by lra. split; field; lra.
Qed.
Lemma ab_equations (s1 s2 theta lam : R) a b :
  @calculate_ab XR (Fin s1) (Fin s2) (Fin theta) (Fin lam) = (a, BNum b) ->
  (cos theta ^ 4 - sin theta ^ 4 <> 0)%R ->
  exists x y, a = Fin x /\ b = Fin y /\ (0 < x)%R /\ (0 < y)%R /\
    (x ^ 2 * cos theta ^ 2 + y ^ 2 * sin theta ^ 2 = (lam * s1) ^ 2)%R /\
    (x ^ 2 * sin theta ^ 2 + y ^ 2 * cos theta ^ 2 = (lam * s2) ^ 2)%R.
Proof.
  intros E Hf. unfold calculate_ab in E.
  rewrite !xmul_fin, xcos_fin, xsin_fin, !nipow_fin, !xmul_fin, !xsub_fin, !xdiv_fin in E by exact Hf.
  rewrite !xofZ_fin, !xltb_fin in E.
  set (fa := (((lam * s1) ^ 2 * cos theta ^ 2 - (lam * s2) ^ 2 * sin theta ^ 2) / (cos theta ^ 4 - sin theta ^ 4))%R) in *.
  set (fb := (((lam * s2) ^ 2 * cos theta ^ 2 - (lam * s1) ^ 2 * sin theta ^ 2) / (cos theta ^ 4 - sin theta ^ 4))%R) in *.
  revert E. case Rlt_bool_spec; intros Ha; [|discriminate]. case Rlt_bool_spec; intros Hb; [|discriminate].
  cbn [andb]. rewrite !xsqrt_fin by lra. intros E. injection E as <- <-.
  exists (sqrt fa), (sqrt fb). split; [reflexivity|]. split; [reflexivity|].
  split; [apply sqrt_lt_R0, Ha|]. split; [apply sqrt_lt_R0, Hb|].
  rewrite <- !Rsqr_pow2, !Rsqr_sqrt by lra. rewrite !Rsqr_pow2.
  rewrite fact_eq in Hf. apply (axes_solve ((lam * s1) ^ 2) ((lam * s2) ^ 2)); [exact Hf | | unfold fa; rewrite fact_eq; reflexivity | unfold fb; rewrite fact_eq; reflexivity].
  pose proof (sin2_cos2 theta) as H. rewrite !Rsqr_pow2 in H. lra.
Qed.
(** The equations determine the axes. *)
Lemma axes_unique (R1 R2 theta x y x' y' : R) : (cos theta ^ 4 - sin theta ^ 4 <> 0)%R ->
  (0 < x)%R -> (0 < y)%R -> (0 < x')%R -> (0 < y')%R ->
  (x ^ 2 * cos theta ^ 2 + y ^ 2 * sin theta ^ 2 = R1)%R -> (x ^ 2 * sin theta ^ 2 + y ^ 2 * cos theta ^ 2 = R2)%R ->
  (x' ^ 2 * cos theta ^ 2 + y' ^ 2 * sin theta ^ 2 = R1)%R -> (x' ^ 2 * sin theta ^ 2 + y' ^ 2 * cos theta ^ 2 = R2)%R ->
  x = x' /\ y = y'.
Proof.
  intros Hf Hx Hy Hx' Hy' H1 H2 H3 H4. rewrite fact_eq in Hf.
  set (c2 := (cos theta ^ 2)%R) in *. set (s2 := (sin theta ^ 2)%R) in *.
  assert (HC : (c2 + s2 = 1)%R). { unfold c2, s2. pose proof (sin2_cos2 theta) as H. rewrite !Rsqr_pow2 in H. lra. }
  assert (E1 : ((x ^ 2 - x' ^ 2) * (c2 - s2) = 0)%R).
  { assert (D1 : ((x ^ 2 - x' ^ 2) * c2 + (y ^ 2 - y' ^ 2) * s2 = 0)%R) by lra.
    assert (D2 : ((x ^ 2 - x' ^ 2) * s2 + (y ^ 2 - y' ^ 2) * c2 = 0)%R) by lra.
    replace ((x ^ 2 - x' ^ 2) * (c2 - s2))%R with ((x ^ 2 - x' ^ 2) * (c2 - s2) * (c2 + s2))%R by (rewrite HC; ring).
    replace ((x ^ 2 - x' ^ 2) * (c2 - s2) * (c2 + s2))%R
      with (c2 * ((x ^ 2 - x' ^ 2) * c2 + (y ^ 2 - y' ^ 2) * s2) - s2 * ((x ^ 2 - x' ^ 2) * s2 + (y ^ 2 - y' ^ 2) * c2))%R by ring.
    rewrite D1, D2. ring. }
  apply Rmult_integral in E1. destruct E1 as [E1|E1]; [|lra].
  assert (E2 : (y ^ 2 = y' ^ 2)%R) by nra.
  split; nra.
Qed.
(** phasespace.py computes sqrt(...)/fact instead of sqrt(.../fact). *)
Lemma ps_axes_wrong (l dc dc2 : list R) : length dc = length l -> length dc2 = length l -> rdot l l <> 0%R ->
  let lam := runiv (length l) in let theta := atan (rdot l dc2 / rdot l l) in
  let a1 := (lam * rstd l)%R in let b2 := (lam * rstd dc2)%R in
  let fact := (cos theta ^ 4 - sin theta ^ 4)%R in
  (0 <= a1 ^ 2 * cos theta ^ 2 - b2 ^ 2 * sin theta ^ 2)%R -> (0 <= b2 ^ 2 * cos theta ^ 2 - a1 ^ 2 * sin theta ^ 2)%R -> fact <> 0%R ->
  exists p a3 b3, ps_parameters (fins l) (fins dc) (fins dc2) = Ok p /\ p_a3 p = Fin a3 /\ p_b3 p = Fin b3 /\
    (a3 ^ 2 * cos theta ^ 2 + b3 ^ 2 * sin theta ^ 2 = a1 ^ 2 / fact)%R /\
    (a3 ^ 2 * sin theta ^ 2 + b3 ^ 2 * cos theta ^ 2 = b2 ^ 2 / fact)%R.
Proof.
  intros L1 L2 Hd. cbv zeta. intros HA HB Hf.
  destruct (ps_parameters_exact l dc dc2 L1 L2 Hd HA HB Hf) as (p & Ep & _ & _ & _ & _ & _ & _ & P7 & P8).
  eexists p, _, _. split; [exact Ep|]. split; [exact P7|]. split; [exact P8|].
  set (theta := atan (rdot l dc2 / rdot l l)) in *. set (a1 := (runiv (length l) * rstd l)%R) in *. set (b2 := (runiv (length l) * rstd dc2)%R) in *.
  assert (HQ : forall A F, (0 <= A)%R -> (F <> 0)%R -> ((sqrt A / F) ^ 2 = A / F / F)%R).
  { intros A F H1 H2. replace ((sqrt A / F) ^ 2)%R with (sqrt A * sqrt A / F / F)%R by (field; exact H2). rewrite sqrt_sqrt by exact H1. reflexivity. }
  rewrite !HQ by assumption. rewrite fact_eq in *.
  destruct (axes_solve (a1 ^ 2) (b2 ^ 2) (cos theta ^ 2) (sin theta ^ 2) _ _ Hf
    ltac:(pose proof (sin2_cos2 theta) as H; rewrite !Rsqr_pow2 in H; lra) eq_refl eq_refl) as [X1 X2].
  split; [rewrite <- X1 at 3 | rewrite <- X2 at 3]; field; exact Hf.
Qed.
