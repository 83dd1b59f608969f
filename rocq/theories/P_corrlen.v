(** velocity_correlation on components of different lengths (correlation.py). *)
From Coq Require Import Reals Lra Psatz.
From Flocq Require Import Core.Raux.
From Verif Require Export P_corr.
Local Open Scope Z_scope.

Lemma bcast_or {A B C} (f : A -> B -> C) a b : (exists r, bcast f a b = Ok r) \/ bcast f a b = Raise ValueError.
Proof.
  unfold bcast. destruct (Nat.eqb (length a) (length b)); [left; eexists; reflexivity|].
  destruct a as [|x [|x' a]], b as [|y [|y' b]]; first [right; reflexivity | left; eexists; reflexivity].
Qed.
Lemma bcast_len {A B C} (f : A -> B -> C) a b r : bcast f a b = Ok r -> a <> [] -> b <> [] ->
  (length a = length b \/ length a = 1%nat \/ length b = 1%nat) /\ length r = Nat.max (length a) (length b).
Proof.
  unfold bcast. intros H Ha Hb. destruct (Nat.eqb_spec (length a) (length b)) as [E|E].
  - inversion H; subst. rewrite zipwith_length. lia.
  - destruct a as [|x [|x' a]]; [congruence| |]; destruct b as [|y [|y' b]]; try congruence; try discriminate; inversion H; subst; cbn; rewrite ?map_length; lia.
Qed.
Lemma rho_or (N : Num) (x y : list N) th a b : (exists r, calculate_rho x y th a b = Ok r) \/ calculate_rho x y th a b = Raise ValueError.
Proof.
  unfold calculate_rho. match goal with |- context [bcast ?f ?p ?q] => destruct (bcast_or f p q) as [(r1 & ->)| ->] end; cbn [bind]; [|right; reflexivity].
  match goal with |- context [bcast nsub ?p ?q] => destruct (bcast_or (@nsub N) p q) as [(r2 & ->)| ->] end; cbn [bind]; [|right; reflexivity].
  destruct b as [b|b1 b2]; cbn [bind].
  - apply bcast_or.
  - destruct (bcast_or (@ndiv N) r2 [b1; b2]) as [(r3 & ->)| ->]; cbn [bind]; [apply bcast_or | right; reflexivity].
Qed.
Lemma map_ne {A B} (f : A -> B) l : l <> [] -> map f l <> [].
Proof. destruct l; [congruence | discriminate]. Qed.
Lemma rho_pair_len (N : Num) (x y : list N) theta a b1 b2 : x <> [] -> y <> [] -> (3 <= Nat.max (length x) (length y))%nat ->
  calculate_rho x y theta a (BPair b1 b2) = Raise ValueError.
Proof.
  intros Hx Hy H3. unfold calculate_rho.
  match goal with |- context [bcast ?f ?p ?q] => destruct (bcast_or f p q) as [(r1 & ->)| ->] end; cbn [bind]; [|reflexivity].
  match goal with |- context [bcast nsub ?p ?q] => destruct (bcast_or (@nsub N) p q) as [(r2 & E2)|E2]; rewrite E2 end; cbn [bind]; [|reflexivity].
  apply bcast_len in E2; [|apply map_ne; assumption..]. rewrite !map_length in E2.
  assert (Hb : bcast ndiv r2 [b1; b2] = Raise ValueError).
  { destruct r2 as [|q0 [|q1 [|q2 q]]]; cbn in E2; try lia. reflexivity. }
  rewrite Hb. reflexivity.
Qed.

(** A component with one sample gives no ellipse. *)
Lemma rdev_one x : rdev [x] = [0%R].
Proof. unfold rdev, rmean. cbn. f_equal. lra. Qed.
Lemma bcast_zero (u v : list R) uv : u <> [] -> v <> [] -> (length u = 1 \/ length v = 1)%nat ->
  bcast nmul (fins (rdev u)) (fins (rdev v)) = Ok uv -> nsum uv = Fin 0.
Proof.
  intros Hu Hv H E.
  assert (HZ : forall x, In x uv -> x = Fin 0).
  { destruct H as [H|H].
    - destruct u as [|x [|x' u]]; cbn in H; try lia. rewrite rdev_one in E. unfold bcast in E.
      destruct (Nat.eqb_spec (length (fins [0%R])) (length (fins (rdev v)))) as [E1|E1].
      + rewrite (zipwith_fins Rmult) in E by reflexivity. inversion E; subst. clear E.
        destruct (rdev v) as [|d [|d' l]]; cbn in E1; try lia. intros y [<-|[]]. cbn. f_equal. ring.
      + cbn [fins map] in E. inversion E; subst. intros y Hy. apply in_map_iff in Hy. destruct Hy as (z & <- & Hz).
        apply in_map_iff in Hz. destruct Hz as (t & <- & _). rewrite xmul_fin. f_equal. ring.
    - destruct v as [|x [|x' v]]; cbn in H; try lia. rewrite rdev_one in E. unfold bcast in E.
      destruct (Nat.eqb_spec (length (fins (rdev u))) (length (fins [0%R]))) as [E1|E1].
      + rewrite (zipwith_fins Rmult) in E by reflexivity. inversion E; subst. clear E.
        destruct (rdev u) as [|d [|d' l]]; cbn in E1; try lia. intros y [<-|[]]. cbn. f_equal. ring.
      + assert (EM : uv = map (fun a => nmul a (Fin 0)) (fins (rdev u))).
        { destruct (fins (rdev u)) as [|d [|d' l]]; cbn [fins map] in E; cbn in E1; try lia; try discriminate; inversion E; reflexivity. }
        rewrite EM. intros y Hy. apply in_map_iff in Hy. destruct Hy as (z & <- & Hz).
        apply in_map_iff in Hz. destruct Hz as (t & <- & _). rewrite xmul_fin. f_equal. ring. }
  assert (EZ : uv = fins (map (fun _ => 0%R) uv)).
  { clear - HZ. induction uv as [|y l IH]; [reflexivity|]. cbn. f_equal; [apply HZ; left; reflexivity | apply IH; intros z Hz; apply HZ; right; exact Hz]. }
  rewrite EZ, xsum_fins. f_equal. clear. induction uv as [|y l IH]; cbn; [reflexivity|]. rewrite Rplus_0_l. exact IH.
Qed.
Lemma pair_short (u v : list R) lam uv : u <> [] -> v <> [] -> (length u = 1 \/ length v = 1)%nat ->
  bcast nmul (fins (rdev u)) (fins (rdev v)) = Ok uv ->
  exists a b1 b2, calculate_ab (Fin (rstd (rdev u))) (Fin (rstd (rdev v))) (natan (ndiv (nsum uv) (nsum (map (@sq XR) (fins (rdev u)))))) (Fin lam) = (a, BPair b1 b2).
Proof.
  intros Hu Hv H E. rewrite (bcast_zero u v uv Hu Hv H E), sum_sq_fins. set (d := rdot (rdev u) (rdev u)).
  destruct (Req_dec d 0) as [Hd|Hd].
  - assert (EN : @natan XR (@ndiv XR (Fin 0) (Fin d)) = NaN).
    { rewrite Hd. cbn [ndiv XR xdiv natan]. rewrite !Req_bool_true by reflexivity. reflexivity. }
    rewrite EN. eexists _, _, _. reflexivity.
  - assert (Hs : rstd (rdev v) = 0%R).
    { destruct H as [H|H].
      - exfalso. apply Hd. unfold d. destruct u as [|x [|x' u]]; cbn in H; try lia. rewrite rdev_one. unfold rdot. cbn. ring.
      - destruct v as [|x [|x' v]]; cbn in H; try lia. rewrite rdev_one. unfold rstd. change [0%R] with (repeat 0%R 1). rewrite rvar_repeat. apply sqrt_0. }
    rewrite Hs, xdiv_fin by exact Hd. rewrite xatan_fin. replace (0 / d)%R with 0%R by (unfold Rdiv; ring). rewrite atan_0.
    unfold calculate_ab. rewrite xcos_fin, xsin_fin, cos_0, sin_0, !xmul_fin, !nipow_fin, !xmul_fin, !xsub_fin. rewrite !xdiv_fin by (intros Z; ring_simplify in Z; lra).
    rewrite !xofZ_fin, !xltb_fin.
    match goal with |- context [(Rlt_bool 0 ?p && Rlt_bool 0 ?q)%bool] => assert (HB : (Rlt_bool 0 p && Rlt_bool 0 q)%bool = false) end.
    { apply andb_false_intro2. apply Rlt_bool_false. right. unfold Rdiv. ring_simplify. ring. }
    rewrite HB. eexists _, _, _. reflexivity.
Qed.
Lemma correlation_lengths (u v w : list R) : u <> [] -> v <> [] -> w <> [] ->
  ~ (length v = length u /\ length w = length u) -> (3 <= length u \/ 3 <= length v \/ 3 <= length w)%nat ->
  velocity_correlation (fins u) (fins v) (fins w) = Raise ValueError.
Proof.
  intros Hu Hv Hw HN H3.
  assert (Du : fins (rdev u) <> []) by (apply fins_nil, rdev_nil, Hu). assert (Dv : fins (rdev v) <> []) by (apply fins_nil, rdev_nil, Hv).
  assert (Dw : fins (rdev w) <> []) by (apply fins_nil, rdev_nil, Hw).
  set (lam := runiv (length u)).
  assert (HU : @nsqrt XR (nmul (nofZ 2) (nlog (nofZ (zlen (fins (rdev u)))))) = Fin lam).
  { rewrite zlen_fins, univ_fin by (apply rdev_nil, Hu). rewrite rdev_length. reflexivity. }
  unfold velocity_correlation. rewrite !fluct_fins by assumption. cbn [bind]. fold (rdev u) (rdev v) (rdev w).
  rewrite !std_correct by (apply rdev_nil; assumption). cbn [bind]. rewrite HU.
  destruct (bcast_or (@nmul XR) (fins (rdev u)) (fins (rdev v))) as [(uv & E1)|E1]; rewrite E1; cbn [bind]; [|reflexivity].
  destruct (bcast_or (@nmul XR) (fins (rdev u)) (fins (rdev w))) as [(uw & E2)|E2]; rewrite E2; cbn [bind]; [|reflexivity].
  destruct (bcast_or (@nmul XR) (fins (rdev v)) (fins (rdev w))) as [(vw & E3)|E3]; rewrite E3; cbn [bind]; [|reflexivity].
  destruct (bcast_len _ _ _ _ E1 Du Dv) as [L1 _]. destruct (bcast_len _ _ _ _ E2 Du Dw) as [L2 _]. destruct (bcast_len _ _ _ _ E3 Dv Dw) as [L3 _].
  rewrite !fins_length, !rdev_length in L1, L2, L3.
  assert (HC : ((length u = 1 \/ length v = 1) /\ 3 <= Nat.max (length u) (length v))%nat \/
               ((length u = 1 \/ length w = 1) /\ 3 <= Nat.max (length u) (length w))%nat) by lia.
  destruct HC as [[HA HB]|[HA HB]].
  - destruct (pair_short u v lam uv Hu Hv HA E1) as (a & b1 & b2 & Q). rewrite Q.
    destruct (calculate_ab _ _ _ _) as [a2 c2]. destruct (calculate_ab _ _ _ _) as [a3 c3].
    rewrite rho_pair_len; [reflexivity | exact Du | exact Dv | rewrite !fins_length, !rdev_length; exact HB].
  - destruct (pair_short u w lam uw Hu Hw HA E2) as (a & b1 & b2 & Q). rewrite Q.
    destruct (calculate_ab _ _ _ _) as [a2 c2]. destruct (calculate_ab _ _ _ _) as [a3 c3].
    match goal with |- context [calculate_rho ?x ?y ?t ?a ?b] => destruct (rho_or XR x y t a b) as [(r & ->)| ->] end; cbn [bind]; [|reflexivity].
    rewrite rho_pair_len; [reflexivity | exact Du | exact Dw | rewrite !fins_length, !rdev_length; exact HB].
Qed.
(** Two samples and one sample: accepted. *)
Lemma correlation_two (N : Num) (x y v z t : N) : exists r, velocity_correlation [x; y] [v] [z; t] = Ok r.
Proof.
  unfold velocity_correlation, fluct. rewrite !mean_num_ne by discriminate. cbn [bind map].
  rewrite !spread_std_farr by discriminate. cbn [bind].
  unfold bcast at 1. cbn [length Nat.eqb map bind]. unfold bcast at 1. cbn [length Nat.eqb bind zipwith combine map fst snd].
  unfold bcast at 1. cbn [length Nat.eqb map bind].
  do 3 (destruct (calculate_ab _ _ _ _) as [? [?|? ?]]); unfold calculate_rho, bcast; cbn [length Nat.eqb map bind zipwith combine fst snd]; eexists; reflexivity.
Qed.
