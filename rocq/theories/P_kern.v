(** Lemmas about bivariatekernel.py and trivariatekernel.py. *)
From Coq Require Import Reals Lra Psatz.
From Flocq Require Import Core.Raux.
From Verif Require Export P_corr.
Local Open Scope Z_scope.

(** ** Cut-offs, every arithmetic *)
Lemma first_such_down {test : Z -> res bool} (b : Z -> bool) a p (dflt : Z) :
  (forall j, a <= j < p -> test j = Ok (b j)) ->
  exists lo, first_such test (rev (zrange a p)) dflt = Ok lo /\
    ((a <= lo < p /\ b lo = true /\ forall j, lo < j < p -> b j = false) \/
     (lo = dflt /\ forall j, a <= j < p -> b j = false)).
Proof.
  destruct (Z_le_gt_dec p a) as [Hp|Hp].
  { intros _. rewrite zrange_nil by exact Hp. exists dflt. split; [reflexivity|]. right. split; [reflexivity | intros; lia]. }
  remember (Z.to_nat (p - a)) as k eqn:Ek. revert p Hp Ek. induction k as [|k IH]; intros p Hp Ek HT; [lia|].
  replace (rev (zrange a p)) with ((p - 1) :: rev (zrange a (p - 1))).
  2:{ replace p with (p - 1 + 1) at 3 by lia. rewrite zrange_snoc by lia. rewrite rev_app_distr. reflexivity. }
  cbn [first_such]. rewrite HT by lia. cbn [bind]. destruct (b (p - 1)) eqn:Eb.
  - exists (p - 1). split; [reflexivity|]. left. split; [lia|]. split; [exact Eb|]. intros; lia.
  - destruct (Z.eq_dec (p - 1) a) as [Heq|Hne].
    + rewrite zrange_nil by lia. exists dflt. split; [reflexivity|]. right. split; [reflexivity|]. intros j Hj. replace j with (p - 1) by lia. exact Eb.
    + destruct (IH (p - 1)) as (lo & E & H); [lia | lia | intros; apply HT; lia |]. exists lo. split; [exact E|].
      destruct H as [(H1 & H2 & H3)|[H1 H2]]; [left|right].
      * split; [lia|]. split; [exact H2|]. intros j Hj. destruct (Z.eq_dec j (p - 1)) as [->|]; [exact Eb | apply H3; lia].
      * split; [exact H1|]. intros j Hj. destruct (Z.eq_dec j (p - 1)) as [->|]; [exact Eb | apply H2; lia].
Qed.
Lemma first_such_up {test : Z -> res bool} (b : Z -> bool) a p (dflt : Z) :
  (forall j, a <= j < p -> test j = Ok (b j)) ->
  exists up, first_such test (zrange a p) dflt = Ok up /\
    ((a <= up < p /\ b up = true /\ forall j, a <= j < up -> b j = false) \/
     (up = dflt /\ forall j, a <= j < p -> b j = false)).
Proof.
  remember (Z.to_nat (p - a)) as k eqn:Ek. revert a Ek. induction k as [|k IH]; intros a Ek HT.
  { rewrite zrange_nil by lia. exists dflt. split; [reflexivity|]. right. split; [reflexivity | intros; lia]. }
  rewrite zrange_cons by lia. cbn [first_such]. rewrite HT by lia. cbn [bind]. destruct (b a) eqn:Eb.
  - exists a. split; [reflexivity|]. left. split; [lia|]. split; [exact Eb|]. intros; lia.
  - destruct (IH (a + 1)) as (up & E & H); [lia | intros; apply HT; lia |]. exists up. split; [exact E|].
    destruct H as [(H1 & H2 & H3)|[H1 H2]]; [left|right].
    + split; [lia|]. split; [exact H2|]. intros j Hj. destruct (Z.eq_dec j a) as [->|]; [exact Eb | apply H3; lia].
    + split; [exact H1|]. intros j Hj. destruct (Z.eq_dec j a) as [->|]; [exact Eb | apply H2; lia].
Qed.
Lemma cutoff_general (N : Num) (density velocity force : list N) (c1 c2 grid : N) (p : Z) d :
  2 <= zlen force -> zlen velocity = zlen force -> (zlen density = zlen force \/ zlen density = 1) -> 0 <= p < zlen force ->
  let f i := nth (Z.to_nat i) force d in
  let dens i := if zlen density =? 1 then nth 0 density d else nth (Z.to_nat i) density d in
  let meets i := nleb (ndiv (f i) (f p)) c1 = true /\
                 nleb (nabs (ndiv (nmul (nsub (f i) (f (i - 1))) grid) (dens i))) c2 = true in
  exists lo up, cutoff density velocity c1 c2 force p grid = Ok (nth (Z.to_nat lo) velocity d, nth (Z.to_nat up) velocity d) /\
    ((1 <= lo < p /\ meets lo /\ forall j, lo < j < p -> ~ meets j) \/ (lo = 1 /\ forall j, 1 <= j < p -> ~ meets j)) /\
    ((p < up < zlen force - 1 /\ meets up /\ forall j, p < j < up -> ~ meets j) \/
     (up = zlen force - 1 /\ forall j, p < j < zlen force - 1 -> ~ meets j)).
Proof.
  intros Hn Hv Hd Hp f dens meets. unfold cutoff.
  set (df := map (fun d0 => nmul d0 grid) (nofZ 0 :: np_diff force)).
  assert (Ldf : zlen df = zlen force).
  { unfold df, zlen in *. rewrite map_length. cbn [length]. rewrite np_diff_length. lia. }
  assert (Ndf : forall i, 1 <= i < zlen force -> nth (Z.to_nat i) df d = nmul (nsub (f i) (f (i - 1))) grid).
  { intros i Hi. unfold df. rewrite (nth_map_in _ _ _ d) by (cbn [length]; rewrite np_diff_length; unfold zlen in *; lia).
    f_equal. replace (Z.to_nat i) with (S (Z.to_nat (i - 1))) by lia. cbn [nth]. rewrite nth_np_diff by (unfold zlen in *; lia).
    unfold f. replace (S (Z.to_nat (i - 1))) with (Z.to_nat i) by lia. reflexivity. }
  clearbody df.
  assert (HB : exists dl, bcast ndiv df density = Ok dl /\ zlen dl = zlen force /\
             forall i, 1 <= i < zlen force -> nth (Z.to_nat i) dl d = ndiv (nmul (nsub (f i) (f (i - 1))) grid) (dens i)).
  { unfold dens. destruct (Z.eqb_spec (zlen density) 1) as [E1|E1].
    - assert (exists x, density = [x]) as (x & ->). { destruct density as [|x [|y t]]; unfold zlen in E1; cbn in E1; try lia. eexists; reflexivity. }
      assert (EB : bcast ndiv df [x] = Ok (map (fun v => ndiv v x) df)).
      { unfold bcast. destruct (Nat.eqb_spec (length df) (length [x])) as [EL|EL].
        - exfalso. cbn in EL. unfold zlen in Ldf, Hn. lia.
        - destruct df as [|y [|z t]]; [unfold zlen in *; cbn in Ldf; lia | unfold zlen in *; cbn in Ldf; lia | reflexivity]. }
      rewrite EB. eexists. split; [reflexivity|]. split; [unfold zlen in *; rewrite map_length; exact Ldf|].
      intros i Hi. rewrite (nth_map_in _ _ _ d) by (unfold zlen in *; lia). rewrite Ndf by exact Hi. reflexivity.
    - destruct Hd as [Hd|Hd]; [|contradiction]. rewrite bcast_same by (unfold zlen in *; lia).
      eexists. split; [reflexivity|]. split; [rewrite zlen_zipwith by (unfold zlen in *; lia); exact Ldf|].
      intros i Hi. rewrite (nth_zipwith _ _ _ _ d d) by (unfold zlen in *; lia). rewrite Ndf by exact Hi. reflexivity. }
  destruct HB as (dl & EB & Ldl & Ndl). rewrite EB. cbn [bind].
  set (mb := fun i => nleb (ndiv (f i) (f p)) c1 && nleb (nabs (ndiv (nmul (nsub (f i) (f (i - 1))) grid) (dens i))) c2).
  assert (HT : forall j, 1 <= j < zlen force -> cutoff_test c1 c2 force dl p j = Ok (mb j)).
  { intros j Hj. unfold cutoff_test. rewrite (getz_ok force j d), (getz_ok force p d) by lia. cbn [bind]. unfold mb.
    fold (f j). fold (f p). destruct (nleb (ndiv (f j) (f p)) c1); [|reflexivity].
    rewrite (getz_ok dl j d) by lia. cbn [bind]. rewrite Ndl by exact Hj. reflexivity. }
  assert (HM : forall j, mb j = true <-> meets j) by (intros j; unfold mb; rewrite andb_true_iff; reflexivity).
  assert (HF : forall j, mb j = false -> ~ meets j) by (intros j H H1; apply HM in H1; congruence).
  destruct (first_such_down (test := cutoff_test c1 c2 force dl p) mb 1 p 1) as (lo & E1 & H1); [intros; apply HT; lia|].
  destruct (first_such_up (test := cutoff_test c1 c2 force dl p) mb (p + 1) (zlen force - 1) (zlen force - 1)) as (up & E2 & H2); [intros; apply HT; lia|].
  rewrite E1. cbn [bind]. rewrite E2. cbn [bind].
  assert (Blo : 0 <= lo < zlen velocity) by (destruct H1 as [[H1 _]|[H1 _]]; lia).
  assert (Bup : 0 <= up < zlen velocity) by (destruct H2 as [[H2 _]|[H2 _]]; lia).
  rewrite (getz_ok velocity lo d), (getz_ok velocity up d) by assumption. cbn [bind].
  exists lo, up. split; [reflexivity|]. split.
  - destruct H1 as [(A & B & C)|[A B]]; [left|right].
    + split; [exact A|]. split; [apply HM, B|]. intros j Hj. apply HF, C, Hj.
    + split; [exact A|]. intros j Hj. apply HF, B, Hj.
  - destruct H2 as [(A & B & C)|[A B]]; [left|right].
    + split; [lia|]. split; [apply HM, B|]. intros j Hj. apply HF, C. lia.
    + split; [exact A|]. intros j Hj. apply HF, B. lia.
Qed.

(** The returned pair brackets the peak when the peak is not at index 0, 1 or n-1; at 0 and 1 it does not. *)
Lemma cutoff_brackets (N : Num) (density velocity force : list N) (c1 c2 grid : N) (p : Z) d :
  2 <= zlen force -> zlen velocity = zlen force -> (zlen density = zlen force \/ zlen density = 1) -> 1 < p < zlen force - 1 ->
  exists lo up, cutoff density velocity c1 c2 force p grid = Ok (nth (Z.to_nat lo) velocity d, nth (Z.to_nat up) velocity d) /\
    1 <= lo < p /\ p < up < zlen force.
Proof.
  intros Hn Hv Hd Hp. destruct (cutoff_general N density velocity force c1 c2 grid p d Hn Hv Hd ltac:(lia)) as (lo & up & E & H1 & H2).
  exists lo, up. split; [exact E|]. split; [destruct H1 as [[H1 _]|[H1 _]]; lia | destruct H2 as [[H2 _]|[H2 _]]; lia].
Qed.
Lemma cutoff_edge (N : Num) (density velocity force : list N) (c1 c2 grid : N) (p : Z) d :
  2 <= zlen force -> zlen velocity = zlen force -> (zlen density = zlen force \/ zlen density = 1) ->
  (0 <= p <= 1 -> exists y, cutoff density velocity c1 c2 force p grid = Ok (nth 1 velocity d, y)) /\
  (zlen force - 2 <= p < zlen force -> exists x, cutoff density velocity c1 c2 force p grid = Ok (x, nth (length velocity - 1) velocity d)).
Proof.
  intros Hn Hv Hd. split; intros Hp;
    destruct (cutoff_general N density velocity force c1 c2 grid p d Hn Hv Hd ltac:(lia)) as (lo & up & E & H1 & H2).
  - eexists. rewrite E. assert (lo = 1) as -> by (destruct H1 as [[H1 _]|[H1 _]]; lia). reflexivity.
  - eexists. rewrite E. assert (up = zlen force - 1) as -> by (destruct H2 as [[H2 _]|[H2 _]]; lia).
    replace (Z.to_nat (zlen force - 1)) with (length velocity - 1)%nat by (unfold zlen in *; lia). reflexivity.
Qed.

(** ** One-sided derivative *)
Lemma biv_general (N : Num) (data : list N) d :
  exists r, biv_derivative data = Ok r /\ length r = length data /\
    forall i, 0 <= i < zlen data -> nth (Z.to_nat i) r d =
      if (0 <? i) && (i <? zlen data - 1) then
        let backward := nsub (nth (Z.to_nat i) data d) (nth (Z.to_nat (i - 1)) data d) in
        let forward := nsub (nth (Z.to_nat (i + 1)) data d) (nth (Z.to_nat i) data d) in
        if nltb (nabs forward) (nabs backward) then forward else backward
      else nofZ 0.
Proof.
  unfold biv_derivative.
  assert (HR : forall i, 0 <= i < zlen data -> nth (Z.to_nat i) (repeat (@nofZ N 0) (length data)) d = nofZ 0).
  { intros i Hi. rewrite (nth_indep _ d (nofZ 0)) by (rewrite repeat_length; unfold zlen in Hi; lia). apply nth_repeat'. }
  destruct (Z_le_gt_dec (zlen data - 1) 1) as [Hs|Hs].
  - rewrite zrange_nil by lia. cbn [foldM]. eexists. split; [reflexivity|]. split; [apply repeat_length|].
    intros i Hi. destruct (Z.ltb_spec 0 i), (Z.ltb_spec i (zlen data - 1)); try lia; cbn [andb]; apply HR; exact Hi.
  - edestruct (foldM_fill (fun (d : list N) (i : Z) => let* m := getz data i in let* p := getz data (i - 1) in let* n := getz data (i + 1) in
        setz d i (if nltb (nabs (nsub n m)) (nabs (nsub m p)) then nsub n m else nsub m p))
      (fun i => let backward := nsub (nth (Z.to_nat i) data d) (nth (Z.to_nat (i - 1)) data d) in
        let forward := nsub (nth (Z.to_nat (i + 1)) data d) (nth (Z.to_nat i) data d) in
        if nltb (nabs forward) (nabs backward) then forward else backward)
      1 (zlen data - 1) (repeat (nofZ 0) (length data)) d) as (r & E & HL & H1 & H2).
    + lia.
    + unfold zlen at 2. rewrite repeat_length. unfold zlen. lia.
    + intros i s Hi _ _ _. rewrite (getz_ok data i d), (getz_ok data (i + 1) d), (getz_ok data (i - 1) d) by lia. reflexivity.
    + exists r. split; [exact E|]. rewrite repeat_length in HL. split; [exact HL|]. intros i Hi.
      destruct (Z.ltb_spec 0 i), (Z.ltb_spec i (zlen data - 1)); cbn [andb]; try (rewrite H2 by lia; apply HR; exact Hi).
      apply H1. lia.
Qed.
Lemma biv_exact (l : list R) :
  exists m, biv_derivative (fins l) = Ok (fins m) /\ length m = length l /\
    (forall i, (i = 0 \/ S i = length l)%nat -> nth i m 0%R = 0%R) /\
    (forall i, (0 < i)%nat -> (S i < length l)%nat ->
       let b := (nth i l 0 - nth (i - 1) l 0)%R in let f := (nth (S i) l 0 - nth i l 0)%R in
       (nth i m 0%R = b \/ nth i m 0%R = f) /\ Rabs (nth i m 0%R) = Rmin (Rabs b) (Rabs f) /\ (Rabs b = Rabs f -> nth i m 0%R = b)).
Proof.
  set (h := fun i => if (Nat.ltb 0 i && Nat.ltb (S i) (length l)) then
     let b := (nth i l 0 - nth (i - 1) l 0)%R in let f := (nth (S i) l 0 - nth i l 0)%R in if Rlt_bool (Rabs f) (Rabs b) then f else b else 0%R).
  destruct (biv_general XR (fins l) (Fin 0)) as (r & E & HL & H). rewrite fins_length in HL.
  exists (map h (seq 0 (length l))). split; [|split; [rewrite map_length, seq_length; reflexivity|]].
  - rewrite E. f_equal. apply (fins_build r); [exact HL|]. intros k Hk. specialize (H (Z.of_nat k)).
    rewrite zlen_fins, Nat2Z.id in H. rewrite H by (unfold zlen; lia). unfold h.
    destruct (Z.ltb_spec 0 (Z.of_nat k)), (Nat.ltb_spec 0 k); try lia; cbn [andb]; [|reflexivity].
    destruct (Z.ltb_spec (Z.of_nat k) (zlen l - 1)), (Nat.ltb_spec (S k) (length l)); try (unfold zlen in *; lia); [|reflexivity].
    cbv zeta. rewrite !fins_nth, !xsub_fin, !xabs_fin, xltb_fin.
    replace (Z.to_nat (Z.of_nat k + 1)) with (S k) by lia. replace (Z.to_nat (Z.of_nat k - 1)) with (k - 1)%nat by lia.
    destruct (Rlt_bool _ _); reflexivity.
  - assert (HN : forall i, (i < length l)%nat -> nth i (map h (seq 0 (length l))) 0%R = h i).
    { intros i Hi. rewrite (nth_map_in _ _ _ O) by (rewrite seq_length; exact Hi). rewrite seq_nth by exact Hi. reflexivity. }
    split.
    + intros i Hi. destruct (lt_dec i (length l)) as [Hl|Hl]; [|apply nth_overflow; rewrite map_length, seq_length; lia].
      rewrite HN by exact Hl. unfold h. destruct Hi as [->|Hi]; [reflexivity|].
      destruct (Nat.ltb_spec (S i) (length l)); [lia|]. rewrite andb_false_r. reflexivity.
    + intros i H0 H1. cbv zeta. rewrite HN by lia. unfold h.
      destruct (Nat.ltb_spec 0 i); [|lia]. destruct (Nat.ltb_spec (S i) (length l)); [|lia]. cbn [andb].
      set (b := (nth i l 0 - nth (i - 1) l 0)%R). set (f := (nth (S i) l 0 - nth i l 0)%R). cbv zeta.
      case Rlt_bool_spec; intros Hlt.
      * split; [right; reflexivity|]. split; [rewrite Rmin_right by lra; reflexivity | intros; exfalso; lra].
      * split; [left; reflexivity|]. split; [rewrite Rmin_left by lra; reflexivity | reflexivity].
Qed.
Lemma biv_affine (a b : R) (n : nat) :
  exists m, biv_derivative (fins (map (fun k => a * INR k + b)%R (seq 0 n))) = Ok (fins m) /\ length m = n /\
    forall i, (0 < i)%nat -> (S i < n)%nat -> nth i m 0%R = a.
Proof.
  set (l := map (fun k => a * INR k + b)%R (seq 0 n)). assert (Ll : length l = n) by (unfold l; rewrite map_length, seq_length; reflexivity).
  destruct (biv_exact l) as (m & E & HL & _ & H). exists m. split; [exact E|]. split; [congruence|]. intros i H0 H1.
  assert (HN : forall k, (k < n)%nat -> nth k l 0%R = (a * INR k + b)%R).
  { intros k Hk. unfold l. rewrite (nth_map_in _ _ _ O) by (rewrite seq_length; exact Hk). rewrite seq_nth by exact Hk. reflexivity. }
  destruct (H i H0 ltac:(lia)) as ([E1|E1] & _); rewrite E1, !HN by lia.
  - replace (INR i) with (INR (i - 1) + 1)%R by (rewrite <- S_INR; f_equal; lia). ring.
  - rewrite S_INR. ring.
Qed.

(** ** The kernel planes *)
Lemma tri_derivatives_exact (l : list R) :
  tri_derivatives DFloat (fins l) = Ok (fins (rcentral (fun x => x) l), fins (rcentral (fun x => x) (rcentral (fun x => x) l))).
Proof.
  unfold tri_derivatives. rewrite (central_fins (fun x => x)) by reflexivity. cbn [bind].
  replace (length (fins l)) with (length (fins (rcentral (fun x => x) l))) by (rewrite !fins_length, rcentral_length; reflexivity).
  rewrite (central_fins (fun x => x)) by reflexivity. reflexivity.
Qed.
Lemma tri_transform_gen (N : Num) (x y : list N) theta : length x = length y ->
  tri_transform x y theta =
    Ok (zipwith (fun a b => nadd (nmul a (ncos theta)) (nmul b (nsin theta))) x y,
        zipwith (fun a b => nadd (nmul (nopp a) (nsin theta)) (nmul b (ncos theta))) x y).
Proof.
  intros H. unfold tri_transform. rewrite !bcast_same by (rewrite !map_length; exact H). cbn [bind].
  rewrite !zipwith_map. reflexivity.
Qed.
Lemma tri_transform_isometry (x y : list R) (theta : R) : length x = length y ->
  exists xt yt, tri_transform (fins x) (fins y) (Fin theta) = Ok (fins xt, fins yt) /\
    length xt = length x /\ length yt = length x /\
    (forall i, (i < length x)%nat -> nth i xt 0%R = (nth i x 0 * cos theta + nth i y 0 * sin theta)%R /\
                                     nth i yt 0%R = (nth i y 0 * cos theta - nth i x 0 * sin theta)%R) /\
    (forall i j, (i < length x)%nat -> (j < length x)%nat ->
       ((nth i xt 0 - nth j xt 0) ^ 2 + (nth i yt 0 - nth j yt 0) ^ 2 = (nth i x 0 - nth j x 0) ^ 2 + (nth i y 0 - nth j y 0) ^ 2)%R).
Proof.
  intros HL.
  exists (zipwith (fun a b => a * cos theta + b * sin theta)%R x y), (zipwith (fun a b => b * cos theta - a * sin theta)%R x y).
  split.
  { rewrite tri_transform_gen by (rewrite !fins_length; exact HL).
    rewrite (zipwith_fins (fun a b => a * cos theta + b * sin theta)%R) by (intros; rewrite xcos_fin, xsin_fin, !xmul_fin, xadd_fin; reflexivity).
    rewrite (zipwith_fins (fun a b => b * cos theta - a * sin theta)%R); [reflexivity|].
    intros; rewrite xcos_fin, xsin_fin, xopp_fin, !xmul_fin, xadd_fin. f_equal. ring. }
  split; [rewrite zipwith_length, <- HL; lia|]. split; [rewrite zipwith_length, <- HL; lia|].
  assert (HN : forall i, (i < length x)%nat -> nth i (zipwith (fun a b => a * cos theta + b * sin theta)%R x y) 0%R = (nth i x 0 * cos theta + nth i y 0 * sin theta)%R /\
                                     nth i (zipwith (fun a b => b * cos theta - a * sin theta)%R x y) 0%R = (nth i y 0 * cos theta - nth i x 0 * sin theta)%R).
  { intros i Hi. rewrite !(nth_zipwith _ _ _ _ 0%R 0%R) by lia. split; reflexivity. }
  split; [exact HN|]. intros i j Hi Hj. destruct (HN i Hi) as [-> ->], (HN j Hj) as [-> ->].
  pose proof (sin2_cos2 theta) as H. rewrite !Rsqr_pow2 in H.
  set (c := cos theta) in *. set (s := sin theta) in *. set (dx := (nth i x 0 - nth j x 0)%R). set (dy := (nth i y 0 - nth j y 0)%R).
  replace (nth i x 0 * c + nth i y 0 * s - (nth j x 0 * c + nth j y 0 * s))%R with (dx * c + dy * s)%R by (unfold dx, dy; ring).
  replace (nth i y 0 * c - nth i x 0 * s - (nth j y 0 * c - nth j x 0 * s))%R with (dy * c - dx * s)%R by (unfold dx, dy; ring).
  replace ((dx * c + dy * s) ^ 2 + (dy * c - dx * s) ^ 2)%R with ((dx ^ 2 + dy ^ 2) * (s ^ 2 + c ^ 2))%R by ring. rewrite H. ring.
Qed.
Lemma Rsum_dev_prod (u v : list R) : u <> [] -> length u = length v ->
  (INR (length u) * rdot u v - Rsum u * Rsum v = INR (length u) ^ 2 * rcov u v)%R.
Proof.
  intros Hne HL. pose proof (INR_len_pos u Hne) as Hn. pose proof (rdot_dev u v Hne HL) as E.
  assert (E2 : rdot (rdev u) (rdev v) = (rdot u v - Rsum u * Rsum v / INR (length u))%R).
  { unfold rdot. rewrite rdev_length.
    transitivity (Rsum (map (fun i => nth i u 0 * nth i v 0 - (rmean v * nth i u 0 + (rmean u * nth i v 0 - rmean u * rmean v)))%R (seq 0 (length u)))).
    - apply Rsum_ext. intros i Hi. apply in_seq in Hi. rewrite !nth_rdev by lia. ring.
    - rewrite (Rsum_map_sub (fun i => nth i u 0 * nth i v 0)%R (fun i => rmean v * nth i u 0 + (rmean u * nth i v 0 - rmean u * rmean v))%R).
      rewrite (Rsum_map_add (fun i => rmean v * nth i u 0)%R), (Rsum_map_sub (fun i => rmean u * nth i v 0)%R (fun _ => rmean u * rmean v)%R).
      rewrite !Rsum_map_scal, Rsum_map_const.
      assert (HX : forall w : list R, length w = length u -> Rsum (map (fun i => nth i w 0%R) (seq 0 (length u))) = Rsum w).
      { intros w Hw. f_equal. rewrite <- Hw. apply (nth_ext_len _ _ 0%R); [rewrite map_length, seq_length; reflexivity|].
        intros k Hk. rewrite map_length, seq_length in Hk. rewrite (nth_map_in _ _ _ O) by (rewrite seq_length; exact Hk). rewrite seq_nth by exact Hk. reflexivity. }
      rewrite !HX by congruence. rewrite seq_length. unfold rmean. rewrite <- HL. field. lra. }
  rewrite E2 in E. replace (INR (length u) * rdot u v - Rsum u * Rsum v)%R with (INR (length u) * (rdot u v - Rsum u * Rsum v / INR (length u)))%R by (field; lra).
  rewrite E. ring.
Qed.
Lemma tri_rotation_exact (u w : list R) : length u = length w -> u <> [] -> rvar u <> 0%R ->
  tri_rotation (fins u) (fins w) = Ok (Fin (atan (rcov u w / rvar u))).
Proof.
  intros HL Hne Hv. pose proof (INR_len_pos u Hne) as Hn. unfold tri_rotation.
  rewrite bcast_same by (rewrite !fins_length; exact HL). cbn [bind].
  rewrite sum_prod_fins by exact HL. rewrite sum_sq_fins, !xsum_fins, zlen_fins, xofZ_fin, IZR_zlen, !xmul_fin, !xsub_fin.
  rewrite !Rsum_dev_prod by (first [assumption | reflexivity]). rewrite rcov_self. cbn [natan2 XR xatan2]. do 2 f_equal.
  pose proof (rvar_nonneg u Hne) as HV. assert (HV' : (0 < rvar u)%R) by lra. unfold atan2R.
  rewrite Rlt_bool_true by (apply Rmult_lt_0_compat; [apply pow_lt; exact Hn | exact HV']). f_equal. field. split; [exact Hv|lra].
Qed.
Lemma tri_kernel_spec (N : Num) (kde : list N -> list N -> list N -> list N -> res (list (list N))) (u1 w1 : list N) grid r d :
  length u1 = length w1 -> u1 <> [] -> tri_kernel kde u1 w1 grid = Ok r ->
  exists theta ut wt uf wf density peak up wp fu fw ul uu wl wu,
    tri_rotation u1 w1 = Ok theta /\ tri_transform u1 w1 theta = Ok (ut, wt) /\
    kde ut wt uf wf = Ok density /\ tri_peak density = Ok (peak, up, wp, fu, fw) /\
    let lam := nsqrt (nmul (nofZ 2) (nlog (nofZ (zlen u1)))) in
    let cu := ndiv (nmul lam (np_std u1)) (nsqrt (nofZ (zlen u1))) in
    let cw := ndiv (nmul lam (np_std w1)) (nsqrt (nofZ (zlen u1))) in
    cutoff [peak] uf cu cu fu up (nofZ grid) = Ok (ul, uu) /\
    cutoff [peak] wf cw cw fw wp (nofZ grid) = Ok (wl, wu) /\
    StronglySorted Z.lt r /\
    forall i, In i r <-> 0 <= i < zlen u1 /\
      let mid a b := nmul (lit 5 1) (nadd b a) in
      let q x a b := ndiv (nsub x (mid a b)) (nsub b (mid a b)) in
      nltb (nofZ 1) (nadd (nmul (q (nth (Z.to_nat i) ut d) ul uu) (q (nth (Z.to_nat i) ut d) ul uu))
                          (nmul (q (nth (Z.to_nat i) wt d) wl wu) (q (nth (Z.to_nat i) wt d) wl wu))) = true.
Proof.
  intros HL Hne H. assert (Hw : w1 <> []) by (intros ->; destruct u1; [congruence | discriminate]). unfold tri_kernel in H.
  apply bind_ok in H. destruct H as (theta & E1 & H).
  apply bind_ok in H. destruct H as ([ut wt] & E2 & H).
  apply bind_ok in H. destruct H as (umin & _ & H). apply bind_ok in H. destruct H as (umax & _ & H).
  apply bind_ok in H. destruct H as (wmin & _ & H). apply bind_ok in H. destruct H as (wmax & _ & H).
  apply bind_ok in H. destruct H as (uf & _ & H). apply bind_ok in H. destruct H as (wf & _ & H).
  apply bind_ok in H. destruct H as (density & E3 & H).
  apply bind_ok in H. destruct H as ([[[[peak up] wp] fu] fw] & E4 & H).
  rewrite !spread_std_farr in H by assumption. cbn [bind] in H.
  apply bind_ok in H. destruct H as ([ul uu] & E5 & H).
  apply bind_ok in H. destruct H as ([wl wu] & E6 & H).
  assert (Lut : length ut = length u1 /\ length wt = length u1).
  { rewrite tri_transform_gen in E2 by exact HL. injection E2 as <- <-. rewrite !zipwith_length. lia. }
  destruct Lut as [Lut Lwt].
  rewrite bcast_same in H by (rewrite !map_length; congruence). cbn [bind] in H. injection H as <-.
  exists theta, ut, wt, uf, wf, density, peak, up, wp, fu, fw, ul, uu, wl, wu.
  split; [exact E1|]. split; [exact E2|]. split; [exact E3|]. split; [exact E4|]. cbv zeta.
  split; [exact E5|]. split; [exact E6|]. split; [apply nonzero_sorted|].
  intros i. rewrite (in_nonzero_map _ _ i d), zipwith_map, zlen_zipwith by congruence.
  split; intros [Hi Hr]; (split; [unfold zlen in *; rewrite ?Lut in *; lia|]);
    rewrite (nth_zipwith _ _ _ _ d d) in * by (unfold zlen in Hi; lia); exact Hr.
Qed.
Lemma tri_kernel_union (N : Num) (kde : list N -> list N -> list N -> list N -> res (list (list N))) dt (data : list N) grid r :
  three_dimensional_kernel kde dt data grid = Ok r ->
  exists dc dc2 x1 x2 x3, tri_derivatives dt data = Ok (dc, dc2) /\
    tri_kernel kde data dc grid = Ok x1 /\ tri_kernel kde data dc2 grid = Ok x2 /\ tri_kernel kde dc dc2 grid = Ok x3 /\
    StronglySorted Z.lt r /\ forall i, In i r <-> In i x1 \/ In i x2 \/ In i x3.
Proof.
  unfold three_dimensional_kernel. intros H.
  apply bind_ok in H. destruct H as ([dc dc2] & E1 & H).
  apply bind_ok in H. destruct H as (x1 & E2 & H). apply bind_ok in H. destruct H as (x2 & E3 & H). apply bind_ok in H. destruct H as (x3 & E4 & H).
  injection H as <-. exists dc, dc2, x1, x2, x3. repeat (split; [assumption|]). split; [apply zunique_sorted|].
  intros i. rewrite in_zunique, !in_app_iff. reflexivity.
Qed.

(** The peak of the density. *)
Lemma find_index_spec (N : Num) (f : N -> bool) l : forall k c, find_index f l k = Some c ->
  exists x, k <= c /\ nth_error l (Z.to_nat (c - k)) = Some x /\ f x = true /\
    forall j y, (j < Z.to_nat (c - k))%nat -> nth_error l j = Some y -> f y = false.
Proof.
  induction l as [|x l IH]; intros k c H; cbn in H; [discriminate|]. destruct (f x) eqn:E.
  - injection H as <-. exists x. split; [lia|]. rewrite Z.sub_diag. split; [reflexivity|]. split; [exact E|]. intros; lia.
  - destruct (IH _ _ H) as (y & H1 & H2 & H3 & H4). exists y. split; [lia|].
    replace (Z.to_nat (c - k)) with (S (Z.to_nat (c - (k + 1)))) by lia. split; [exact H2|]. split; [exact H3|].
    intros [|j] z Hj Hz; [injection Hz as <-; exact E|]. apply (H4 j z); [lia | exact Hz].
Qed.
Lemma find_index_none (N : Num) (f : N -> bool) l : forall k, find_index f l k = None -> forall x, In x l -> f x = false.
Proof.
  induction l as [|x l IH]; intros k H y Hy; [destruct Hy|]. cbn in H. destruct (f x) eqn:E; [discriminate|].
  destruct Hy as [<-|Hy]; [exact E | apply (IH _ H), Hy].
Qed.
Lemma find_pos_spec (N : Num) (f : N -> bool) (m : list (list N)) : forall k r c, find_pos f m k = Some (r, c) ->
  exists row x, k <= r /\ 0 <= c /\ nth_error m (Z.to_nat (r - k)) = Some row /\ nth_error row (Z.to_nat c) = Some x /\ f x = true /\
    (forall j y, (j < Z.to_nat c)%nat -> nth_error row j = Some y -> f y = false) /\
    (forall i row' y, (i < Z.to_nat (r - k))%nat -> nth_error m i = Some row' -> In y row' -> f y = false).
Proof.
  induction m as [|row m IH]; intros k r c H; cbn in H; [discriminate|]. destruct (find_index f row 0) as [c'|] eqn:E.
  - injection H as <- <-. destruct (find_index_spec N f row 0 c' E) as (x & H1 & H2 & H3 & H4). rewrite Z.sub_0_r in H2, H4.
    exists row, x. split; [lia|]. split; [exact H1|]. rewrite Z.sub_diag. split; [reflexivity|]. split; [exact H2|]. split; [exact H3|].
    split; [exact H4|]. intros; lia.
  - destruct (IH _ _ _ H) as (row' & x & H1 & H2 & H3 & H4 & H5 & H6 & H7). exists row', x. split; [lia|]. split; [exact H2|].
    replace (Z.to_nat (r - k)) with (S (Z.to_nat (r - (k + 1)))) by lia. split; [exact H3|]. split; [exact H4|]. split; [exact H5|].
    split; [exact H6|]. intros [|i] rw y Hi Hr Hy; [injection Hr as <-; apply (find_index_none N f row 0 E), Hy|].
    apply (H7 i rw y); [lia | exact Hr | exact Hy].
Qed.
Lemma tri_peak_spec (N : Num) (HO : ord_laws N) (pdf : list (list N)) peak up wp fu fw :
  (forall row x, In row pdf -> In x row -> nisnan x = false) -> tri_peak pdf = Ok (peak, up, wp, fu, fw) ->
  (forall row x, In row pdf -> In x row -> nleb x peak = true) /\
  nth_error pdf (Z.to_nat up) = Some fw /\ 0 <= up /\ 0 <= wp /\
  (exists x, nth_error fw (Z.to_nat wp) = Some x /\ neqb x peak = true) /\
  length fu = length pdf /\
  (forall i row, nth_error pdf i = Some row -> exists x, nth_error row (Z.to_nat wp) = Some x /\ nth_error fu i = Some x) /\
  (forall i row y, (i < Z.to_nat up)%nat -> nth_error pdf i = Some row -> In y row -> neqb y peak = false) /\
  (forall j y, (j < Z.to_nat wp)%nat -> nth_error fw j = Some y -> neqb y peak = false).
Proof.
  intros Hnan H. unfold tri_peak in H. apply bind_ok in H. destruct H as (pk & E1 & H).
  destruct (find_pos (fun x => neqb x pk) pdf 0) as [[u w]|] eqn:E2; [|discriminate].
  apply bind_ok in H. destruct H as (fu' & E3 & H). apply bind_ok in H. destruct H as (fw' & E4 & H). injection H as <- <- <- <- <-.
  assert (Hmax : forall row x, In row pdf -> In x row -> nleb x pk = true).
  { intros row x Hr Hx. assert (Hin : In x (concat pdf)) by (apply in_concat; eauto).
    unfold arr_max in E1. destruct (concat pdf) as [|x0 l] eqn:EC; [discriminate|]. injection E1 as <-.
    assert (HN : forall y, In y (x0 :: l) -> nisnan y = false).
    { intros y Hy. rewrite <- EC in Hy. apply in_concat in Hy. destruct Hy as (rw & H1 & H2). apply (Hnan rw); assumption. }
    destruct (existsb nisnan (x0 :: l)) eqn:EX.
    { apply existsb_exists in EX. destruct EX as (y & Hy & Hy'). rewrite (HN y Hy) in Hy'. discriminate. }
    change (nisnan x0 || existsb nisnan l) with (existsb nisnan (x0 :: l)). rewrite EX.
    apply (np_max_spec HO x0 l); [apply HN; left; reflexivity | intros y Hy; apply HN; right; exact Hy | exact Hin]. }
  destruct (find_pos_spec N _ pdf 0 u w E2) as (row & x & H1 & H2 & H3 & H4 & H5 & H6 & H7). rewrite Z.sub_0_r in H3, H7.
  assert (Hu : 0 <= u < zlen pdf) by (split; [exact H1|]; pose proof (proj1 (nth_error_Some pdf (Z.to_nat u)) ltac:(rewrite H3; discriminate)); unfold zlen; lia).
  assert (Hfw : fw' = row). { rewrite (getz_ok pdf u []) in E4 by exact Hu. injection E4 as <-. apply nth_error_nth. exact H3. }
  subst fw'. split; [exact Hmax|]. split; [exact H3|]. split; [exact H1|]. split; [exact H2|]. split; [exists x; split; assumption|].
  split; [eapply mapM_length; exact E3|]. split.
  - intros i rw Hi. apply mapM_ok in E3.
    assert (Hx : exists y, nth_error fu' i = Some y /\ getz rw w = Ok y).
    { clear - E3 Hi. revert i Hi. induction E3 as [|a b la lb Hab HF IH]; intros [|i] Hi; try discriminate.
      - injection Hi as <-. exists b. split; [reflexivity | exact Hab].
      - apply IH. exact Hi. }
    destruct Hx as (y & Hy1 & Hy2). exists y. split; [|exact Hy1].
    unfold getz in Hy2. destruct (pyidx (zlen rw) w) as [k|] eqn:EK; [|discriminate].
    assert (Hw : 0 <= w < zlen rw).
    { split; [exact H2|]. destruct (Z_lt_ge_dec w (zlen rw)) as [Hl|Hl]; [exact Hl|]. rewrite pyidx_none in EK; [discriminate | right; lia | apply zlen_nonneg]. }
    rewrite pyidx_nonneg in EK by exact Hw. injection EK as <-. destruct (nth_error rw (Z.to_nat w)); [injection Hy2 as <-; reflexivity | discriminate].
  - split; [exact H7 | exact H6].
Qed.
