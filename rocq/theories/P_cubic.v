(** Lemmas about cubic_12points_polynomial. *)
From Coq Require Import Reals Lra.
From Flocq Require Import Core.Raux.
From Verif Require Export P_interp.
Local Open Scope Z_scope.

(** Value computed for spike [i] from the untouched record and the current tail of the copy. *)
Definition cubic_val {N : Num} (spline : list Z -> list N -> Z -> N) (v : list N) (tail : list N) (i : Z) : res N :=
  if (i <=? 30) || (i >=? zlen v - 30) then
    let* prev := getz v (i - 1) in let* next := getz (valid_only tail) 0 in Ok (around (ndiv (nadd prev next) (nofZ 2)) 4)
  else
    let* yint := np_delete (pyslice v (i - 13) i ++ pyslice (valid_only tail) 0 12) 12 in
    if negb (zlen cubic_x =? zlen yint) then Raise ValueError else Ok (spline cubic_x yint 13).
Lemma cubic_step_val (N : Num) spline (v m : list N) i : 0 <= i < zlen m ->
  cubic_step spline v m i = let* x := cubic_val spline v (skipn (Z.to_nat i) m) i in setz m i x.
Proof.
  intros Hi. unfold cubic_step, cubic_val.
  assert (Hs : pyslice_from m i = skipn (Z.to_nat i) m).
  { unfold pyslice_from. rewrite pyslice_nonneg by lia. apply firstn_all2. rewrite skipn_length. unfold zlen. lia. }
  rewrite Hs. destruct ((i <=? 30) || (i >=? zlen v - 30)).
  - destruct (getz v (i - 1)); cbn [bind]; [|reflexivity].
    destruct (getz (valid_only (skipn (Z.to_nat i) m)) 0); reflexivity.
  - destruct (np_delete _ 12); cbn [bind]; [|reflexivity]. destruct (negb _); reflexivity.
Qed.

Lemma skipn_ext {A} (l m : list A) k d : length l = length m ->
  (forall j, (k <= j < length l)%nat -> nth j l d = nth j m d) -> skipn k l = skipn k m.
Proof.
  intros HL H. apply (list_eq_nth _ _ d); [rewrite !skipn_length; lia|].
  intros j Hj. rewrite skipn_length in Hj. rewrite !nth_skipn. apply H. lia.
Qed.

Lemma cubic_fold (N : Num) spline (v m0 : list N) d : length m0 = length v ->
  forall idx m r, StronglySorted Z.lt idx -> (forall i, In i idx -> 0 <= i < zlen v) -> length m = length v ->
  (forall i k, In i idx -> i <= Z.of_nat k -> nth k m d = nth k m0 d) ->
  foldM (cubic_step spline v) m idx = Ok r ->
  length r = length v /\
  (forall k, ~ In (Z.of_nat k) idx -> nth k r d = nth k m d) /\
  (forall i, In i idx -> cubic_val spline v (skipn (Z.to_nat i) m0) i = Ok (nth (Z.to_nat i) r d)).
Proof.
  intros HL0. induction idx as [|i idx IH]; intros m r HS HB HL Heq E.
  - injection E as <-. split; [exact HL|]. split; [reflexivity|]. intros i [].
  - apply StronglySorted_inv in HS. destruct HS as [HS Hlt]. rewrite Forall_forall in Hlt.
    pose proof (HB i (or_introl eq_refl)) as Hi. cbn [foldM] in E.
    rewrite cubic_step_val in E by (unfold zlen in *; lia).
    rewrite (skipn_ext m m0 _ d) in E by first [lia | intros j Hj; apply (Heq i); [left; reflexivity | lia]].
    destruct (cubic_val spline v (skipn (Z.to_nat i) m0) i) as [x|e] eqn:Ex; cbn [bind] in E; [|discriminate].
    rewrite setz_ok in E by (unfold zlen in *; lia). cbn [bind] in E.
    destruct (IH (upd m (Z.to_nat i) x) r HS) as (I1 & I2 & I3).
    { intros j Hj. apply HB. right. exact Hj. }
    { rewrite upd_length. exact HL. }
    { intros j k Hj Hk. specialize (Hlt j Hj). rewrite nth_upd_other by lia. apply (Heq i); [left; reflexivity | lia]. }
    { exact E. }
    split; [exact I1|]. split.
    + intros k Hk. rewrite I2 by (intros H; apply Hk; right; exact H). apply nth_upd_other.
      intros H. apply Hk. left. lia.
    + intros j [<-|Hj]; [|apply I3; exact Hj].
      rewrite Ex. f_equal. symmetry. rewrite I2 by (rewrite Z2Nat.id by lia; intros H; specialize (Hlt i H); lia).
      apply nth_upd_same. unfold zlen in Hi. lia.
Qed.

Lemma map_zrange_skipn {A} (l : list A) a d : 0 <= a <= zlen l ->
  skipn (Z.to_nat a) l = map (fun k => nth (Z.to_nat k) l d) (zrange a (zlen l)).
Proof.
  intros Ha. apply (list_eq_nth _ _ d).
  - rewrite skipn_length, map_length, zrange_length. unfold zlen. lia.
  - intros k Hk. rewrite skipn_length in Hk. unfold zlen in *. rewrite nth_skipn.
    rewrite (nth_map_in _ _ k 0) by (rewrite zrange_length; lia).
    rewrite nth_zrange by lia. f_equal. lia.
Qed.
Lemma filter_map_comm {A B} (f : A -> B) (p : B -> bool) l : filter p (map f l) = map f (filter (fun x => p (f x)) l).
Proof. induction l as [|x l IH]; cbn; [reflexivity|]. destruct (p (f x)); cbn; rewrite IH; reflexivity. Qed.
Lemma valid_tail (N : Num) (v m0 : list N) idx i : @nisnan N nnan = true -> length m0 = length v ->
  0 <= i < zlen v -> In i idx ->
  (forall k, 0 <= k < zlen v -> In k idx -> nth (Z.to_nat k) m0 nnan = nnan) ->
  (forall k, 0 <= k < zlen v -> ~ In k idx -> nth (Z.to_nat k) m0 nnan = nth (Z.to_nat k) v nnan) ->
  valid_only (skipn (Z.to_nat i) m0) = later_valid v idx i.
Proof.
  intros Hnan HL Hi Hin HF HU. unfold valid_only, later_valid.
  assert (Hz : zlen m0 = zlen v) by (unfold zlen; lia).
  rewrite (map_zrange_skipn m0 i nnan) by lia. rewrite Hz.
  rewrite (zrange_cons i) by lia. cbn [map filter]. rewrite (HF i Hi Hin), Hnan. cbn [negb].
  rewrite filter_map_comm.
  assert (HE : forall l, (forall k, In k l -> 0 <= k < zlen v) ->
    map (fun k => nth (Z.to_nat k) m0 nnan) (filter (fun k => negb (nisnan (nth (Z.to_nat k) m0 nnan))) l) =
    map (fun k => nth (Z.to_nat k) v nnan) (filter (fun k => negb (zmem k idx) && negb (nisnan (nth (Z.to_nat k) v nnan))) l)).
  { induction l as [|k l IH]; intros Hl; [reflexivity|]. cbn [filter].
    pose proof (Hl k (or_introl eq_refl)) as Hk. specialize (IH (fun j Hj => Hl j (or_intror Hj))).
    destruct (zmem k idx) eqn:Ek.
    - apply zmem_spec in Ek. rewrite (HF k Hk Ek), Hnan. cbn [negb andb]. exact IH.
    - assert (Hn : ~ In k idx) by (intros H; apply zmem_spec in H; congruence).
      rewrite (HU k Hk Hn). cbn [negb andb]. destruct (nisnan (nth (Z.to_nat k) v nnan)); cbn [negb]; [exact IH|].
      cbn [map]. rewrite (HU k Hk Hn). f_equal. exact IH. }
  apply HE. intros k Hk. apply in_zrange in Hk. lia.
Qed.

Lemma pyslice_head {A} (l : list A) k : pyslice l 0 (Z.of_nat k) = firstn k l.
Proof.
  unfold pyslice, slice_bound. cbn [Z.ltb Z.compare]. rewrite (proj2 (Z.ltb_ge (Z.of_nat k) 0)) by lia.
  rewrite (Z.min_l 0) by apply zlen_nonneg. cbn [Z.to_nat skipn]. rewrite Z.sub_0_r.
  destruct (Z.le_ge_cases (Z.of_nat k) (zlen l)).
  - rewrite Z.min_l by lia. rewrite Nat2Z.id. reflexivity.
  - rewrite Z.min_r by lia. unfold zlen in *. rewrite Nat2Z.id. rewrite !firstn_all2 by lia. reflexivity.
Qed.
Lemma cubic_x_length : zlen cubic_x = 24.
Proof. reflexivity. Qed.
Lemma firstn13_drop {A} (l : list A) d k : (13 <= k <= length l)%nat ->
  firstn 13 (skipn (k - 13) l) = firstn 12 (skipn (k - 13) l) ++ [nth (k - 1) l d].
Proof.
  intros Hk. rewrite (firstn_snoc _ 12 d) by (rewrite skipn_length; lia). rewrite nth_skipn.
  do 3 f_equal. lia.
Qed.

(** The whole call, when it returns. *)
Lemma cubic_general (N : Num) (Hnan : @nisnan N nnan = true) spline (v : list N) idx dec r :
  StronglySorted Z.lt idx -> (forall i, In i idx -> 0 <= i < zlen v) ->
  cubic_12points_polynomial spline DFloat v idx dec = Ok r ->
  length r = length v /\
  (forall i, 0 <= i < zlen v -> ~ In i idx -> nth (Z.to_nat i) r nnan = around (nth (Z.to_nat i) v nnan) dec) /\
  (forall i, In i idx -> 30 < i < zlen v - 30 ->
     (12 <= length (later_valid v idx i))%nat /\
     nth (Z.to_nat i) r nnan =
       around (spline cubic_x (firstn 12 (skipn (Z.to_nat (i - 13)) v) ++ firstn 12 (later_valid v idx i)) 13) dec) /\
  (forall i, In i idx -> ~ (30 < i < zlen v - 30) ->
     exists next rest, later_valid v idx i = next :: rest /\
     nth (Z.to_nat i) r nnan =
       around (around (ndiv (nadd (nth (Z.to_nat (if i =? 0 then zlen v - 1 else i - 1)) v nnan) next) (nofZ 2)) 4) dec).
Proof.
  intros HS HB E. unfold cubic_12points_polynomial in E.
  destruct (fancy_set_ok idx (@nnan N) v) as (m0 & E0 & HL0 & H0).
  { intros i Hi. specialize (HB i Hi). lia. }
  rewrite E0 in E. cbn [bind] in E.
  destruct (foldM (cubic_step spline v) m0 idx) as [m|e] eqn:Em; cbn [bind] in E; [|discriminate]. injection E as <-.
  destruct (cubic_fold N spline v m0 nnan HL0 idx m0 m HS HB HL0) as (HL & H1 & H2); [reflexivity | exact Em|].
  assert (HF : forall k, 0 <= k < zlen v -> In k idx -> nth (Z.to_nat k) m0 nnan = nnan).
  { intros k Hk Hin. unfold zlen in Hk. apply H0; [lia|]. exists k. split; [exact Hin | left; lia]. }
  assert (HU : forall k, 0 <= k < zlen v -> ~ In k idx -> nth (Z.to_nat k) m0 nnan = nth (Z.to_nat k) v nnan).
  { intros k Hk Hn. unfold zlen in Hk. apply H0; [lia|]. intros (j & Hj & Had). pose proof (HB j Hj).
    unfold addresses, zlen in *. apply Hn. replace k with j by lia. exact Hj. }
  assert (HT : forall i, In i idx -> valid_only (skipn (Z.to_nat i) m0) = later_valid v idx i).
  { intros i Hi. apply valid_tail; try assumption. apply HB. exact Hi. }
  split; [rewrite map_length; exact HL|]. split; [|split].
  - intros i Hi Hn. rewrite nth_around by (unfold zlen in *; lia). rewrite H1 by (rewrite Z2Nat.id by lia; exact Hn).
    rewrite HU by assumption. reflexivity.
  - intros i Hi Hint. pose proof (HB i Hi) as Hb. specialize (H2 i Hi). unfold cubic_val in H2. rewrite (HT i Hi) in H2.
    destruct (Z.leb_spec i 30); [lia|]. destruct (Z.geb_spec i (zlen v - 30)); [lia|]. cbn [orb] in H2.
    assert (HZn : Z.to_nat (i - 13) = (Z.to_nat i - 13)%nat) by lia. rewrite HZn.
    assert (L12 : length (firstn 12 (skipn (Z.to_nat i - 13) v)) = 12%nat).
    { rewrite firstn_length, skipn_length. unfold zlen in *. lia. }
    assert (HY : pyslice v (i - 13) i ++ pyslice (later_valid v idx i) 0 12 =
       firstn 12 (skipn (Z.to_nat i - 13) v) ++ nth (Z.to_nat i - 1) v nnan :: firstn 12 (later_valid v idx i)).
    { rewrite pyslice_nonneg by lia. replace (Z.to_nat (i - (i - 13))) with 13%nat by lia. rewrite HZn.
      rewrite (firstn13_drop v nnan) by (unfold zlen in *; lia).
      change (pyslice (later_valid v idx i) 0 12) with (pyslice (later_valid v idx i) 0 (Z.of_nat 12)).
      rewrite pyslice_head. rewrite <- app_assoc. reflexivity. }
    rewrite HY in H2. clear HY.
    set (A := firstn 12 (skipn (Z.to_nat i - 13) v)) in *.
    set (B := firstn 12 (later_valid v idx i)) in *.
    unfold np_delete in H2.
    rewrite (proj2 (Nat.ltb_lt 12 _)) in H2 by (rewrite app_length; cbn [length]; lia).
    cbn [bind] in H2.
    assert (Hf : firstn 12 (A ++ nth (Z.to_nat i - 1) v nnan :: B) = A).
    { rewrite <- L12 at 1. rewrite <- (Nat.add_0_r (length A)). rewrite firstn_app_2. apply app_nil_r. }
    assert (Hs : skipn 13 (A ++ nth (Z.to_nat i - 1) v nnan :: B) = B).
    { rewrite skipn_app, L12. rewrite skipn_all2 by lia. reflexivity. }
    rewrite Hf, Hs in H2. rewrite cubic_x_length in H2.
    destruct (Z.eqb_spec 24 (zlen (A ++ B))) as [Heq|Hne]; cbn [negb] in H2; [|discriminate].
    split.
    + unfold zlen in Heq. rewrite app_length, L12 in Heq. unfold B in Heq. rewrite firstn_length in Heq. lia.
    + rewrite nth_around by (unfold zlen in *; lia). injection H2 as <-. reflexivity.
  - intros i Hi Hint. pose proof (HB i Hi) as Hb. specialize (H2 i Hi). unfold cubic_val in H2. rewrite (HT i Hi) in H2.
    assert (Hor : (i <=? 30) || (i >=? zlen v - 30) = true).
    { destruct (Z.leb_spec i 30); [reflexivity|]. destruct (Z.geb_spec i (zlen v - 30)); [reflexivity | lia]. }
    rewrite Hor in H2.
    assert (Hg : getz v (i - 1) = Ok (nth (Z.to_nat (if i =? 0 then zlen v - 1 else i - 1)) v nnan)).
    { destruct (Z.eqb_spec i 0) as [->|Hn].
      - rewrite (getz_neg _ _ nnan) by lia. do 3 f_equal. lia.
      - rewrite (getz_ok _ _ nnan) by lia. reflexivity. }
    rewrite Hg in H2. cbn [bind] in H2.
    destruct (later_valid v idx i) as [|next rest]; [discriminate|]. exists next, rest. split; [reflexivity|].
    rewrite nth_around by (unfold zlen in *; lia). f_equal.
    rewrite (getz_ok _ _ nnan) in H2 by (unfold zlen; cbn [length]; lia). cbn [bind] in H2. injection H2 as H2.
    symmetry. exact H2.
Qed.

(** When the call returns: enough valid samples after every spike. *)
Lemma cubic_returns (N : Num) (Hnan : @nisnan N nnan = true) spline (v : list N) idx dec :
  StronglySorted Z.lt idx -> (forall i, In i idx -> 0 <= i < zlen v) ->
  (forall i, In i idx -> (1 <= length (later_valid v idx i))%nat /\ (30 < i < zlen v - 30 -> (12 <= length (later_valid v idx i))%nat)) ->
  exists r, cubic_12points_polynomial spline DFloat v idx dec = Ok r.
Proof.
  intros HS HB HV. unfold cubic_12points_polynomial.
  destruct (fancy_set_ok idx (@nnan N) v) as (m0 & E0 & HL0 & H0).
  { intros i Hi. specialize (HB i Hi). lia. }
  rewrite E0. cbn [bind].
  assert (HF : forall k, 0 <= k < zlen v -> In k idx -> nth (Z.to_nat k) m0 nnan = nnan).
  { intros k Hk Hin. unfold zlen in Hk. apply H0; [lia|]. exists k. split; [exact Hin | left; lia]. }
  assert (HU : forall k, 0 <= k < zlen v -> ~ In k idx -> nth (Z.to_nat k) m0 nnan = nth (Z.to_nat k) v nnan).
  { intros k Hk Hn. unfold zlen in Hk. apply H0; [lia|]. intros (j & Hj & Had). pose proof (HB j Hj).
    unfold addresses, zlen in *. apply Hn. replace k with j by lia. exact Hj. }
  assert (HVal : forall i, In i idx -> exists x, cubic_val spline v (skipn (Z.to_nat i) m0) i = Ok x).
  { intros i Hi. pose proof (HB i Hi) as Hb. destruct (HV i Hi) as [V1 V12].
    assert (HT : valid_only (skipn (Z.to_nat i) m0) = later_valid v idx i) by (apply valid_tail; assumption).
    unfold cubic_val. rewrite HT.
    destruct (Z.leb_spec i 30) as [H30|H30]; [|destruct (Z.geb_spec i (zlen v - 30)) as [H31|H31]]; cbn [orb].
    3: {
      specialize (V12 ltac:(lia)). unfold np_delete. rewrite pyslice_nonneg by lia.
      change (pyslice (later_valid v idx i) 0 12) with (pyslice (later_valid v idx i) 0 (Z.of_nat 12)).
      rewrite pyslice_head.
      rewrite (proj2 (Nat.ltb_lt 12 _)).
      - cbn [bind].
        rewrite (proj2 (Z.eqb_eq (zlen cubic_x) _)); [eexists; reflexivity|].
        rewrite cubic_x_length. unfold zlen in *.
        rewrite app_length, firstn_length, skipn_length, !app_length, !firstn_length, !skipn_length. lia.
      - unfold zlen in *. rewrite app_length, !firstn_length, !skipn_length. lia. }
    all: destruct (later_valid v idx i) as [|x l]; [cbn [length] in V1; lia|];
      rewrite (getz_ok (x :: l) 0 nnan) by (unfold zlen; cbn [length]; lia).
    - destruct (Z.eq_dec i 0) as [->|Hn].
      + rewrite (getz_neg v _ nnan) by lia. cbn [bind]. eexists. reflexivity.
      + rewrite (getz_ok v _ nnan) by lia. cbn [bind]. eexists. reflexivity.
    - destruct (Z.eq_dec i 0) as [->|Hn].
      + rewrite (getz_neg v _ nnan) by lia. cbn [bind]. eexists. reflexivity.
      + rewrite (getz_ok v _ nnan) by lia. cbn [bind]. eexists. reflexivity. }
  assert (HG : forall l m, StronglySorted Z.lt l -> (forall i, In i l -> In i idx) -> length m = length v ->
    (forall i k, In i l -> i <= Z.of_nat k -> nth k m nnan = nth k m0 nnan) ->
    exists r, foldM (cubic_step spline v) m l = Ok r).
  { induction l as [|i l IH]; intros m HSl Hl HL Heq; [eexists; reflexivity|].
    apply StronglySorted_inv in HSl. destruct HSl as [HSl Hlt]. rewrite Forall_forall in Hlt.
    pose proof (HB i (Hl i (or_introl eq_refl))) as Hi. cbn [foldM].
    rewrite cubic_step_val by (unfold zlen in *; lia).
    rewrite (skipn_ext m m0 _ nnan) by first [lia | intros j Hj; apply (Heq i); [left; reflexivity | lia]].
    destruct (HVal i (Hl i (or_introl eq_refl))) as (x & ->). cbn [bind].
    rewrite setz_ok by (unfold zlen in *; lia). cbn [bind]. apply IH; [exact HSl| | |].
    - intros j Hj. apply Hl. right. exact Hj.
    - rewrite upd_length. exact HL.
    - intros j k Hj Hk. specialize (Hlt j Hj). rewrite nth_upd_other by lia. apply (Heq i); [left; reflexivity | lia]. }
  destruct (HG idx m0 HS (fun _ H => H) HL0 (fun _ _ _ _ => eq_refl)) as (m & ->). cbn [bind]. eexists. reflexivity.
Qed.

Local Open Scope R_scope.
(** ** The spline through two shifted halves of a straight line *)
Lemma spline_split s q beta : cubic_spline (map IZR cubic_x) (split_affine q beta) s -> s 13 = q - beta / 2.
Proof.
  assert (HX : cubic_x = ltac:(let v := eval vm_compute in cubic_x in exact v)) by reflexivity.
  assert (HY : split_affine q beta = map (fun j => q + beta * IZR j) ltac:(let v := eval vm_compute in (zrange (-13) (-1) ++ zrange 1 13) in exact v)) by reflexivity.
  rewrite HX, HY. cbn [map]. clear HX HY. 
  intros (b & c & d & H). cbv zeta in H. cbn [length] in H.
  match type of H with context [nth _ ?l 0 - nth _ ?l 0] => set (xs := l) in * end.
  match type of H with context [nth _ ?l 0 + b _ * _] => set (ys := l) in * end.
  destruct H as (H1 & H2 & H3 & H4 & H5).
  rewrite (H5 11%nat 13) by (try lia; cbn; lra). clear H5.
  assert (E1 : forall j, (j < 23)%nat -> nth (S j) xs 0 - nth j xs 0 = if Nat.eqb j 11 then 2 else 1).
  { intros j Hj. do 23 (destruct j as [|j]; [cbn; lra|]). lia. }
  assert (D : forall j, (j < 23)%nat -> nth (S j) ys 0 - nth j ys 0 = if Nat.eqb j 11 then 3 * beta else beta).
  { intros j Hj. do 23 (destruct j as [|j]; [cbn; lra|]). lia. }
  assert (F1 : forall j, (j < 23)%nat -> b j * (if Nat.eqb j 11 then 2 else 1) + c j * (if Nat.eqb j 11 then 4 else 1) + d j * (if Nat.eqb j 11 then 8 else 1) = if Nat.eqb j 11 then 3 * beta else beta).
  { intros j Hj. specialize (H1 j ltac:(lia)). specialize (D j Hj). rewrite E1 in H1 by lia. destruct (Nat.eqb j 11); lra. }
  assert (F2 : forall j, (j < 22)%nat -> b (S j) = b j + 2 * c j * (if Nat.eqb j 11 then 2 else 1) + 3 * d j * (if Nat.eqb j 11 then 4 else 1) /\ c (S j) = c j + 3 * d j * (if Nat.eqb j 11 then 2 else 1)).
  { intros j Hj. specialize (H2 j ltac:(lia)). rewrite E1 in H2 by lia. destruct (Nat.eqb j 11); lra. }
  clear H1 H2 E1 D.
  assert (Y11 : nth 11 ys 0 = q - 2 * beta) by (cbn; lra). rewrite Y11.
  assert (X11 : nth 11 xs 0 = 12) by (cbn; lra). rewrite X11.
  cbn [Nat.sub] in H4.
  pose proof (F1 0%nat ltac:(lia)) as G0; pose proof (F1 1%nat ltac:(lia)) as G1; pose proof (F1 2%nat ltac:(lia)) as G2; pose proof (F1 3%nat ltac:(lia)) as G3;
  pose proof (F1 4%nat ltac:(lia)) as G4; pose proof (F1 5%nat ltac:(lia)) as G5; pose proof (F1 6%nat ltac:(lia)) as G6; pose proof (F1 7%nat ltac:(lia)) as G7;
  pose proof (F1 8%nat ltac:(lia)) as G8; pose proof (F1 9%nat ltac:(lia)) as G9; pose proof (F1 10%nat ltac:(lia)) as G10; pose proof (F1 11%nat ltac:(lia)) as G11;
  pose proof (F1 12%nat ltac:(lia)) as G12; pose proof (F1 13%nat ltac:(lia)) as G13; pose proof (F1 14%nat ltac:(lia)) as G14; pose proof (F1 15%nat ltac:(lia)) as G15;
  pose proof (F1 16%nat ltac:(lia)) as G16; pose proof (F1 17%nat ltac:(lia)) as G17; pose proof (F1 18%nat ltac:(lia)) as G18; pose proof (F1 19%nat ltac:(lia)) as G19;
  pose proof (F1 20%nat ltac:(lia)) as G20; pose proof (F1 21%nat ltac:(lia)) as G21; pose proof (F1 22%nat ltac:(lia)) as G22.
  pose proof (F2 0%nat ltac:(lia)) as K0; pose proof (F2 1%nat ltac:(lia)) as K1; pose proof (F2 2%nat ltac:(lia)) as K2; pose proof (F2 3%nat ltac:(lia)) as K3;
  pose proof (F2 4%nat ltac:(lia)) as K4; pose proof (F2 5%nat ltac:(lia)) as K5; pose proof (F2 6%nat ltac:(lia)) as K6; pose proof (F2 7%nat ltac:(lia)) as K7;
  pose proof (F2 8%nat ltac:(lia)) as K8; pose proof (F2 9%nat ltac:(lia)) as K9; pose proof (F2 10%nat ltac:(lia)) as K10; pose proof (F2 11%nat ltac:(lia)) as K11;
  pose proof (F2 12%nat ltac:(lia)) as K12; pose proof (F2 13%nat ltac:(lia)) as K13; pose proof (F2 14%nat ltac:(lia)) as K14; pose proof (F2 15%nat ltac:(lia)) as K15;
  pose proof (F2 16%nat ltac:(lia)) as K16; pose proof (F2 17%nat ltac:(lia)) as K17; pose proof (F2 18%nat ltac:(lia)) as K18; pose proof (F2 19%nat ltac:(lia)) as K19;
  pose proof (F2 20%nat ltac:(lia)) as K20; pose proof (F2 21%nat ltac:(lia)) as K21.
  clear F1 F2 Y11 X11. cbn [Nat.eqb] in *.
  lra.
Qed.

(** The spline through [split_affine 0 1] exists: its coefficients. *)
Definition ex_b : list R := [(564718 / 564719); (1129439 / 1129438); (564718 / 564719); (1129445 / 1129438); (564706 / 564719); (1129535 / 1129438); (564538 / 564719); (1130789 / 1129438); (562198 / 564719); (1148255 / 1129438); (529606 / 564719); (1391525 / 1129438); (1391525 / 1129438); (529606 / 564719); (1148255 / 1129438); (562198 / 564719); (1130789 / 1129438); (564538 / 564719); (1129535 / 1129438); (564706 / 564719); (1129445 / 1129438); (564718 / 564719); (1129439 / 1129438)].
Definition ex_c : list R := [(3 / 1129438); (0); (-3 / 1129438); (6 / 564719); (-45 / 1129438); (84 / 564719); (-627 / 1129438); (1170 / 564719); (-8733 / 1129438); (16296 / 564719); (-121635 / 1129438); (226974 / 564719); (-226974 / 564719); (121635 / 1129438); (-16296 / 564719); (8733 / 1129438); (-1170 / 564719); (627 / 1129438); (-84 / 564719); (45 / 1129438); (-6 / 564719); (3 / 1129438); (0)].
Definition ex_d : list R := [(-1 / 1129438); (-1 / 1129438); (5 / 1129438); (-19 / 1129438); (71 / 1129438); (-265 / 1129438); (1 / 1142); (-3691 / 1129438); (13775 / 1129438); (-51409 / 1129438); (191861 / 1129438); (-75658 / 564719); (191861 / 1129438); (-51409 / 1129438); (13775 / 1129438); (-3691 / 1129438); (1 / 1142); (-265 / 1129438); (71 / 1129438); (-19 / 1129438); (5 / 1129438); (-1 / 1129438); (-1 / 1129438)].

Definition ex_poly (j : nat) (t : R) : R :=
  nth j (split_affine 0 1) 0 + nth j ex_b 0 * (t - nth j (map IZR cubic_x) 0) + nth j ex_c 0 * (t - nth j (map IZR cubic_x) 0) ^ 2
  + nth j ex_d 0 * (t - nth j (map IZR cubic_x) 0) ^ 3.
(** Last interval whose left end is below [t] (index [k] counted down from [j]). *)
Fixpoint ex_eval (j : nat) (t : R) : R :=
  match j with
  | O => ex_poly O t
  | S j' => if Rle_bool t (nth j (map IZR cubic_x) 0) then ex_eval j' t else ex_poly j t
  end.
Definition xs24 : list R := map IZR cubic_x.
Lemma xs24_eq : xs24 = map IZR ltac:(let v := eval vm_compute in cubic_x in exact v). Proof. reflexivity. Qed.
Lemma ys24_eq : split_affine 0 1 = map (fun j => 0 + 1 * IZR j) ltac:(let v := eval vm_compute in (zrange (-13) (-1) ++ zrange 1 13) in exact v).
Proof. reflexivity. Qed.
Lemma xs24_mono j k : (j < k < 24)%nat -> nth j xs24 0 < nth k xs24 0.
Proof.
  intros H. rewrite xs24_eq. 
  assert (Hs : forall i, (S i < 24)%nat -> nth i (map IZR ltac:(let v := eval vm_compute in cubic_x in exact v)) 0 < nth (S i) (map IZR ltac:(let v := eval vm_compute in cubic_x in exact v)) 0).
  { intros i Hi. do 23 (destruct i as [|i]; [cbn; lra|]). lia. }
  remember (k - j - 1)%nat as n eqn:En. revert k H En. induction n as [|n IH]; intros k H En.
  - replace k with (S j) by lia. apply Hs. lia.
  - destruct k as [|k]; [lia|]. eapply Rlt_trans; [apply (IH k); lia | apply Hs; lia].
Qed.
Lemma ex_join j : (S j < 24)%nat -> ex_poly j (nth (S j) xs24 0) = nth (S j) (split_affine 0 1) 0.
Proof.
  intros Hj. unfold ex_poly. fold xs24. rewrite xs24_eq, ys24_eq.
  do 23 (destruct j as [|j]; [cbn [nth map ex_b ex_c ex_d]; field|]). lia.
Qed.
Lemma ex_eval_ok J : (J < 23)%nat -> forall j t, (j <= J)%nat -> nth j xs24 0 <= t <= nth (S j) xs24 0 -> ex_eval J t = ex_poly j t.
Proof.
  induction J as [|J IH]; intros HJ j t Hj Ht.
  - replace j with O by lia. reflexivity.
  - cbn [ex_eval]. fold xs24. destruct (Rle_bool_spec t (nth (S J) xs24 0)) as [H|H].
    + destruct (Nat.eq_dec j (S J)) as [->|Hne].
      * assert (t = nth (S J) xs24 0) as -> by lra. rewrite (IH ltac:(lia) J).
        -- rewrite ex_join by lia. unfold ex_poly. fold xs24. rewrite Rminus_eq_0. ring.
        -- lia.
        -- pose proof (xs24_mono J (S J) ltac:(lia)). lra.
      * apply IH; [lia | lia | exact Ht].
    + assert (j = S J) as ->; [|reflexivity].
      destruct (Nat.eq_dec j (S J)) as [|Hne]; [assumption|]. exfalso.
      destruct (Nat.eq_dec (S j) (S J)) as [Heq|Hne2]; [rewrite Heq in Ht; lra|].
      pose proof (xs24_mono (S j) (S J) ltac:(lia)). lra.
Qed.
Lemma ex_spline : cubic_spline (map IZR cubic_x) (split_affine 0 1) (ex_eval 22).
Proof.
  exists (fun j => nth j ex_b 0), (fun j => nth j ex_c 0), (fun j => nth j ex_d 0). cbv zeta.
  change (length (map IZR cubic_x)) with 24%nat. fold xs24.
  split; [|split; [|split; [|split]]].
  - intros j Hj. rewrite <- ex_join by exact Hj. unfold ex_poly. fold xs24. reflexivity.
  - intros j Hj. rewrite xs24_eq.
    do 22 (destruct j as [|j]; [cbn [nth map ex_b ex_c ex_d]; split; field|]). lia.
  - reflexivity.
  - reflexivity.
  - intros j t Hj Ht. rewrite (ex_eval_ok 22 ltac:(lia) j t ltac:(lia) Ht). reflexivity.
Qed.

(** ** An affine record *)
Lemma filter_all {A} (p : A -> bool) l : (forall x, In x l -> p x = true) -> filter p l = l.
Proof.
  induction l as [|x l IH]; intros H; [reflexivity|]. cbn. rewrite (H x (or_introl eq_refl)). f_equal.
  apply IH. intros y Hy. apply H. right. exact Hy.
Qed.
Lemma later_valid_single (N : Num) (v : list N) (i : Z) : (0 <= i < zlen v)%Z ->
  (forall k, (k < length v)%nat -> nisnan (nth k v nnan) = false) ->
  later_valid v [i] i = skipn (Z.to_nat (i + 1)) v.
Proof.
  intros Hi Hv. unfold later_valid. rewrite (map_zrange_skipn v (i + 1) nnan) by lia. f_equal.
  apply filter_all. intros k Hk. apply in_zrange in Hk.
  rewrite Hv by (unfold zlen in *; lia). unfold zmem. cbn [existsb]. rewrite (proj2 (Z.eqb_neq k i)) by lia. reflexivity.
Qed.
Lemma nth_firstn_skipn {A} (l : list A) a n k d : (k < n)%nat -> nth k (firstn n (skipn a l)) d = nth (a + k) l d.
Proof. intros H. rewrite nth_firstn by exact H. apply nth_skipn. Qed.
Lemma cubic_affine (spline : list Z -> list XR -> Z -> XR) (alpha beta : R) (n : nat) (i dec : Z) (s : R -> R) :
  (30 < i < Z.of_nat n - 30)%Z ->
  cubic_spline (map IZR cubic_x) (split_affine (alpha + beta * IZR i) beta) s ->
  spline cubic_x (fins (split_affine (alpha + beta * IZR i) beta)) 13%Z = Fin (s 13) ->
  exists r, cubic_12points_polynomial spline DFloat (fins (map (fun k => alpha + beta * INR k) (seq 0 n))) [i] dec = Ok r /\
    nth_error r (Z.to_nat i) = Some (Fin (round_dec dec (alpha + beta * (IZR i - / 2)))).
Proof.
  intros Hi Hs Hsp. set (l := map (fun k => alpha + beta * INR k) (seq 0 n)).
  assert (HLl : length l = n) by (unfold l; rewrite map_length, seq_length; reflexivity).
  assert (Hz : zlen (fins l) = Z.of_nat n) by (rewrite zlen_fins; unfold zlen; lia).
  assert (Hnth : forall k, (k < n)%nat -> nth k l 0 = alpha + beta * INR k).
  { intros k Hk. unfold l. rewrite (nth_map_in _ _ k O) by (rewrite seq_length; exact Hk). rewrite seq_nth by exact Hk. reflexivity. }
  assert (HLV : later_valid (fins l) [i] i = skipn (Z.to_nat (i + 1)) (fins l)).
  { apply later_valid_single; [rewrite Hz; lia|]. intros k Hk. rewrite fins_length in Hk. apply fins_not_nan. exact Hk. }
  assert (HSS : StronglySorted Z.lt [i]) by (constructor; constructor).
  assert (HB : forall j, In j [i] -> (0 <= j < zlen (fins l))%Z) by (intros j [<-|[]]; rewrite Hz; lia).
  destruct (cubic_returns XR eq_refl spline (fins l) [i] dec HSS HB) as (r & E).
  { intros j [<-|[]]. rewrite HLV, skipn_length, fins_length. lia. }
  exists r. split; [exact E|].
  destruct (cubic_general XR eq_refl spline (fins l) [i] dec r HSS HB E) as (HL & _ & H & _).
  destruct (H i (or_introl eq_refl)) as [_ Hv]; [rewrite Hz; lia|].
  rewrite fins_length in HL.
  rewrite (nth_error_nth' r (@nnan XR)) by lia. rewrite Hv, HLV.
  assert (HY : firstn 12 (skipn (Z.to_nat (i - 13)) (fins l)) ++ firstn 12 (skipn (Z.to_nat (i + 1)) (fins l)) =
    fins (split_affine (alpha + beta * IZR i) beta)).
  { unfold split_affine. rewrite map_app. unfold fins at 3. rewrite map_app. rewrite !map_map. f_equal.
    - apply (list_eq_nth _ _ (Fin 0)).
      + rewrite firstn_length, skipn_length, fins_length, map_length. change (length (zrange (-13) (-1))) with 12%nat. lia.
      + intros k Hk. rewrite firstn_length, skipn_length, fins_length in Hk.
        rewrite nth_firstn_skipn by lia. rewrite fins_nth, Hnth by lia.
        rewrite (nth_map_in _ _ k 0%Z) by (rewrite zrange_length; lia). rewrite nth_zrange by lia.
        f_equal. rewrite INR_IZR_INZ. replace (Z.of_nat (Z.to_nat (i - 13) + k)) with (i + (-13 + Z.of_nat k))%Z by lia.
        rewrite plus_IZR. ring.
    - apply (list_eq_nth _ _ (Fin 0)).
      + rewrite firstn_length, skipn_length, fins_length, map_length. change (length (zrange 1 13)) with 12%nat. lia.
      + intros k Hk. rewrite firstn_length, skipn_length, fins_length in Hk.
        rewrite nth_firstn_skipn by lia. rewrite fins_nth, Hnth by lia.
        rewrite (nth_map_in _ _ k 0%Z) by (rewrite zrange_length; lia). rewrite nth_zrange by lia.
        f_equal. rewrite INR_IZR_INZ. replace (Z.of_nat (Z.to_nat (i + 1) + k)) with (i + (1 + Z.of_nat k))%Z by lia.
        rewrite plus_IZR. ring. }
  rewrite HY, Hsp, around_fin. do 3 f_equal. rewrite (spline_split s _ _ Hs). lra.
Qed.

Lemma cubic_previous_ignored (N : Num) (Hnan : @nisnan N nnan = true) spline (v w : list N) (i dec : Z) r r' :
  (30 < i < zlen v - 30)%Z -> length w = length v ->
  (forall k, (k < length v)%nat -> k <> Z.to_nat (i - 1) -> nth k w nnan = nth k v nnan) ->
  cubic_12points_polynomial spline DFloat v [i] dec = Ok r -> cubic_12points_polynomial spline DFloat w [i] dec = Ok r' ->
  nth (Z.to_nat i) r nnan = nth (Z.to_nat i) r' nnan.
Proof.
  intros Hi HL Heq E E'.
  assert (HSS : StronglySorted Z.lt [i]) by (constructor; constructor).
  assert (Hz : zlen w = zlen v) by (unfold zlen; lia).
  destruct (cubic_general N Hnan spline v [i] dec r HSS) as (_ & _ & H & _); [intros j [<-|[]]; lia | exact E|].
  destruct (cubic_general N Hnan spline w [i] dec r' HSS) as (_ & _ & H' & _); [intros j [<-|[]]; lia | exact E'|].
  destruct (H i (or_introl eq_refl) Hi) as [_ ->]. destruct (H' i (or_introl eq_refl)) as [_ ->]; [lia|].
  do 2 f_equal. f_equal.
  - apply (list_eq_nth _ _ nnan).
    + rewrite !firstn_length, !skipn_length. lia.
    + intros k Hk. rewrite firstn_length, skipn_length in Hk. rewrite !nth_firstn_skipn by lia. symmetry. apply Heq; lia.
  - f_equal. unfold later_valid. rewrite Hz.
    assert (HE : forall k, In k (zrange (i + 1) (zlen v)) -> nth (Z.to_nat k) w nnan = nth (Z.to_nat k) v nnan).
    { intros k Hk. apply in_zrange in Hk. apply Heq; unfold zlen in *; lia. }
    revert HE. generalize (zrange (i + 1) (zlen v)). induction l as [|k l IH]; intros HE; [reflexivity|].
    cbn [filter]. rewrite (HE k (or_introl eq_refl)). specialize (IH (fun j Hj => HE j (or_intror Hj))).
    destruct (negb (zmem k [i]) && negb (nisnan (nth (Z.to_nat k) v nnan))); [|exact IH].
    cbn [map]. rewrite (HE k (or_introl eq_refl)). f_equal. exact IH.
Qed.
