(** [xyz_to_sop] as a whole (C63). *)
From Coq Require Import Reals Lra Psatz Permutation.
From Coquelicot Require Import Complex.
From Flocq Require Import Core.Raux.
From Verif Require Import Num NpBase Lib XR M_butter Spec3 P_cx P_butter P_poly P_cxr P_sop.
Local Open Scope R_scope.

Lemma scale_row k r : length r = 6%nat ->
  exists r', @nil XR ++ map (fun v => @nmul XR v (Fin k)) (firstn 3 (fins r)) ++ skipn 3 (fins r) = fins r' /\
    length r' = 6%nat /\ (forall z, num_at r' z = RtoC k * num_at r z)%C /\ (forall z, den_at r' z = den_at r z).
Proof.
  destruct r as [|b0 [|b1 [|b2 [|a0 [|a1 [|a2 [|]]]]]]]; try discriminate. intros _.
  exists [b0 * k; b1 * k; b2 * k; a0; a1; a2]. split; [reflexivity|]. split; [reflexivity|].
  split; intros z; cbn [num_at den_at]; [|easy]. rewrite !RtoC_mult. ring.
Qed.

Lemma scale_first_ok k rows : rows <> [] -> (forall r, In r rows -> length r = 6%nat) ->
  exists rows', @scale_first XR (Fin k) (map fins rows) = Ok (map fins rows') /\
    length rows' = length rows /\ (forall r, In r rows' -> length r = 6%nat) /\
    (forall z, nums_at rows' z = RtoC k * nums_at rows z)%C /\ (forall z, dens_at rows' z = dens_at rows z).
Proof.
  destruct rows as [|r rows]; [easy|]. intros _ H.
  destruct (scale_row k r) as (r' & E & L & Nr & Dr); [apply H; now left|].
  exists (r' :: rows). cbn [map scale_first]. cbn [app] in E. rewrite E. split; [easy|].
  split; [easy|]. split.
  - intros u [<- |Hu]; [easy|]. apply H. now right.
  - unfold nums_at, dens_at. cbn [map Cprodl]. split; intros z; rewrite ?Nr, ?Dr; [ring|easy].
Qed.

Lemma count_expand l : length (filter realb (expand l)) = length (filter realb l).
Proof.
  induction l as [|v l IH]; [reflexivity|]. change (expand (v :: l)) with (expand1 v ++ expand l).
  rewrite filter_app, app_length, IH. cbn [filter]. unfold expand1. destruct (realb v) eqn:E; cbn [filter]; rewrite E; [reflexivity|].
  assert (E' : realb (Cconj v) = false).
  { destruct (realb (Cconj v)) eqn:F; [|reflexivity]. apply realb_spec in F. cbn in F. rewrite <- E. symmetry. apply realb_spec. lra. }
  rewrite E'. reflexivity.
Qed.
Lemma lone_count l : lone_real l -> length (filter realb l) = 1%nat.
Proof.
  intros (a & v & b & -> & Rv & H). rewrite filter_app. cbn [filter]. rewrite (proj2 (realb_spec v) Rv), app_length. cbn [length].
  assert (HZ : forall m, (forall u, In u m -> snd u <> 0) -> length (filter realb m) = 0%nat).
  { induction m as [|u m IH]; intros Hm; [reflexivity|]. cbn [filter]. destruct (realb u) eqn:E.
    - apply realb_spec in E. exfalso. apply (Hm u); [now left | exact E].
    - apply IH. intros w Hw. apply Hm. now right. }
  rewrite (HZ a), (HZ b); [reflexivity| |]; intros u Hu; apply H, in_app_iff; auto.
Qed.

Section Whole.
Variable argsort : list XR -> list nat.
Hypothesis Hsort : is_argsort argsort.

Lemma cxr_expand X : conj_closed X ->
  exists xc xr, @cxr XR (cfs X) = Ok (cfs xc, cfs xr) /\ Permutation (expand (xc ++ xr)) (map snap X) /\
    (reals (map snap X) -> reals (xc ++ xr)).
Proof.
  intros HC. destruct (cxr_ok X HC) as (xc & xr & E & Pc & Pr & PP).
  exists xc, xr. split; [easy|]. split.
  - rewrite expand_app, (expand_real xr) by exact Pr. rewrite expand_pos by exact Pc.
    rewrite <- app_assoc. now symmetry.
  - intros HR v Hv. apply HR. apply (Permutation_in _ (Permutation_sym PP)).
    apply in_app_iff in Hv as [Hv|Hv]; apply in_app_iff; [now left|]. right. apply in_app_iff. now right.
Qed.

Definition sop_spec (n : nat) (k : R) (X Y : list C) (e : nat) (r : res (list (list XR))) : Prop :=
  exists rows, r = Ok (map fins rows) /\ length rows = n /\ (forall r, In r rows -> length r = 6%nat) /\
    (forall z, nums_at rows z = RtoC k * from_roots X z * Cpown z e)%C /\
    (forall z, dens_at rows z = from_roots Y z * Cpown z e)%C.

Lemma core ag pg X Y k n : conj_closed X -> conj_closed Y ->
  (length X <= length Y)%nat -> (is_ml pg = false -> length X = length Y) ->
  (length Y <= 2 * n <= length Y + 1)%nat -> (0 < n)%nat ->
  (Nat.Even (length Y) /\ Nat.Even (length X)) \/ reals (map snap X) \/ (lone_real (map snap Y) /\ length X = length Y) ->
  sop_spec n k (map snap X) (map snap Y) (if is_ml pg then 0 else 2 * n - length Y)
   (let* xx := @cxr XR (cfs X) in
    let x := fst xx ++ snd xx in
    let* yy := @cxr XR (cfs Y) in
    let y := fst yy ++ snd yy in
    let* st := foldM (@sop_step XR argsort ag pg) (y, x, []) (rev (zrange 0 (Z.of_nat n))) in
    let '(y, x, sop) := st in
    if negb ((length y =? length x)%nat && (length x =? 0)%nat) then Raise AssertionError
    else @scale_first XR (Fin k) sop).
Proof.
  intros CX CY HXY HM HN Hn Hpre.
  destruct (cxr_expand X CX) as (xc & xr & EX & PX & RX).
  destruct (cxr_expand Y CY) as (yc & yr & EY & PY & _).
  rewrite EX. cbn [bind fst snd]. rewrite EY. cbn [bind fst snd]. rewrite <- !cfs_app.
  pose proof (Permutation_length PX) as LX. pose proof (Permutation_length PY) as LY.
  rewrite map_length in LX, LY.
  assert (LZ : length (rev (zrange 0 (Z.of_nat n))) = n).
  { rewrite rev_length, zrange_length. lia. }
  destruct (loop_ok argsort Hsort ag pg (rev (zrange 0 (Z.of_nat n))) (yc ++ yr) (xc ++ xr) [])
    as (rows & E & LR & L6 & NN & DD).
  - rewrite LZ, LY. exact HN.
  - now rewrite LX, LY.
  - now rewrite LX, LY.
  - unfold pre. rewrite LX, LY. destruct Hpre as [H|[H|[H1 H2]]]; [now left|right; left; auto|right; right]. split; [|exact H2].
    rewrite <- count_expand, (Permutation_length (filter_perm realb _ _ PY)). now apply lone_count.
  - rewrite E. cbn [bind length Nat.eqb andb negb]. rewrite app_nil_r.
    rewrite LZ in *. cbv zeta in NN, DD. rewrite LY in NN, DD.
    destruct (scale_first_ok k rows) as (rows' & E' & L' & L6' & N' & D').
    + intros ->. cbn in LR. lia.
    + exact L6.
    + exists rows'. split; [exact E'|]. split; [lia|]. split; [exact L6'|]. split; intros z.
      * rewrite N', NN, (from_roots_perm _ _ z PX). ring.
      * now rewrite D', DD, (from_roots_perm _ _ z PY).
Qed.

Lemma conj_closed_zeros l m : conj_closed l -> conj_closed (l ++ repeat (RtoC 0) m).
Proof. intros H. apply conj_closed_app; [easy|]. apply conj_closed_repeat_real. Qed.
Lemma snap_real x : snap (RtoC x) = RtoC x.
Proof. unfold snap. destruct (Rle_dec _ _); easy. Qed.
Lemma snap_zeros l m : map snap (l ++ repeat (RtoC 0) m) = map snap l ++ repeat (RtoC 0) m.
Proof.
  rewrite map_app. f_equal. induction m; cbn [repeat map]; [easy|]. now rewrite IHm, snap_real.
Qed.
Lemma reals_zeros l m : reals l -> reals (l ++ repeat (RtoC 0) m).
Proof.
  intros H v Hv. apply in_app_iff in Hv as [Hv|Hv]; [now apply H|].
  now apply repeat_spec in Hv as ->.
Qed.
Lemma roots_zeros l m z : from_roots (l ++ repeat (RtoC 0) m) z = (from_roots l z * Cpown z m)%C.
Proof. rewrite from_roots_app, from_roots_repeat. do 2 f_equal. ring. Qed.

(** Common statement: [n] sections, numerator and denominator padded with roots at 0. *)
Definition sop_result (n : nat) (k : R) (x y : list C) (ex ey : nat) (r : res (list (list XR))) : Prop :=
  exists rows, r = Ok (map fins rows) /\ length rows = n /\ (forall r, In r rows -> length r = 6%nat) /\
    (forall z, nums_at rows z = RtoC k * from_roots x z * Cpown z ex)%C /\
    (forall z, dens_at rows z = from_roots y z * Cpown z ey)%C.

Lemma core_padded ag pg x y a b k n : conj_closed x -> conj_closed y ->
  is_ml pg = false -> (length x + a = length y + b)%nat ->
  (length y + b <= 2 * n <= length y + b + 1)%nat -> (0 < n)%nat ->
  Nat.Even (length y + b) \/ reals (map snap x) \/ lone_real (map snap y ++ repeat (RtoC 0) b) ->
  sop_result n k (map snap x) (map snap y) (2 * n - length x) (2 * n - length y)
   (let* xx := @cxr XR (cfs (x ++ repeat (RtoC 0) a)) in
    let x := fst xx ++ snd xx in
    let* yy := @cxr XR (cfs (y ++ repeat (RtoC 0) b)) in
    let y := fst yy ++ snd yy in
    let* st := foldM (@sop_step XR argsort ag pg) (y, x, []) (rev (zrange 0 (Z.of_nat n))) in
    let '(y, x, sop) := st in
    if negb ((length y =? length x)%nat && (length x =? 0)%nat) then Raise AssertionError
    else @scale_first XR (Fin k) sop).
Proof.
  intros CX CY M HL HN Hn Hpre.
  assert (LX : length (x ++ repeat (RtoC 0) a) = (length x + a)%nat) by now rewrite app_length, repeat_length.
  assert (LY : length (y ++ repeat (RtoC 0) b) = (length y + b)%nat) by now rewrite app_length, repeat_length.
  destruct (core ag pg (x ++ repeat (RtoC 0) a) (y ++ repeat (RtoC 0) b) k n)
    as (rows & E & L & L6 & NN & DD); auto using conj_closed_zeros.
  - lia.
  - lia.
  - lia.
  - destruct Hpre as [HE|[HR|HR]]; [left|right; left; rewrite snap_zeros; now apply reals_zeros|right; right].
    2:{ rewrite snap_zeros. split; [exact HR|]. lia. }
    split; [now rewrite LY|]. rewrite LX, HL. exact HE.
  - rewrite M in NN, DD. exists rows. split; [exact E|]. split; [exact L|]. split; [exact L6|].
    split; intros z.
    + rewrite NN, snap_zeros, roots_zeros.
      replace (2 * n - length x)%nat with (a + (2 * n - length (y ++ repeat (RtoC 0) b)))%nat by lia.
      rewrite Cpown_add. ring.
    + rewrite DD, snap_zeros, roots_zeros.
      replace (2 * n - length y)%nat with (b + (2 * n - length (y ++ repeat (RtoC 0) b)))%nat by lia.
      rewrite Cpown_add. ring.
Qed.

Lemma cfs_zeros l m : cfs l ++ repeat (@cre XR (@nofZ XR 0)) m = cfs (l ++ repeat (RtoC 0) m).
Proof. rewrite cfs_app, cfs_repeat. reflexivity. Qed.
Lemma cfs_zero1 l m : cfs (l ++ repeat (RtoC 0) m) ++ [@cre XR (@nofZ XR 0)] = cfs (l ++ repeat (RtoC 0) (S m)).
Proof.
  change [@cre XR (@nofZ XR 0)] with (repeat (@cre XR (@nofZ XR 0)) 1). rewrite cfs_zeros, <- app_assoc.
  rewrite <- repeat_app. do 3 f_equal. lia.
Qed.

Definition nrkd (pg : pairing) := is_ml pg = false.

Lemma sop_nrkd x y k pg pgs : conj_closed x -> conj_closed y ->
  (pg = PNr /\ (pgs = None \/ pgs = Some "nr"%string) \/
   pg = PKd /\ pgs = Some "kd"%string /\ (Nat.Even (Nat.max (length x) (length y)) \/ reals (map snap x) \/ lone_real (map snap y ++ repeat (RtoC 0) (length x - length y)))) ->
  (x <> [] \/ y <> []) ->
  let n := Nat.div (Nat.max (length x) (length y) + 1) 2 in
  sop_result n k (map snap x) (map snap y) (2 * n - length x) (2 * n - length y) (@xyz_to_sop XR argsort (cfs x) (cfs y) (Fin k) pgs false).
Proof.
  intros CX CY Hpg Hne n.
  assert (E0 : ((length x =? 0)%nat && (length y =? 0)%nat) = false).
  { destruct x, y; try easy. now destruct Hne. }
  assert (Mpg : is_ml pg = false) by (destruct Hpg as [[-> _]|[-> _]]; easy).
  unfold xyz_to_sop. cbn [andb].
  match goal with |- sop_result _ _ _ _ _ _ (bind ?m _) => replace m with (Ok pg) end.
  2:{ destruct Hpg as [[-> [-> | ->]]|[-> [-> _]]]; reflexivity. }
  cbn [bind]. rewrite !cfs_length, E0, Mpg. cbn [negb]. rewrite !cfs_zeros.
  rewrite !cfs_length, !app_length, !repeat_length.
  set (lx := length x) in *. set (ly := length y) in *.
  assert (EM : Nat.max (ly + (lx - ly)) (lx + (ly + (lx - ly) - lx)) = Nat.max lx ly) by lia.
  rewrite EM. fold n.
  assert (LYM : (ly + (lx - ly) = Nat.max lx ly)%nat) by lia. rewrite LYM.
  assert (Hpos : (0 < Nat.max lx ly)%nat).
  { apply andb_false_iff in E0 as [E0|E0]; apply Nat.eqb_neq in E0; lia. }
  pose proof (Nat.div_mod (Nat.max lx ly + 1) 2 ltac:(lia)) as DM.
  pose proof (Nat.mod_upper_bound (Nat.max lx ly + 1) 2 ltac:(lia)) as DU. fold n in DM.
  pose proof (Nat.div_mod (Nat.max lx ly) 2 ltac:(lia)) as DM2.
  pose proof (Nat.mod_upper_bound (Nat.max lx ly) 2 ltac:(lia)) as DU2.
  clear E0. destruct (_ && _) eqn:EP.
  - apply andb_prop in EP as [EO EN]. apply Nat.eqb_eq in EO.
    rewrite !cfs_zero1, !cfs_length, !app_length, !repeat_length. fold lx ly.
    destruct (Nat.eqb_spec (ly + S (lx - ly)) (lx + S (Nat.max lx ly - lx))) as [_|]; [|lia].
    cbn [negb bind].
    apply core_padded; auto; fold lx ly; try lia. left. exists n. lia.
  - rewrite !cfs_length, !app_length, !repeat_length. fold lx ly.
    destruct (Nat.eqb_spec (ly + (lx - ly)) (lx + (Nat.max lx ly - lx))) as [_|]; [|lia].
    cbn [negb bind].
    apply core_padded; auto; fold lx ly; try lia.
    destruct Hpg as [[-> _]|[-> [_ Hev]]].
    + left. rewrite andb_true_r in EP. apply Nat.eqb_neq in EP. exists (Nat.max lx ly / 2)%nat. lia.
    + destruct Hev as [Hev|HR]; [left|right; exact HR]. now rewrite LYM.
Qed.

Lemma sop_ml x y k pgs ag : conj_closed x -> conj_closed y ->
  (pgs = Some "ml"%string \/ (pgs = None /\ ag = true)) ->
  (length x <= length y)%nat -> y <> [] ->
  (Nat.Even (length y) /\ Nat.Even (length x)) \/ reals (map snap x) \/ (lone_real (map snap y) /\ length x = length y) ->
  sop_result (Nat.div (length y + 1) 2) k (map snap x) (map snap y) 0 0 (@xyz_to_sop XR argsort (cfs x) (cfs y) (Fin k) pgs ag).
Proof.
  intros CX CY Hpg HL Hne Hpre. unfold xyz_to_sop.
  match goal with |- sop_result _ _ _ _ _ _ (bind ?m _) => replace m with (Ok PMl) end.
  2:{ destruct Hpg as [-> |[-> ->]]; reflexivity. }
  cbn [bind is_ml negb]. rewrite andb_false_r, !cfs_length.
  replace (length y =? 0)%nat with false by (now destruct y). rewrite andb_false_r.
  destruct (Nat.ltb_spec (length y) (length x)); [lia|]. cbn [bind].
  pose proof (Nat.div_mod (length y + 1) 2 ltac:(lia)) as DM.
  pose proof (Nat.mod_upper_bound (length y + 1) 2 ltac:(lia)) as DU.
  assert (0 < length y)%nat by (destruct y; [easy|cbn; lia]).
  destruct (core ag PMl x y k (Nat.div (length y + 1) 2)) as (rows & E & L & L6 & NN & DD); auto; try easy; try lia.
  exists rows. repeat split; auto.
Qed.
End Whole.
