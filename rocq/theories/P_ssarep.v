(** Proofs: values written by the replacement with singular spectrum analysis; NaN in integer records. *)
From Coq Require Import Reals Lra Lia.
From Flocq Require Import Core.Raux.
From Verif Require Export NpBase XR Spec Spec2 M_series M_replacement P_replacement P_ssa2.
Local Open Scope Z_scope.

Lemma flagged_dec n idx k : flagged n idx k \/ ~ flagged n idx k.
Proof.
  destruct (in_dec Z.eq_dec (Z.of_nat k) idx) as [H|H]; [left; exists (Z.of_nat k); split; [exact H | unfold addresses; lia]|].
  destruct (in_dec Z.eq_dec (Z.of_nat k - n) idx) as [H'|H']; [left; exists (Z.of_nat k - n); split; [exact H' | unfold addresses; lia]|].
  right. intros (i & Hi & Ha). unfold addresses in Ha. destruct Ha as [-> | Ha]; [contradiction|].
  replace i with (Z.of_nat k - n) in Hi by lia. contradiction.
Qed.
(** The samples written are those of the reconstruction of the same record with the same frequencies. *)
Lemma ssa_repl_value (N : Num) eigh dt (v xf : list N) idx fs f : ssa eigh v fs f = Ok xf -> length xf = length v -> in_bounds (zlen v) idx ->
  exists r, repl_ssa eigh dt v idx fs f = Ok r /\ length r = length v /\
    forall k d, (k < length v)%nat -> (flagged (zlen v) idx k -> nth k r d = store dt (nth k xf d)) /\ (~ flagged (zlen v) idx k -> nth k r d = nth k v d).
Proof.
  intros E HL Hb. unfold repl_ssa. rewrite E. cbn [bind].
  destruct (take_from_ok N dt xf idx v HL Hb) as (r & Er & Hr & Hv). exists r. split; [exact Er|]. split; [exact Hr|].
  intros k d Hk. split; [intros Hf; apply Hv; assumption|]. intros Hn.
  destruct (take_from_keeps N dt v xf r idx Er) as [_ K]. specialize (K k Hk Hn).
  rewrite (nth_error_nth' r d) in K by lia. rewrite (nth_error_nth' v d) in K by exact Hk. congruence.
Qed.
Lemma ssa_repl_raises (N : Num) eigh dt (v : list N) idx fs f e : ssa eigh v fs f = Raise e -> repl_ssa eigh dt v idx fs f = Raise e.
Proof. intros E. unfold repl_ssa. rewrite E. reflexivity. Qed.
(** With every component kept a spike is replaced by itself, rounded. *)
Lemma ssa_repl_identity (eigh : @matrix XR -> res (@matrix XR)) (x : list R) (fs f : R) (E : list (list R)) (L K : nat) idx :
  (f <> 0)%R -> (fs <> 0)%R -> Zceil (fs / f) = Z.of_nat L -> (2 <= L)%nat -> (1 <= K)%nat -> length x = (L + K - 1)%nat ->
  mshape E L L -> eigh (finm (rtrajcov x L K)) = Ok (finm E) -> orthonormal_cols E L -> rmob_den (rdummy fs f L) <> 0%R ->
  (forall i, (i < L)%nat -> rmob_den (mcol E i) <> 0%R /\ (rmobility (mcol E i) <= rmobility (rdummy fs f L))%R) -> in_bounds (zlen x) idx ->
  exists r, repl_ssa eigh DFloat (fins x) idx (Fin fs) (Fin f) = Ok (fins r) /\ length r = length x /\
    forall k, (k < length x)%nat -> (flagged (zlen x) idx k -> nth k r 0%R = round_dec 4 (nth k x 0%R)) /\ (~ flagged (zlen x) idx k -> nth k r 0%R = nth k x 0%R).
Proof.
  intros Hf Hfs HL HL2 HK Hx HE Heig HO Hd Hm Hb.
  pose proof (ssa_identity eigh x fs f E L K Hf Hfs HL HL2 HK Hx HE Heig HO Hd Hm) as ES.
  assert (Z1 : zlen (fins x) = zlen x) by (unfold zlen, fins; rewrite map_length; reflexivity).
  destruct (ssa_repl_value XR eigh DFloat (fins x) _ idx (Fin fs) (Fin f) ES) as (r & Er & Hr & Hv).
  { unfold fins. rewrite !map_length. reflexivity. } { rewrite Z1. exact Hb. }
  rewrite Z1 in Hv. assert (LF : length (fins x) = length x) by apply map_length. rewrite LF in *.
  assert (HN : forall k, (k < length x)%nat -> exists y : R, nth k r (Fin 0) = Fin y /\ (flagged (zlen x) idx k -> y = round_dec 4 (nth k x 0%R)) /\ (~ flagged (zlen x) idx k -> y = nth k x 0%R)).
  { intros k Hk. destruct (Hv k (Fin 0) Hk) as [V1 V2]. destruct (flagged_dec (zlen x) idx k) as [F|F].
    - exists (round_dec 4 (nth k x 0%R)). rewrite (V1 F). cbn [store]. split; [|split; [reflexivity | intros C; contradiction]].
      rewrite fins_nth. f_equal. rewrite (nth_map_in _ _ _ 0%R) by exact Hk. reflexivity.
    - exists (nth k x 0%R). rewrite (V2 F), fins_nth. split; [reflexivity|]. split; [intros C; contradiction | reflexivity]. }
  exists (map (fun k => match nth k r (Fin 0) with Fin y => y | _ => 0%R end) (seq 0 (length x))).
  assert (ER : r = fins (map (fun k => match nth k r (Fin 0) with Fin y => y | _ => 0%R end) (seq 0 (length x)))).
  { apply (nth_ext _ _ (Fin 0 : XR) (Fin 0)); [unfold fins; rewrite !map_length, seq_length; exact Hr|].
    intros k Hk. rewrite Hr in Hk. rewrite fins_nth, (nth_map_in _ _ _ 0%nat) by (rewrite seq_length; exact Hk). rewrite seq_nth by exact Hk. cbn [plus].
    destruct (HN k Hk) as (y & -> & _). reflexivity. }
  split; [rewrite Er; f_equal; exact ER|]. split; [rewrite map_length, seq_length; reflexivity|].
  intros k Hk. rewrite (nth_map_in _ _ _ 0%nat) by (rewrite seq_length; exact Hk). rewrite seq_nth by exact Hk. cbn [plus].
  destruct (HN k Hk) as (y & -> & H1 & H2). split; assumption.
Qed.

(** A regression that yields NaN: ValueError for an integer record. *)
Lemma poly_nan_int (N : Num) regress (v : list N) i j rest window degree decimals :
  (forall a b s d, exists x, regress a b s d = Ok x /\ nisnan x = true) ->
  11 <= i < zlen v -> 1 <= window ->
  polynomial_replacement regress DInt v (i :: j :: rest) window degree decimals = Raise ValueError.
Proof.
  intros HR Hi Hw. unfold polynomial_replacement. cbn [foldM].
  assert (ES : poly_step regress DInt (i :: j :: rest) window degree decimals (v, 0) i = Raise ValueError); [|rewrite ES; reflexivity].
  unfold poly_step. rewrite (proj2 (Z.eqb_neq i 0)) by lia. rewrite (proj2 (Z.leb_gt i 10)) by lia. rewrite andb_false_r.
  assert (HC : forall w idx, zlen idx = zlen w -> zlen idx <> 0 -> exists x, create_model regress w idx i degree = Ok x /\ nisnan x = true).
  { intros w idx E1 E2. unfold create_model. rewrite (proj2 (Z.eqb_neq _ _) E2), E1, Z.eqb_refl. cbn [orb negb]. apply HR. }
  assert (LS : forall a, 0 <= a < i -> zlen (zrange a i) = zlen (pyslice v a i) /\ zlen (zrange a i) <> 0).
  { intros a Ha. unfold zlen. rewrite zrange_length, pyslice_length by (unfold zlen in *; lia). lia. }
  destruct ((11 <=? i) && (i <=? window - 1)) eqn:B.
  - destruct (LS 0 ltac:(lia)) as [A1 A2]. destruct (HC _ _ A1 A2) as (x & -> & Hx). cbn [bind storable]. rewrite Hx. reflexivity.
  - apply andb_false_iff in B. assert (window <= i) by (destruct B as [B|B]; apply Z.leb_gt in B; lia).
    destruct (LS (i - window) ltac:(lia)) as [A1 A2]. destruct (HC _ _ A1 A2) as (x & -> & Hx). cbn [bind storable]. rewrite Hx. reflexivity.
Qed.
