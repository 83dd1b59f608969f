(** The logarithm of the density of integer arrays and with array-valued parameters. *)
From Coq Require Import Reals Lra Lia.
From Flocq Require Import Core IEEE754.BinarySingleNaN.
From Verif Require Import Num Lib XR F64 Spec Spec2 Spec9 Spec15 M_pdf P_gauss P_normal P_arrays P_order P_pdf P_pdf2.
Import ListNotations.
Local Open Scope R_scope.

Lemma log_pdf_nd_bind (N : Num) (a sd mu : nd N) : log_pdf_nd a sd mu = (let* p := pdf_nd a sd mu in Ok (nd_fun nlog p)).
Proof. unfold log_pdf_nd, pdf_nd. destruct (nd_data a) as [|x l]; [reflexivity|]. destruct (existsb nisnan (x :: l)); reflexivity. Qed.
Lemma entry_map (N : Num) (f : N -> N) o r ix : filled o r -> index_of o ix -> entry o (map f r) ix (nofZ 0) = f (entry o r ix (nofZ 0)).
Proof.
  intros F H. assert (Mo : M (pad (length o) o) o) by (rewrite pad_self; apply M_refl).
  apply (nd_fun_at f (ND o r) o); (assumption || apply le_n).
Qed.
(** Every number type. *)
Lemma log_pdf_broadcast (N : Num) (a sd mu : nd N) :
  filled (nd_shape a) (nd_data a) -> filled (nd_shape sd) (nd_data sd) -> filled (nd_shape mu) (nd_data mu) ->
  nd_data a <> [] -> existsb nisnan (nd_data a) = false ->
  (fitting (nd_shape a) (nd_shape mu) -> fitting (nd_shape a) (nd_shape sd) -> fitting (nd_shape mu) (nd_shape sd) ->
   exists o r, log_pdf_nd a sd mu = Ok (ND o r) /\ common [nd_shape a; nd_shape mu; nd_shape sd] o /\ filled o r /\
   forall ix, index_of o ix ->
     log_pdf (Arr [1%Z] [entry (nd_shape a) (nd_data a) ix (nofZ 0)]) (entry (nd_shape sd) (nd_data sd) ix (nofZ 0)) (entry (nd_shape mu) (nd_data mu) ix (nofZ 0)) =
       Ok (Arr [1%Z] [entry o r ix (nofZ 0)])) /\
  (~ (fitting (nd_shape a) (nd_shape mu) /\ fitting (nd_shape a) (nd_shape sd) /\ fitting (nd_shape mu) (nd_shape sd)) ->
   log_pdf_nd a sd mu = Raise ValueError).
Proof.
  intros Fa Fs Fm Hne Hnan. destruct (pdf_broadcast N a sd mu Fa Fs Fm Hne Hnan) as [H1 H2]. rewrite log_pdf_nd_bind. split.
  - intros F1 F2 F3. destruct (H1 F1 F2 F3) as (o & r & E & C & Fr & Hx). rewrite E. cbn [bind]. exists o, (map nlog r).
    split; [reflexivity|]. split; [exact C|]. split; [unfold filled; rewrite map_length; exact Fr|].
    intros ix Hi. specialize (Hx ix Hi). rewrite entry_map by assumption. unfold log_pdf. rewrite Hx.
    assert (K : nd_check (N := N) (Arr [1%Z] [entry (nd_shape a) (nd_data a) ix (nofZ 0)]) = Ok tt).
    { unfold pdf in Hx. destruct (nd_check _) as [[]|]; [reflexivity | discriminate Hx]. }
    rewrite K. reflexivity.
  - intros HN. rewrite (H2 HN). reflexivity.
Qed.
Lemma log_pdf_nd_errors (N : Num) (a sd mu : nd N) :
  (nd_data a = [] -> log_pdf_nd a sd mu = Raise ValueError) /\
  ((exists x, In x (nd_data a) /\ nisnan x = true) -> log_pdf_nd a sd mu = Raise TypeError).
Proof. rewrite log_pdf_nd_bind. destruct (pdf_nd_errors N a sd mu) as [H1 H2]. split; intros H; [rewrite (H1 H) | rewrite (H2 H)]; reflexivity. Qed.
(** Exact arithmetic. *)
Lemma log_pdf_broadcast_exact (sa ss sm : list nat) (a sd mu : list R) :
  filled sa a -> filled ss sd -> filled sm mu -> a <> [] -> Forall (fun s => 0 < s) sd ->
  fitting sa sm -> fitting sa ss -> fitting sm ss ->
  exists o r, @log_pdf_nd XR (ND sa (fins a)) (ND ss (fins sd)) (ND sm (fins mu)) = Ok (ND o (fins r)) /\ common [sa; sm; ss] o /\ filled o r /\
  forall ix, index_of o ix -> let s := entry ss sd ix 0 in let m := entry sm mu ix 0 in let x := entry sa a ix 0 in
    entry o r ix 0 = - (1 / 2) * ln (2 * PI) - ln s - (x - m) * (x - m) / (2 * (s * s)).
Proof.
  intros Fa Fs Fm Hne Hpos F1 F2 F3. destruct (pdf_broadcast_exact sa ss sm a sd mu) as (o & r & E & C & Fr & Hx); try assumption.
  assert (Hs : forall ix, index_of o ix -> 0 < entry ss sd ix 0).
  { intros ix Hi. rewrite Forall_forall in Hpos. apply Hpos. apply (common_in [sa; sm; ss] o); try assumption. right; right; left; reflexivity. }
  assert (Pr : forall v, In v r -> 0 < v).
  { intros v Hv. destruct (In_nth r v 0 Hv) as (j & Hj & <-). unfold filled in Fr. rewrite Fr in Hj. destruct (unrank o j Hj) as (ix & Hi & Ej).
    specialize (Hx ix Hi). unfold entry at 1 in Hx. rewrite Ej in Hx. rewrite Hx. apply gauss_pos, Hs, Hi. }
  rewrite log_pdf_nd_bind, E. cbn [bind]. exists o, (map ln r). split; [|split; [exact C|split; [unfold filled; rewrite map_length; exact Fr|]]].
  - unfold nd_fun. cbn [nd_shape nd_data]. do 2 f_equal. unfold fins. rewrite !map_map. apply map_ext_in. intros v Hv. apply xlog_fin, Pr, Hv.
  - intros ix Hi. cbv zeta. assert (EN : entry o (map ln r) ix 0 = ln (entry o r ix 0)).
    { unfold entry. set (j := position _ _). assert (Hj : (j < length r)%nat).
      { assert (Mo : M (pad (length o) o) o) by (rewrite pad_self; apply M_refl). unfold filled in Fr.
        pose proof (at_lt (N := XR) (ND o (fins r)) o ix ltac:(unfold filled; cbn [nd_shape nd_data]; rewrite fins_length; exact Fr) (le_n _) Mo Hi) as Q.
        cbn [nd_shape nd_data] in Q. rewrite fins_length in Q. exact Q. }
      rewrite (nth_indep (map ln r) 0 (ln 0)) by (rewrite map_length; exact Hj). apply map_nth. }
    rewrite EN, (Hx ix Hi). apply ln_gauss, Hs, Hi.
Qed.

(** ** Integer arrays *)
Lemma log_pdf_int_val (l : list Z) s m : l <> [] -> (0 < s)%Z ->
  @log_pdf_int XR l s m = Ok (fins (map (fun x => - (1 / 2) * ln (2 * PI) - ln (IZR s) - IZR (wrap64 ((x - m) * (x - m))) / (2 * (IZR s * IZR s))) l)).
Proof.
  intros Hl Hs. assert (Hr : 0 < IZR s) by (apply IZR_lt; exact Hs). unfold log_pdf_int. destruct l as [|x0 l0]; [contradiction|]. rewrite pdf_int_val by (discriminate || exact Hs). cbn [bind]. f_equal.
  unfold fins. rewrite !map_map. apply map_ext. intros x. set (w := IZR (wrap64 _)).
  assert (P : 0 < bell w (IZR s)).
  { unfold bell. apply Rdiv_lt_0_compat; [apply exp_pos|]. apply Rmult_lt_0_compat; [exact Hr|]. apply sqrt_lt_R0, two_PI_pos. }
  rewrite xlog_fin by exact P. f_equal. unfold bell, Rdiv at 1. pose proof two_PI_pos as TP. assert (SP : 0 < sqrt (2 * PI)) by (apply sqrt_lt_R0; exact TP).
  rewrite ln_mult by (try apply exp_pos; apply Rinv_0_lt_compat; apply Rmult_lt_0_compat; assumption). rewrite ln_exp, ln_Rinv by (apply Rmult_lt_0_compat; assumption).
  rewrite ln_mult by assumption. assert (LS : ln (2 * PI) = 2 * ln (sqrt (2 * PI))).
  { rewrite <- (sqrt_sqrt (2 * PI)) at 1 by lra. rewrite ln_mult by exact SP. ring. }
  rewrite LS. field. lra.
Qed.
Lemma log_pdf_int_wraps (l : list Z) (s m : Z) : l <> [] -> (0 < s)%Z ->
  exists r, @log_pdf_int XR l s m = Ok (fins r) /\ Forall2 (fun x v => exists w k, (w = (x - m) * (x - m) - k * 2 ^ 64)%Z /\ (- 2 ^ 63 <= w < 2 ^ 63)%Z /\
    v = - (1 / 2) * ln (2 * PI) - ln (IZR s) - IZR w / (2 * (IZR s * IZR s)) /\
    (v = ln (gauss (IZR m) (IZR s) (IZR x)) <-> (Z.abs (x - m) <= 3037000499)%Z)) l r.
Proof.
  intros Hl Hs. rewrite log_pdf_int_val by assumption. eexists. split; [reflexivity|]. clear Hl. induction l as [|x l IH]; [constructor|]. cbn [map]. constructor; [|exact IH].
  destruct (wrap_spec ((x - m) * (x - m))) as [B [k E]]. exists (wrap64 ((x - m) * (x - m))), k. split; [exact E|]. split; [exact B|]. split; [reflexivity|].
  assert (Hr : 0 < IZR s) by (apply IZR_lt; exact Hs). rewrite ln_gauss by exact Hr. unfold log_gauss. rewrite <- minus_IZR, <- (mult_IZR (x - m) (x - m)).
  set (w := wrap64 _) in *. pose proof (Rmult_lt_0_compat _ _ Hr Hr) as Q. split.
  - intros H. assert (W : IZR w = IZR ((x - m) * (x - m))).
    { apply Rmult_eq_reg_r with (/ (2 * (IZR s * IZR s))); [|apply Rinv_neq_0_compat; lra]. unfold Rdiv in H. lra. }
    apply eq_IZR in W. rewrite W in B. clear - B. nia.
  - intros H. assert (W : w = ((x - m) * (x - m))%Z) by (unfold w; apply (wrap_unique _ _ 0); [|ring]; clear - H; set (d := (x - m)%Z) in *; assert (d * d = Z.abs d * Z.abs d)%Z by (rewrite <- Z.abs_square; reflexivity); assert (Z.abs d * Z.abs d <= 3037000499 * 3037000499)%Z by (apply Z.mul_le_mono_nonneg; lia); nia). rewrite W. reflexivity.
Qed.
