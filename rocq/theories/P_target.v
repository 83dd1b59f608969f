(** The target of the bandwidth search (kernel/bivariate.py:396-400). *)
From Coq Require Import Reals Lra Lia.
From Verif Require Import XR M_series M_kernel Spec Spec2 P_band.
Local Open Scope Z_scope.

Lemma target_value : forall ic A m n t, length ic = m -> mshape A m m -> (1 <= m)%nat -> positive_mass ic A -> 1 <= n ->
  exists e a, (0 < a)%R /\ k_evolve (Fin t) n (fins ic) (finm A) = Ok (e, Fin a) /\
    k_target (fins ic) (finm A) n (Fin t) = Ok (Fin (t - (t - a) / a)).
Proof.
  intros ic A m n t HL HA Hm HP Hn. destruct (evolve_defined ic A m n t HL HA Hm HP Hn) as (a & Ha & E).
  exists (Fin ((t - a) / a)), a. split; [exact Ha|]. split; [exact E|]. unfold k_target. rewrite E. reflexivity.
Qed.
Lemma target_root : forall ic A m n t, length ic = m -> mshape A m m -> (1 <= m)%nat -> positive_mass ic A -> 1 <= n -> (0 <= t)%R ->
  exists e a g, (0 < a)%R /\ k_evolve (Fin t) n (fins ic) (finm A) = Ok (e, Fin a) /\
    k_target (fins ic) (finm A) n (Fin t) = Ok (Fin g) /\
    (g = 0 <-> a = t / (1 + t))%R /\ (g < 0 <-> a < t / (1 + t))%R /\
    (a = t -> g = t /\ 0 < g)%R /\ (g = 0 -> a < t /\ t - a = t * a)%R.
Proof.
  intros ic A m n t HL HA Hm HP Hn Ht. destruct (target_value ic A m n t HL HA Hm HP Hn) as (e & a & Ha & E & T).
  exists e, a, (t - (t - a) / a)%R. split; [exact Ha|]. split; [exact E|]. split; [exact T|]. clear E T.
  assert (EG : ((t - (t - a) / a) * a = a * (1 + t) - t)%R) by (field; lra).
  assert (ET : (t / (1 + t) * (1 + t) = t)%R) by (field; lra).
  set (g := (t - (t - a) / a)%R) in *. set (q := (t / (1 + t))%R) in *.
  assert (H0 : (g = 0 <-> a = q)%R).
  { split; intros H.
    - rewrite H in EG. apply (Rmult_eq_reg_r (1 + t)); lra.
    - assert (g * a = 0)%R by (rewrite EG, H; lra). apply Rmult_integral in H0. destruct H0; lra. }
  split; [exact H0|]. split.
  { split; intros H.
    - apply (Rmult_lt_reg_r (1 + t)); [lra|]. assert (g * a < 0)%R by (apply Ropp_lt_cancel; rewrite Ropp_0, Ropp_mult_distr_l; apply Rmult_lt_0_compat; lra). lra.
    - apply (Rmult_lt_reg_r a); [exact Ha|]. rewrite EG, Rmult_0_l. apply (Rmult_lt_compat_r (1 + t)) in H; lra. }
  split.
  { intros ->. assert (g = t)%R; [|lra]. unfold g. unfold Rdiv. replace (t - t)%R with 0%R by ring. ring. }
  intros Hg. rewrite Hg in EG. assert (0 < a * t)%R; [|lra]. destruct (Rle_lt_or_eq_dec 0 t Ht) as [H|<-]; [apply Rmult_lt_0_compat; assumption | lra].
Qed.
Lemma target_start : forall ic A m n, length ic = m -> mshape A m m -> (1 <= m)%nat -> positive_mass ic A -> 1 <= n ->
  k_target (fins ic) (finm A) n (Fin 0) = Ok (Fin 1).
Proof.
  intros ic A m n HL HA Hm HP Hn. destruct (target_value ic A m n 0 HL HA Hm HP Hn) as (e & a & Ha & _ & ->). do 2 f_equal. field. lra.
Qed.
Lemma target_example : positive_mass [0; 1]%R [[1; 2]; [0; 3]]%R /\ mshape [[1; 2]; [0; 3]]%R 2 2 /\
  k_target (fins [0; 1]%R) (finm [[1; 2]; [0; 3]]%R) 7 (Fin 0) = Ok (Fin 1).
Proof.
  assert (P : positive_mass [0; 1]%R [[1; 2]; [0; 3]]%R).
  { split; [intros x [<-|[<-|[]]]; lra|]. split; [intros r x [<-|[<-|[]]] [<-|[<-|[]]]; lra|].
    exists 1%nat, 1%nat. cbn. repeat split; try lia; lra. }
  assert (M : mshape [[1; 2]; [0; 3]]%R 2 2) by (split; [reflexivity|]; intros r [<-|[<-|[]]]; reflexivity).
  split; [exact P|]. split; [exact M|]. apply (target_start _ _ 2%nat); [reflexivity | exact M | lia | exact P | lia].
Qed.
