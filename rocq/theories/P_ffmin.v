(** fminbound in binary64: one step of the search. *)
From Coq Require Import Reals Lra Lia Psatz List Bool ZArith.
From Flocq Require Import Core Plus_error IEEE754.BinarySingleNaN.
From Verif Require Import Num F64 Spec2 Spec13 M_optimize P_float P_float2 P_fbrent.
Import ListNotations.
Local Open Scope R_scope.

Local Existing Instance F64.prec_gt_0_53.
Local Existing Instance F64.prec_lt_emax_53.

(** ** Rounding errors against a scale [t] *)
Lemma rnd_b y M t : pow2 (-1022) <= t -> Rabs y <= M ->
  - ((M + t) / 1000000000000000) <= rnd y - y <= (M + t) / 1000000000000000.
Proof.
  intros Ht HM. apply Rabs_le_inv. apply Rle_trans with (1 := rnd_err y).
  pose proof pow2_53 as [P1 P2]. pose proof (Rabs_pos y).
  assert (E : pow2 (-1075) = pow2 (-53) * pow2 (-1022)) by (rewrite <- bpow_plus; reflexivity). rewrite E.
  pose proof (bpow_gt_0 radix2 (-1022)).
  assert (pow2 (-53) * Rabs y + pow2 (-53) * pow2 (-1022) <= pow2 (-53) * (M + t)) by nra.
  assert (pow2 (-53) * (M + t) <= / 1000000000000000 * (M + t)) by (apply Rmult_le_compat_r; lra). lra.
Qed.
Lemma pabs y M : - M <= y <= M -> Rabs y <= M. Proof. apply Rabs_le. Qed.

(** ** The constants *)
Section Const.
Variable L : Libm.
Notation NL := (F64 L).
Definition parts (x : f64) : bool * positive * Z := match x with B754_finite s m e _ => (s, m, e) | _ => (true, xH, 0%Z) end.
Lemma parts_ok (x : f64) m e : parts x = (false, m, e) -> is_finite x = true /\ B2R x = IZR (Zpos m) * pow2 e.
Proof. destruct x as [|[]| |s m' e' B]; try discriminate. intros E. injection E as -> -> ->. split; reflexivity. Qed.
Lemma half_f : is_finite (@lit NL 5 1 : f64) = true /\ B2R (@lit NL 5 1 : f64) = / 2.
Proof.
  assert (E : parts (@lit NL 5 1) = (false, 4503599627370496%positive, -53)%Z) by (vm_compute; reflexivity).
  destruct (parts_ok _ _ _ E) as [F ->]. split; [exact F|]. change (pow2 (-53)) with (/ IZR 9007199254740992). lra.
Qed.
Lemma gold_f : is_finite (@golden_ratio NL : f64) = true /\ 381 / 1000 <= B2R (@golden_ratio NL : f64) <= 382 / 1000.
Proof.
  assert (E : parts (@golden_ratio NL) = (false, 6880887943736672%positive, -54)%Z) by (vm_compute; reflexivity).
  destruct (parts_ok _ _ _ E) as [F ->]. split; [exact F|]. change (pow2 (-54)) with (/ IZR 18014398509481984). lra.
Qed.
Lemma eps_f : is_finite (@epsilon_sqrt NL : f64) = true /\ 14832 / 1000000000000 <= B2R (@epsilon_sqrt NL : f64) <= 14833 / 1000000000000.
Proof.
  assert (E : parts (@epsilon_sqrt NL) = (false, 8965633834436897%positive, -79)%Z) by (vm_compute; reflexivity).
  destruct (parts_ok _ _ _ E) as [F ->]. split; [exact F|]. change (pow2 (-79)) with (/ IZR 604462909807314587353088). lra.
Qed.
End Const.
Lemma reps_range : 14832 / 1000000000000 <= sqrt (22 / IZR (10 ^ 17)) <= 14833 / 1000000000000.
Proof.
  change (IZR (10 ^ 17)) with 100000000000000000. split.
  - rewrite <- (sqrt_pow2 (14832 / 1000000000000)) by lra. apply sqrt_le_1_alt. lra.
  - rewrite <- (sqrt_pow2 (14833 / 1000000000000)) by lra. apply sqrt_le_1_alt. lra.
Qed.

Section Step.
Variable L : Libm.
Notation NL := (F64 L).
Variables (tol : NL).
Hypothesis Ft : is_finite (tol : f64) = true.
Hypothesis Bt : pow2 (-1000) <= B2R (tol : f64) <= pow2 1000.
Notation tau := (B2R (tol : f64)).

Definition T1 (x : NL) : NL := nadd (nmul epsilon_sqrt (nabs x)) (ndiv tol (nofZ 3)).
Notation t1 x := (B2R (T1 x : f64)).

Lemma tau_small : pow2 (-1022) <= tau /\ 0 < tau.
Proof. split; [apply Rle_trans with (2 := proj1 Bt); apply p2; lia|]. pose proof (bpow_gt_0 radix2 (-1000)). lra. Qed.
Lemma T1_ok (x : NL) : is_finite (x : f64) = true -> Rabs (B2R (x : f64)) <= pow2 1020 ->
  is_finite (T1 x : f64) = true /\ Rabs (B2R (x : f64)) <= 100000000 * t1 x /\ 33 / 100 * tau <= t1 x /\ pow2 (-1022) <= t1 x /\
  t1 x <= 10001 / 10000 * fmin_tol tau (B2R (x : f64)) /\ t1 x <= pow2 1010.
Proof.
  intros Fx Bx. destruct tau_small as [Ts Tp]. destruct (eps_f L) as [Fe Be].
  set (X := Rabs (B2R (x : f64))) in *. assert (HX : 0 <= X) by apply Rabs_pos.
  set (e := B2R (@epsilon_sqrt NL : f64)) in *.
  assert (P20 : pow2 1010 = / 1024 * pow2 1020) by (change 1010%Z with (-10 + 1020)%Z; rewrite bpow_plus; f_equal).
  assert (P10 : pow2 1000 = / 1048576 * pow2 1020) by (change 1000%Z with (-20 + 1020)%Z; rewrite bpow_plus; f_equal).
  pose proof (bpow_gt_0 radix2 1020) as PP.
  assert (HE : 14832 / 1000000000000 * X <= e * X <= 14833 / 1000000000000 * X) by (split; apply Rmult_le_compat_r; lra).
  set (E := e * X) in *.
  destruct (mul_fl (@epsilon_sqrt NL) (Babs x) Fe) as [F1 E1]; [rewrite is_finite_Babs; exact Fx| |].
  { rewrite B2R_Babs. fold X e E. apply (rnd_lt_max _ 1020); [lia|]. apply pabs. lra. }
  rewrite B2R_Babs in E1. fold X e E in E1.
  destruct (ofZ_fl 3 ltac:(lia)) as [F3 E3].
  destruct (div_fl tol (f64_ofZ 3) Ft) as [F2 E2]; rewrite ?E3 in *; [lra| |].
  { apply (rnd_lt_max _ 1020); [lia|]. apply pabs. lra. }
  pose proof (rnd_b E E tau Ts ltac:(apply pabs; lra)) as R1. rewrite <- E1 in R1.
  pose proof (rnd_b (tau / 3) (tau / 3) tau Ts ltac:(apply pabs; lra)) as R2. rewrite <- E2 in R2.
  set (u := B2R (Bmult mode_NE (@epsilon_sqrt NL) (Babs x))) in *. set (v := B2R (Bdiv mode_NE (tol : f64) (f64_ofZ 3))) in *.
  destruct (add_fl _ _ F1 F2) as [F4 E4]; [fold u v | fold u v in E4].
  { apply (rnd_lt_max _ 1020); [lia|]. apply pabs. lra. }
  pose proof (rnd_b (u + v) (2 * (E + tau)) tau Ts ltac:(apply pabs; lra)) as R3. rewrite <- E4 in R3.
  change (Bplus mode_NE (Bmult mode_NE (@epsilon_sqrt NL) (Babs x)) (Bdiv mode_NE (tol : f64) (f64_ofZ 3))) with (T1 x : f64) in *.
  split; [exact F4|]. unfold fmin_tol. fold X. pose proof reps_range as Hr.
  assert (HR : 14832 / 1000000000000 * X <= sqrt (22 / IZR (10 ^ 17)) * X) by (apply Rmult_le_compat_r; lra).
  set (RX := sqrt (22 / IZR (10 ^ 17)) * X) in *. 
  assert (T3 : 33 / 100 * tau <= t1 x) by lra.
  split; [lra|]. split; [exact T3|]. split; [|split; lra].
  apply Rle_trans with (2 := T3). pose proof (bpow_gt_0 radix2 (-1022)).
  assert (pow2 (-1020) <= tau) by (apply Rle_trans with (2 := proj1 Bt); apply p2; lia).
  assert (pow2 (-1020) = 4 * pow2 (-1022)) by (change (-1020)%Z with (2 + -1022)%Z; rewrite bpow_plus; reflexivity). lra.
Qed.

(** ** Comparisons of finite values *)
Lemma ltb_r (u v : f64) : is_finite u = true -> is_finite v = true -> if Bltb u v then B2R u < B2R v else B2R v <= B2R u.
Proof. intros Fu Fv. rewrite Bltb_correct by assumption. destruct (Rlt_bool_spec (B2R u) (B2R v)); assumption. Qed.
Lemma leb_r (u v : f64) : is_finite u = true -> is_finite v = true -> if Bleb u v then B2R u <= B2R v else B2R v < B2R u.
Proof. intros Fu Fv. rewrite Bleb_correct by assumption. destruct (Rle_bool_spec (B2R u) (B2R v)); assumption. Qed.
Lemma eqb_r (u v : f64) : is_finite u = true -> is_finite v = true -> if Beqb u v then B2R u = B2R v else B2R u <> B2R v.
Proof. intros Fu Fv. rewrite Beqb_correct by assumption. destruct (Req_bool_spec (B2R u) (B2R v)); assumption. Qed.

(** ** Sign and maximum *)
Definition sgn (r : R) : R := if Rlt_bool r 0 then -1 else 1.
Lemma sgn_case r : r < 0 /\ sgn r = -1 \/ 0 <= r /\ sgn r = 1.
Proof. unfold sgn. destruct (Rlt_bool_spec r 0); auto. Qed.
Lemma sign1_ok (st : NL) : is_finite (st : f64) = true -> is_finite (sign1 st : f64) = true /\ B2R (sign1 st : f64) = sgn (B2R (st : f64)).
Proof.
  intros F.
  assert (P1 : is_finite (Bplus mode_NE (f64_ofZ 1) (f64_ofZ 0)) = true /\ B2R (Bplus mode_NE (f64_ofZ 1) (f64_ofZ 0)) = 1) by (split; [reflexivity|]; vm_compute; lra).
  assert (P2 : is_finite (Bplus mode_NE (f64_ofZ (-1)) (f64_ofZ 0)) = true /\ B2R (Bplus mode_NE (f64_ofZ (-1)) (f64_ofZ 0)) = -1) by (split; [reflexivity|]; vm_compute; lra).
  assert (P3 : is_finite (Bplus mode_NE (f64_ofZ 0) (f64_ofZ 1)) = true /\ B2R (Bplus mode_NE (f64_ofZ 0) (f64_ofZ 1)) = 1) by (split; [reflexivity|]; vm_compute; lra).
  unfold sgn. pose proof (sign_B2R st F) as S.
  destruct (st : f64) as [s|s| |s m e B] eqn:E; try discriminate F.
  - replace (sign1 (B754_zero s : NL)) with (Bplus mode_NE (f64_ofZ 0) (f64_ofZ 1) : NL) by (destruct s; reflexivity).
    cbn [B2R]. rewrite Rlt_bool_false by lra. exact P3.
  - destruct s.
    + replace (sign1 (B754_finite true m e B : NL)) with (Bplus mode_NE (f64_ofZ (-1)) (f64_ofZ 0) : NL) by reflexivity.
      rewrite Rlt_bool_true; [exact P2|]. cbn [Bsign] in S. destruct S as [S|S]; [exact S|]. exfalso. revert S. cbn [B2R]. apply F2R_neq_0. discriminate.
    + replace (sign1 (B754_finite false m e B : NL)) with (Bplus mode_NE (f64_ofZ 1) (f64_ofZ 0) : NL) by reflexivity.
      rewrite Rlt_bool_false; [exact P1|]. exact S.
Qed.
Lemma npmax_ok (u v : NL) : is_finite (u : f64) = true -> is_finite (v : f64) = true ->
  is_finite (npmax2 u v : f64) = true /\ B2R (npmax2 u v : f64) = Rmax (B2R (u : f64)) (B2R (v : f64)).
Proof.
  intros Fu Fv. unfold npmax2, nmax2. cbn [nisnan nltb F64].
  assert (Nu : is_nan (u : f64) = false) by (destruct (u : f64); try discriminate Fu; reflexivity).
  assert (Nv : is_nan (v : f64) = false) by (destruct (v : f64); try discriminate Fv; reflexivity).
  rewrite Nu, Nv. pose proof (ltb_r u v Fu Fv) as C. destruct (Bltb (u : f64) (v : f64)).
  - rewrite Rmax_right by lra. auto.
  - rewrite Rmax_left by lra. auto.
Qed.

Lemma neg_lt (y T : f64) : is_nan y = false -> Bsign y = true -> is_finite T = true -> 0 < B2R T -> Bltb y T = true.
Proof.
  intros Ny Sy FT HT. destruct (is_finite y) eqn:Fy.
  - rewrite Bltb_correct by assumption. apply Rlt_bool_true. pose proof (sign_B2R y Fy) as S. rewrite Sy in S. lra.
  - destruct y as [|[]| |]; try discriminate. destruct T as [|[]| |[]]; try discriminate; reflexivity.
Qed.
Lemma inside_fin (y u v T : f64) : is_nan y = false -> is_finite u = true -> is_finite v = true -> is_finite T = true -> 0 < B2R T ->
  Bltb (Bminus mode_NE y u) T = false -> Bltb (Bminus mode_NE v y) T = false -> is_finite y = true.
Proof.
  intros Ny Fu Fv FT HT H3 H4. destruct y as [|[]| |]; try reflexivity; try discriminate Ny; exfalso.
  - rewrite neg_lt in H3; [discriminate H3 | | | exact FT | exact HT]; destruct u; try discriminate Fu; reflexivity.
  - rewrite neg_lt in H4; [discriminate H4 | | | exact FT | exact HT]; destruct v; try discriminate Fv; reflexivity.
Qed.
Lemma abs_lt_fin (p z : f64) : Bltb (Babs p) z = true -> is_finite p = true.
Proof. destruct p; try reflexivity; destruct z as [|[]| |[]]; discriminate. Qed.
Lemma lt_not_zero (p q h r : f64) : Bltb (Babs p) (Babs (Bmult mode_NE (Bmult mode_NE h q) r)) = true -> is_finite h = true ->
  match q with B754_zero _ => False | _ => True end.
Proof.
  intros H Fh. destruct q; try exact I. exfalso. revert H.
  destruct h; try discriminate Fh; destruct r; cbn [Bmult Babs]; destruct p; discriminate.
Qed.
Lemma sub_zero (u v : f64) : is_finite u = true -> is_finite v = true -> rnd (B2R u - B2R v) = 0 -> B2R u = B2R v.
Proof.
  intros Fu Fv H. destruct (Req_dec (B2R u + - B2R v) 0) as [E|E]; [lra|]. exfalso. revert H.
  apply (round_plus_neq_0 radix2 fexp64 ZnearestE); [apply B2R_gen | apply generic_format_opp, B2R_gen | exact E].
Qed.
Lemma div_nn (p q : f64) : is_finite p = true -> is_nan q = false -> match q with B754_zero _ => False | _ => True end -> is_nan (Bdiv mode_NE p q) = false.
Proof.
  intros Fp Nq Zq. destruct q as [|s| |s m e B]; try discriminate Nq; [destruct Zq | destruct p; try discriminate Fp; reflexivity |].
  assert (Hy : B2R (B754_finite s m e B) <> 0) by (cbn [B2R]; apply F2R_neq_0; destruct s; discriminate).
  pose proof (Bdiv_correct 53 1024 _ _ mode_NE p _ Hy) as C. destruct (Rlt_bool _ _) in C.
  - destruct C as (_ & F & _). rewrite Fp in F. destruct (Bdiv mode_NE p _); try discriminate F; reflexivity.
  - unfold binary_overflow in C. cbn [overflow_to_inf] in C. destruct (Bdiv mode_NE p _); cbn in C; try discriminate C; reflexivity.
Qed.
Lemma add_nn (u v : f64) : is_finite u = true -> is_nan v = false -> is_nan (Bplus mode_NE u v) = false.
Proof.
  intros Fu Nv. destruct (is_finite v) eqn:Fv.
  - pose proof (Bplus_correct 53 1024 _ _ mode_NE u v Fu Fv) as C. destruct (Rlt_bool _ _) in C.
    + destruct C as (_ & F & _). destruct (Bplus mode_NE u v); try discriminate F; reflexivity.
    + destruct C as [C _]. unfold binary_overflow in C. cbn [overflow_to_inf] in C. destruct (Bplus mode_NE u v); cbn in C; try discriminate C; reflexivity.
  - destruct v; try discriminate; destruct u; try discriminate; reflexivity.
Qed.
Lemma add_fin (u v : f64) : is_finite u = true -> is_finite (Bplus mode_NE u v) = true -> is_finite v = true /\ B2R (Bplus mode_NE u v) = rnd (B2R u + B2R v).
Proof.
  intros Fu F. destruct (is_finite v) eqn:Fv.
  - split; [reflexivity|]. pose proof (Bplus_correct 53 1024 _ _ mode_NE u v Fu Fv) as C. destruct (Rlt_bool _ _) in C; [exact (proj1 C)|].
    destruct C as [C _]. unfold binary_overflow in C. cbn [overflow_to_inf] in C. destruct (Bplus mode_NE u v); cbn in C; discriminate.
  - exfalso. destruct v as [|[]| |]; try discriminate; destruct u as [|[]| |]; try discriminate.
Qed.

Section Pos.
Variables (a b x : NL).
Hypothesis Fa : is_finite (a : f64) = true.
Hypothesis Fb : is_finite (b : f64) = true.
Hypothesis Fx : is_finite (x : f64) = true.
Hypothesis Ba : Rabs (B2R (a : f64)) <= pow2 1020.
Hypothesis Bb : Rabs (B2R (b : f64)) <= pow2 1020.
Notation ar := (B2R (a : f64)).
Notation br := (B2R (b : f64)).
Notation xr := (B2R (x : f64)).
Hypothesis Hab : ar <= xr <= br.
Notation t := (t1 x).

Lemma Bx : Rabs xr <= pow2 1020.
Proof. apply Rabs_le_inv in Ba, Bb. apply Rabs_le. lra. Qed.
Lemma Tx : is_finite (T1 x : f64) = true /\ - (100000000 * t) <= xr <= 100000000 * t /\ 33 / 100 * tau <= t /\ pow2 (-1022) <= t /\ t <= pow2 1010 /\ 0 < t.
Proof.
  destruct (T1_ok x Fx Bx) as (F & H1 & H2 & H3 & _ & H4). apply Rabs_le_inv in H1. repeat split; try lra; try assumption.
  pose proof (bpow_gt_0 radix2 (-1022)). lra.
Qed.
Lemma pows : 0 < pow2 1020 /\ pow2 1021 = 2 * pow2 1020 /\ pow2 1022 = 4 * pow2 1020 /\ pow2 1010 <= / 1000 * pow2 1020.
Proof.
  pose proof (bpow_gt_0 radix2 1020). split; [assumption|].
  split; [change 1021%Z with (1 + 1020)%Z; rewrite bpow_plus; reflexivity|].
  split; [change 1022%Z with (2 + 1020)%Z; rewrite bpow_plus; reflexivity|].
  change 1010%Z with (-10 + 1020)%Z. rewrite bpow_plus. change (pow2 (-10)) with (/ 1024). lra.
Qed.

Definition cenf : NL := nmul (lit 5 1) (nadd a b).
Lemma cen_ok : is_finite (cenf : f64) = true /\
  - ((t + (br - ar)) / 1000000) <= B2R (cenf : f64) - (ar + br) / 2 <= (t + (br - ar)) / 1000000 /\
  - pow2 1021 <= B2R (cenf : f64) <= pow2 1021.
Proof.
  destruct Tx as (FT & HX & Ht & Hs & Hm & Hp). destruct pows as (P0 & P1 & P2 & P3). pose proof Ba as Ba'. pose proof Bb as Bb'.
  apply Rabs_le_inv in Ba', Bb'.
  destruct (add_fl a b Fa Fb) as [F1 E1]; [apply (rnd_lt_max _ 1021); [lia|]; apply pabs; lra|].
  pose proof (rnd_abs_le (ar + br) 1021 ltac:(lia) ltac:(apply pabs; lra)) as A1. apply Rabs_le_inv in A1.
  pose proof (rnd_b (ar + br) (200000000 * t + (br - ar)) t Hs ltac:(apply pabs; lra)) as R1. rewrite <- E1 in *.
  destruct (half_f L) as [Fh Eh].
  destruct (mul_fl (@lit NL 5 1) _ Fh F1) as [F2 E2]; rewrite ?Eh in *; [apply (rnd_lt_max _ 1021); [lia|]; apply pabs; lra|].
  set (s := B2R (Bplus mode_NE (a : f64) b)) in *.
  pose proof (rnd_abs_le (/ 2 * s) 1021 ltac:(lia) ltac:(apply pabs; lra)) as A2. apply Rabs_le_inv in A2.
  pose proof (rnd_b (/ 2 * s) (200000000 * t + (br - ar)) t Hs ltac:(apply pabs; lra)) as R2. rewrite <- E2 in *.
  change (Bmult mode_NE (@lit NL 5 1 : f64) (Bplus mode_NE (a : f64) b)) with (cenf : f64) in *.
  split; [exact F2|]. split; lra.
Qed.

Definition T2f : NL := nmul (nofZ 2) (T1 x).
Lemma T2_ok : is_finite (T2f : f64) = true /\ 1999999 / 1000000 * t <= B2R (T2f : f64) <= 2000001 / 1000000 * t.
Proof.
  destruct Tx as (FT & HX & Ht & Hs & Hm & Hp). destruct pows as (P0 & P1 & P2 & P3). destruct (ofZ_fl 2 ltac:(lia)) as [F3 E3].
  destruct (mul_fl (f64_ofZ 2) (T1 x) F3 FT) as [F2 E2]; rewrite ?E3 in *; [apply (rnd_lt_max _ 1021); [lia|]; apply pabs; lra|].
  pose proof (rnd_b (2 * t) (2 * t) t Hs ltac:(apply pabs; lra)) as R2. rewrite <- E2 in *.
  change (Bmult mode_NE (f64_ofZ 2) (T1 x)) with (T2f : f64) in *. split; [exact F2|]. lra.
Qed.

Definition guardf : bool := nltb (nsub T2f (nmul (lit 5 1) (nsub b a))) (nabs (nsub x cenf)).
Lemma guard_ok : if guardf then 199 / 100 * t <= xr - ar \/ 199 / 100 * t <= br - xr
  else xr - ar <= 2001 / 1000 * t /\ br - xr <= 2001 / 1000 * t.
Proof.
  destruct Tx as (FT & HX & Ht & Hs & Hm & Hp). destruct pows as (P0 & P1 & P2 & P3). pose proof Ba as Ba'. pose proof Bb as Bb'.
  apply Rabs_le_inv in Ba', Bb'. destruct cen_ok as (Fc & Cc & Bc). destruct T2_ok as (F2 & H2).
  set (w := br - ar) in *.
  destruct (sub_fl b a Fb Fa) as [F3 E3]; [apply (rnd_lt_max _ 1021); [lia|]; apply pabs; lra|].
  fold w in E3. pose proof (rnd_b w w t Hs ltac:(apply pabs; unfold w; lra)) as R3. rewrite <- E3 in R3.
  destruct (half_f L) as [Fh Eh]. set (d := B2R (Bminus mode_NE (b : f64) a)) in *.
  destruct (mul_fl (@lit NL 5 1) _ Fh F3) as [F4 E4]; rewrite ?Eh in *; [fold d; apply (rnd_lt_max _ 1022); [lia|]; apply pabs; unfold w in *; lra|fold d in E4].
  pose proof (rnd_b (/ 2 * d) (t + w) t Hs ltac:(apply pabs; unfold w in *; lra)) as R4. rewrite <- E4 in R4.
  set (h := B2R (Bmult mode_NE (@lit NL 5 1 : f64) (Bminus mode_NE (b : f64) a))) in *.
  destruct (sub_fl _ _ F2 F4) as [F5 E5]; [fold h; apply (rnd_lt_max _ 1022); [lia|]; apply pabs; unfold w in *; lra|fold h in E5].
  pose proof (rnd_b (B2R (T2f : f64) - h) (4 * (t + w)) t Hs ltac:(apply pabs; unfold w in *; lra)) as R5. rewrite <- E5 in R5.
  destruct (sub_fl _ _ Fx Fc) as [F6 E6]; [apply (rnd_lt_max _ 1022); [lia|]; apply pabs; lra|].
  pose proof (rnd_b (xr - B2R (cenf : f64)) (4 * (t + w)) t Hs ltac:(apply pabs; unfold w in *; lra)) as R6. rewrite <- E6 in R6.
  pose proof (ltb_r (Bminus mode_NE (T2f : f64) (Bmult mode_NE (@lit NL 5 1 : f64) (Bminus mode_NE (b : f64) a)))
                    (Babs (Bminus mode_NE (x : f64) (cenf : f64))) F5 ltac:(rewrite is_finite_Babs; exact F6)) as G.
  rewrite B2R_Babs in G. change (Bltb _ _) with guardf in G.
  set (g1 := B2R (Bminus mode_NE (T2f : f64) (Bmult mode_NE (@lit NL 5 1 : f64) (Bminus mode_NE (b : f64) a)))) in *.
  set (g2 := B2R (Bminus mode_NE (x : f64) (cenf : f64))) in *.
  clearbody g1 g2 h d. clear E3 E4 E5 E6. unfold w in *. clear w.
  destruct guardf.
  - destruct (Rle_or_lt (199 / 100 * t) (xr - ar)) as [|C1]; [left; assumption|]. destruct (Rle_or_lt (199 / 100 * t) (br - xr)) as [|C2]; [right; assumption|].
    exfalso. revert G. apply Rle_not_lt. apply Rabs_le. lra.
  - apply Rabs_le_inv in G. lra.
Qed.
Lemma side_ok : 199 / 100 * t <= xr - ar \/ 199 / 100 * t <= br - xr ->
  if Bleb (cenf : f64) x then 198 / 100 * t <= xr - ar /\ br - ar <= 201 / 100 * (xr - ar)
  else 198 / 100 * t <= br - xr /\ br - ar <= 201 / 100 * (br - xr).
Proof.
  intros G. destruct Tx as (FT & HX & Ht & Hs & Hm & Hp). destruct cen_ok as (Fc & Cc & Bc).
  pose proof (leb_r cenf x Fc Fx) as C. destruct (Bleb (cenf : f64) x); destruct G as [G|G]; lra.
Qed.

(** ** The next point *)
Definition nextf (st : NL) : NL := nadd x (nmul (sign1 st) (npmax2 (nabs st) (T1 x))).
Lemma next_ok (st : NL) mg : is_finite (st : f64) = true -> mg = Rmax (Rabs (B2R (st : f64))) t ->
  - pow2 1022 <= xr + sgn (B2R (st : f64)) * mg <= pow2 1022 ->
  is_finite (nextf st : f64) = true /\ B2R (nextf st : f64) = rnd (xr + sgn (B2R (st : f64)) * mg) /\
  - (2 / 1000000 * mg) <= B2R (nextf st : f64) - (xr + sgn (B2R (st : f64)) * mg) <= 2 / 1000000 * mg.
Proof.
  intros Fs Em Hb. destruct Tx as (FT & HX & Ht & Hs & Hm & Hp). destruct pows as (P0 & P1 & P2 & P3). pose proof Bx as HB. apply Rabs_le_inv in HB.
  destruct (sign1_ok st Fs) as [F1 E1].
  destruct (npmax_ok (Babs (st : f64)) (T1 x) ltac:(rewrite is_finite_Babs; exact Fs) FT) as [F2 E2]. rewrite B2R_Babs, <- Em in E2.
  assert (Gm : rnd (sgn (B2R (st : f64)) * mg) = sgn (B2R (st : f64)) * mg).
  { apply rnd_gen. rewrite <- E2. destruct (sgn_case (B2R (st : f64))) as [[_ ->]|[_ ->]].
    - replace (-1 * _) with (- B2R (npmax2 (Babs (st : f64) : NL) (T1 x) : f64)) by ring. apply generic_format_opp, B2R_gen.
    - rewrite Rmult_1_l. apply B2R_gen. }
  assert (Hmg : t <= mg) by (rewrite Em; apply Rmax_r).
  destruct (mul_fl _ _ F1 F2) as [F3 E3]; rewrite E1, E2, Gm in *.
  { apply Rle_lt_trans with (pow2 1023); [|apply bpow_lt; lia]. replace (pow2 1023) with (2 * pow2 1022) by (change 1023%Z with (1 + 1022)%Z; rewrite bpow_plus; reflexivity).
    apply pabs. lra. }
  destruct (add_fl x _ Fx F3) as [F4 E4]; rewrite E3 in *; [apply (rnd_lt_max _ 1022); [lia|]; apply pabs; exact Hb|].
  change (Bplus mode_NE (x : f64) _) with (nextf st : f64) in *.
  split; [exact F4|]. split; [exact E4|]. rewrite E4.
  assert (HM : - (100000001 * mg) <= xr + sgn (B2R (st : f64)) * mg <= 100000001 * mg) by (destruct (sgn_case (B2R (st : f64))) as [[_ ->]|[_ ->]]; lra).
  pose proof (rnd_b _ _ t Hs (pabs _ _ HM)). lra.
Qed.

(** Where the next point lands. *)
Definition lands (y : NL) : Prop := is_finite (y : f64) = true /\ 9 / 10 * t <= B2R (y : f64) - ar /\ 9 / 10 * t <= br - B2R (y : f64) /\
  (9 / 10 * t <= B2R (y : f64) - xr \/ 9 / 10 * t <= xr - B2R (y : f64)).
Lemma land_left (st : NL) : is_finite (st : f64) = true -> B2R (st : f64) < 0 -> 198 / 100 * t <= xr - ar -> - B2R (st : f64) <= 385 / 1000 * (xr - ar) \/ - B2R (st : f64) <= t ->
  lands (nextf st).
Proof.
  intros Fs Hs Hd Hm. destruct Tx as (FT & HX & Ht & Hsm & Hm' & Hp). destruct pows as (P0 & P1 & P2 & P3). pose proof Ba as Ba'. pose proof Bb as Bb'.
  apply Rabs_le_inv in Ba', Bb'.
  assert (Hsg : sgn (B2R (st : f64)) = -1) by (destruct (sgn_case (B2R (st : f64))) as [[_ ->]|[? _]]; lra).
  pose proof (next_ok st (Rmax (Rabs (B2R (st : f64))) t) Fs eq_refl) as N. rewrite Hsg in N.
  rewrite (Rabs_left _ Hs) in N. set (mg := Rmax (- B2R (st : f64)) t) in *.
  assert (M1 : t <= mg) by apply Rmax_r.
  assert (M2 : mg <= 51 / 100 * (xr - ar)) by (unfold mg; apply Rmax_lub; lra).
  destruct (N ltac:(lra)) as (F & _ & H). split; [exact F|]. split; [lra|]. split; [lra|]. right. lra.
Qed.
Lemma land_right (st : NL) : is_finite (st : f64) = true -> 0 <= B2R (st : f64) -> 198 / 100 * t <= br - xr -> B2R (st : f64) <= 385 / 1000 * (br - xr) \/ B2R (st : f64) <= t ->
  lands (nextf st).
Proof.
  intros Fs Hs Hd Hm. destruct Tx as (FT & HX & Ht & Hsm & Hm' & Hp). destruct pows as (P0 & P1 & P2 & P3). pose proof Ba as Ba'. pose proof Bb as Bb'.
  apply Rabs_le_inv in Ba', Bb'.
  assert (Hsg : sgn (B2R (st : f64)) = 1) by (destruct (sgn_case (B2R (st : f64))) as [[? _]|[_ ->]]; lra).
  pose proof (next_ok st (Rmax (Rabs (B2R (st : f64))) t) Fs eq_refl) as N. rewrite Hsg in N.
  rewrite (Rabs_pos_eq _ Hs) in N. set (mg := Rmax (B2R (st : f64)) t) in *.
  assert (M1 : t <= mg) by apply Rmax_r.
  assert (M2 : mg <= 51 / 100 * (br - xr)) by (unfold mg; apply Rmax_lub; lra).
  destruct (N ltac:(lra)) as (F & _ & H). split; [exact F|]. split; [lra|]. split; [lra|]. left. lra.
Qed.

(** The golden-section step. *)
Lemma golden_f : 199 / 100 * t <= xr - ar \/ 199 / 100 * t <= br - xr ->
  lands (nextf (nmul golden_ratio (if nleb cenf x then nsub a x else nsub b x))).
Proof.
  intros G. pose proof (side_ok G) as Sd. destruct Tx as (FT & HX & Ht & Hs & Hm & Hp). destruct pows as (P0 & P1 & P2 & P3). pose proof Ba as Ba'. pose proof Bb as Bb'.
  apply Rabs_le_inv in Ba', Bb'. destruct (gold_f L) as [Fg Hg]. change (@nleb NL cenf x) with (Bleb (cenf : f64) x). 
  set (g := B2R (@golden_ratio NL : f64)) in *.
  destruct (Bleb (cenf : f64) x).
  - destruct (sub_fl a x Fa Fx) as [F1 E1]; [apply (rnd_lt_max _ 1021); [lia|]; apply pabs; lra|].
    pose proof (rnd_b (ar - xr) (xr - ar) t Hs ltac:(apply pabs; lra)) as R1. rewrite <- E1 in R1.
    set (e := B2R (Bminus mode_NE (a : f64) x)) in *.
    assert (HE : 381 / 1000 * (- e) <= g * (- e) <= 382 / 1000 * (- e)) by (split; apply Rmult_le_compat_r; lra).
    destruct (mul_fl (@golden_ratio NL) _ Fg F1) as [F2 E2]; [fold g e; apply (rnd_lt_max _ 1021); [lia|]; apply pabs; lra|fold g e in E2].
    pose proof (rnd_b (g * e) (xr - ar) t Hs ltac:(apply pabs; lra)) as R2. rewrite <- E2 in R2.
    apply land_left; [exact F2 | cbn [nmul nsub F64]; lra | lra | left; cbn [nmul nsub F64]; lra].
  - destruct (sub_fl b x Fb Fx) as [F1 E1]; [apply (rnd_lt_max _ 1021); [lia|]; apply pabs; lra|].
    pose proof (rnd_b (br - xr) (br - xr) t Hs ltac:(apply pabs; lra)) as R1. rewrite <- E1 in R1.
    set (e := B2R (Bminus mode_NE (b : f64) x)) in *.
    assert (HE : 381 / 1000 * e <= g * e <= 382 / 1000 * e) by (split; apply Rmult_le_compat_r; lra).
    destruct (mul_fl (@golden_ratio NL) _ Fg F1) as [F2 E2]; [fold g e; apply (rnd_lt_max _ 1021); [lia|]; apply pabs; lra|fold g e in E2].
    pose proof (rnd_b (g * e) (br - xr) t Hs ltac:(apply pabs; lra)) as R2. rewrite <- E2 in R2.
    apply land_right; [exact F2 | cbn [nmul nsub F64]; lra | lra | left; cbn [nmul nsub F64]; lra].
Qed.

(** A step towards the centre. *)
Lemma centre_f : 199 / 100 * t <= xr - ar \/ 199 / 100 * t <= br - xr ->
  lands (nextf (nmul (T1 x) (nadd (nsign (nsub cenf x)) (if neqb cenf x then nofZ 1 else nofZ 0)))).
Proof.
  intros G. destruct Tx as (FT & HX & Ht & Hs & Hm & Hp). destruct pows as (P0 & P1 & P2 & P3). pose proof Bx as HB.
  apply Rabs_le_inv in HB. destruct cen_ok as (Fc & Cc & Bc).
  destruct (sub_fl _ _ Fc Fx) as [F1 E1]; [apply (rnd_lt_max _ 1022); [lia|]; apply pabs; lra|].
  replace (nadd (nsign (nsub cenf x)) (if neqb cenf x then nofZ 1 else nofZ 0)) with (sign1 (Bminus mode_NE (cenf : f64) x : NL)).
  2:{ unfold sign1. cbn [nsub neqb nofZ F64]. f_equal.
      pose proof (eqb_r (cenf : f64) x Fc Fx) as C1. pose proof (eqb_r (Bminus mode_NE (cenf : f64) x) (f64_ofZ 0) F1 eq_refl) as C2.
      change (B2R (f64_ofZ 0)) with 0 in C2. rewrite E1 in C2.
      destruct (Beqb (cenf : f64) x), (Beqb (Bminus mode_NE (cenf : f64) x) (f64_ofZ 0)); try reflexivity; exfalso.
      - apply C2. rewrite C1, Rminus_eq_0. apply round_0. typeclasses eauto.
      - apply C1. apply sub_zero; assumption. }
  destruct (sign1_ok (Bminus mode_NE (cenf : f64) x) F1) as [F2 E2]. rewrite E1 in E2.
  set (d := rnd (B2R (cenf : f64) - xr)) in *.
  assert (Gm : rnd (t * sgn d) = t * sgn d).
  { apply rnd_gen. destruct (sgn_case d) as [[_ ->]|[_ ->]].
    - replace (t * -1) with (- t) by ring. apply generic_format_opp, B2R_gen.
    - rewrite Rmult_1_r. apply B2R_gen. }
  destruct (mul_fl (T1 x) _ FT F2) as [F3 E3]; rewrite E2, Gm in *.
  { apply Rle_lt_trans with (pow2 1010); [|apply bpow_lt; lia]. apply pabs. destruct (sgn_case d) as [[_ ->]|[_ ->]]; lra. }
  change (nmul (T1 x) (sign1 (Bminus mode_NE (cenf : f64) x : NL))) with (Bmult mode_NE (T1 x : f64) (sign1 (Bminus mode_NE (cenf : f64) x : NL)) : NL).
  destruct (sgn_case d) as [[Hd Es]|[Hd Es]]; rewrite Es in *.
  - assert (Hc : B2R (cenf : f64) < xr).
    { destruct (Rlt_or_le (B2R (cenf : f64)) xr) as [|C]; [assumption|]. exfalso. apply (Rlt_not_le _ _ Hd). apply rnd_nonneg. lra. }
    apply land_left; [exact F3 | lra | destruct G as [G|G]; lra | right; lra].
  - assert (Hc : xr <= B2R (cenf : f64)).
    { destruct (Rle_or_lt xr (B2R (cenf : f64))) as [|C]; [assumption|]. exfalso.
      assert (H1 : d <= 0) by (unfold d; rewrite <- (round_0 radix2 fexp64 ZnearestE); apply rnd_mono; lra).
      assert (H0 : d = 0) by lra. apply sub_zero in H0; [lra | assumption | assumption]. }
    apply land_right; [exact F3 | lra | destruct G as [G|G]; lra | right; lra].
Qed.

(** The parabolic step. *)
Lemma parab_f (p q prev : NL) : let st := ndiv p q in let xx := nadd x st in
  Bltb (Babs p) (Babs (Bmult mode_NE (Bmult mode_NE (@lit NL 5 1 : f64) (q : f64)) (prev : f64))) = true ->
  Bltb (Bmult mode_NE (q : f64) (Bminus mode_NE (a : f64) x)) p = true ->
  Bltb (Bminus mode_NE (xx : f64) a) (T2f : f64) = false -> Bltb (Bminus mode_NE (b : f64) xx) (T2f : f64) = false ->
  lands (nextf st).
Proof.
  intros st xx H1 H2 H3 H4. destruct Tx as (FT & HX & Ht & Hs & Hm & Hp). destruct pows as (P0 & P1 & P2 & P3). pose proof Ba as Ba'. pose proof Bb as Bb'.
  apply Rabs_le_inv in Ba', Bb'. destruct T2_ok as (F2 & E2).
  assert (T2p : 0 < B2R (T2f : f64)) by lra.
  pose proof (abs_lt_fin _ _ H1) as Fp. pose proof (lt_not_zero _ _ _ _ H1 (proj1 (half_f L))) as Zq.
  assert (Nq : is_nan (q : f64) = false) by (destruct (q : f64); try reflexivity; discriminate H2).
  assert (Nst : is_nan (st : f64) = false) by (apply div_nn; assumption).
  assert (Nxx : is_nan (xx : f64) = false) by (apply add_nn; assumption).
  assert (Fxx : is_finite (xx : f64) = true).
  { apply (inside_fin xx a b T2f); assumption. }
  destruct (add_fin x st Fx Fxx) as [Fst Exx]. change (Bplus mode_NE (x : f64) (st : f64)) with (xx : f64) in Exx.
  assert (Hb : B2R (xx : f64) <= br).
  { destruct (Rle_or_lt (B2R (xx : f64)) br) as [|C]; [assumption|]. exfalso. destruct (sub_sign (b : f64) (xx : f64) Fb Fxx) as (Nn & _ & Q & _).
    rewrite neg_lt in H4; [discriminate H4 | exact Nn | apply Q; lra | exact F2 | exact T2p]. }
  assert (Ha : ar <= B2R (xx : f64)).
  { destruct (Rle_or_lt ar (B2R (xx : f64))) as [|C]; [assumption|]. exfalso. destruct (sub_sign (xx : f64) (a : f64) Fxx Fa) as (Nn & _ & Q & _).
    rewrite neg_lt in H3; [discriminate H3 | exact Nn | apply Q; lra | exact F2 | exact T2p]. }
  destruct (sub_fl (b : f64) (xx : f64) Fb Fxx) as [F5 E5]; [apply (rnd_lt_max _ 1021); [lia|]; apply pabs; lra|].
  destruct (sub_fl (xx : f64) (a : f64) Fxx Fa) as [F6 E6]; [apply (rnd_lt_max _ 1021); [lia|]; apply pabs; lra|].
  pose proof (ltb_r _ _ F5 F2) as L5. rewrite H4, E5 in L5. pose proof (ltb_r _ _ F6 F2) as L6. rewrite H3, E6 in L6.
  pose proof (rnd_b (br - B2R (xx : f64)) (br - B2R (xx : f64)) t Hs ltac:(apply pabs; lra)) as R5.
  pose proof (rnd_b (B2R (xx : f64) - ar) (B2R (xx : f64) - ar) t Hs ltac:(apply pabs; lra)) as R6.
  assert (D1 : 199 / 100 * t <= B2R (xx : f64) - ar) by lra. assert (D2 : 199 / 100 * t <= br - B2R (xx : f64)) by lra.
  assert (Gx : rnd xr = xr) by (apply rnd_gen, B2R_gen).
  destruct (Rle_or_lt t (Rabs (B2R (st : f64)))) as [C|C].
  - assert (Es : sgn (B2R (st : f64)) * Rabs (B2R (st : f64)) = B2R (st : f64)).
    { destruct (sgn_case (B2R (st : f64))) as [[Hd ->]|[Hd ->]]; [rewrite Rabs_left by lra | rewrite Rabs_pos_eq by lra]; ring. }
    destruct (next_ok st (Rabs (B2R (st : f64))) Fst) as (F & E & H).
    { rewrite Rmax_left by exact C. reflexivity. }
    { rewrite Es. split.
      - destruct (Rle_or_lt (- pow2 1022) (xr + B2R (st : f64))) as [|C']; [assumption|]. exfalso.
        assert (rnd (xr + B2R (st : f64)) <= - pow2 1022) by (rewrite <- (rnd_pow2 1022) by lia; rewrite <- rnd_opp; apply rnd_mono; lra). lra.
      - destruct (Rle_or_lt (xr + B2R (st : f64)) (pow2 1022)) as [|C']; [assumption|]. exfalso.
        assert (pow2 1022 <= rnd (xr + B2R (st : f64))) by (rewrite <- (rnd_pow2 1022) at 1 by lia; apply rnd_mono; lra). lra. }
    rewrite Es in E, H. split; [exact F|]. rewrite E in *. rewrite <- Exx in *. split; [lra|]. split; [lra|].
    destruct (sgn_case (B2R (st : f64))) as [[Hd _]|[Hd _]]; [right; rewrite Rabs_left in * by lra | left; rewrite Rabs_pos_eq in * by lra]; lra.
  - destruct (sgn_case (B2R (st : f64))) as [[Hd _]|[Hd _]].
    + rewrite Rabs_left in C by lra. assert (B2R (xx : f64) <= xr) by (rewrite Exx, <- Gx at 1; rewrite <- Gx at 2; apply rnd_mono; lra).
      apply land_left; [exact Fst | lra | lra | right; lra].
    + rewrite Rabs_pos_eq in C by lra. assert (xr <= B2R (xx : f64)) by (rewrite Exx, <- Gx at 1; apply rnd_mono; lra).
      apply land_right; [exact Fst | lra | lra | right; lra].
Qed.
End Pos.
End Step.
