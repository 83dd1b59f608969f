(** The binary64 instance of [Num] (Flocq), for any libm, and the order laws shared by the two
    instances. *)
From Coq Require Import Reals Lra.
From Flocq Require Import Core.Raux IEEE754.BinarySingleNaN.
From Verif Require Export Num XR.

Local Instance prec_gt_0_53 : FLX.Prec_gt_0 53 := eq_refl.
Local Instance prec_lt_emax_53 : Prec_lt_emax 53 1024 := eq_refl.

Notation f64 := (binary_float 53 1024).

Definition f64_ofZ (z : Z) : f64 := binary_normalize 53 1024 _ _ mode_NE z 0 false.

(** [int(x)] for x >= 0 and [int(np.ceil(x))] on finite floats (0 elsewhere: the code would raise). *)
Definition f64_floorZ (x : f64) : Z :=
  match x with
  | B754_finite s m e _ => SFnearbyint_binary_aux 53 mode_DN s m e * (if s then -1 else 1)
  | _ => 0
  end%Z.
Definition f64_ceilZ (x : f64) : Z :=
  match x with
  | B754_finite s m e _ => SFnearbyint_binary_aux 53 mode_UP s m e * (if s then -1 else 1)
  | _ => 0
  end%Z.

(** What binary64 arithmetic does not determine: libm and the summation order of [np.sum]. *)
Record Libm := MkLibm {
  l_sum : list f64 -> f64; l_prod : list f64 -> f64;
  l_ipow : f64 -> nat -> f64; l_pow : f64 -> f64 -> f64;
  l_sin : f64 -> f64; l_cos : f64 -> f64; l_tan : f64 -> f64; l_atan : f64 -> f64;
  l_atan2 : f64 -> f64 -> f64;
  l_exp : f64 -> f64; l_log : f64 -> f64; l_erf : f64 -> f64; l_erfc : f64 -> f64; l_pi : f64
}.

Definition F64 (L : Libm) : Num := {|
  car := f64;
  nadd := Bplus mode_NE; nsub := Bminus mode_NE; nmul := Bmult mode_NE; ndiv := Bdiv mode_NE;
  nopp := Bopp; nabs := Babs; nsqrt := Bsqrt mode_NE;
  nrint := Bnearbyint mode_NE; ntrunc := Bnearbyint mode_ZR;
  nfloorZ := f64_floorZ; nceilZ := f64_ceilZ;
  nltb := Bltb; nleb := Bleb; neqb := Beqb;
  nisnan := is_nan; nisfin := is_finite;
  nofZ := f64_ofZ; nnan := B754_nan; ninf := B754_infinity false;
  nsum := l_sum L; nprod := l_prod L; nipow := l_ipow L; npow := l_pow L;
  nsin := l_sin L; ncos := l_cos L; ntan := l_tan L; natan := l_atan L; natan2 := l_atan2 L;
  nexp := l_exp L; nlog := l_log L; nerf := l_erf L; nerfc := l_erfc L; npi := l_pi L
|}.

(** A concrete summation order (left to right) and integer power (repeated multiplication), with no
    libm: enough to run the docstring examples that need only basic arithmetic. *)
Definition libm_basic : Libm := {|
  l_sum := fun l => fold_left (Bplus mode_NE) l (f64_ofZ 0); l_prod := fun l => fold_left (Bmult mode_NE) l (f64_ofZ 1);
  l_ipow := fun x k => Nat.iter k (Bmult mode_NE x) (f64_ofZ 1); l_pow := fun _ _ => B754_nan;
  l_sin := fun _ => B754_nan; l_cos := fun _ => B754_nan; l_tan := fun _ => B754_nan; l_atan := fun _ => B754_nan;
  l_atan2 := fun _ _ => B754_nan;
  l_exp := fun _ => B754_nan; l_log := fun _ => B754_nan; l_erf := fun _ => B754_nan; l_erfc := fun _ => B754_nan;
  l_pi := B754_nan |}.

(** ** Order laws: on values that are not NaN, [<=] is a total preorder, [<] its strict part and [=] its
    equivalence; comparisons with NaN are false. *)
Record ord_laws (N : Num) : Prop := MkOrd {
  ord_nan_ltb : forall x y : N, nisnan x = true \/ nisnan y = true -> nltb x y = false;
  ord_nan_leb : forall x y : N, nisnan x = true \/ nisnan y = true -> nleb x y = false;
  ord_nan_eqb : forall x y : N, nisnan x = true \/ nisnan y = true -> neqb x y = false;
  ord_ltb : forall x y : N, nisnan x = false -> nisnan y = false -> nltb x y = negb (nleb y x);
  ord_eqb : forall x y : N, neqb x y = nleb x y && nleb y x;
  ord_total : forall x y : N, nisnan x = false -> nisnan y = false -> nleb x y = true \/ nleb y x = true;
  ord_trans : forall x y z : N, nleb x y = true -> nleb y z = true -> nleb x z = true
}.

Lemma XR_ord : ord_laws XR.
Proof.
  constructor; cbn [nisnan nltb nleb neqb XR car].
  - intros [x|s|] [y|t|] [H|H]; try discriminate H; try reflexivity; destruct s || destruct t; reflexivity.
  - intros [x|s|] [y|t|] [H|H]; try discriminate H; try reflexivity; destruct s || destruct t; reflexivity.
  - intros [x|s|] [y|t|] [H|H]; try discriminate H; try reflexivity.
  - intros [x|s|] [y|t|] Hx Hy; try discriminate; cbn.
    + destruct (Rlt_bool_spec x y), (Rle_bool_spec y x); try reflexivity; lra.
    + reflexivity.
    + rewrite negb_involutive. reflexivity.
    + destruct s, t; reflexivity.
  - intros [x|s|] [y|t|]; cbn; try reflexivity.
    + destruct (Req_bool_spec x y), (Rle_bool_spec x y), (Rle_bool_spec y x); try reflexivity; lra.
    + destruct t; reflexivity.
    + destruct s; reflexivity.
    + destruct s, t; reflexivity.
  - intros [x|s|] [y|t|] Hx Hy; try discriminate; cbn.
    + destruct (Rle_bool_spec x y), (Rle_bool_spec y x); auto; lra.
    + destruct t; auto.
    + destruct s; auto.
    + destruct s, t; auto.
  - intros [x|s|] [y|t|] [z|u|] H1 H2; cbn in *; try discriminate; try assumption; try reflexivity;
      try (repeat match goal with b : bool |- _ => destruct b end; cbn in *; discriminate || reflexivity).
    revert H1 H2. destruct (Rle_bool_spec x y), (Rle_bool_spec y z), (Rle_bool_spec x z); try discriminate; auto; lra.
Qed.

(** Map binary64 into extended reals: comparisons agree, so the laws transfer. *)
Definition f2x (x : f64) : xr :=
  match x with
  | B754_nan => NaN
  | B754_infinity s => Inf s
  | _ => Fin (B2R x)
  end.
Lemma f2x_nan x : is_nan x = match f2x x with NaN => true | _ => false end.
Proof. destruct x; reflexivity. Qed.
Lemma f2x_fin x : is_finite x = true -> f2x x = Fin (B2R x).
Proof. destruct x; try discriminate; reflexivity. Qed.
Lemma f2x_leb x y : Bleb x y = xleb (f2x x) (f2x y).
Proof.
  destruct (is_finite x) eqn:Fx, (is_finite y) eqn:Fy.
  - rewrite (f2x_fin x), (f2x_fin y) by assumption. apply Bleb_correct; assumption.
  - destruct x as [sx|sx| |sx mx ex Bx], y as [sy|sy| |sy my ey By]; try discriminate;
      try destruct sx; try destruct sy; reflexivity.
  - destruct x as [sx|sx| |sx mx ex Bx], y as [sy|sy| |sy my ey By]; try discriminate;
      try destruct sx; try destruct sy; reflexivity.
  - destruct x as [sx|sx| |sx mx ex Bx], y as [sy|sy| |sy my ey By]; try discriminate;
      try destruct sx; try destruct sy; reflexivity.
Qed.
Lemma f2x_ltb x y : Bltb x y = xltb (f2x x) (f2x y).
Proof.
  destruct (is_finite x) eqn:Fx, (is_finite y) eqn:Fy.
  - rewrite (f2x_fin x), (f2x_fin y) by assumption. apply Bltb_correct; assumption.
  - destruct x as [sx|sx| |sx mx ex Bx], y as [sy|sy| |sy my ey By]; try discriminate;
      try destruct sx; try destruct sy; reflexivity.
  - destruct x as [sx|sx| |sx mx ex Bx], y as [sy|sy| |sy my ey By]; try discriminate;
      try destruct sx; try destruct sy; reflexivity.
  - destruct x as [sx|sx| |sx mx ex Bx], y as [sy|sy| |sy my ey By]; try discriminate;
      try destruct sx; try destruct sy; reflexivity.
Qed.
Lemma f2x_eqb x y : Beqb x y = xeqb (f2x x) (f2x y).
Proof.
  destruct (is_finite x) eqn:Fx, (is_finite y) eqn:Fy.
  - rewrite (f2x_fin x), (f2x_fin y) by assumption. apply Beqb_correct; assumption.
  - destruct x as [sx|sx| |sx mx ex Bx], y as [sy|sy| |sy my ey By]; try discriminate;
      try destruct sx; try destruct sy; reflexivity.
  - destruct x as [sx|sx| |sx mx ex Bx], y as [sy|sy| |sy my ey By]; try discriminate;
      try destruct sx; try destruct sy; reflexivity.
  - destruct x as [sx|sx| |sx mx ex Bx], y as [sy|sy| |sy my ey By]; try discriminate;
      try destruct sx; try destruct sy; reflexivity.
Qed.

Lemma F64_ord L : ord_laws (F64 L).
Proof.
  destruct XR_ord as [A1 A2 A3 A4 A5 A6 A7]; cbn [nisnan nltb nleb neqb XR car] in *.
  constructor; cbn [nisnan nltb nleb neqb F64 car]; intros; rewrite ?f2x_nan in *;
    rewrite ?f2x_leb, ?f2x_ltb, ?f2x_eqb in *; eauto.
Qed.
