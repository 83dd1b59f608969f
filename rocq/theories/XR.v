(** The exact-arithmetic instance of [Num]: real numbers extended with NaN and infinities.
    Special values follow IEEE 754 except that there is no negative zero (x/0 takes the sign of x)
    and finite operations are exact (no rounding, overflow or underflow). *)
From Coq Require Import Reals Lra.
From Coquelicot Require Import Coquelicot.
From Flocq Require Import Core.Raux Core.Generic_fmt Core.Round_NE.
From Verif Require Export Num.
Local Open Scope R_scope.

Inductive xr := Fin (r : R) | Inf (neg : bool) | NaN.

(** Elementary functions on the reals that the standard library does not provide. *)
Definition erfR (x : R) : R := 2 / sqrt PI * RInt (fun t => exp (- (t * t))) 0 x.
Definition erfcR (x : R) : R := 1 - erfR x.
Definition atan2R (y x : R) : R :=
  if Rlt_bool 0 x then atan (y / x)
  else if Rlt_bool x 0 then (if Rle_bool 0 y then atan (y / x) + PI else atan (y / x) - PI)
  else if Rlt_bool 0 y then PI / 2 else if Rlt_bool y 0 then - (PI / 2) else 0.

Definition xneg (r : R) : bool := Rlt_bool r 0.

Definition xopp (a : xr) := match a with Fin x => Fin (- x) | Inf s => Inf (negb s) | NaN => NaN end.
Definition xabs (a : xr) := match a with Fin x => Fin (Rabs x) | Inf _ => Inf false | NaN => NaN end.
Definition xadd (a b : xr) : xr :=
  match a, b with
  | Fin x, Fin y => Fin (x + y)
  | NaN, _ | _, NaN => NaN
  | Inf s, Inf t => if Bool.eqb s t then Inf s else NaN
  | Inf s, Fin _ | Fin _, Inf s => Inf s
  end.
Definition xsub (a b : xr) : xr :=
  match a, b with Fin x, Fin y => Fin (x - y) | _, _ => xadd a (xopp b) end.
Definition xmul (a b : xr) : xr :=
  match a, b with
  | Fin x, Fin y => Fin (x * y)
  | NaN, _ | _, NaN => NaN
  | Inf s, Inf t => Inf (xorb s t)
  | Inf s, Fin x | Fin x, Inf s => if Req_bool x 0 then NaN else Inf (xorb s (xneg x))
  end.
Definition xdiv (a b : xr) : xr :=
  match a, b with
  | Fin x, Fin y => if Req_bool y 0 then (if Req_bool x 0 then NaN else Inf (xneg x)) else Fin (x / y)
  | NaN, _ | _, NaN => NaN
  | Inf _, Inf _ => NaN
  | Inf s, Fin x => Inf (xorb s (xneg x))
  | Fin _, Inf _ => Fin 0
  end.
Definition xsqrt (a : xr) : xr :=
  match a with
  | Fin x => if Rlt_bool x 0 then NaN else Fin (sqrt x)
  | Inf false => Inf false | Inf true => NaN | NaN => NaN
  end.
Definition xltb (a b : xr) : bool :=
  match a, b with
  | NaN, _ | _, NaN => false
  | Fin x, Fin y => Rlt_bool x y
  | Inf s, Inf t => s && negb t
  | Inf s, Fin _ => s
  | Fin _, Inf t => negb t
  end.
Definition xleb (a b : xr) : bool :=
  match a, b with
  | NaN, _ | _, NaN => false
  | Fin x, Fin y => Rle_bool x y
  | Inf s, Inf t => s || negb t
  | Inf s, Fin _ => s
  | Fin _, Inf t => negb t
  end.
Definition xeqb (a b : xr) : bool :=
  match a, b with
  | Fin x, Fin y => Req_bool x y
  | Inf s, Inf t => Bool.eqb s t
  | _, _ => false
  end.
Definition xsum (l : list xr) : xr := fold_right xadd (Fin 0) l.
Definition xprod (l : list xr) : xr := fold_right xmul (Fin 1) l.
Definition xlift (f : R -> R) (a : xr) : xr := match a with Fin x => Fin (f x) | _ => NaN end.
Definition xlog (a : xr) : xr :=
  match a with
  | Fin x => if Rlt_bool 0 x then Fin (ln x) else if Req_bool x 0 then Inf true else NaN
  | Inf false => Inf false | _ => NaN
  end.
Definition xexp (a : xr) : xr :=
  match a with Fin x => Fin (exp x) | Inf false => Inf false | Inf true => Fin 0 | NaN => NaN end.
Definition xatan (a : xr) : xr :=
  match a with Fin x => Fin (atan x) | Inf s => Fin (if s then - (PI / 2) else PI / 2) | NaN => NaN end.
Definition xatan2 (a b : xr) : xr :=
  match a, b with Fin y, Fin x => Fin (atan2R y x) | _, _ => NaN end.
Definition xerf (a : xr) : xr :=
  match a with Fin x => Fin (erfR x) | Inf s => Fin (if s then -1 else 1) | NaN => NaN end.
Definition xerfc (a : xr) : xr :=
  match a with Fin x => Fin (erfcR x) | Inf s => Fin (if s then 2 else 0) | NaN => NaN end.
Fixpoint xipow (a : xr) (k : nat) : xr :=
  match k with O => Fin 1 | S k' => xmul a (xipow a k') end.
(** [x ** y]: real power for positive base; integer exponents for any base; otherwise NaN. *)
Definition xpow (a b : xr) : xr :=
  match a, b with
  | Fin x, Fin y =>
      if Rlt_bool 0 x then Fin (Rpower x y)
      else if Req_bool (IZR (Ztrunc y)) y then
        (if Req_bool x 0 then (if Rlt_bool y 0 then Inf false else if Req_bool y 0 then Fin 1 else Fin 0)
         else Fin (powerRZ x (Ztrunc y)))
      else if Req_bool x 0 then (if Rlt_bool y 0 then Inf false else Fin 0) else NaN
  | Inf false, Fin y => if Rlt_bool 0 y then Inf false else if Req_bool y 0 then Fin 1 else Fin 0
  | _, _ => NaN
  end.

Definition XR : Num := {|
  car := xr;
  nadd := xadd; nsub := xsub; nmul := xmul; ndiv := xdiv; nopp := xopp; nabs := xabs; nsqrt := xsqrt;
  nrint := fun a => match a with Fin x => Fin (IZR (ZnearestE x)) | _ => a end;
  ntrunc := fun a => match a with Fin x => Fin (IZR (Ztrunc x)) | _ => a end;
  nfloorZ := fun a => match a with Fin x => Zfloor x | _ => 0%Z end;
  nceilZ := fun a => match a with Fin x => Zceil x | _ => 0%Z end;
  nltb := xltb; nleb := xleb; neqb := xeqb;
  nisnan := fun a => match a with NaN => true | _ => false end;
  nisfin := fun a => match a with Fin _ => true | _ => false end;
  nofZ := fun z => Fin (IZR z); nnan := NaN; ninf := Inf false;
  nsum := xsum; nprod := xprod; nipow := xipow; npow := xpow;
  nsin := xlift sin; ncos := xlift cos; ntan := xlift tan; natan := xatan; natan2 := xatan2;
  nexp := xexp; nlog := xlog; nerf := xerf; nerfc := xerfc; npi := Fin PI
|}.

Local Set Warnings "-projection-no-head-constant".
Canonical XR.

(** A list of real numbers as an array of finite floats. *)
Definition fins (l : list R) : list XR := map Fin l.

(** ** Computation rules on finite values *)
Lemma xadd_fin x y : @nadd XR (Fin x) (Fin y) = Fin (x + y). Proof. reflexivity. Qed.
Lemma xsub_fin x y : @nsub XR (Fin x) (Fin y) = Fin (x - y). Proof. reflexivity. Qed.
Lemma xmul_fin x y : @nmul XR (Fin x) (Fin y) = Fin (x * y). Proof. reflexivity. Qed.
Lemma xopp_fin x : @nopp XR (Fin x) = Fin (- x). Proof. reflexivity. Qed.
Lemma xabs_fin x : @nabs XR (Fin x) = Fin (Rabs x). Proof. reflexivity. Qed.
Lemma xofZ_fin z : @nofZ XR z = Fin (IZR z). Proof. reflexivity. Qed.
Lemma xdiv_fin x y : y <> 0 -> @ndiv XR (Fin x) (Fin y) = Fin (x / y).
Proof. intros H. simpl. rewrite Req_bool_false by exact H. reflexivity. Qed.
Lemma xdiv_00 : @ndiv XR (Fin 0) (Fin 0) = NaN.
Proof. simpl. rewrite !Req_bool_true by reflexivity. reflexivity. Qed.
Lemma xdiv_x0 x : x <> 0 -> @ndiv XR (Fin x) (Fin 0) = Inf (xneg x).
Proof. intros H. simpl. rewrite Req_bool_true by reflexivity. rewrite Req_bool_false by exact H. reflexivity. Qed.
Lemma xsqrt_fin x : 0 <= x -> @nsqrt XR (Fin x) = Fin (sqrt x).
Proof. intros H. simpl. rewrite Rlt_bool_false by exact H. reflexivity. Qed.
Lemma xltb_fin x y : @nltb XR (Fin x) (Fin y) = Rlt_bool x y. Proof. reflexivity. Qed.
Lemma xleb_fin x y : @nleb XR (Fin x) (Fin y) = Rle_bool x y. Proof. reflexivity. Qed.
Lemma xeqb_fin x y : @neqb XR (Fin x) (Fin y) = Req_bool x y. Proof. reflexivity. Qed.
Lemma xipow_fin x k : @nipow XR (Fin x) k = Fin (x ^ k).
Proof. cbn [nipow XR]. induction k as [|k IH]; cbn [xipow]; [reflexivity|]. rewrite IH. reflexivity. Qed.
Lemma xlog_fin x : 0 < x -> @nlog XR (Fin x) = Fin (ln x).
Proof. intros H. simpl. rewrite Rlt_bool_true by exact H. reflexivity. Qed.

Fixpoint Rsum (l : list R) : R := match l with [] => 0 | x :: l' => x + Rsum l' end.
Lemma xsum_fins l : @nsum XR (fins l) = Fin (Rsum l).
Proof. cbn [nsum XR]. induction l as [|x l IH]; cbn; [reflexivity|]. unfold xsum, fins in IH. rewrite IH. reflexivity. Qed.

Lemma lit_fin m k : (0 <= k)%Z -> @lit XR m k = Fin (IZR m / IZR (10 ^ k)).
Proof.
  intros Hk. unfold lit. rewrite !xofZ_fin. apply xdiv_fin.
  apply not_0_IZR. pose proof (Z.pow_pos_nonneg 10 k). lia.
Qed.

(** Rounding to [d] decimals on the reals (round half to even), the meaning of [np.around]. *)
Definition round_dec (d : Z) (x : R) : R :=
  if (0 <=? d)%Z then IZR (ZnearestE (x * IZR (10 ^ d))) / IZR (10 ^ d)
  else IZR (ZnearestE (x / IZR (10 ^ (- d)))) * IZR (10 ^ (- d)).
Lemma pow10_neq0 k : (0 <= k)%Z -> IZR (10 ^ k) <> 0.
Proof. intros Hk. apply not_0_IZR. pose proof (Z.pow_pos_nonneg 10 k). lia. Qed.
Lemma pow10_pos k : (0 <= k)%Z -> 0 < IZR (10 ^ k).
Proof. intros Hk. apply IZR_lt. pose proof (Z.pow_pos_nonneg 10 k). lia. Qed.
Lemma around_fin x d : @around XR (Fin x) d = Fin (round_dec d x).
Proof.
  unfold around, round_dec. destruct (Z.leb_spec 0 d) as [H|H].
  - rewrite xofZ_fin, xmul_fin. cbn [nrint XR]. apply xdiv_fin, pow10_neq0, H.
  - rewrite xofZ_fin, xdiv_fin by (apply pow10_neq0; lia). cbn [nrint XR]. reflexivity.
Qed.
Lemma round_dec_error d x : (0 <= d)%Z -> Rabs (round_dec d x - x) <= / 2 / IZR (10 ^ d).
Proof.
  intros Hd. unfold round_dec. rewrite (proj2 (Z.leb_le _ _) Hd).
  pose proof (pow10_pos d Hd) as Hp. set (p := IZR (10 ^ d)) in *.
  replace (IZR (ZnearestE (x * p)) / p - x) with (- ((x * p - IZR (ZnearestE (x * p))) / p)) by (field; lra).
  rewrite Rabs_Ropp. unfold Rdiv at 1. rewrite Rabs_mult, (Rabs_pos_eq (/ p)) by (left; apply Rinv_0_lt_compat, Hp).
  apply Rmult_le_compat_r; [left; apply Rinv_0_lt_compat, Hp|].
  apply Znearest_half.
Qed.
Lemma round_dec_mono d x y : x <= y -> round_dec d x <= round_dec d y.
Proof.
  intros H. unfold round_dec. destruct (Z.leb_spec 0 d) as [Hd|Hd].
  - pose proof (pow10_pos d Hd) as Hp.
    apply Rmult_le_compat_r; [left; apply Rinv_0_lt_compat, Hp|].
    apply IZR_le, valid_rnd_N. apply Rmult_le_compat_r; [left; exact Hp | exact H].
  - assert (Hd' : (0 <= - d)%Z) by lia. pose proof (pow10_pos _ Hd') as Hp.
    apply Rmult_le_compat_r; [left; exact Hp|].
    apply IZR_le, valid_rnd_N. apply Rmult_le_compat_r; [left; apply Rinv_0_lt_compat, Hp | exact H].
Qed.
