(** Reference definitions for the binary64 properties. *)
From Coq Require Import Reals ZArith List Permutation.
From Flocq Require Import Core IEEE754.BinarySingleNaN.
From Verif Require Import Num F64 Spec5.
Import ListNotations.
Open Scope Z_scope.

Local Existing Instance F64.prec_gt_0_53.
Local Existing Instance F64.prec_lt_emax_53.

(** What the interpolating scripts make of the finite samples up to 10^12 that no pass flags: the same floats when there was
    no pass, the floats rounded once to three decimals otherwise. *)
Definition kept_f64 (L : Libm) (hist : list (list Z)) (l m : list (F64 L)) : Prop :=
  length m = length l /\
  forall i x, nth_error l i = Some x -> never hist i -> is_finite x = true -> (Rabs (B2R x) <= IZR (10 ^ 12))%R ->
    nth_error m i = Some (match hist with [] => x | _ => around x 3 end).

(** [s] is the sum of the floats of [l] in some order and bracketing, all additions rounded: what [np.sum] promises. A
    summation may start from 0. *)
Inductive tree_sum : list f64 -> f64 -> Prop :=
| ts_one x : tree_sum [x] x
| ts_zero x : tree_sum [x] (Bplus mode_NE (f64_ofZ 0) x)
| ts_add l1 l2 l s1 s2 : tree_sum l1 s1 -> tree_sum l2 s2 -> Permutation l (l1 ++ l2) -> tree_sum l (Bplus mode_NE s1 s2).
Definition sums_somehow (L : Libm) : Prop := forall l, l <> [] -> tree_sum l (l_sum L l).

(** The real values of a list of floats. *)
Definition reals (l : list f64) : list R := map B2R l.
Definition all_finite (l : list f64) : Prop := forall x, In x l -> is_finite x = true.
