(** Property theorem C147: changing the unit and the origin of the target of fminbound. *)
From Coq Require Import Reals Lra.
From Verif Require Import XR F64 Spec24 M_optimize P_fmin P_optprops P_fminaff.
Local Open Scope R_scope.

(** Exact arithmetic: [c g + d] with [c > 0] is searched exactly like [g] (same points, flag and counts; the value
    is converted). *)
Theorem C147_affine : forall (f h : XR -> XR) g c d lo hi tol limit, 0 < c ->
  (forall x, lo <= x <= hi -> f (Fin x) = Fin (g x)) -> (forall x, lo <= x <= hi -> h (Fin x) = Fin (c * g x + d)) ->
  0 <= tol ->
  (forall x v fl n tr, fminbound f (Fin lo : XR) (Fin hi : XR) (Fin tol : XR) limit true = Some (Ok (FTuple x (Fin v : XR) fl n), tr) ->
     fminbound h (Fin lo : XR) (Fin hi : XR) (Fin tol : XR) limit true = Some (Ok (FTuple x (Fin (c * v + d) : XR) fl n), tr)) /\
  fminbound h (Fin lo : XR) (Fin hi : XR) (Fin tol : XR) limit false = fminbound f (Fin lo : XR) (Fin hi : XR) (Fin tol : XR) limit false.
Proof. exact fmin_affine. Qed.
Print Assumptions C147_affine.
(** Binary64: [(x-2)^2] is minimised in 6 evaluations; with 2^60 added, 29 evaluations later, the search reports
    convergence at 4.999994, the far end of the interval. *)
Theorem C147_refuted : forall (L : Libm),
  (exists x v tr, fminbound (@par (F64 L) 0) (nofZ (-1)) (nofZ 5) (lit 1 5) 500 true = Some (Ok (FTuple x v 0 6), tr) /\
     nfloorZ (nmul x (nofZ 1000000)) = 1999996%Z) /\
  (exists x v tr, fminbound (@par (F64 L) (2 ^ 60)) (nofZ (-1)) (nofZ 5) (lit 1 5) 500 true = Some (Ok (FTuple x v 0 29), tr) /\
     nfloorZ (nmul x (nofZ 1000000)) = 4999994%Z).
Proof. exact fmin_offset. Qed.
Print Assumptions C147_refuted.
(** [|x - 1|] in other units: both searches end with a result. *)
Example C147_nonvacuous : exists x v fl n tr,
  fminbound (fun x => nabs (nsub x (nofZ 1))) (Fin 0 : XR) (Fin 3 : XR) (Fin (1 / 10) : XR) 500 true = Some (Ok (FTuple x (Fin v : XR) fl n), tr) /\
  fminbound (fun x => nadd (nmul (Fin 100 : XR) (nabs (nsub x (nofZ 1)))) (Fin 7 : XR)) (Fin 0 : XR) (Fin 3 : XR) (Fin (1 / 10) : XR) 500 true
    = Some (Ok (FTuple x (Fin (100 * v + 7) : XR) fl n), tr).
Proof.
  destruct (fmin_value (fun x => nabs (nsub x (nofZ 1))) (fun x => Rabs (x - 1)) 0 3 (1 / 10) 500) as (x & v & fl & n & tr & E & _);
    [intros; reflexivity|lra|lra|].
  exists (Fin x : XR), v, fl, n, tr. split; [exact E|].
  apply (proj1 (fmin_affine (fun x => nabs (nsub x (nofZ 1))) (fun x => nadd (nmul (Fin 100 : XR) (nabs (nsub x (nofZ 1)))) (Fin 7 : XR))
    (fun x => Rabs (x - 1)) 100 7 0 3 (1 / 10) 500 ltac:(lra) ltac:(intros; reflexivity) ltac:(intros; reflexivity) ltac:(lra))).
  exact E.
Qed.
