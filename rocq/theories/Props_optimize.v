(** Property theorems C46-C50 (statistics/optimize). *)
From Coq Require Import Reals Lra.
From Flocq Require Import Core.Raux.
From Verif Require Import XR F64 F64ex M_optimize P_brent P_fmin P_optprops.
Local Open Scope R_scope.

(** The target functions of the two docstrings, in binary64. *)
Local Notation NF := (F64 libm_ex).
Local Definition doc_root (x : NF) : NF := nsub (nmul x x) (nofZ 2).
Local Definition doc_quad (x : NF) : NF := nadd (nmul (nsub x (nofZ 2)) (nsub x (nofZ 2))) (nofZ 1).
Local Notation dec9 x := (nfloorZ (nmul x (@nofZ NF (10 ^ 9)))).

(** ** C46 *)
(** Exact arithmetic, any target that is continuous on the bracket (and arbitrary elsewhere). *)
Theorem C46_root : forall npf (f : XR -> XR) g xa xb xtol rtol maxiter r calls iters tr,
  (forall x, xa <= x <= xb -> f (Fin x) = Fin (g x)) -> (forall x, xa <= x <= xb -> continuity_pt g x) ->
  0 <= xtol -> 0 <= rtol -> xa < xb -> g xa * g xb < 0 ->
  brentq npf f (Fin xa : XR) (Fin xb : XR) (Fin xtol : XR) (Fin rtol : XR) maxiter true = (Ok (BDict r calls iters true), tr) ->
  exists x z, r = Fin x /\ xa <= x <= xb /\ xa <= z <= xb /\ g z = 0 /\ Rabs (z - x) <= xtol + rtol * Rabs x.
Proof. exact brent_root. Qed.
Print Assumptions C46_root.
(** Every call with a sign change returns, from inside the bracket; convergence is certain for
    maxiter >= 4 (xb - xa) / xtol, even without continuity. *)
Theorem C46_total : forall npf (f : XR -> XR) g xa xb xtol rtol maxiter,
  (forall x, xa <= x <= xb -> f (Fin x) = Fin (g x)) ->
  0 <= xtol -> 0 <= rtol -> xa < xb -> g xa * g xb < 0 ->
  exists x calls iters conv tr,
    brentq npf f (Fin xa : XR) (Fin xb : XR) (Fin xtol : XR) (Fin rtol : XR) maxiter true = (Ok (BDict (Fin x : XR) calls iters conv), tr) /\
    xa <= x <= xb /\ Forall (fun p => exists t, p = Fin t /\ xa <= t <= xb) tr /\
    (conv = true -> g x = 0 \/ exists y, xa <= y <= xb /\ g x * g y < 0 /\ Rabs (y - x) < xtol + rtol * Rabs x) /\
    ((0 <= maxiter)%Z -> 4 * (xb - xa) <= IZR maxiter * xtol -> conv = true).
Proof. exact brent_total. Qed.
Print Assumptions C46_total.
(** Roots at the ends, every number type. *)
Theorem C46_endpoints : forall (N : Num) npf (f : N -> N) xa xb xtol rtol maxiter full,
  nleb xb xa = false ->
  (neqb (f xa) (nofZ 0) = true ->
   brentq npf f xa xb xtol rtol maxiter full = (Ok (if full then BTuple xa 0 0 1 else BRoot xa), [xa; xb])) /\
  (neqb (f xa) (nofZ 0) = false -> neqb (f xb) (nofZ 0) = true ->
   brentq npf f xa xb xtol rtol maxiter full = (Ok (if full then BTuple xb 0 0 1 else BRoot xb), [xa; xb])).
Proof. exact @brent_endpoints. Qed.
Print Assumptions C46_endpoints.
(** full_output only changes the packaging, every number type. *)
Theorem C46_plain : forall (N : Num) npf (f : N -> N) xa xb xtol rtol maxiter,
  snd (brentq npf f xa xb xtol rtol maxiter false) = snd (brentq npf f xa xb xtol rtol maxiter true) /\
  fst (brentq npf f xa xb xtol rtol maxiter false) =
  match fst (brentq npf f xa xb xtol rtol maxiter true) with
  | Ok (BRoot x) | Ok (BTuple x _ _ _) | Ok (BDict x _ _ _) => Ok (BRoot x)
  | Raise e => Raise e
  end.
Proof. exact @brent_plain. Qed.
Print Assumptions C46_plain.
Example C46_nonvacuous : let g := fun x => x * x - 2 in
  (forall x, 0 <= x <= 2 -> continuity_pt g x) /\ g 0 * g 2 < 0 /\ 4 * (2 - 0) <= IZR 80 * (1 / 10).
Proof. cbn. split; [intros x _; apply derivable_continuous_pt; reg | lra]. Qed.
(** The docstring example: root 1.414213562, 9 calls, 8 iterations. *)
Example C46_run :
  match brentq false doc_root (nofZ 0) (nofZ 2) (lit 148 10) (lit 148 10) 500 true with
  | (Ok (BDict x calls iters conv), tr) => (dec9 x, calls, iters, conv, length tr) = (1414213562, 9, 8, true, 9%nat)%Z
  | _ => False
  end.
Proof. vm_compute. reflexivity. Qed.

(** ** C47 *)
Theorem C47_inside : forall npf (f g : XR -> XR) xa xb xtol rtol maxiter full,
  (forall x, xa <= x <= xb -> exists y, f (Fin x) = Fin y) ->
  (forall x, xa <= x <= xb -> g (Fin x) = f (Fin x)) -> 0 <= xtol -> 0 <= rtol ->
  brentq npf g (Fin xa : XR) (Fin xb : XR) (Fin xtol : XR) (Fin rtol : XR) maxiter full =
  brentq npf f (Fin xa : XR) (Fin xb : XR) (Fin xtol : XR) (Fin rtol : XR) maxiter full /\
  Forall (fun p => exists t, p = Fin t /\ xa <= t <= xb)
    (snd (brentq npf f (Fin xa : XR) (Fin xb : XR) (Fin xtol : XR) (Fin rtol : XR) maxiter full)).
Proof. exact brent_inside. Qed.
Print Assumptions C47_inside.
(** Every number type: the trace of calls determines the result, and the root is one of the points evaluated. *)
Theorem C47_trace : forall (N : Num) npf (f g : N -> N) xa xb xtol rtol m full,
  (forall x, In x (snd (brentq npf f xa xb xtol rtol m full)) -> f x = g x) ->
  brentq npf g xa xb xtol rtol m full = brentq npf f xa xb xtol rtol m full.
Proof. exact @brentq_dep. Qed.
Print Assumptions C47_trace.
Theorem C47_member : forall (N : Num) npf (f : N -> N) xa xb xtol rtol maxiter full o tr,
  brentq npf f xa xb xtol rtol maxiter full = (Ok o, tr) ->
  In (match o with BRoot x | BTuple x _ _ _ | BDict x _ _ _ => x end) tr.
Proof. exact @brent_member. Qed.
Print Assumptions C47_member.
Example C47_nonvacuous : let f := fun p : XR => match (p : xr) with Fin x => Fin (x - 1) : XR | _ => NaN end in
  let g := fun p : XR => match (p : xr) with Fin x => if Rle_bool x 5 then Fin (x - 1) : XR else NaN | _ => NaN end in
  (forall x, 0 <= x <= 5 -> exists y, f (Fin x) = Fin y) /\ (forall x, 0 <= x <= 5 -> g (Fin x) = f (Fin x)) /\ g (Fin 6) <> f (Fin 6).
Proof.
  cbn. split; [intros x _; eexists; reflexivity|]. split.
  - intros x Hx. rewrite Rle_bool_true by lra. reflexivity.
  - rewrite Rle_bool_false by lra. discriminate.
Qed.

(** ** C48 *)
(** ValueError exactly for an empty bracket or equal signs: never for lack of convergence. *)
Theorem C48_valueerror : forall (N : Num) npf (f : N -> N) xa xb xtol rtol m full,
  fst (brentq npf f xa xb xtol rtol m full) = Raise ValueError <->
  nleb xb xa = true \/
  (neqb (f xa) (nofZ 0) = false /\ neqb (f xb) (nofZ 0) = false /\ neqb (nsign (f xa)) (nsign (f xb)) = true).
Proof. exact @brentq_valueerror. Qed.
Print Assumptions C48_valueerror.
(** The report is right for a converged run; otherwise one call is missing from it (or, without any iteration,
    one iteration is invented). *)
Theorem C48_calls : forall (N : Num) npf (f : N -> N) xa xb xtol rtol maxiter r calls iters conv tr,
  brentq npf f xa xb xtol rtol maxiter true = (Ok (BDict r calls iters conv), tr) ->
  if conv then calls = Z.of_nat (length tr) /\ iters = (calls - 1)%Z
  else (maxiter <= 0)%Z /\ length tr = 2%nat /\ calls = 2%Z /\ iters = 1%Z \/
       (0 < maxiter)%Z /\ Z.of_nat (length tr) = (maxiter + 2)%Z /\ calls = (Z.of_nat (length tr) - 1)%Z /\ iters = maxiter.
Proof. exact @brent_calls. Qed.
Print Assumptions C48_calls.
(** For every target with a sign change, no iterations: no exception, an iteration that was not made. *)
Theorem C48_refuted : forall (N : Num) npf (f : N -> N) xa xb xtol rtol maxiter,
  (maxiter <= 0)%Z -> nleb xb xa = false -> neqb (f xa) (nofZ 0) = false -> neqb (f xb) (nofZ 0) = false ->
  neqb (nsign (f xa)) (nsign (f xb)) = false ->
  brentq npf f xa xb xtol rtol maxiter true = (Ok (BDict xb 2 1 false), [xa; xb]).
Proof. exact @brent_no_iterations. Qed.
Print Assumptions C48_refuted.
Example C48_run :
  match brentq false doc_root (nofZ 0) (nofZ 2) (lit 148 10) (lit 148 10) 3 true with
  | (Ok (BDict x calls iters conv), tr) => (dec9 x, calls, iters, conv, length tr) = (1419047619, 4, 3, false, 5%nat)%Z
  | _ => False
  end /\
  nleb (@nofZ NF 2) (nofZ 0) = false /\ neqb (doc_root (nofZ 0)) (nofZ 0) = false /\ neqb (doc_root (nofZ 2)) (nofZ 0) = false /\
  neqb (nsign (doc_root (nofZ 0))) (nsign (doc_root (nofZ 2))) = false.
Proof. vm_compute. auto. Qed.

(** ** C49 *)
(** Every number type and every target: termination, the number of evaluations and what is handed back. *)
Theorem C49_budget : forall (N : Num) (f : N -> N) lo hi tol limit,
  exists r tr, fminbound f lo hi tol limit true = Some (r, tr) /\
  (r = Raise ValueError /\ tr = [] /\ (nisfin lo && nisfin hi = false \/ nltb hi lo = true) \/
   nisfin lo && nisfin hi = true /\ nltb hi lo = false /\
   exists x fval flag count best, r = Ok (FTuple x fval flag count) /\
     count = Z.of_nat (length tr) /\ (count <= Z.max 2 limit)%Z /\ (exists tr0, tr = tr0 ++ [x]) /\
     In best tr /\ fval = f best /\ (flag = 0 \/ flag = 1 \/ flag = 2)%Z /\ (flag = 1%Z -> (limit <= count)%Z)).
Proof. exact @fminbound_generic. Qed.
Print Assumptions C49_budget.
Theorem C49_plain : forall (N : Num) (f : N -> N) lo hi tol limit,
  fminbound f lo hi tol limit false =
  match fminbound f lo hi tol limit true with
  | Some (Ok (FTuple x _ _ _), tr) => Some (Ok (FPoint x), tr)
  | o => o
  end.
Proof. exact @fminbound_brief. Qed.
Print Assumptions C49_plain.
Theorem C49_trace : forall (N : Num) (f g : N -> N) lo hi tol limit det r tr,
  fminbound f lo hi tol limit det = Some (r, tr) -> (forall x, In x tr -> f x = g x) ->
  fminbound g lo hi tol limit det = Some (r, tr).
Proof. exact @fminbound_dep. Qed.
Print Assumptions C49_trace.
(** Exact arithmetic: all evaluations inside the bounds. *)
Theorem C49_inside : forall f g lo hi tol limit,
  (forall x, lo <= x <= hi -> f (Fin x) = Fin (g x)) -> 0 <= tol -> lo <= hi ->
  exists x v flag n tr,
    fminbound f (Fin lo : XR) (Fin hi : XR) (Fin tol : XR) limit true = Some (Ok (FTuple (Fin x : XR) (Fin v : XR) flag n), tr) /\
    lo <= x <= hi /\ Forall (fun p => exists t, p = Fin t /\ lo <= t <= hi /\ v <= g t) tr /\
    (exists best, In (Fin best) tr /\ v = g best) /\ (flag = 0 \/ flag = 1)%Z.
Proof. exact fmin_value. Qed.
Print Assumptions C49_inside.
Theorem C49_refuted : forall f g hi tol limit,
  (forall x, 0 <= x <= hi -> f (Fin x) = Fin (g x)) -> 0 < hi -> 0 <= tol <= hi / 2 -> (limit <= 1)%Z ->
  exists x v flag tr,
    fminbound f (Fin 0 : XR) (Fin hi : XR) (Fin tol : XR) limit true = Some (Ok (FTuple (Fin x : XR) (Fin v : XR) flag 2), tr) /\
    (limit < Z.of_nat (length tr))%Z.
Proof. exact fmin_budget_refuted. Qed.
Print Assumptions C49_refuted.
Example C49_run :
  match fminbound doc_quad (nofZ (-1)) (nofZ 5) (lit 1 5) 1 true with
  | Some (Ok (FTuple x v flag n), tr) => (flag, n, length tr) = (1, 2, 2%nat)%Z
  | _ => False
  end.
Proof. vm_compute. reflexivity. Qed.

(** ** C50 *)
(** The best point seen is within 2 tolerances of the minimiser of a strictly unimodal target (continuous or not)
    and the point handed back within 4, once the budget exceeds 3 (hi - lo) / tol. *)
Theorem C50_unimodal : forall f g lo hi tol limit m,
  (forall x, lo <= x <= hi -> f (Fin x) = Fin (g x)) -> 0 < tol -> lo <= hi -> strictly_unimodal g lo hi m ->
  exists x v flag n tr best,
    fminbound f (Fin lo : XR) (Fin hi : XR) (Fin tol : XR) limit true = Some (Ok (FTuple (Fin x : XR) (Fin v : XR) flag n), tr) /\
    In (Fin best) tr /\ v = g best /\
    (flag = 0%Z -> Rabs (best - m) <= 2 * fmin_tol tol best /\ Rabs (x - m) <= 4 * fmin_tol tol best) /\
    (3 * (hi - lo) < tol * IZR (limit - 1) -> flag = 0%Z).
Proof. exact fmin_unimodal. Qed.
Print Assumptions C50_unimodal.
Theorem C50_converges : forall f g lo hi tol limit,
  (forall x, lo <= x <= hi -> f (Fin x) = Fin (g x)) -> 0 < tol -> lo <= hi -> 3 * (hi - lo) < tol * IZR (limit - 1) ->
  exists x v n tr,
    fminbound f (Fin lo : XR) (Fin hi : XR) (Fin tol : XR) limit true = Some (Ok (FTuple (Fin x : XR) (Fin v : XR) 0 n), tr).
Proof. exact fmin_converges. Qed.
Print Assumptions C50_converges.
Theorem C50_refuted : forall f g hi tol,
  (forall x, 0 <= x <= hi -> f (Fin x) = Fin (g x)) -> 0 < hi -> 0 <= tol <= hi / 2 ->
  (forall x y, 0 <= x -> x < y -> y <= hi -> g x < g y) ->
  exists x v flag n tr,
    fminbound f (Fin 0 : XR) (Fin hi : XR) (Fin tol : XR) 2 true = Some (Ok (FTuple (Fin x : XR) (Fin v : XR) flag n), tr) /\
    v < g x.
Proof. exact fmin_pair_refuted. Qed.
Print Assumptions C50_refuted.
Example C50_nonvacuous : strictly_unimodal (fun x => Rabs (x - 1)) 0 3 1 /\ 3 * (3 - 0) < 1 / 10 * IZR (100 - 1).
Proof.
  split; [|change (100 - 1)%Z with 99%Z; lra]. split; [lra|]. split; intros x y H1 H2 H3.
  - rewrite !Rabs_left1 by lra. lra.
  - rewrite !Rabs_pos_eq by lra. lra.
Qed.
(** The docstring example (documented result 2.0): 1.999996637 comes back, with the value of another point. *)
Example C50_run :
  match fminbound doc_quad (nofZ (-1)) (nofZ 5) (lit 1 5) 500 true with
  | Some (Ok (FTuple x v flag n), tr) => (dec9 x, flag, n) = (1999996637, 0, 6)%Z /\ neqb (doc_quad x) v = false
  | _ => False
  end.
Proof. vm_compute. auto. Qed.
