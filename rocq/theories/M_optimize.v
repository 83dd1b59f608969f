(** Model of proadv/statistics/optimize/optimize.py.
    The target function is a total pure function [f : N -> N] (an exception or a side effect inside the
    caller's function is not modelled).  Every call of the target is recorded, in order, in a trace. *)
From Verif Require Export NpBase.
Local Open Scope num_scope.

(** Scalar division.  [npf = true]: the operands are NumPy scalars (IEEE division);
    [npf = false]: Python floats, where a zero divisor raises ZeroDivisionError. *)
Definition pydiv {N : Num} (npf : bool) (a b : N) : res N :=
  if negb npf && (b =? #0) then Raise ZeroDivisionError else Ok (a / b).

(** What [brentq] hands back: the bare root, the tuple of lines 69/71, or the dictionary of lines 101-103
    and 143-149 ('flag' is 'converged' exactly when 'converged' is True, so it is not kept). *)
Inductive brent_out (N : Num) :=
| BRoot (x : N)
| BTuple (x : N) (a b c : Z)
| BDict (root : N) (function_calls iterations : Z) (converged : bool).
Arguments BRoot {N}. Arguments BTuple {N}. Arguments BDict {N}.

(** The loop variables of optimize.py:78-140. *)
Record bstate (N : Num) := MkB {
  b_xpre : N; b_xcur : N; b_xblk : N; b_fpre : N; b_fcur : N; b_fblk : N; b_spre : N; b_scur : N }.
Arguments MkB {N}. Arguments b_xpre {N}. Arguments b_xcur {N}. Arguments b_xblk {N}.
Arguments b_fpre {N}. Arguments b_fcur {N}. Arguments b_fblk {N}. Arguments b_spre {N}. Arguments b_scur {N}.

(** optimize.py:82-93: restore the bracket, then make the current point the better end. *)
Definition brent_swap {N : Num} (s : bstate N) : bstate N :=
  let 'MkB xpre xcur xblk fpre fcur fblk spre scur := s in
  let '(xblk, fblk, spre, scur) :=
    if negb (nsign fpre =? nsign fcur) then (xpre, fpre, xcur - xpre, xcur - xpre)
    else (xblk, fblk, spre, scur) in
  if nabs fblk <? nabs fcur
  then MkB xcur xblk xcur fcur fblk fcur spre scur
  else MkB xpre xcur xblk fpre fcur fblk spre scur.

(** optimize.py:96 *)
Definition brent_delta {N : Num} (xtol rtol : N) (s : bstate N) : N :=
  (xtol + rtol * nabs (b_xcur s)) / #2.
(** optimize.py:97 *)
Definition brent_sbis {N : Num} (s : bstate N) : N := (b_xblk s - b_xcur s) / #2.

(** optimize.py:107-115: the secant or inverse quadratic step. *)
Definition brent_stry {N : Num} (npf : bool) (s : bstate N) : res N :=
  let 'MkB xpre xcur xblk fpre fcur fblk _ _ := s in
  if xpre =? xblk then pydiv npf (- fcur * (xcur - xpre)) (fcur - fpre)
  else
    let* dpre := pydiv npf (fpre - fcur) (xpre - xcur) in
    let* dblk := pydiv npf (fblk - fcur) (xblk - xcur) in
    pydiv npf (- fcur * (fblk * dblk - fpre * dpre)) (dblk * dpre * (fblk - fpre)).

(** optimize.py:106-129: the new pair (spre, scur). *)
Definition brent_choose {N : Num} (npf : bool) (delta sbis : N) (s : bstate N) : res (N * N) :=
  if (nabs (b_spre s) >? delta) && (nabs (b_fcur s) <? nabs (b_fpre s)) then
    let* stry := brent_stry npf s in
    if #2 * nabs stry <? nmin2 (nabs (b_spre s)) (#3 * nabs sbis - delta)
    then Ok (b_scur s, stry) else Ok (sbis, sbis)
  else Ok (sbis, sbis).

(** optimize.py:134-137: the next point. *)
Definition brent_move {N : Num} (delta sbis scur xcur : N) : N :=
  if nabs scur >? delta then xcur + scur
  else xcur + (if sbis >? #0 then delta else - delta).

(** optimize.py:80-153.  [k] iterations are left and [i] have been made; [tr] is the trace, newest first.
    The value of [i] reported after the loop is the last loop index, 0 when the loop never ran. *)
Fixpoint brent_loop {N : Num} (npf : bool) (f : N -> N) (xtol rtol : N) (full : bool) (k : nat) (i : Z)
    (s : bstate N) (tr : list N) : res (brent_out N) * list N :=
  match k with
  | O =>
      let last := if (i =? 0)%Z then 0%Z else (i - 1)%Z in
      (Ok (if full then BDict (b_xcur s) (last + 2) (last + 1) false else BRoot (b_xcur s)), tr)
  | S k' =>
      let s := brent_swap s in
      let delta := brent_delta xtol rtol s in
      let sbis := brent_sbis s in
      if (b_fcur s =? #0) || (nabs sbis <? delta) then
        (Ok (if full then BDict (b_xcur s) (i + 2) (i + 1) true else BRoot (b_xcur s)), tr)
      else
        match brent_choose npf delta sbis s with
        | Raise e => (Raise e, tr)
        | Ok (spre, scur) =>
            let x := brent_move delta sbis scur (b_xcur s) in
            brent_loop npf f xtol rtol full k' (i + 1)%Z
              (MkB (b_xcur s) x (b_xblk s) (b_fcur s) (f x) (b_fblk s) spre scur) (x :: tr)
        end
  end.

(** optimize.py:58-153.  Returns the outcome and the points at which [f] was called, in order. *)
Definition brentq {N : Num} (npf : bool) (f : N -> N) (xa xb xtol rtol : N) (maxiter : Z) (full : bool)
  : res (brent_out N) * list N :=
  if xa >=? xb then (Raise ValueError, [])
  else
    let fpre := f xa in let fcur := f xb in
    let '(r, tr) :=
      if fpre =? #0 then (Ok (if full then BTuple xa 0 0 1 else BRoot xa), [xb; xa])
      else if fcur =? #0 then (Ok (if full then BTuple xb 0 0 1 else BRoot xb), [xb; xa])
      else if nsign fpre =? nsign fcur then (Raise ValueError, [xb; xa])
      else brent_loop npf f xtol rtol full (Z.to_nat maxiter) 0
             (MkB xa xb #0 fpre fcur #0 #0 #0) [xb; xa] in
    (r, rev tr).

(** The loop variables of optimize.py:219-324 ([previous_step], [r], [q], [p], [delta] are local to an
    iteration; [x_central], [tolerance_1], [tolerance_2] are functions of the others). *)
Record fstate (N : Num) := MkF {
  f_left : N; f_right : N; f_xmid : N; f_xopt : N; f_xtmp : N; f_step : N; f_e : N; f_xcur : N;
  f_fcur : N; f_ftmp : N; f_fmid : N; f_fxtmp : N; f_count : Z }.
Arguments MkF {N}. Arguments f_left {N}. Arguments f_right {N}. Arguments f_xmid {N}. Arguments f_xopt {N}.
Arguments f_xtmp {N}. Arguments f_step {N}. Arguments f_e {N}. Arguments f_xcur {N}. Arguments f_fcur {N}.
Arguments f_ftmp {N}. Arguments f_fmid {N}. Arguments f_fxtmp {N}. Arguments f_count {N}.

Section Fmin.
Context {N : Num}.

(** optimize.py:213: [np.sqrt(2.2e-16)]; 2.2e-16 is written 22 / 10^17. *)
Definition epsilon_sqrt : N := nsqrt (lit 22 17).
(** optimize.py:216 *)
Definition golden_ratio : N := lit 5 1 * (#3 - nsqrt #5).
(** optimize.py:245 and 317 *)
Definition x_central (s : fstate N) : N := lit 5 1 * (f_left s + f_right s).
(** optimize.py:248 and 318 *)
Definition tolerance_1 (tol : N) (s : fstate N) : N := epsilon_sqrt * nabs (f_xopt s) + tol / #3.
(** optimize.py:249 and 319 *)
Definition tolerance_2 (tol : N) (s : fstate N) : N := #2 * tolerance_1 tol s.

(** [np.sign(x) + (x == 0)] (optimize.py:291). *)
Definition sign1 (x : N) : N := nsign x + (if x =? #0 then #1 else #0).

(** [np.maximum(a, b)]: NaN if either is NaN. *)
Definition npmax2 (a b : N) : N := if nisnan a then a else if nisnan b then b else nmax2 a b.

(** optimize.py:282-288: golden-section step (e, step_size). *)
Definition golden_step (s : fstate N) : N * N :=
  let e := if f_xopt s >=? x_central s then f_left s - f_xopt s else f_right s - f_xopt s in
  (e, golden_ratio * e).

(** optimize.py:253-288: the pair (e, step_size) chosen in this iteration.  On line 276 the sign is that of
    [x_central - x_optimal] and the added boolean is [x_central == x_optimal].  The division of line 271 never
    has a zero divisor: [q = 0] fails the test of line 270. *)
Definition choose_step (tol : N) (s : fstate N) : N * N :=
  if nabs (f_e s) >? tolerance_1 tol s then
    let r := (f_xopt s - f_xtmp s) * (f_fcur s - f_fmid s) in
    let q := (f_xopt s - f_xmid s) * (f_fcur s - f_fxtmp s) in
    let p := (f_xopt s - f_xmid s) * q - (f_xopt s - f_xtmp s) * r in
    let q := #2 * (q - r) in
    let p := if q >? #0 then - p else p in
    let q := nabs q in
    let previous_step := f_e s in
    let e := f_step s in
    if (nabs p <? nabs (lit 5 1 * q * previous_step)) &&
       ((q * (f_left s - f_xopt s) <? p) && (p <? q * (f_right s - f_xopt s))) then
      let step := p / q in
      let x := f_xopt s + step in
      if (x - f_left s <? tolerance_2 tol s) || (f_right s - x <? tolerance_2 tol s) then
        (e, tolerance_1 tol s *
            (nsign (x_central s - f_xopt s) + (if x_central s =? f_xopt s then #1 else #0)))
      else (e, step)
    else golden_step s
  else golden_step s.

(** optimize.py:291-292: the next evaluation point. *)
Definition next_point (tol step : N) (s : fstate N) : N :=
  f_xopt s + sign1 step * npmax2 (nabs step) (tolerance_1 tol s).

(** optimize.py:293-314: evaluate and update the bracket and the three best points. *)
Definition fmin_update (s : fstate N) (e step x fx : N) : fstate N :=
  let 'MkF lft rgt xmid xopt xtmp _ _ _ fcur _ fmid fxtmp count := s in
  let count := (count + 1)%Z in
  if fx <=? fcur then
    let '(lft, rgt) := if x >=? xopt then (xopt, rgt) else (lft, xopt) in
    MkF lft rgt xtmp x xopt step e x fx fx fxtmp fcur count
  else
    let '(lft, rgt) := if x <? xopt then (x, rgt) else (lft, x) in
    if (fx <=? fxtmp) || (xtmp =? xopt) then
      MkF lft rgt xtmp xopt x step e x fcur fx fxtmp fx count
    else if (fx <=? fmid) || ((xmid =? xopt) || (xmid =? xtmp)) then
      MkF lft rgt x xopt xtmp step e x fcur fx fx fxtmp count
    else MkF lft rgt xmid xopt xtmp step e x fcur fx fmid fxtmp count.

(** optimize.py:252 *)
Definition fmin_guard (tol : N) (s : fstate N) : bool :=
  nabs (f_xopt s - x_central s) >? (tolerance_2 tol s - lit 5 1 * (f_right s - f_left s)).

(** optimize.py:252-324: the while loop.  [fuel] bounds the number of iterations and [None] means the bound was
    hit; [P_optimize] shows that it never is.  Returns the final state and the flag (0 or 1). *)
Fixpoint fmin_loop (f : N -> N) (tol : N) (limit : Z) (fuel : nat) (s : fstate N) (tr : list N)
  : option (fstate N * Z * list N) :=
  if fmin_guard tol s then
    match fuel with
    | O => None
    | S fuel' =>
        let '(e, step) := choose_step tol s in
        let x := next_point tol step s in
        let s' := fmin_update s e step x (f x) in
        if (limit <=? f_count s')%Z then Some (s', 1%Z, x :: tr)
        else fmin_loop f tol limit fuel' s' (x :: tr)
    end
  else Some (s, 0%Z, tr).

(** optimize.py:219-249: the state before the loop. *)
Definition fmin_init (f : N -> N) (lo hi : N) : fstate N :=
  let x := lo + golden_ratio * (hi - lo) in
  MkF lo hi x x x #0 #0 x (f x) ninf (f x) (f x) 1.

(** optimize.py:193-336 ([limit_bounds] is the pair (lo, hi); [extra_params] is part of the closure [f]).
    Result: (x_optimal, fval, flag, iteration_count) and the trace; [None] = the loop ran out of [max limit 2]
    iterations (never). *)
Definition optimize_within_bounds (f : N -> N) (lo hi tol : N) (limit : Z)
  : option (res (N * N * Z * Z) * list N) :=
  if negb (nisfin lo && nisfin hi) then Some (Raise ValueError, [])
  else if lo >? hi then Some (Raise ValueError, [])
  else
    let s0 := fmin_init f lo hi in
    match fmin_loop f tol limit (Z.to_nat (Z.max limit 2)) s0 [f_xcur s0] with
    | None => None
    | Some (s, flag, tr) =>
        let flag := if nisnan (f_xopt s) || (nisnan (f_fcur s) || nisnan (f_ftmp s)) then 2%Z else flag in
        Some (Ok (f_xcur s, f_fcur s, flag, f_count s), rev tr)
    end.

(** What [fminbound] hands back: the bare point or the 4-tuple. *)
Inductive fmin_out := FPoint (x : N) | FTuple (x fval : N) (flag evaluations : Z).

(** optimize.py:393-401 *)
Definition fminbound (f : N -> N) (lo hi tol : N) (limit : Z) (detailed : bool)
  : option (res fmin_out * list N) :=
  match optimize_within_bounds f lo hi tol limit with
  | None => None
  | Some (Raise e, tr) => Some (Raise e, tr)
  | Some (Ok (x, fval, flag, count), tr) =>
      Some (Ok (if detailed then FTuple x fval flag count else FPoint x), tr)
  end.
End Fmin.
