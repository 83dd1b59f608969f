(** Model of proadv/kernel/bivariate.py. [data] is a 2 x n array: its rows are [xs] and [ys]. *)
From Verif Require Import NpBase M_descriptive M_series M_detection.

Section Kernel.
Context {N : Num}.
Local Open Scope num_scope.
Local Notation matrix := (@matrix N).

(** bivariate.py:19-29, x and y of the same length. *)
Definition k_rotation (x y : list N) : N :=
  let data_size := #(zlen x) in
  let numerator := data_size * nsum (zipwith nmul x y) - nsum x * nsum y in
  let denominator := data_size * nsum (map sq x) - nsum x * nsum x in
  natan2 numerator denominator.

(** bivariate.py:48-54, one dimension: maximum, minimum and range. *)
Definition k_scaling (d : list N) : res (N * N * N) :=
  let* mx := arr_max d in
  let* mn := arr_min d in
  Ok (mx, mn, mx - mn).

(** bivariate.py:74-80, one dimension. *)
Definition k_transform (d : list N) (mn scale : N) : list N := map (fun x => (x - mn) / scale) d.

(** [np.linspace(0, 1, grid + 1)] for grid >= 0: multiples of the step, the last point set to 1. *)
Definition linspace01 (grid : Z) : list N :=
  if (grid =? 0)%Z then [#0] else map (fun i => #i * (#1 / #grid)) (zrange 0 grid) ++ [#1].

(** [np.digitize(x, bins, 1)] for increasing bins: the number of bins below x; NaN sorts last. *)
Fixpoint search_left (x : N) (bins : list N) : Z :=
  match bins with [] => 0%Z | b :: bins' => if b <? x then (1 + search_left x bins')%Z else 0%Z end.
Definition digitize (x : N) (bins : list N) : Z := if nisnan x then zlen bins else search_left x bins.

(** bivariate.py:99-105 with two columns of subscripts and values 1: [accum[i, j] += 1]. *)
Definition accumulate (m : matrix) (subs : list (Z * Z)) : res matrix :=
  foldM (fun acc ij =>
    let* row := getz acc (fst ij) in
    let* v := getz row (snd ij) in
    let* row' := setz row (snd ij) (v + #1) in
    setz acc (fst ij) row') m subs.

(** bivariate.py:133-135: the cell of one coordinate. *)
Definition k_bin (grid : Z) (x : N) : Z := Z.min (digitize x (linspace01 grid)) (grid - 1).

(** bivariate.py:123-139, two columns. A negative [grid] raises ValueError. *)
Definition k_histogram (trans : list (N * N)) (grid : Z) : res matrix :=
  if (grid <? 0)%Z then Raise ValueError else
  let bins := map (fun p => (k_bin grid (fst p), k_bin grid (snd p))) trans in
  let g := Z.to_nat grid in
  let* accum := accumulate (repeat (repeat #0 g) g) bins in
  Ok (map (map (fun v => v / #(zlen trans))) accum).

(** [m[::2]]; [m[::-2]] is [evens (rev m)]. *)
Fixpoint evens {A} (l : list A) : list A :=
  match l with [] => [] | [x] => [x] | x :: _ :: l' => x :: evens l' end.

(** bivariate.py:157-162. [fft] is the oracle [np.fft.fft] on one row (the last axis): real and imaginary
    parts. [weight] holds the weight of each row (the matrix repeats it along the columns). Row counts
    that differ raise ValueError unless there is a single weight. *)
Definition dct_row (fft : list N -> list (N * N)) (w : N * N) (row : list N) : list N :=
  map (fun c => fst w * fst c - snd w * snd c) (fft row).
Definition dct1 (fft : list N -> list (N * N)) (data : matrix) (weight : list (N * N)) : res matrix :=
  let reordered := evens data ++ evens (rev data) in
  bcast (dct_row fft) weight reordered.

(** bivariate.py:187-189. *)
Definition dct_weights (rows : Z) : list (N * N) :=
  (#1, #0) :: map (fun i => let a := (- #i * npi) / #(2 * rows) in (#2 * ncos a, #2 * nsin a)) (zrange 1 rows).

(** Number of columns of a matrix. *)
Definition ncols (m : matrix) : nat := match m with [] => 0 | r :: _ => length r end.

(** bivariate.py:179-193, at least one row. *)
Definition dct2 (fft : list N -> list (N * N)) (data : matrix) : res matrix :=
  if negb (Nat.eqb (length data) (ncols data)) then Raise ValueError else
  let w := dct_weights (zlen data) in
  let* a := dct1 fft data w in
  let* b := dct1 fft (transpose (ncols a) a) w in
  Ok (transpose (ncols b) b).

(** [np.arange(start, stop, step)] in floating point: a length that is not finite raises ValueError. *)
Definition arange (start stop step : N) : res (list N) :=
  let q := (stop - start) / step in
  if negb (nisfin q) then Raise ValueError else
  let delta := (start + step) - start in
  Ok (map (fun i => if (i =? 0)%Z then start else if (i =? 1)%Z then start + step else start + #i * delta)
          (zrange 0 (nceilZ q))).

(** bivariate.py:210-216. *)
Definition k_k (s : nat) : res N :=
  let* index_array := arange #1 (#(2 * Z.of_nat s - 1) + lit 1 1 * #2) #2 in
  Ok (#((-1) ^ Z.of_nat s) * nprod index_array / nsqrt (#2 * npi)).

(** bivariate.py:236-250. [ac2] is square, of the size of [ic]. *)
Definition k_psi (s0 s1 : nat) (time : N) (ic : list N) (ac2 : matrix) : N :=
  let halves := #1 :: repeat (lit 5 1 * #1) (length ic - 1) in
  let weight := zipwith nmul (map (fun c => nexp (- c * sq npi * time)) ic) halves in
  let wx := zipwith nmul weight (map (fun c => nipow c s0) ic) in
  let wy := zipwith nmul weight (map (fun c => nipow c s1) ic) in
  let total := (s0 + s1)%nat in
  #((-1) ^ Z.of_nat total) * dot (map (fun j => dot wy (col ac2 j)) (seq 0 (length ic))) wx * nipow npi (2 * total).

(** bivariate.py:303-320. [depth = 5 - (s0 + s1)]: the recursion stops when s0 + s1 > 4. *)
Fixpoint k_func_rec (depth s0 s1 : nat) (t : N) (n_sample : Z) (ic : list N) (ac2 : matrix) : res N :=
  match depth with
  | O => Ok (k_psi s0 s1 t ic ac2)
  | S depth' =>
      let* f1 := k_func_rec depth' (S s0) s1 t n_sample ic ac2 in
      let* f2 := k_func_rec depth' s0 (S s1) t n_sample ic ac2 in
      let sum_func := f1 + f2 in
      let total := Z.of_nat (s0 + s1) in
      let const := (#1 + #1 / #(2 ^ (total + 1))) / #3 in
      let* k0 := k_k s0 in
      let* k1 := k_k s1 in
      let time := npow (#(-2) * const * k0 * k1 / #n_sample / sum_func) (#1 / #(2 + total)) in
      Ok (k_psi s0 s1 time ic ac2)
  end.
Definition k_func (s0 s1 : nat) := k_func_rec (5 - (s0 + s1)) s0 s1.

(** bivariate.py:270-282. *)
Definition k_evolve (t_guess : N) (data_size : Z) (ic : list N) (ac2 : matrix) : res (N * N) :=
  let* f02 := k_func 0 2 t_guess data_size ic ac2 in
  let* f20 := k_func 2 0 t_guess data_size ic ac2 in
  let* f11 := k_func 1 1 t_guess data_size ic ac2 in
  let sum_func := f02 + f20 + #2 * f11 in
  let actual_time := npow (#2 * npi * #data_size * sum_func) (#(-1) / #3) in
  Ok ((t_guess - actual_time) / actual_time, actual_time).

(** bivariate.py:341-344. *)
Definition root_tol (n : Z) : N :=
  let n := (if n <=? 50 then 50 else if 1050 <=? n then 1050 else n)%Z in
  lit 1 12 + lit 1 2 * #(n - 50) / #1000.

(** bivariate.py:348-359. [brentq tol] and [fminbound] are the oracles for the two scipy calls on the
    target [fun]: brentq on [0, tol], fminbound of |fun| on [0, 0.1]. The result counts the calls of
    brentq; None: still looping after [fuel] turns. *)
Fixpoint root_loop (fuel : nat) (brentq : N -> res N) (fminbound : res N) (tol : N) (calls : Z) : option (res N * Z) :=
  match fuel with
  | O => None
  | S fuel' =>
      let max_tol := lit 1 1 in
      match brentq tol with
      | Ok t => if tol >=? max_tol then Some (fminbound, calls + 1)%Z else Some (Ok t, calls + 1)%Z
      | Raise ValueError =>
          let tol := nmin2 (tol * #2) max_tol in
          if tol >=? max_tol then Some (fminbound, calls + 1)%Z
          else root_loop fuel' brentq fminbound tol (calls + 1)
      | Raise e => Some (Raise e, calls + 1)%Z
      end
  end.
Definition k_root (fuel : nat) (brentq : N -> res N) (fminbound : res N) (n : Z) : option (res N * Z) :=
  root_loop fuel brentq fminbound (root_tol n) 0.

(** [np.meshgrid(x, y)]. *)
Definition meshgrid (x y : list N) : matrix * matrix := (map (fun _ => x) y, map (fun v => map (fun _ => v) x) y).

(** bivariate.py:383-437. [search] is the call of [root] on line 400 (an exception or a value); lines
    403-409 compute three numbers that are not used. Multiplying by [discrete] broadcasts when grid = 1. *)
Definition bivariate_kernel (fft : list N -> list (N * N)) (search : matrix -> Z -> res N)
  (xs ys : list N) (hx hy : N) (grid : Z) : res (matrix * matrix * matrix) :=
  let data_size := (zlen xs + zlen ys)%Z in
  let* (max0, min0, scale0) := k_scaling xs in
  let* (max1, min1, scale1) := k_scaling ys in
  let trans := combine (k_transform xs min0 scale0) (k_transform ys min1 scale1) in
  let* binned := k_histogram trans grid in
  let* discrete := dct2 fft binned in
  let* t_star := search discrete data_size in
  let t_y := sq hy in
  let t_x := sq hx in
  let n_range := map (fun i => #i) (zrange 0 grid) in
  let v1 := map (fun n => nexp (- (sq n) * sq npi * t_x / #2)) n_range in
  let v2 := map (fun n => nexp (- (sq n) * sq npi * t_y / #2)) n_range in
  let* a_t := bcast (fun a row => let r := map (fun b => a * b) v2 in
                       match r with [b] => map (fun d => b * d) row | _ => zipwith nmul r row end) v1 discrete in
  let* transformed := dct2 fft a_t in
  let size := (zlen a_t * Z.of_nat (ncols a_t))%Z in
  let factor := #size / nprod [scale0; scale1] in
  let eps := #1 / #(2 ^ 52) in
  let density := map (map (fun v => let d := v * factor in if d <? #0 then eps else d)) transformed in
  let x_step := scale0 / #(grid - 1) in
  let y_step := scale1 / #(grid - 1) in
  let* x_vec := arange min0 (max0 + lit 1 1 * x_step) x_step in
  let* y_vec := arange min1 (max1 + lit 1 1 * y_step) y_step in
  let (x_mx, y_mx) := meshgrid x_vec y_vec in
  Ok (transpose (ncols density) density, x_mx, y_mx).

(** bivariate.py:396-400: the target handed to [root]; [root] reports an exception of the target. *)
Definition k_target (ic : list N) (ac2 : matrix) (data_size : Z) (t : N) : res N :=
  let* e := k_evolve t data_size ic ac2 in
  Ok (t - fst e).

End Kernel.
