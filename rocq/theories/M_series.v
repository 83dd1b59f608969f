(** Model of proadv/statistics/series.py. *)
From Verif Require Export M_descriptive.

Section Series.
Context {N : Num}.
Local Open Scope num_scope.

(** dtype of an array: assignment into an integer array truncates towards zero. *)
Inductive dtype := DFloat | DInt.
Definition store (dt : dtype) (x : N) : N := match dt with DFloat => x | DInt => ntrunc x end.

(** [mean(a)] used as a number: descriptive.mean on a 1-D numeric array. *)
Definition mean_num (l : list N) : res N := let* o := mean_of l in as_num o.

(** series.py:61-63, body of the first loop. *)
Definition ma_head (data ma : list N) (i : Z) : res (list N) :=
  let* m := mean_num (pyslice data 0 (i + 1)) in setz ma i m.
(** series.py:66-76, body of the second loop. *)
Definition ma_tail (data : list N) (window_size : Z) (ma : list N) (i : Z) : res (list N) :=
  let* prev := getz ma (i - 1) in
  let* a := getz data i in
  let* b := getz data (i - window_size) in
  setz ma i (prev + (a - b) / #window_size).

(** series.py:46-78. [ndim] is [data.ndim]; [data] the elements (1-D). [ma] is always float64. *)
Definition moving_average (ndim : Z) (data : list N) (window_size : Z) : res (list N) :=
  if (window_size <=? 0)%Z then Raise ValueError else
  if (zlen data =? 0)%Z then Ok [] else
  if negb (ndim =? 1)%Z then Raise ValueError else
  if (zlen data <? window_size)%Z then Raise ValueError else
  let ma := repeat #0 (length data) in
  let* ma := foldM (ma_head data) ma (zrange 0 window_size) in
  foldM (ma_tail data window_size) ma (zrange window_size (zlen data)).

(** series.py:127-137, loop body. *)
Definition ema_step (dt : dtype) (data : list N) (alpha : N) (ema : list N) (i : Z) : res (list N) :=
  let* d := getz data i in
  let* e := getz ema (i - 1) in
  setz ema i (store dt (alpha * d + (#1 - alpha) * e)).

(** series.py:117-139. [np.zeros_like(data)] has the dtype of [data]. *)
Definition exponential_moving_average (dt : dtype) (data : list N) (alpha : N) : res (list N) :=
  if (alpha <=? #0) || (alpha >? #1) then Raise ValueError else
  let ema := repeat #0 (length data) in
  let* d0 := getz data 0 in
  let* ema := setz ema 0 (store dt d0) in
  foldM (ema_step dt data alpha) ema (zrange 1 (zlen data)).

(** series.py:190-197, loop body. *)
Definition wma_step (data : list N) (period : Z) (wma : list N) (i : Z) : res (list N) :=
  let weight := map (fun k => #k) (zrange 1 (period + 1)) in
  let* prods := bcast nmul weight (pyslice data (i - period) i) in
  Ok (wma ++ [nsum prods / nsum weight]).

(** series.py:182-198. The result is an ndarray, or a Python list when the loop does not run
    ([wma = []] is never passed to [np.append]); the flag tells which. *)
Definition weighted_moving_average (data : list N) (period : Z) : res (bool * list N) :=
  if (period <=? 0)%Z then Raise ValueError else
  if (zlen data <? period)%Z then Raise ValueError else
  let* w := foldM (wma_step data period) [] (zrange period (zlen data)) in
  Ok ((period <? zlen data)%Z, w).

(** [np.linalg.norm] of a 1-D real array. *)
Definition norm2 (x : list N) : N := nsqrt (nsum (map sq x)).
Fixpoint np_diff (l : list N) : list N :=
  match l with
  | x :: ((y :: _) as l') => (y - x) :: np_diff l'
  | _ => []
  end.

(** series.py:213-225. *)
Definition mobility (x : list N) : res N :=
  let array_size := zlen x in
  if (array_size <? 2)%Z then Raise ValueError else
  let arrlinorm := around (norm2 x / #array_size) 4 in
  let derlinorm := norm2 (np_diff x) / #(array_size - 1) in
  Ok (derlinorm / arrlinorm).

(** 2-D real arrays as lists of rows. *)
Definition matrix := list (list N).
Definition mget (m : matrix) (i j : Z) : res N := let* r := getz m i in getz r j.
Definition col (m : matrix) (j : nat) : list N := map (fun r => nth j r #0) m.
(** [m.T] of a matrix with [k] columns. *)
Definition transpose (k : nat) (m : matrix) : matrix := map (col m) (seq 0 k).
Definition dot (a b : list N) : N := nsum (zipwith nmul a b).
(** [a @ b] where [b] has [k] columns; shapes agree at every use. *)
Definition matmul (k : nat) (a b : matrix) : matrix :=
  map (fun r => map (fun j => dot r (col b j)) (seq 0 k)) a.

(** The three inner loops series.py:266-267, 273-274, 280-281. *)
Definition diag_total (t : matrix) (js : list Z) (f : Z -> Z) : res N :=
  foldM (fun total j => let* x := mget t j (f j) in Ok (total + x)) #0 js.

(** series.py:243-286. [cols] is the number of columns of [m]; [descriptive.min]/[max] of two ints are
    [Z.min]/[Z.max], as NumPy integers: [1 / min_length] with a zero [min_length] is infinite (a warning,
    no exception); the Python divisors [i] and [size - i] are never zero. [frequencies] has shape
    (size, 1); line 285 flattens it. *)
Definition diagonal_average (m : matrix) (cols : nat) (length_ size : Z) : res (list N) :=
  let frequencies := repeat #0 (Z.to_nat size) in
  let k := (size - length_ + 1)%Z in
  let min_length := Z.min length_ k in
  let max_length := Z.max length_ k in
  let transformed_data := if (length_ <? k)%Z then m else transpose cols m in
  let* frequencies := foldM (fun fr i =>
      let* total := diag_total transformed_data (zrange 0 i) (fun j => i - 1 - j)%Z in
      setz fr (i - 1) (#1 / #i * total)) frequencies (zrange 1 min_length) in
  let* frequencies := foldM (fun fr i =>
      let* total := diag_total transformed_data (zrange 0 min_length) (fun j => i - 1 - j)%Z in
      setz fr (i - 1) (#1 / #min_length * total)) frequencies (zrange min_length (max_length + 1)) in
  let* frequencies := foldM (fun fr i =>
      let* total := diag_total transformed_data (zrange (i - max_length + 1) (size - max_length + 1)) (fun j => i - j)%Z in
      setz fr i (#1 / #(size - i) * total)) frequencies (zrange max_length size) in
  Ok (map (fun x => around x 4) frequencies).

(** series.py:316-318: column i is [x[i:i + L]]. *)
Definition trajectory (x : list N) (L k : nat) : matrix :=
  map (fun r => map (fun i => nth (i + r) x #0) (seq 0 k)) (seq 0 L).

(** series.py:311, [int(np.ceil(fs / f))]: the frequencies are Python numbers, so division by zero raises; [int] of a NaN
    raises ValueError and of an infinity OverflowError. *)
Definition ssa_window (fs f : N) : res Z :=
  if f =? #0 then Raise ZeroDivisionError
  else if nisnan (fs / f) then Raise ValueError
  else if negb (nisfin (fs / f)) then Raise OverflowError
  else Ok (nceilZ (fs / f)).

(** series.py:311-338. [eigh] is the oracle [np.linalg.eigh]: the matrix of eigenvectors (one per
    column), or LinAlgError. A negative number of rows or columns makes [np.zeros] raise ValueError. *)
Definition ssa (eigh : matrix -> res matrix) (x : list N) (fs f : N) : res (list N) :=
  let* window_length := ssa_window fs f in
  let array_size := zlen x in
  let k := (array_size - window_length + 1)%Z in
  if (k <? 0)%Z || (window_length <? 0)%Z then Raise ValueError else
  let L := Z.to_nat window_length in
  let traj := trajectory x L (Z.to_nat k) in
  let covariance := matmul L traj (transpose (Z.to_nat k) traj) in
  let* eigen := eigh covariance in
  let* mob := mapM (fun i => mobility (col eigen i)) (seq 0 L) in
  let dummy := map (fun i => nsin (#2 * npi * #i * f / fs)) (zrange 0 window_length) in
  let* thresh := mobility dummy in
  let arg := map Z.to_nat (nonzero (map (fun m => m <=? thresh) mob)) in
  let sel := map (fun r => map (fun j => nth j r #0) arg) eigen in
  let proj := matmul L sel (transpose (length arg) sel) in
  diagonal_average (matmul (Z.to_nat k) proj traj) (Z.to_nat k) window_length array_size.

(** series.py:380-390, one measurement. All matrices are 1x1 (A = H = [[1]]; [np.eye(len(state))] is
    [[1]]); [np.linalg.inv] raises LinAlgError on an exactly singular matrix. *)
Definition kalman_step (Q R : N) (state covariance measurement : N) : res (N * N) :=
  let predicted_state := #1 * state in
  let predicted_covariance := #1 * covariance * #1 + Q in
  let s := #1 * predicted_covariance * #1 + R in
  if s =? #0 then Raise LinAlgError else
  let kalman_gain := predicted_covariance * #1 * (#1 / s) in
  let state' := predicted_state + kalman_gain * (measurement - #1 * predicted_state) in
  let covariance' := (#1 - kalman_gain * #1) * predicted_covariance in
  Ok (state', covariance').

Fixpoint kalman_loop (Q R state covariance : N) (data : list N) : res (list N) :=
  match data with
  | [] => Ok []
  | m :: data' =>
      let* (s, c) := kalman_step Q R state covariance m in
      let* rest := kalman_loop Q R s c data' in
      Ok (s :: rest)
  end.

(** series.py:373-392. The result is a Python list of 1x1 arrays, here their entries. *)
Definition kalman_filter (data : list N) (initial_state initial_covariance process_noise measurement_noise : N)
  : res (list N) :=
  kalman_loop process_noise measurement_noise initial_state initial_covariance data.

End Series.
