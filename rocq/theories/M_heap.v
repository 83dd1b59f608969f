(** Heap model of the functions that assign to array elements: replacements.py (all twelve functions),
    the two averages of series.py they call, and phasespace.py 126-173. An array is an address; the elements are reached
    through the heap, so every function that writes to an array the caller holds shows it. The values
    written are those of the pure models (M_replacement, M_series, M_detection). *)
From Verif Require Export M_replacement M_detection.

Section Heap.
Context {N : Num}.
Local Open Scope num_scope.

(** A 1-D data array (with its dtype) or a 1-D index array. *)
Inductive cell := Data (dt : dtype) (l : list N) | Index (l : list Z).
Definition heap := list cell.

(** A computation: the heap after it, also when it ends in an exception. *)
Definition M (A : Type) := heap -> heap * res A.
Definition mret {A} (a : A) : M A := fun h => (h, Ok a).
Definition lift {A} (r : res A) : M A := fun h => (h, r).
Definition mbind {A B} (m : M A) (k : A -> M B) : M B :=
  fun h => match m h with (h', Ok a) => k a h' | (h', Raise e) => (h', Raise e) end.
Local Notation "'do' x <- m ; k" := (mbind m (fun x => k)) (at level 61, x binder, m at next level, right associativity).
Fixpoint mfor {I} (body : I -> M unit) (l : list I) : M unit :=
  match l with [] => mret tt | i :: l' => do _ <- body i; mfor body l' end.

(** A new array object. *)
Definition h_alloc (c : cell) : M nat := fun h => (h ++ [c], Ok (length h)).
(** The elements of an array (an address of another kind does not occur). *)
Definition h_data (a : nat) : M (dtype * list N) :=
  fun h => (h, match nth_error h a with Some (Data dt l) => Ok (dt, l) | _ => Raise AssertionError end).
Definition h_index (a : nat) : M (list Z) :=
  fun h => (h, match nth_error h a with Some (Index l) => Ok l | _ => Raise AssertionError end).
(** An assignment to elements of array [a]; nothing is written when it raises. *)
Definition h_update (a : nat) (f : list N -> res (list N)) : M unit :=
  fun h => match nth_error h a with
           | Some (Data dt l) => match f l with
                                 | Ok l' => (upd h a (Data dt l'), Ok tt)
                                 | Raise e => (h, Raise e)
                                 end
           | _ => (h, Raise AssertionError)
           end.
(** [np.copy(a)], [a.copy()] *)
Definition h_copy (a : nat) : M nat := do d <- h_data a; h_alloc (Data (fst d) (snd d)).

(** replacements.py:25-31. *)
Definition h_last_valid_data (velocities spikes : nat) : M nat :=
  do m <- h_copy velocities;
  do idx <- h_index spikes;
  do _ <- mfor (fun i => do d <- h_data m;
                         do v <- lift (getz (snd d) (i - 1));
                         h_update m (fun l => setz l i v)) idx;
  mret m.

(** replacements.py:52-57. *)
Definition h_mean_value (velocities spikes : nat) : M nat :=
  do m <- h_copy velocities;
  do d <- h_data velocities;
  do o <- lift (mean_of (snd d));
  do v <- lift (storable (fst d) o);
  do idx <- h_index spikes;
  do _ <- h_update m (fun l => fancy_set l idx v);
  mret m.

(** replacements.py:78-83. *)
Definition h_median_value (velocities spikes : nat) : M nat :=
  do m <- h_copy velocities;
  do d <- h_data velocities;
  do o <- lift (desc_median (farr (snd d)));
  do v <- lift (storable (fst d) (MVal o));
  do idx <- h_index spikes;
  do _ <- h_update m (fun l => fancy_set l idx v);
  mret m.

(** Filling an array with NaN at the spikes; an integer array cannot hold NaN. *)
Definition h_nan (m : nat) (idx : list Z) : M unit :=
  do d <- h_data m;
  match fst d with
  | DInt => lift (Raise ValueError)
  | DFloat => h_update m (fun l => fancy_set l idx nnan)
  end.

(** replacements.py:138-155, one spike sequence. *)
Definition h_li_run (velocities m : nat) (start end_ : Z) : M unit :=
  do dv <- h_data velocities;
  do d <- h_data m;
  do valid_start <- lift (if (start >? 0)%Z then getz (snd d) (start - 1) else Ok nnan);
  do valid_end <- lift (if (end_ <? zlen (snd dv) - 1)%Z then getz (snd d) (end_ + 1) else Ok nnan);
  if negb (nisnan valid_start) && negb (nisnan valid_end) then
    let step := (valid_end - valid_start) / #(end_ - start + 2) in
    mfor (fun p => h_update m (fun l => setz l (snd p) (valid_start + step * #(fst p + 1))))
      (combine (zrange 0 (end_ + 1 - start)) (zrange start (end_ + 1)))
  else if nisnan valid_end then
    do o <- lift (mean_of (valid_only (snd dv)));
    do v <- lift (storable DFloat o);
    h_update m (fun l => Ok (slice_set l start (end_ + 1) v))
  else
    h_update m (fun l => Ok (slice_set l start (end_ + 1) (np_nanmean [valid_start; valid_end]))).

(** replacements.py:124-158. *)
Definition h_linear_interpolation (velocities spikes : nat) (decimals : Z) : M nat :=
  do m <- h_copy velocities;
  do idx <- h_index spikes;
  do _ <- h_nan m idx;
  let gaps := map (fun d => (1 <? d)%Z) (zdiff idx) in
  do spike_starts <- lift (mask_get idx (true :: gaps));
  do spike_ends <- lift (mask_get idx (gaps ++ [true]));
  do _ <- mfor (fun se => h_li_run velocities m (fst se) (snd se)) (combine spike_starts spike_ends);
  do d <- h_data m;
  h_alloc (Data DFloat (map (fun x => around x decimals) (snd d))).

(** replacements.py:193-213. *)
Definition h_cubic (spline : list Z -> list N -> Z -> N) (velocities spikes : nat) (decimals : Z) : M nat :=
  do m <- h_copy velocities;
  do idx <- h_index spikes;
  do _ <- h_nan m idx;
  do _ <- mfor (fun i =>
    do dv <- h_data velocities;
    do d <- h_data m;
    if (i <=? 30)%Z || (i >=? zlen (snd dv) - 30)%Z then
      do prev <- lift (getz (snd dv) (i - 1));
      do next <- lift (getz (valid_only (pyslice_from (snd d) i)) 0);
      h_update m (fun l => setz l i (around ((prev + next) / #2) 4))
    else
      do yint <- lift (np_delete (pyslice (snd dv) (i - 13) i
                                  ++ pyslice (valid_only (pyslice_from (snd d) i)) 0 12) 12);
      if negb (zlen cubic_x =? zlen yint)%Z then lift (Raise ValueError) else
      h_update m (fun l => setz l i (spline cubic_x yint 13%Z))) idx;
  do d <- h_data m;
  h_alloc (Data DFloat (map (fun x => around x decimals) (snd d))).

(** series.py:46-78 for a 1-D array. *)
Definition h_moving_average (data : nat) (window_size : Z) : M nat :=
  do d <- h_data data;
  if (window_size <=? 0)%Z then lift (Raise ValueError) else
  if (zlen (snd d) =? 0)%Z then h_alloc (Data DFloat []) else
  if (zlen (snd d) <? window_size)%Z then lift (Raise ValueError) else
  do ma <- h_alloc (Data DFloat (repeat #0 (length (snd d))));
  do _ <- mfor (fun i => do d <- h_data data;
                         do m <- lift (mean_num (pyslice (snd d) 0 (i + 1)));
                         h_update ma (fun l => setz l i m)) (zrange 0 window_size);
  do _ <- mfor (fun i => do d <- h_data data;
                         do e <- h_data ma;
                         do prev <- lift (getz (snd e) (i - 1));
                         do a <- lift (getz (snd d) i);
                         do b <- lift (getz (snd d) (i - window_size));
                         h_update ma (fun l => setz l i (prev + (a - b) / #window_size)))
            (zrange window_size (zlen (snd d)));
  mret ma.

(** series.py:117-139. *)
Definition h_exponential_moving_average (data : nat) (alpha : N) : M nat :=
  do d <- h_data data;
  if (alpha <=? #0) || (alpha >? #1) then lift (Raise ValueError) else
  do ema <- h_alloc (Data (fst d) (repeat #0 (length (snd d))));
  do d0 <- lift (getz (snd d) 0);
  do _ <- h_update ema (fun l => setz l 0 (store (fst d) d0));
  do _ <- mfor (fun i => do d <- h_data data;
                         do x <- lift (getz (snd d) i);
                         do e <- h_data ema;
                         do y <- lift (getz (snd e) (i - 1));
                         h_update ema (fun l => setz l i (store (fst e) (alpha * x + (#1 - alpha) * y))))
            (zrange 1 (zlen (snd d)));
  mret ema.

(** [modified_data[spike_indices] = a[spike_indices]] for an array [a]. *)
Definition h_take_from (m a : nat) (idx : list Z) : M unit :=
  do d <- h_data a;
  do vs <- lift (fancy_get (snd d) idx);
  do e <- h_data m;
  h_update m (fun l => fancy_set_many l idx (map (store (fst e)) vs)).

(** replacements.py:236-243. *)
Definition h_sma (velocities spikes : nat) (window_size : Z) : M nat :=
  do m <- h_copy velocities;
  do sma <- h_moving_average m window_size;
  do idx <- h_index spikes;
  do _ <- h_take_from m sma idx;
  mret m.
(** replacements.py:266-273. *)
Definition h_ema (velocities spikes : nat) (alpha : N) : M nat :=
  do m <- h_copy velocities;
  do ema <- h_exponential_moving_average m alpha;
  do idx <- h_index spikes;
  do _ <- h_take_from m ema idx;
  mret m.
(** replacements.py:296-303. weighted_moving_average builds its result with [np.append] only. *)
Definition h_wma (velocities spikes : nat) (period : Z) : M nat :=
  do m <- h_copy velocities;
  do d <- h_data m;
  do w <- lift (weighted_moving_average (snd d) period);
  do idx <- h_index spikes;
  if negb (fst w) then lift (Raise TypeError) else
  do wma <- h_alloc (Data DFloat (snd w));
  do _ <- h_take_from m wma idx;
  mret m.
(** replacements.py:326-333. series.ssa assigns to elements of its own matrices only. *)
Definition h_ssa (eigh : @matrix N -> res matrix) (velocities spikes : nat) (fs f : N) : M nat :=
  do m <- h_copy velocities;
  do d <- h_data m;
  do xf <- lift (ssa eigh (snd d) fs f);
  do x <- h_alloc (Data DFloat xf);
  do idx <- h_index spikes;
  do _ <- h_take_from m x idx;
  mret m.

(** replacements.py:358-364; [spikes] is an index array or one integer. The call yields None. *)
Definition h_kalman (velocities : nat) (spikes : nat + Z) (x0 p0 q r : N) : M unit :=
  do m <- h_copy velocities;
  do d <- h_data m;
  do filtered <- lift (kalman_filter (snd d) x0 p0 q r);
  match spikes with
  | inl _ => lift (Raise TypeError)
  | inr i => do v <- lift (getz filtered i);
             h_update m (fun l => setz l i (store (fst d) v))
  end.

(** replacements.py:421-425: the index array [spike_indices[np.where(spike_indices < 10)[0]].squeeze()] is new;
    with exactly one element it is 0-d, the copy inside linear_interpolation gets its NaN and [np.diff] raises. *)
Definition h_li_squeezed (m : nat) (idx : list Z) (decimals : Z) : M nat :=
  match idx with
  | [i] => do m' <- h_copy m;
           do d <- h_data m';
           match fst d with
           | DInt => lift (Raise ValueError)
           | DFloat => do _ <- h_update m' (fun l => setz l i nnan); lift (Raise ValueError)
           end
  | _ => do s <- h_alloc (Index idx); h_linear_interpolation m s decimals
  end.

(** replacements.py:418-433, one spike; the loop variables are the name [modified_data] (which is rebound) and
    [a]. *)
Definition h_poly_step (regress : list N -> list Z -> Z -> Z -> res N) (idx : list Z)
  (window degree decimals : Z) (s : nat * Z) (i : Z) : M (nat * Z) :=
  let (m, a) := s in
  do d <- h_data m;
  if (i =? 0)%Z then
    do v <- lift (storable (fst d) (MVal (np_mean (snd d))));
    do _ <- h_update m (fun l => setz l i v); mret (m, a)
  else if ((1 <=? i) && (i <=? 10))%Z then
    if (a =? 0)%Z then
      do m' <- h_li_squeezed m (filter (fun j => (j <? 10)%Z) idx) decimals;
      mret (m', a + 1)%Z
    else mret (m, a)
  else if ((11 <=? i) && (i <=? window - 1))%Z then
    do v <- lift (create_model regress (pyslice (snd d) 0 i) (zrange 0 i) i degree);
    do v <- lift (storable (fst d) (MVal v));
    do _ <- h_update m (fun l => setz l i v); mret (m, a)
  else
    do v <- lift (create_model regress (pyslice (snd d) (i - window) i) (zrange (i - window) i) i degree);
    do v <- lift (storable (fst d) (MVal v));
    do _ <- h_update m (fun l => setz l i v); mret (m, a).
Fixpoint h_poly_loop (step : nat * Z -> Z -> M (nat * Z)) (s : nat * Z) (l : list Z) : M (nat * Z) :=
  match l with [] => mret s | i :: l' => do s' <- step s i; h_poly_loop step s' l' end.

(** replacements.py:415-435. [np.around] of an integer array may return the array itself; it is the local copy. *)
Definition h_polynomial (regress : list N -> list Z -> Z -> Z -> res N) (velocities spikes : nat)
  (window degree decimals : Z) : M nat :=
  do m <- h_copy velocities;
  do idx <- h_index spikes;
  match idx with
  | [_] => lift (Raise TypeError)
  | _ => do s <- h_poly_loop (h_poly_step regress idx window degree decimals) (m, 0%Z) idx;
         do d <- h_data (fst s);
         h_alloc (Data (fst d) (around_arr (fst d) (snd d) decimals))
  end.

(** phasespace.py:156-173: no copy is made; the returned object is the argument. *)
Definition h_premodification (data : nat) (c1 c2 : N) : M (nat * list Z) :=
  do dd <- h_data data;
  let d := snd dd in
  let med := np_median d in
  let theta := np_median (map (fun x => nabs (x - med)) d) in
  let unremovable := intersect1d (nonzero (map (fun x => x >=? (- c1) * theta) d))
                                 (nonzero (map (fun x => x <=? c1 * theta) d)) in
  let removable_threshold := c2 * theta * nsqrt (#2 * nlog #(zlen d)) in
  let removable := intersect1d (nonzero (map (fun x => x >? removable_threshold) d))
                               (nonzero (map (fun x => x <? - removable_threshold) d)) in
  do _ <- mfor (fun i => do d <- h_data data;
                         do v <- lift (getz (snd d) (i - 1));
                         h_update data (fun l => setz l i v)) removable;
  mret (data, unremovable).
End Heap.
Arguments cell N : clear implicits.
Arguments heap N : clear implicits.
