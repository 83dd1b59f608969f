(** Model of proadv/filtration/replacement/replacements.py.
    [velocities] is a 1-D array: its elements and dtype; [spike_indices] a 1-D integer array. *)
From Verif Require Export M_series.

Section Replacement.
Context {N : Num}.
Local Open Scope num_scope.

(** replacements.py:25-31. [modified_data] has the dtype of [velocities]: copying an element inside
    it never converts. *)
Definition last_valid_data (velocities : list N) (spike_indices : list Z) : res (list N) :=
  foldM (fun modified_data idx =>
    let* v := getz modified_data (idx - 1) in setz modified_data idx v) velocities spike_indices.

(** A value assigned to elements of a float or int array: a number, or the text 'Invalid input.'
    (not convertible: ValueError); NaN into an integer array is a ValueError as well. The conversion
    happens before the indices are checked, and also when no element is assigned. *)
Definition storable (dt : dtype) (o : mean_out N) : res N :=
  match o with
  | MVal x => match dt with
              | DFloat => Ok x
              | DInt => if nisnan x then Raise ValueError else Ok (ntrunc x)
              end
  | MSame v => to_num v
  | MInvalid => Raise ValueError
  end.

(** replacements.py:52-57. *)
Definition mean_value (dt : dtype) (velocities : list N) (spike_indices : list Z) : res (list N) :=
  let* m := mean_of velocities in
  let* v := storable dt m in
  fancy_set velocities spike_indices v.

(** replacements.py:78-83. *)
Definition median_value (dt : dtype) (velocities : list N) (spike_indices : list Z) : res (list N) :=
  let* m := desc_median (farr velocities) in
  let* v := storable dt (MVal m) in
  fancy_set velocities spike_indices v.

(** [a[lo:hi] = v] (scalar v). *)
Definition slice_set (l : list N) (lo hi : Z) (v : N) : list N :=
  let n := zlen l in
  let a := Z.to_nat (slice_bound n lo) in let b := Z.to_nat (slice_bound n hi) in
  map (fun p => if Nat.leb a (fst p) && Nat.ltb (fst p) b then v else snd p)
      (combine (seq 0 (length l)) l).

(** [a[~np.isnan(a)]] *)
Definition valid_only (l : list N) : list N := filter (fun x => negb (nisnan x)) l.

(** [np.nanmean]: NaNs replaced by 0 in the sum and left out of the count. *)
Definition np_nanmean (l : list N) : N :=
  nsum (map (fun x => if nisnan x then #0 else x) l) / #(zlen (valid_only l)).

(** replacements.py:138-155, one spike sequence. *)
Definition li_run (velocities modified_data : list N) (start end_ : Z) : res (list N) :=
  let* valid_start := if (start >? 0)%Z then getz modified_data (start - 1) else Ok nnan in
  let* valid_end := if (end_ <? zlen velocities - 1)%Z then getz modified_data (end_ + 1) else Ok nnan in
  if negb (nisnan valid_start) && negb (nisnan valid_end) then
    let step := (valid_end - valid_start) / #(end_ - start + 2) in
    foldM (fun m p => setz m (snd p) (valid_start + step * #(fst p + 1))) modified_data
      (combine (zrange 0 (end_ + 1 - start)) (zrange start (end_ + 1)))
  else if nisnan valid_end then
    let* m := mean_of (valid_only velocities) in
    let* v := storable DFloat m in
    Ok (slice_set modified_data start (end_ + 1) v)
  else
    Ok (slice_set modified_data start (end_ + 1) (np_nanmean [valid_start; valid_end])).

(** replacements.py:124-158. Storing NaN into an integer array raises ValueError (line 127). *)
Definition linear_interpolation (dt : dtype) (velocities : list N) (spike_indices : list Z) (decimals : Z)
  : res (list N) :=
  match dt with
  | DInt => Raise ValueError
  | DFloat =>
      let* modified_data := fancy_set velocities spike_indices nnan in
      let gaps := map (fun d => (1 <? d)%Z) (zdiff spike_indices) in
      let* spike_starts := mask_get spike_indices (true :: gaps) in
      let* spike_ends := mask_get spike_indices (gaps ++ [true]) in
      let* modified_data := foldM (fun m se => li_run velocities m (fst se) (snd se)) modified_data
                              (combine spike_starts spike_ends) in
      Ok (map (fun x => around x decimals) modified_data)
  end.

(** [np.delete(a, k)] for a literal k >= 0. *)
Definition np_delete (l : list N) (k : nat) : res (list N) :=
  if Nat.ltb k (length l) then Ok (firstn k l ++ skipn (S k) l) else Raise IndexError.

(** The abscissae of replacements.py:199. *)
Definition cubic_x : list Z := zrange 1 13 ++ zrange 14 26.

(** replacements.py:203-212, one spike. [spline x y t] is the oracle [interp1d(x, y, 3)(t)] for
    arrays of the same length; interp1d raises ValueError when the lengths differ. *)
Definition cubic_step (spline : list Z -> list N -> Z -> N) (velocities modified_data : list N) (i : Z)
  : res (list N) :=
  if (i <=? 30)%Z || (i >=? zlen velocities - 30)%Z then
    let* prev := getz velocities (i - 1) in
    let* next := getz (valid_only (pyslice_from modified_data i)) 0 in
    setz modified_data i (around ((prev + next) / #2) 4)
  else
    let* yint := np_delete (pyslice velocities (i - 13) i
                            ++ pyslice (valid_only (pyslice_from modified_data i)) 0 12) 12 in
    if negb (zlen cubic_x =? zlen yint)%Z then Raise ValueError else
    setz modified_data i (spline cubic_x yint 13%Z).

(** replacements.py:193-213. *)
Definition cubic_12points_polynomial (spline : list Z -> list N -> Z -> N) (dt : dtype)
  (velocities : list N) (spike_indices : list Z) (decimals : Z) : res (list N) :=
  match dt with
  | DInt => Raise ValueError
  | DFloat =>
      let* modified_data := fancy_set velocities spike_indices nnan in
      let* modified_data := foldM (cubic_step spline velocities) modified_data spike_indices in
      Ok (map (fun x => around x decimals) modified_data)
  end.

(** [modified_data[spike_indices] = a[spike_indices]] for an ndarray [a]. *)
Definition take_from (dt : dtype) (modified_data a : list N) (spike_indices : list Z) : res (list N) :=
  let* vs := fancy_get a spike_indices in
  fancy_set_many modified_data spike_indices (map (store dt) vs).

(** replacements.py:236-243. *)
Definition repl_sma (dt : dtype) (velocities : list N) (spike_indices : list Z) (window_size : Z) : res (list N) :=
  let* sma := moving_average 1 velocities window_size in
  take_from dt velocities sma spike_indices.

(** replacements.py:266-273. *)
Definition repl_ema (dt : dtype) (velocities : list N) (spike_indices : list Z) (alpha : N) : res (list N) :=
  let* ema := exponential_moving_average dt velocities alpha in
  take_from dt velocities ema spike_indices.

(** replacements.py:296-303. A Python list indexed by an array raises TypeError. *)
Definition repl_wma (dt : dtype) (velocities : list N) (spike_indices : list Z) (period : Z) : res (list N) :=
  let* (is_array, wma) := weighted_moving_average velocities period in
  if negb is_array then Raise TypeError else take_from dt velocities wma spike_indices.

(** replacements.py:326-333. *)
Definition repl_ssa (eigh : @matrix N -> res matrix) (dt : dtype) (velocities : list N) (spike_indices : list Z)
  (fs f : N) : res (list N) :=
  let* xf := ssa eigh velocities fs f in
  take_from dt velocities xf spike_indices.

(** The [spike_indices] argument of kalman_filter: an array (or list), or one integer. *)
Inductive spike_arg := SArr (l : list Z) | SInt (i : Z).

(** replacements.py:358-364. The filter returns a Python list: an array index raises TypeError, an
    integer index works. No return statement: the call yields None. *)
Definition repl_kalman (dt : dtype) (velocities : list N) (spike_indices : spike_arg)
  (initial_state initial_covariance process_noise measurement_noise : N) : res (option (list N)) :=
  let* filtered := kalman_filter velocities initial_state initial_covariance process_noise measurement_noise in
  match spike_indices with
  | SArr _ => Raise TypeError
  | SInt i => let* v := getz filtered i in
              let* modified_data := setz velocities i (store dt v) in
              Ok None
  end.

(** replacements.py:384-390. [regress y x t degree] is the oracle: least-squares polynomial fit by
    scikit-learn evaluated at [t] (it raises ValueError on NaN); scikit-learn itself rejects empty
    arrays and arrays of different lengths with ValueError. *)
Definition create_model (regress : list N -> list Z -> Z -> Z -> res N) (velocities : list N)
  (velocities_indices : list Z) (spike degree : Z) : res N :=
  if (zlen velocities_indices =? 0)%Z || negb (zlen velocities_indices =? zlen velocities)%Z
  then Raise ValueError else regress velocities velocities_indices spike degree.

(** [spike_indices[np.where(spike_indices < 10)[0]].squeeze()] handed to linear_interpolation: exactly
    one element gives a 0-d array, on which [np.diff] raises ValueError. *)
Definition li_squeezed (dt : dtype) (modified_data : list N) (idx : list Z) (decimals : Z) : res (list N) :=
  match idx with
  | [i] => match dt with
           | DInt => Raise ValueError
           | DFloat => let* _ := setz modified_data i nnan in Raise ValueError
           end
  | _ => linear_interpolation dt modified_data idx decimals
  end.

(** replacements.py:418-433, one spike; the state is [modified_data] and [a]. *)
Definition poly_step (regress : list N -> list Z -> Z -> Z -> res N) (dt : dtype) (spike_indices : list Z)
  (window degree decimals : Z) (s : list N * Z) (i : Z) : res (list N * Z) :=
  let (modified_data, a) := s in
  if (i =? 0)%Z then
    let* v := storable dt (MVal (np_mean modified_data)) in
    let* m := setz modified_data i v in Ok (m, a)
  else if ((1 <=? i) && (i <=? 10))%Z then
    if (a =? 0)%Z then
      let* m := li_squeezed dt modified_data (filter (fun j => (j <? 10)%Z) spike_indices) decimals in
      Ok (m, a + 1)%Z
    else Ok (modified_data, a)
  else if ((11 <=? i) && (i <=? window - 1))%Z then
    let* v := create_model regress (pyslice modified_data 0 i) (zrange 0 i) i degree in
    let* v := storable dt (MVal v) in
    let* m := setz modified_data i v in Ok (m, a)
  else
    let* v := create_model regress (pyslice modified_data (i - window) i) (zrange (i - window) i) i degree in
    let* v := storable dt (MVal v) in
    let* m := setz modified_data i v in Ok (m, a).

(** [np.around] of an array: an integer array is returned as it is for [decimals >= 0]. *)
Definition around_arr (dt : dtype) (l : list N) (decimals : Z) : list N :=
  match dt with
  | DInt => if (0 <=? decimals)%Z then l else map (fun x => around x decimals) l
  | DFloat => map (fun x => around x decimals) l
  end.

(** replacements.py:415-435 for a 1-D index array: one index squeezes to a 0-d array, and iterating it
    raises TypeError. *)
Definition polynomial_replacement (regress : list N -> list Z -> Z -> Z -> res N) (dt : dtype)
  (velocities : list N) (spike_indices : list Z) (window degree decimals : Z) : res (list N) :=
  match spike_indices with
  | [_] => Raise TypeError
  | _ =>
      let* s := foldM (poly_step regress dt spike_indices window degree decimals) (velocities, 0%Z) spike_indices in
      Ok (around_arr dt (fst s) decimals)
  end.

End Replacement.
