(** Model of proadv/statistics/descriptive.py, spread.py and moment.py. *)
From Verif Require Export NpBase.

Section Descriptive.
Context {N : Num}.
Local Open Scope num_scope.

(** An element of a Python sequence or NumPy array handed to these functions.
    [PyInt]: Python int; [PyFloat]: Python float or np.float64 (a subclass of float);
    [NpInt]: a NumPy integer scalar, which is NOT an instance of int; [PyStr]: str or np.str_.
    Simplification: integers are converted with [nofZ] before arithmetic (NumPy sums all-integer
    lists exactly, the difference is visible only beyond 2^53). *)
Inductive pyval := PyInt (z : Z) | PyFloat (x : N) | NpInt (z : Z) | PyStr (s : string).

Definition is_str (v : pyval) : bool := match v with PyStr _ => true | _ => false end.
(** [isinstance(item, (int, float))] *)
Definition is_int_or_float (v : pyval) : bool :=
  match v with PyInt _ | PyFloat _ => true | _ => false end.
(** The element as a number once the sequence became a numeric NumPy array; a string makes NumPy
    reductions fail with TypeError. *)
Definition to_num (v : pyval) : res N :=
  match v with
  | PyInt z | NpInt z => Ok #z
  | PyFloat x => Ok x
  | PyStr _ => Raise TypeError
  end.

(** An ndarray: number of dimensions and the elements met when iterating/flattening. *)
Record nda := NDA { nd_ndim : Z; nd_items : list pyval }.

(** [np.min], [np.max] of a non-empty NaN-free array. *)
Definition np_min (x : N) (l : list N) : N := fold_left (fun m y => if y <? m then y else m) l x.
Definition np_max (x : N) (l : list N) : N := fold_left (fun m y => if y >? m then y else m) l x.

(** descriptive.py:53-63 (the loop 53-56, the NaN test 57, the emptiness test 59, [np.min] 62). *)
Definition desc_min (data : list pyval) : res N :=
  if existsb is_str data then Raise TypeError else
  let* xs := mapM to_num data in
  if existsb nisnan xs then Raise ValueError else
  match xs with
  | [] => Raise ValueError
  | x :: xs' => Ok (np_min x xs')
  end.

(** descriptive.py:119-132. *)
Definition desc_max (data : list pyval) : res N :=
  if existsb is_str data then Raise TypeError else
  let* xs := mapM to_num data in
  if existsb nisnan xs then Raise ValueError else
  match xs with
  | [] => Raise ValueError
  | x :: xs' => Ok (np_max x xs')
  end.

(** [np.mean] of a 1-D array. *)
Definition np_mean (l : list N) : N := nsum l / #(zlen l).

(** The argument of [mean] (a bare number, a sequence, a str) and its result. *)
Inductive mean_arg := ANum (v : pyval) | ASeq (l : list pyval) | AStr (s : string).
Inductive mean_out := MVal (v : N) | MSame (v : pyval) | MInvalid.

(** [array.index(item)] for a string item, then [array[index] = float(item)]: replaces the first
    element equal to the string.  [None] when the string is absent (list.index raises ValueError). *)
Fixpoint replace_first (s : string) (x : N) (l : list pyval) : option (list pyval) :=
  match l with
  | [] => None
  | PyStr t :: l' =>
      if String.eqb t s then Some (PyFloat x :: l')
      else option_map (cons (PyStr t)) (replace_first s x l')
  | v :: l' => option_map (cons v) (replace_first s x l')
  end.

(** One iteration of the loop descriptive.py:210-221 over the ORIGINAL elements ([array] is rebound
    inside the loop, the iterator is not).  [parse] is [float(str)], an oracle: None = ValueError.
    [array.index] is evaluated before [float], both failures are handled alike. *)
Definition mean_step (parse : string -> option N) (array : list pyval) (item : pyval) : list pyval :=
  match item with
  | PyStr s =>
      match parse s with
      | Some x =>
          match replace_first s x array with
          | Some a => a
          | None => filter is_int_or_float array
          end
      | None => filter is_int_or_float array
      end
  | _ => array
  end.

(** [np.sum(array) / np.size(array)] *)
Definition sum_over_size (array : list pyval) : res N :=
  let* xs := mapM to_num array in Ok (nsum xs / #(zlen array)).

(** The characters of a str, as iteration yields them. *)
Fixpoint chars (s : string) : list pyval :=
  match s with
  | EmptyString => []
  | String c s' => PyStr (String c EmptyString) :: chars s'
  end.

(** descriptive.py:197-226. A [NpInt] bare number is not an int instance: it is a 0-d value and
    iterating it raises TypeError. [np.size(np.array(s)) = 1] for every str [s], also for "". *)
Definition desc_mean (parse : string -> option N) (array : mean_arg) : res mean_out :=
  match array with
  | ANum v => if is_int_or_float v then Ok (MSame v) else Raise TypeError
  | ASeq l =>
      if negb (Nat.eqb (length l) 0) && forallb is_int_or_float l then
        let* m := sum_over_size l in Ok (MVal m)
      else if negb (Nat.eqb (length l) 0) then
        let* m := sum_over_size (fold_left (mean_step parse) l l) in Ok (MVal m)
      else Ok MInvalid
  | AStr s =>
      match s with
      | EmptyString => Raise TypeError   (* np.sum of the 0-d string array *)
      | _ => let* m := sum_over_size (fold_left (mean_step parse) (chars s) (chars s)) in Ok (MVal m)
      end
  end.

(** [np.sort] of a float array: ascending, NaN last. *)
Fixpoint insert_le (x : N) (l : list N) : list N :=
  match l with
  | [] => [x]
  | y :: l' => if x <=? y then x :: l else y :: insert_le x l'
  end.
Definition isort (l : list N) : list N := fold_right insert_le [] l.
Definition np_sort (l : list N) : list N :=
  isort (filter (fun x => negb (nisnan x)) l) ++ filter nisnan l.

(** [np.median] of a non-empty array (numpy.lib.function_base._median): NaN if any NaN, otherwise the
    mean of the slice with the middle element (odd size) or the two middle elements (even size). *)
Definition np_median (l : list N) : N :=
  if existsb nisnan l then nnan else
  let n := length l in
  let s := np_sort l in
  let h := (n / 2)%nat in
  np_mean (if Nat.odd n then firstn 1 (skipn h s) else firstn 2 (skipn (h - 1) s)).

(** descriptive.py:272-282. *)
Definition desc_median (data : nda) : res N :=
  if negb (nd_ndim data =? 1)%Z then Raise ValueError else
  if existsb is_str (nd_items data) then Raise TypeError else
  match nd_items data with
  | [] => Raise ValueError
  | _ => let* xs := mapM to_num (nd_items data) in Ok (np_median xs)
  end.

(** [np.unique(data, return_counts=True)]: runs of equal elements of the sorted array; all NaNs
    form one run ([equal_nan=True]). *)
Definition same_val (x y : N) : bool := (x =? y) || (nisnan x && nisnan y).
Fixpoint runs (l : list N) : list (N * nat) :=
  match l with
  | [] => []
  | x :: l' =>
      match runs l' with
      | (y, k) :: r => if same_val x y then (x, S k) :: r else (x, 1%nat) :: (y, k) :: r
      | [] => [(x, 1%nat)]
      end
  end.
Definition np_unique_counts (l : list N) : list (N * nat) := runs (np_sort l).

(** First pair with the largest count ([np.argmax] returns the first maximum). *)
Definition first_max (p : N * nat) (l : list (N * nat)) : N * nat :=
  fold_left (fun best q => if Nat.ltb (snd best) (snd q) then q else best) l p.

(** descriptive.py:321-325; [np.argmax] of an empty array raises ValueError. Numeric data only. *)
Definition desc_mode (data : list N) : res (N * nat) :=
  match np_unique_counts data with
  | [] => Raise ValueError
  | p :: l => Ok (first_max p l)
  end.

(** [np.var]: mean of the squared deviations; [np.std] its square root. *)
Definition np_var (l : list N) : N :=
  let m := np_mean l in np_mean (map (fun x => sq (x - m)) l).
Definition np_std (l : list N) : N := nsqrt (np_var l).

(** spread.py:47-57. *)
Definition spread_variance (data : nda) : res N :=
  if negb (nd_ndim data =? 1)%Z then Raise ValueError else
  if existsb is_str (nd_items data) then Raise TypeError else
  match nd_items data with
  | [] => Raise ValueError
  | _ => let* xs := mapM to_num (nd_items data) in Ok (np_var xs)
  end.

(** spread.py:108-119. *)
Definition spread_std (data : nda) : res N :=
  if negb (nd_ndim data =? 1)%Z then Raise ValueError else
  if existsb is_str (nd_items data) then Raise TypeError else
  match nd_items data with
  | [] => Raise ValueError
  | _ => let* xs := mapM to_num (nd_items data) in Ok (np_std xs)
  end.

(** A 1-D float array as argument of the functions above. *)
Definition farr (l : list N) : nda := NDA 1 (map PyFloat l).

(** [mean] applied to a 1-D float array and used as a number: no string is parsed; the text
    'Invalid input.' in arithmetic raises TypeError (UFuncTypeError). *)
Definition mean_of (l : list N) : res mean_out := desc_mean (fun _ => None) (ASeq (map PyFloat l)).
Definition as_num (o : mean_out) : res N :=
  match o with MVal x => Ok x | MSame v => to_num v | MInvalid => Raise TypeError end.

(** moment.py:58-66, on a 1-D float array. *)
Definition moment_skewness (data : list N) : res N :=
  let n := zlen data in
  let* average := mean_of data in
  let* std_dev := spread_std (farr data) in
  let* a := as_num average in
  Ok (nsum (map (fun x => nipow (x - a) 3) data) / (#n * nipow std_dev 3)).

(** moment.py:108-122, on a 1-D float array. *)
Definition moment_kurtosis (x : list N) : res N :=
  let* average := mean_of x in
  let* standard_dev := spread_std (farr x) in
  let* a := as_num average in
  let* m4 := mean_of (map (fun v => nipow (v - a) 4) x) in
  let* fourth_moment := as_num m4 in
  Ok (fourth_moment / nipow standard_dev 4).

End Descriptive.
Arguments pyval : clear implicits.
Arguments nda : clear implicits.
Arguments mean_arg : clear implicits.
Arguments mean_out : clear implicits.
