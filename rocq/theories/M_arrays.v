(** The kind of container handed to the descriptive functions: a Python list or a NumPy array. *)
From Verif Require Export M_descriptive.
Section Arrays.
Context {N : Num}.
Local Open Scope num_scope.

(** What the parameter descriptions call array_like. An array of dimension other than 1 is given by its dimension and its
    elements in C order; a Python list is flat. *)
Inductive container := CList (items : list (pyval N)) | CArr (a : nda N).

(** spread.py:47, spread.py:108, descriptive.py:272: the first thing read is [data.ndim], an attribute lists do not have. *)
Definition variance_c (data : container) : res N :=
  match data with CList _ => Raise AttributeError | CArr a => spread_variance a end.
Definition std_c (data : container) : res N :=
  match data with CList _ => Raise AttributeError | CArr a => spread_std a end.
Definition median_c (data : container) : res N :=
  match data with CList _ => Raise AttributeError | CArr a => desc_median a end.

(** descriptive.py:197-226 on a container. Iterating a 0-d array raises TypeError. From dimension 2 on the items of the loops
    are arrays: neither numbers nor strings, so a non-empty array gets the sum of all elements over their number. *)
Definition mean_c (parse : string -> option N) (array : container) : res (mean_out N) :=
  match array with
  | CList items => desc_mean parse (ASeq items)
  | CArr (NDA ndim items) =>
      if (ndim <=? 0)%Z then Raise TypeError
      else if (ndim =? 1)%Z then desc_mean parse (ASeq items)
      else match items with [] => Ok MInvalid | _ => let* m := sum_over_size items in Ok (MVal m) end
  end.

(** moment.py:58-66. The arithmetic on [data] is reached only for an array of dimension 1. *)
Definition skewness_c (parse : string -> option N) (data : container) : res N :=
  let* average := mean_c parse data in
  let* std_dev := std_c data in
  match data with
  | CList _ => Raise AttributeError
  | CArr (NDA _ items) =>
      let* a := as_num average in
      let* xs := mapM to_num items in
      Ok (nsum (map (fun x => nipow (x - a) 3) xs) / (#(zlen items) * nipow std_dev 3))
  end.

(** moment.py:108-124. [np.array] of a flat list of numbers is an array of dimension 1. Elements that are strings are left out
    of the model: [np.array] turns every element of such a list into a string. *)
Definition np_array (x : container) : nda N :=
  match x with CList items => NDA 1 items | CArr a => a end.
Definition kurtosis_c (parse : string -> option N) (x : container) : res N :=
  let x := np_array x in
  let* average := mean_c parse (CArr x) in
  let* standard_dev := std_c (CArr x) in
  let* a := as_num average in
  let* xs := mapM to_num (nd_items x) in
  let* m4 := mean_of (map (fun v => nipow (v - a) 4) xs) in
  let* fourth_moment := as_num m4 in
  Ok (fourth_moment / nipow standard_dev 4).
End Arrays.
Arguments container : clear implicits.

(** int64 arithmetic: the sum of an integer array is kept in an int64, modulo 2^64. *)
Definition wrap64 (z : Z) : Z := ((z + 2 ^ 63) mod 2 ^ 64 - 2 ^ 63)%Z.
(** descriptive.py:201,204,223,226 for an array (or a list) of integers of int64 range: [np.sum] is taken modulo 2^64, the
    division is that of the two integers turned into floats. The remaining model adds the elements as numbers, see C110_same. *)
Definition int_mean {N : Num} (l : list Z) : res (mean_out N) :=
  match l with
  | [] => Ok MInvalid
  | _ => Ok (MVal (ndiv (nofZ (wrap64 (fold_left Z.add l 0%Z))) (nofZ (zlen l))))
  end.
