(** More of normal.py and descriptive.py: array-valued parameters of the density, integer arrays, arrays of any dimension. *)
From Verif Require Export NpBase M_descriptive M_arrays M_normal.
From Coq Require Import Arith.

(** ** NumPy broadcasting *)
(** A shape is aligned to the right and filled up with 1. *)
Definition pad (k : nat) (s : list nat) : list nat := repeat 1 (k - length s) ++ s.
(** Two dimensions match when they are equal or one of them is 1. *)
Fixpoint bdims (s t : list nat) : option (list nat) :=
  match s, t with
  | [], [] => Some []
  | m :: s', n :: t' =>
      match bdims s' t' with
      | Some o => if m =? n then Some (m :: o) else if m =? 1 then Some (n :: o) else if n =? 1 then Some (m :: o) else None
      | None => None
      end
  | _, _ => None
  end.
Definition bshape (s t : list nat) : option (list nat) :=
  let k := Nat.max (length s) (length t) in bdims (pad k s) (pad k t).
Definition size (s : list nat) : nat := fold_right Nat.mul 1 s.
Fixpoint chunks {A} (k n : nat) (d : list A) : list (list A) :=
  match n with O => [] | S n' => firstn k d :: chunks k n' (skipn k d) end.
(** Row-major elements of shape [s] repeated so as to fill the shape [o] (of the same length). *)
Fixpoint expand {A} (s o : list nat) (d : list A) : list A :=
  match s, o with
  | m :: s', n :: o' =>
      if m =? n then concat (map (expand s' o') (chunks (size s') m d))
      else concat (repeat (expand s' o' d) n)
  | _, _ => d
  end.

Section Pdf.
Context {N : Num}.
Local Open Scope num_scope.
(** An array of any dimension; a scalar has the empty shape. *)
Record nd := ND { nd_shape : list nat; nd_data : list N }.
Definition nd_fun (f : N -> N) (a : nd) : nd := ND (nd_shape a) (map f (nd_data a)).
(** A binary NumPy operator: ValueError when the shapes do not match. *)
Definition nd_op (f : N -> N -> N) (a b : nd) : res nd :=
  let k := Nat.max (length (nd_shape a)) (length (nd_shape b)) in
  match bshape (nd_shape a) (nd_shape b) with
  | Some o => Ok (ND o (zipwith f (expand (pad k (nd_shape a)) o (nd_data a)) (expand (pad k (nd_shape b)) o (nd_data b))))
  | None => Raise ValueError
  end.

(** normal.py:124-132 with float arrays of any shape as data, standard deviation and mean. *)
Definition pdf_nd (array std mean : nd) : res nd :=
  match nd_data array with
  | [] => Raise ValueError
  | _ =>
      if existsb nisnan (nd_data array) then Raise TypeError else
      let x := nd_fun (fun s => (- lit 5 1) * nlog (#2 * npi) - nlog s) std in
      let* d := nd_op nsub array mean in
      let* y := nd_op ndiv (nd_fun sq d) (nd_fun (fun s => #2 * (s * s)) std) in
      let* r := nd_op nsub x y in
      Ok (nd_fun nexp r)
  end.

(** normal.py:124-132 for an integer array (elements in the range of int64) with Python integers [std] and [mean], as the
    defaults 1 and 0 are: the difference and its square are taken in int64, [std * std] is exact.
    Simplification: [mean] and [2 * std * std] are assumed to fit into an int64. *)
Definition pdf_int (array : list Z) (std mean : Z) : res (list N) :=
  match array with
  | [] => Raise ValueError
  | _ =>
      let x := (- lit 5 1) * nlog (#2 * npi) - nlog #std in
      Ok (map (fun a => nexp (x - #(wrap64 (wrap64 (a - mean) * wrap64 (a - mean))) / #(2 * (std * std)))) array)
  end.

(** normal.py:368-374 with float arrays of any shape as data, standard deviation and mean. *)
Definition log_pdf_nd (array std mean : nd) : res nd :=
  match nd_data array with
  | [] => Raise ValueError
  | _ =>
      if existsb nisnan (nd_data array) then Raise TypeError else
      let* p := pdf_nd array std mean in
      Ok (nd_fun nlog p)
  end.
(** normal.py:368-374 for an integer array with Python integers [std] and [mean]; same simplification as [pdf_int]. *)
Definition log_pdf_int (array : list Z) (std mean : Z) : res (list N) :=
  match array with
  | [] => Raise ValueError
  | _ => let* p := pdf_int array std mean in Ok (map nlog p)
  end.

(** descriptive.py:53-63 and 119-132 on a container. Iterating a 0-d array raises TypeError; the items of an array of two or more
    dimensions are arrays, and [np.isnan] of an array with strings raises TypeError. *)
Definition min_c (data : container N) : res N :=
  match data with
  | CList items => desc_min items
  | CArr (NDA ndim items) => if (ndim <=? 0)%Z then Raise TypeError else desc_min items
  end.
Definition max_c (data : container N) : res N :=
  match data with
  | CList items => desc_max items
  | CArr (NDA ndim items) => if (ndim <=? 0)%Z then Raise TypeError else desc_max items
  end.
(** descriptive.py:321-325: [np.unique] flattens. *)
Definition mode_c (data : container N) : res (N * nat) :=
  let* xs := mapM to_num (match data with CList items => items | CArr a => nd_items a end) in desc_mode xs.

(** normal.py:168-220 on a container; [rows] is [data.shape[0]], read from the shape of the array. *)
Definition skewtest_c (parse : string -> option N) (data : container N) (rows : Z) (alternative : string) : res (N * ndarr N) :=
  let data := np_array data in
  let* skew := skewness_c parse (CArr data) in
  if (rows <? 8)%Z then Raise ValueError else
  let z := skew_z rows skew in
  let* p := p_value alternative z in
  Ok (z, p).
(** normal.py:257-317 on a container; a 0-d array has no [shape[0]]. *)
Definition kurtotest_c (parse : string -> option N) (data : container N) (rows : Z) (alternative : string) : res (option N * ndarr N) :=
  let data := np_array data in
  if (nd_ndim data <=? 0)%Z then Raise IndexError else
  if (rows <? 5)%Z then Raise ValueError else
  let* kurtosis_value := kurtosis_c parse (CArr data) in
  let z := kurt_z rows kurtosis_value in
  let* p := p_value alternative (match z with Some v => v | None => #0 end) in
  Ok (z, p).
End Pdf.
Arguments nd : clear implicits.
