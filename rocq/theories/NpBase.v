(** Lists as 1-D arrays: Python/NumPy indexing, slices, ranges, index-set operations. *)
From Verif Require Export Num.
Local Open Scope Z_scope.

Definition zlen {A} (l : list A) : Z := Z.of_nat (length l).

(** Position denoted by a (possibly negative) Python index, if in bounds. *)
Definition pyidx (n i : Z) : option nat :=
  if (0 <=? i) && (i <? n) then Some (Z.to_nat i)
  else if (- n <=? i) && (i <? 0) then Some (Z.to_nat (i + n))
  else None.

(** [a[i]] *)
Definition getz {A} (l : list A) (i : Z) : res A :=
  match pyidx (zlen l) i with
  | Some k => match nth_error l k with Some x => Ok x | None => Raise IndexError end
  | None => Raise IndexError
  end.

Fixpoint upd {A} (l : list A) (k : nat) (v : A) : list A :=
  match l, k with
  | [], _ => []
  | _ :: l', O => v :: l'
  | x :: l', S k' => x :: upd l' k' v
  end.

(** [a[i] = v] *)
Definition setz {A} (l : list A) (i : Z) (v : A) : res (list A) :=
  match pyidx (zlen l) i with
  | Some k => Ok (upd l k v)
  | None => Raise IndexError
  end.

(** [range(a, b)] *)
Definition zrange (a b : Z) : list Z :=
  map (fun k => a + Z.of_nat k) (seq 0 (Z.to_nat (b - a))).

(** Slice bound clamping of [a[lo:hi]] (step 1). *)
Definition slice_bound (n i : Z) : Z :=
  if i <? 0 then Z.max 0 (i + n) else Z.min i n.

(** [a[lo:hi]] *)
Definition pyslice {A} (l : list A) (lo hi : Z) : list A :=
  let n := zlen l in
  let a := slice_bound n lo in let b := slice_bound n hi in
  firstn (Z.to_nat (b - a)) (skipn (Z.to_nat a) l).

(** [a[lo:]] *)
Definition pyslice_from {A} (l : list A) (lo : Z) : list A := pyslice l lo (zlen l).

(** [a[idx]] with an integer index array: every index is checked. *)
Definition fancy_get {A} (l : list A) (idx : list Z) : res (list A) := mapM (getz l) idx.

(** [a[idx] = v] (scalar v) and [a[idx] = vs]: later indices win on duplicates. *)
Definition fancy_set {A} (l : list A) (idx : list Z) (v : A) : res (list A) :=
  foldM (fun m i => setz m i v) l idx.
Definition fancy_set_many {A} (l : list A) (idx : list Z) (vs : list A) : res (list A) :=
  foldM (fun m iv => setz m (fst iv) (snd iv)) l (combine idx vs).

(** [np.nonzero(mask)[0]], [np.where(mask)[0]]: ascending positions of True, from offset [k]. *)
Fixpoint nonzero_from (k : Z) (m : list bool) : list Z :=
  match m with
  | [] => []
  | b :: m' => if b then k :: nonzero_from (k + 1) m' else nonzero_from (k + 1) m'
  end.
Definition nonzero (m : list bool) : list Z := nonzero_from 0 m.

Definition zmem (i : Z) (l : list Z) : bool := existsb (Z.eqb i) l.

(** Insertion into a strictly increasing list, dropping duplicates. *)
Fixpoint zinsert (x : Z) (l : list Z) : list Z :=
  match l with
  | [] => [x]
  | y :: l' => if x <? y then x :: l else if x =? y then l else y :: zinsert x l'
  end.

(** [np.unique] of integers (sorted, without duplicates). [np.sort] of the result is the identity. *)
Definition zunique (l : list Z) : list Z := fold_right zinsert [] l.

(** [np.intersect1d(a, b)]: the sorted, duplicate-free intersection. *)
Definition intersect1d (a b : list Z) : list Z := zunique (filter (fun i => zmem i b) a).

(** [np.diff] *)
Fixpoint zdiff (l : list Z) : list Z :=
  match l with
  | x :: ((y :: _) as l') => (y - x) :: zdiff l'
  | _ => []
  end.

(** [a[mask]] with a boolean mask: a mask of another length raises IndexError. *)
Definition mask_get {A} (l : list A) (m : list bool) : res (list A) :=
  if Nat.eqb (length l) (length m)
  then Ok (map fst (filter (fun p => snd p) (combine l m)))
  else Raise IndexError.

(** Element-wise binary operation on two arrays of the same length; NumPy broadcasting of a
    length-1 array is included, other length mismatches raise ValueError. *)
Definition zipwith {A B C} (f : A -> B -> C) (a : list A) (b : list B) : list C :=
  map (fun p => f (fst p) (snd p)) (combine a b).
Definition bcast {A B C} (f : A -> B -> C) (a : list A) (b : list B) : res (list C) :=
  if Nat.eqb (length a) (length b) then Ok (zipwith f a b)
  else match a, b with
       | [x], _ => Ok (map (f x) b)
       | _, [y] => Ok (map (fun x => f x y) a)
       | _, _ => Raise ValueError
       end.
