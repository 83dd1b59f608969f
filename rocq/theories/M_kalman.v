(** series.py kalman_filter with arguments of any shape up to two dimensions. *)
From Verif Require Export M_series.
Section KalmanShapes.
Context {N : Num}.
Local Open Scope num_scope.

(** NumPy values of dimension 0 (scalars included), 1 and 2. A matrix carries its shape, so that empty ones have one. *)
Inductive arr := A0 (x : N) | A1 (l : list N) | A2 (r c : nat) (m : list (list N)).

(** Row and column of an entry. The shape (r, c) for broadcasting: leading dimensions are 1. *)
Definition entry (m : list (list N)) (i j : nat) : N := nth j (nth i m []) #0.
Definition shape2 (a : arr) : nat * nat :=
  match a with A0 _ => (1, 1)%nat | A1 l => (1%nat, length l) | A2 r c _ => (r, c) end.
Definition at2 (a : arr) (i j : nat) : N :=
  match a with A0 x => x | A1 l => nth j l #0 | A2 _ _ m => entry m i j end.
Definition ndim (a : arr) : nat := match a with A0 _ => 0 | A1 _ => 1 | A2 _ _ _ => 2 end.

(** [np.dot]: sum of products over the last axis of the first and the first axis (of a matrix: the rows) of the second
    argument; a scalar multiplies every entry. The order of summation is fixed here; a single product is not added to anything. *)
Fixpoint inner (l k : list N) : N :=
  match l, k with
  | [x], y :: _ => x * y
  | x :: l', y :: k' => x * y + inner l' k'
  | _, _ => #0
  end.
Definition column (r : nat) (m : list (list N)) (j : nat) : list N := map (fun i => entry m i j) (seq 0 r).
Definition amap (f : N -> N) (a : arr) : arr :=
  match a with A0 x => A0 (f x) | A1 l => A1 (map f l) | A2 r c m => A2 r c (map (map f) m) end.
Definition np_dot (a b : arr) : res arr :=
  match a, b with
  | A0 x, _ => Ok (amap (fun y => x * y) b)
  | _, A0 y => Ok (amap (fun x => x * y) a)
  | A1 l, A1 k => if (length l =? length k)%nat then Ok (A0 (inner l k)) else Raise ValueError
  | A1 l, A2 r c m => if (length l =? r)%nat then Ok (A1 (map (fun j => inner l (column r m j)) (seq 0 c))) else Raise ValueError
  | A2 r c m, A1 l => if (c =? length l)%nat then Ok (A1 (map (fun row => inner row l) m)) else Raise ValueError
  | A2 r c m, A2 r' c' m' =>
      if (c =? r')%nat then Ok (A2 r c' (map (fun row => map (fun j => inner row (column r' m' j)) (seq 0 c')) m)) else Raise ValueError
  end.

(** Element-wise operators: two dimensions agree or one of them is 1, ValueError otherwise. *)
Definition bdim (m n : nat) : option nat :=
  if (m =? n)%nat then Some m else if (m =? 1)%nat then Some n else if (n =? 1)%nat then Some m else None.
Definition clip (n i : nat) : nat := if (n =? 1)%nat then 0%nat else i.
Definition bcast (f : N -> N -> N) (a b : arr) : res arr :=
  let '(ra, ca) := shape2 a in
  let '(rb, cb) := shape2 b in
  match bdim ra rb, bdim ca cb with
  | Some r, Some c =>
      let at_ i j := f (at2 a (clip ra i) (clip ca j)) (at2 b (clip rb i) (clip cb j)) in
      Ok (match Nat.max (ndim a) (ndim b) with
          | 0%nat => A0 (at_ 0%nat 0%nat)
          | 1%nat => A1 (map (at_ 0%nat) (seq 0 c))
          | _ => A2 r c (map (fun i => map (at_ i) (seq 0 c)) (seq 0 r))
          end)
  | _, _ => Raise ValueError
  end.

(** [np.linalg.inv]: LinAlgError unless the argument is a square matrix; 1x1 matrices are inverted here, larger (and empty)
    ones by the oracle [inv], which may raise LinAlgError. *)
Definition np_inv (inv : list (list N) -> option (list (list N))) (a : arr) : res arr :=
  match a with
  | A2 r c m =>
      if negb (r =? c)%nat then Raise LinAlgError
      else if (r =? 1)%nat then let s := entry m 0 0 in if s =? #0 then Raise LinAlgError else Ok (A2 1 1 [[#1 / s]])
      else match inv m with Some k => Ok (A2 r r k) | None => Raise LinAlgError end
  | _ => Raise LinAlgError
  end.
Definition np_eye (n : nat) : arr := A2 n n (map (fun i => map (fun j => if (i =? j)%nat then #1 else #0) (seq 0 n)) (seq 0 n)).
(** [len]: scalars and 0-d arrays have none. *)
Definition np_len (a : arr) : res nat := match a with A0 _ => Raise TypeError | A1 l => Ok (length l) | A2 r _ _ => Ok r end.

(** series.py:377-378: A = H = [[1]], each its own transpose. *)
Definition one11 : arr := A2 1 1 [[#1]].

(** series.py:380-388, one measurement. *)
Definition kalman_step_nd (inv : list (list N) -> option (list (list N))) (Q R : arr) (state covariance : arr) (measurement : N) : res (arr * arr) :=
  let A := one11 in let H := one11 in
  let* predicted_state := np_dot A state in
  let* ac := np_dot A covariance in
  let* aca := np_dot ac A in
  let* predicted_covariance := bcast nadd aca Q in
  let* ph := np_dot predicted_covariance H in
  let* hp := np_dot H predicted_covariance in
  let* hph := np_dot hp H in
  let* s := bcast nadd hph R in
  let* si := np_inv inv s in
  let* kalman_gain := np_dot ph si in
  let* hx := np_dot H predicted_state in
  let* innovation := bcast nsub (A0 measurement) hx in
  let* correction := np_dot kalman_gain innovation in
  let* state' := bcast nadd predicted_state correction in
  let* n := np_len state' in
  let* kh := np_dot kalman_gain H in
  let* factor := bcast nsub (np_eye n) kh in
  let* covariance' := np_dot factor predicted_covariance in
  Ok (state', covariance').

(** series.py:373-392: the list of all state estimates. *)
Fixpoint kalman_nd (inv : list (list N) -> option (list (list N))) (data : list N) (state covariance Q R : arr) : res (list arr) :=
  match data with
  | [] => Ok []
  | m :: data' =>
      let* (s, c) := kalman_step_nd inv Q R state covariance m in
      let* rest := kalman_nd inv data' s c Q R in
      Ok (s :: rest)
  end.
End KalmanShapes.
Arguments arr : clear implicits.
