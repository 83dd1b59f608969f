(** butter.py xyz_to_ptf with a matrix of zeros or an array of gains, _cxr for other dimensions. *)
From Verif Require Export NpBase M_butter.
Section PtfArrays.
Context {N : Num}.
Local Open Scope num_scope.

(** Whether [np.poly] returns a real array: the test inside [np_poly]. *)
Definition poly_is_real (roots : list (N * N)) : bool :=
  all_eqb (sort_complex roots) (sort_complex (map cconj roots)).

(** butter.py 443-448, the loop: row i of [g] becomes [z[i] * np.poly(x[i])]. When [g] has a real dtype, assigning a complex
    row stores its real parts (with a warning). *)
Fixpoint ptf_loop (real : bool) (rows : list (list (N * N))) (z : list N) : res (list (list (N * N))) :=
  match rows with
  | [] => Ok []
  | x :: rows' =>
      match z with
      | [] => Raise IndexError
      | zi :: z' =>
          let row := map (cmul (cre zi)) (np_poly x) in
          let* rest := ptf_loop real rows' z' in
          Ok ((if real then real_part row else row) :: rest)
      end
  end.
(** butter.py 427-473 for a matrix [x] with rows of [n] zeros, gain(s) [z] after [np.atleast_1d], 1-D [y]. [np.poly] of an empty
    row is the Python float 1.0, which has no dtype. [g] has the dtype of the first row's polynomial; if that is complex,
    [np.compress] gets a two-dimensional condition and raises ValueError. *)
Definition ptf_rows (n : nat) (x : list (list (N * N))) (y : list (N * N)) (z : list N)
  : res (list (list (N * N)) * list (N * N)) :=
  match x with
  | [] => Raise IndexError
  | x0 :: _ =>
      if (n =? 0)%nat then Raise AttributeError else
      let real := poly_is_real x0 in
      let z := match z with [z0] => repeat z0 (length x) | _ => z end in
      let* g := ptf_loop real x z in
      if real then Ok (g, real_if_paired y (np_poly y)) else Raise ValueError
  end.

(** butter.py 450 for 1-D zeros and an array of gains: [z * np.poly(x)] with broadcasting. *)
Definition ptf_gains (x y : list (N * N)) (z : list N) : res (list (N * N) * list (N * N)) :=
  let p := np_poly x in
  let* g := match z, p with
    | [z0], _ => Ok (map (cmul (cre z0)) p)
    | _, [p0] => Ok (map (fun zi => cmul (cre zi) p0) z)
    | _, _ => if (length z =? length p)%nat then Ok (zipwith (fun zi pi => cmul (cre zi) pi) z p) else Raise ValueError
    end in
  Ok (real_if_paired x g, real_if_paired y (np_poly y)).
End PtfArrays.
