(** Model of the smoothing scripts in examples/signal. Reading the CSV file, the labels, the limits of the axes
    and the drawing itself are left out: a script is a function of the float column it reads, and gives the
    points of the two curves it draws. *)
From Verif Require Export M_series M_signal.

Section Curves.
Context {N : Num}.

(** [plt.plot(y)] with one array (e.g. examples/signal/simple-moving-average.py:17-18): matplotlib draws the
    values over the indices 0, 1, 2, ... *)
Definition drawn (y : list N) : list (Z * N) := combine (zrange 0 (zlen y)) y.

(** examples/signal/simple-moving-average.py:14-18. *)
Definition simple_curves (main_data : list N) : res (list (Z * N) * list (Z * N)) :=
  let* simple_moving_average := moving_average 1 main_data 30 in
  Ok (drawn main_data, drawn simple_moving_average).

(** examples/signal/exponential-moving-average.py:14-18. *)
Definition exponential_curves (main_data : list N) : res (list (Z * N) * list (Z * N)) :=
  let* exponential_moving_average := exponential_moving_average DFloat main_data (lit 8 2) in
  Ok (drawn main_data, drawn exponential_moving_average).

(** examples/signal/weighted-moving-average.py:14-18. The flag of [weighted_moving_average], which says whether
    the returned object is an array of numbers, does not matter to the drawing. *)
Definition weighted_curves (main_data : list N) : res (list (Z * N) * list (Z * N)) :=
  let* weighted_moving_average := weighted_moving_average main_data 30 in
  Ok (drawn main_data, drawn (snd weighted_moving_average)).

(** examples/signal/kalman.py:14-27. The 1x1 arrays of lines 14-17 are written as numbers, as in [kalman_filter],
    whose result is already squeezed; [np.squeeze] keeps a 1-D array of two or more samples. *)
Definition kalman_curves (main_data : list N) : res (list (Z * N) * list (Z * N)) :=
  let* kalman := kalman_filter main_data (nofZ 1) (nofZ 1) (lit 1 2) (nofZ 15) in
  Ok (drawn main_data, drawn kalman).

(** examples/signal/singular-spectrum.py:14-20. [eigh] as in [ssa]. *)
Definition ssa_curves (eigh : matrix -> res matrix) (main_data : list N) : res (list (Z * N) * list (Z * N)) :=
  let* singular_spectrum := ssa eigh main_data (nofZ 100) (nofZ 1) in
  Ok (drawn main_data, drawn singular_spectrum).

(** examples/signal/synthetic.py:14-18: the polluted curve, then the record. The random integers of line 11 are the
    argument [data], as the floats they are turned into by the addition in [synthetic_noise]; [draws] and [r] as there. *)
Definition synthetic_curves (data : list N) (draws : list Z) (r : list N) : option (res (list (Z * N) * list (Z * N))) :=
  match synthetic_noise data (nofZ 10) draws r with
  | None => None
  | Some artificial_pollution =>
      Some (let* artificial_pollution := artificial_pollution in Ok (drawn artificial_pollution, drawn data))
  end.

End Curves.
