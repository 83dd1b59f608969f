(** Model of proadv/statistics/signal/fluid.py, synthetic.py and spectrum.py. *)
From Verif Require Export M_series.

Section Signal.
Context {N : Num}.
Local Open Scope num_scope.

(** [u - mean(u)] (fluid.py:20-22, 51-53): the mean of an empty array is a text, subtracting it raises
    TypeError. *)
Definition fluct (u : list N) : res (list N) :=
  let* m := mean_num u in Ok (map (fun x => x - m) u).

(** fluid.py:20-32. *)
Definition kinetic_turbulent_energy (u v w : list N) : res N :=
  let* up := fluct u in
  let* vp := fluct v in
  let* wp := fluct w in
  let* mu := mean_num (map sq up) in
  let* mv := mean_num (map sq vp) in
  let* mw := mean_num (map sq wp) in
  Ok (lit 5 1 * (mu + mv + mw)).

(** fluid.py:51-66. *)
Definition reynolds_stresses (ui vi wi : list N) : res (N * N * N * N * N * N) :=
  let* up := fluct ui in
  let* vp := fluct vi in
  let* wp := fluct wi in
  let* mu := mean_num (map sq up) in
  let* mv := mean_num (map sq vp) in
  let* mw := mean_num (map sq wp) in
  let* uv := bcast nmul up vp in
  let* muv := mean_num uv in
  let* uw := bcast nmul up wp in
  let* muw := mean_num uw in
  let* vw := bcast nmul vp wp in
  let* mvw := mean_num vw in
  Ok (mu, mv, mw, muv, muw, mvw).

(** synthetic.py:21-27: the while loop, fed with the successive values of [np.random.randint(0, n)].
    [None] means that the loop is still running when the given draws are used up. *)
Fixpoint random_loop (count : nat) (randoms : list Z) (draws : list Z) : option (list Z) :=
  if Nat.leb count (length randoms) then Some randoms else
  match draws with
  | [] => None
  | rn :: draws' =>
      if zmem rn randoms then random_loop count randoms draws'
      else random_loop count (randoms ++ [rn]) draws'
  end.

(** [sorted] on ints. *)
Fixpoint zins (x : Z) (l : list Z) : list Z :=
  match l with [] => [x] | y :: l' => if (x <=? y)%Z then x :: l else y :: zins x l' end.
Definition zsort (l : list Z) : list Z := fold_right zins [] l.

(** [len(range(int(data_size * percent / 100)))], synthetic.py:21. [int] of a NaN raises ValueError, of an infinity
    OverflowError; negative numbers, rounded up by [int] and down here, give 0 in either case. *)
Definition spike_count (data_size : Z) (percent : N) : res nat :=
  let q := #data_size * percent / #100 in
  if nisnan q then Raise ValueError
  else if negb (nisfin q) then Raise OverflowError
  else Ok (Z.to_nat (nfloorZ q)).

(** synthetic.py:19-28. *)
Definition random_index (data_size : Z) (percent : N) (draws : list Z) : option (res (list Z)) :=
  match spike_count data_size percent with
  | Raise e => Some (Raise e)
  | Ok count => option_map (fun randoms => Ok (zsort randoms)) (random_loop count [] draws)
  end.

(** synthetic.py:51-55, loop body. *)
Definition noise_step (data r : list N) (percent : N) (idx : list Z) (s : list N) (k : Z) : res (list N) :=
  let* rk := getz r k in
  let* m := mean_num data in
  let* i := getz idx k in
  if (k mod 2 =? 0)%Z then setz s i ((nabs rk + percent) * m)
  else setz s i ((- nabs rk - percent) * m).

(** synthetic.py:45-58. [draws]: results of randint; [r]: the vector drawn by [np.random.normal], of the
    size of the data. [None]: the index loop has not finished. *)
Definition synthetic_noise (data : list N) (percent : N) (draws : list Z) (r : list N) : option (res (list N)) :=
  match random_index (zlen data) percent draws with
  | None => None
  | Some idx =>
      Some (let* idx := idx in
            let* s := foldM (noise_step data r percent idx) (repeat #0 (length data)) (zrange 0 (zlen idx)) in
            bcast nadd data s)
  end.

End Signal.

(** spectrum.py:23-29: the arguments handed to [scipy.signal.welch]. With an array as window,
    [nperseg] is the window length. The numbers are passed through unchanged. *)
Record welch_call := { w_nperseg : Z; w_noverlap : Z; w_nfft : Z; w_onesided : bool }.
Definition power_spectra_call (overlap block : Z) (onesided : bool) : welch_call :=
  {| w_nperseg := block; w_noverlap := overlap; w_nfft := block; w_onesided := onesided |}.
