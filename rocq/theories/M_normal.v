(** Model of proadv/statistics/distributions/normal.py. *)
From Verif Require Import NpBase M_descriptive M_series.

Section Normal.
Context {N : Num}.
Local Open Scope num_scope.

(** What [np.copy(array)] gives: a 0-d array (scalar argument), or an array of at least one dimension
    with its elements in row-major order. *)
Inductive ndarr := Scal (x : N) | Arr (shape : list Z) (data : list N).

Definition elements (a : ndarr) : list N := match a with Scal x => [x] | Arr _ d => d end.
(** An elementwise NumPy function. *)
Definition nd_map (f : N -> N) (a : ndarr) : ndarr :=
  match a with Scal x => Scal (f x) | Arr s d => Arr s (map f d) end.

(** normal.py:50-55, 124-128, 368-372, 421-425, 474-478: size 0, then any NaN. *)
Definition nd_check (a : ndarr) : res unit :=
  match elements a with
  | [] => Raise ValueError
  | l => if existsb nisnan l then Raise TypeError else Ok tt
  end.

(** normal.py:63-71, body of the loop, at index [j] with [i = absolute_value[j]]. [array_cdf] has the
    dtype of the argument. *)
Definition cdf_step (dt : dtype) (np_sqrt : N) (array_ns : list N) (st : list N * Z) (i : N) : res (list N * Z) :=
  let '(array_cdf, j) := st in
  let* v :=
    (if i <? np_sqrt then
       let* x := getz array_ns j in Ok (lit 5 1 + lit 5 1 * nerf x)
     else
       let y := lit 5 1 * nerfc i in
       let* x := getz array_ns j in
       Ok (if x >? #0 then #1 - y else y)) in
  let* array_cdf' := setz array_cdf j (store dt v) in
  Ok (array_cdf', (j + 1)%Z).

(** normal.py:49-73. Iterating over a 0-d value (line 62) raises TypeError. [dt] is the dtype of the
    argument (lists of integers and integer arrays: DInt). Flattening keeps the row-major elements. *)
Definition cdf (dt : dtype) (array : ndarr) : res ndarr :=
  let* _ := nd_check array in
  match array with
  | Scal _ => Raise TypeError
  | Arr shape array_cdf =>
      let np_sqrt := #1 / nsqrt #2 in
      let array_ns := map (fun x => x * np_sqrt) array_cdf in
      let absolute_value := map nabs array_ns in
      let* st := foldM (cdf_step dt np_sqrt array_ns) (array_cdf, 0%Z) absolute_value in
      Ok (Arr shape (fst st))
  end.

(** normal.py:124-132. [std] and [mean] are scalars. *)
Definition pdf (array : ndarr) (std mean : N) : res ndarr :=
  let* _ := nd_check array in
  let x := (- lit 5 1) * nlog (#2 * npi) - nlog std in
  Ok (nd_map (fun a => nexp (x - sq (a - mean) / (#2 * (std * std)))) array).

(** normal.py:368-374. *)
Definition log_pdf (array : ndarr) (std mean : N) : res ndarr :=
  let* _ := nd_check array in
  let* p := pdf array std mean in
  Ok (nd_map nlog p).

(** normal.py:421-427. *)
Definition log_cdf (dt : dtype) (array : ndarr) : res ndarr :=
  let* _ := nd_check array in
  let* c := cdf dt array in
  Ok (nd_map nlog c).

(** normal.py:474-480. *)
Definition sf (dt : dtype) (array : ndarr) : res ndarr :=
  let* _ := nd_check array in
  let* c := cdf dt array in
  Ok (nd_map (fun x => #1 - x) c).

(** normal.py:527-528. *)
Definition log_sf (dt : dtype) (array : ndarr) : res ndarr :=
  let* s := sf dt array in
  Ok (nd_map nlog s).

(** normal.py:180, 186-187, 190, 193, 196: the constants of the skewness test for [n] samples. *)
Definition skew_adjustment (n : Z) : N := nsqrt (#((n + 1) * (n + 3)) / (#6 * #(n - 2))).
Definition skew_beta2 (n : Z) : N :=
  (#3 * #(n * n + 27 * n - 70) * #(n + 1) * #(n + 3)) / ((#n - #2) * #(n + 5) * #(n + 7) * #(n + 9)).
Definition skew_w2 (n : Z) : N := #(-1) + nsqrt (#2 * (skew_beta2 n - #1)).
Definition skew_delta (n : Z) : N := #1 / nsqrt (lit 5 1 * nlog (skew_w2 n)).
Definition skew_alpha (n : Z) : N := nsqrt (#2 / (skew_w2 n - #1)).

(** normal.py:199-202. *)
Definition skew_z (n : Z) (skew : N) : N :=
  let adj := skew * skew_adjustment n in
  let adj := if adj =? #0 then #1 else adj in
  let q := adj / skew_alpha n in
  skew_delta n * nlog (q + nsqrt (sq q + #1)).

(** normal.py:204-218 and 302-315. [z] is a NumPy scalar, so [cdf] receives a 0-d array. *)
Definition p_value (alternative : string) (z : N) : res ndarr :=
  let* p :=
    (if String.eqb alternative "two-sided"%string then
       let* c := cdf DFloat (Scal (nabs z)) in Ok (Some (nd_map (fun x => #2 * (#1 - x)) c))
     else if String.eqb alternative "greater"%string then
       let* c := cdf DFloat (Scal z) in Ok (Some (nd_map (fun x => #1 - x) c))
     else if String.eqb alternative "less"%string then
       let* c := cdf DFloat (Scal z) in Ok (Some c)
     else Ok None) in
  match p with Some v => Ok v | None => Raise ValueError end.

(** normal.py:168-220, on a 1-D float array. *)
Definition skewtest (data : list N) (alternative : string) : res (N * ndarr) :=
  let* skew := moment_skewness data in
  let sample_size := zlen data in
  if (sample_size <? 8)%Z then Raise ValueError else
  let z := skew_z sample_size skew in
  let* p := p_value alternative z in
  Ok (z, p).

(** normal.py:271, 274-275, 281-284, 285: the constants of the kurtosis test for [n] observations.
    [np.ma.sqrt] is the square root: its arguments are positive from n = 5 on. *)
Definition kurt_expected (n : Z) : N := #3 * #(n - 1) / #(n + 1).
Definition kurt_variance (n : Z) : N :=
  #24 * #n * #(n - 2) * #(n - 3) / #((n + 1) * (n + 1) * (n + 3) * (n + 5)).
Definition kurt_sqrt_beta1 (n : Z) : N :=
  #6 * #(n * n - 5 * n + 2) / #((n + 7) * (n + 9)) *
  nsqrt ((#6 * #(n + 3) * #(n + 5)) / #(n * (n - 2) * (n - 3))).
Definition kurt_a (n : Z) : N :=
  let b := kurt_sqrt_beta1 n in
  #6 + #8 / b * (#2 / b + nsqrt (#1 + #4 / sq b)).

(** normal.py:278, 288-300; [None] is [np.ma.masked]: a zero denominator, or a power that is not finite. *)
Definition kurt_z (n : Z) (kurtosis_value : N) : option N :=
  let z_score := (kurtosis_value - kurt_expected n) / nsqrt (kurt_variance n) in
  let a := kurt_a n in
  let term1 := #1 - #2 / (#9 * a) in
  let denom := #1 + z_score * nsqrt (#2 / (a - #4)) in
  if denom =? #0 then None else
  let term2 := npow ((#1 - #2 / a) / denom) (#1 / #3) in
  if nisfin term2 then Some ((term1 - term2) / nsqrt (#2 / (#9 * a))) else None.

(** normal.py:257-317, on a 1-D float array. A copy of the masked constant is the 0-d array 0.0. *)
Definition kurtotest (data : list N) (alternative : string) : res (option N * ndarr) :=
  let num_observations := zlen data in
  if (num_observations <? 5)%Z then Raise ValueError else
  let* kurtosis_value := moment_kurtosis data in
  let z := kurt_z num_observations kurtosis_value in
  let* p := p_value alternative (match z with Some v => v | None => #0 end) in
  Ok (z, p).

End Normal.
Arguments ndarr : clear implicits.
