(** Power spectra (proadv/statistics/signal/spectrum.py), with [scipy.signal.windows.hann] and [scipy.signal.welch] written out
    as scipy documents them. *)
From Verif Require Export NpBase.
Section Spectrum.
Context {N : Num}.
Local Open Scope num_scope.

(** spectrum.py:24, [hann(m, True)]: a negative length raises, up to one sample the window is [np.ones], otherwise
    0.5 + 0.5 cos on [np.linspace(-pi, pi, m)]. *)
Definition hann (m : Z) : res (list N) :=
  if (m <? 0)%Z then Raise ValueError
  else if (m <=? 1)%Z then Ok (repeat #1 (Z.to_nat m))
  else Ok (map (fun k => lit 5 1 + lit 5 1 * ncos (- npi + #k * (#2 * npi / #(m - 1)))) (zrange 0 m)).

(** spectrum.py:27, one segment inside welch: [detrend='constant'], window, FFT, squared modulus, scale. [fft] is the
    oracle for the discrete Fourier transform of a real vector (real and imaginary parts). *)
Definition seg_power (fft : list N -> list (N * N)) (win : list N) (scale : N) (seg : list N) : list N :=
  let m := nsum seg / #(zlen seg) in
  map (fun c => (fst c * fst c + snd c * snd c) * scale) (fft (zipwith nmul win (map (fun x => x - m) seg))).

(** spectrum.py:27, the one-sided spectrum: the first nfft//2 + 1 coefficients (what [rfft] returns), doubled except the
    first one and, for even nfft, the last one. *)
Definition fold_sides (nfft : Z) (l : list N) : list N :=
  map (fun p => if (fst p =? 0)%Z || (2 * fst p =? nfft)%Z then snd p else snd p * #2)
      (combine (zrange 0 (nfft / 2 + 1)) l).

(** spectrum.py:27, [rfftfreq(n, d)] and [fftfreq(n, d)]. *)
Definition rfftfreq (n : Z) (d : N) : list N := map (fun k => #k * (#1 / (#n * d))) (zrange 0 (n / 2 + 1)).
Definition fftfreq (n : Z) (d : N) : list N :=
  map (fun k => #k * (#1 / (#n * d))) (zrange 0 ((n - 1) / 2 + 1) ++ zrange (- (n / 2)) 0).

(** spectrum.py:27, mean over the segments: the [k]-th entries of the rows, averaged when there is more than one row. *)
Definition seg_mean (rows : list (list N)) (k : Z) : N :=
  let col := map (fun r => nth (Z.to_nat k) r nnan) rows in
  match col with [x] => x | _ => nsum col / #(zlen col) end.

(** spectrum.py:23-29. [fs] is a Python number ([1 / fs] raises when it is 0); the record is real. With an array as window,
    [nperseg] is its length, and a record shorter than the window raises. *)
Definition power_spectra (fft : list N -> list (N * N)) (data : list N) (fs : N) (overlap block : Z) (onesided : bool)
  : res (list N * list N) :=
  let* win := hann block in
  if (zlen data =? 0)%Z then Ok ([], []) else
  if (zlen data <? zlen win)%Z then Raise ValueError else
  if (block <=? overlap)%Z then Raise ValueError else
  let step := (block - overlap)%Z in
  let nseg := ((zlen data - overlap) / step)%Z in
  let scale := #1 / (fs * nsum (map sq win)) in
  if (fs =? #0) || (block =? 0)%Z then Raise ZeroDivisionError else
  let freqs := if onesided then rfftfreq block (#1 / fs) else fftfreq block (#1 / fs) in
  let segs := map (fun i => firstn (Z.to_nat block) (skipn (Z.to_nat (i * step)) data)) (zrange 0 nseg) in
  let rows := map (fun s => let p := seg_power fft win scale s in if onesided then fold_sides block p else p) segs in
  Ok (freqs, map (seg_mean rows) (zrange 0 (zlen freqs))).

(** examples/signal/spectrum.py:22-33: the line drawn over the spectrum. [psdx] is the first result of [power_spectra] (the
    frequencies), [freqs] the second (the density). [ndarray.min] and [ndarray.max] are NaN when an element is, and raise
    on an empty array; [np.log] of the extremes; the two end points (x, y). *)
Definition extreme (pick : N -> N -> N) (l : list N) : res N :=
  match l with [] => Raise ValueError | x :: t => Ok (if existsb nisnan l then nnan else fold_left pick t x) end.
Definition slope_line (psdx freqs : list N) : res ((N * N) * (N * N)) :=
  let slope := - (#5) / #3 in
  let* pmin := extreme nmin2 freqs in
  let* pmax := extreme nmax2 freqs in
  let ymid1 := (nlog pmin + nlog pmax) / #2 in
  let* fmax := extreme nmax2 psdx in
  let x1 := #0 in
  let x2 := nlog fmax in
  let xmid1 := (x1 + x2) / #2 in
  Ok ((x1, slope * (x1 - xmid1) + ymid1), (x2, slope * (x2 - xmid1) + ymid1)).
End Spectrum.
