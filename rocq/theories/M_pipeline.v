(** Model of the despiking scripts in examples/filtration. Reading the CSV file and drawing are left out: a
    script is a function of the float columns of the table, which have the same length. *)
From Verif Require Export M_detection M_kernel M_trikde.

Section Pipeline.
Context {N : Num}.
Local Open Scope num_scope.

(** The three filtered components. *)
Definition rec3 : Type := (list N * list N * list N)%type.

(** The three replacements of one pass, e.g. examples/filtration/acceleration.py:55-57. *)
Definition replace3 (replace : list N -> list Z -> res (list N)) (s : rec3) (indices : list Z) : res rec3 :=
  let '(x, y, z) := s in
  let* x := replace x indices in
  let* y := replace y indices in
  let* z := replace z indices in
  Ok (x, y, z).

(** The loop of phase-space.py:26-52, phase-space-3d.py:27-53 and correlation.py:26-50 (examples/filtration).
    [fuel] is [max_iteration - iteration]; [detect iteration s] stands for the body up to [indices]. *)
Fixpoint despike (detect : Z -> rec3 -> res (list Z)) (replace : list N -> list Z -> res (list N))
  (fuel : nat) (iteration : Z) (s : rec3) : res rec3 :=
  match fuel with
  | O => Ok s
  | S fuel' =>
      let* indices := detect iteration s in
      if (zlen indices =? 0)%Z then Ok s else
      let* s := replace3 replace s indices in
      despike detect replace fuel' (iteration + 1) s
  end.

(** The averages and the three calls of a detector working on one component, e.g. phase-space.py:32-41
    (examples/filtration); the detector is given the fluctuation and the average. *)
Definition by_component (detect : list N -> N -> res (list Z)) (s : rec3) : res (list Z) :=
  let '(x, y, z) := s in
  let* ax := mean_num x in
  let* ay := mean_num y in
  let* az := mean_num z in
  let* ix := detect (map (fun v => v - ax) x) ax in
  let* iy := detect (map (fun v => v - ay) y) ay in
  let* iz := detect (map (fun v => v - az) z) az in
  Ok (zunique (ix ++ iy ++ iz)).

(** examples/filtration/acceleration.py:36-48, one pass with the given [tag]. *)
Definition accel_detect (tag : Z) (s : rec3) : res (list Z) :=
  by_component (fun v _ => acceleration_thresholding v #100 tag #980 (lit 15 1) #1) s.

(** [linear_interpolation(..., decimals=3)]. *)
Definition li3 (v : list N) (indices : list Z) : res (list N) := linear_interpolation DFloat v indices 3.

(** examples/filtration/acceleration.py:30-59; [tag] is toggled at the start of each pass. *)
Fixpoint accel_loop (fuel : nat) (tag : Z) (s : rec3) : res rec3 :=
  match fuel with
  | O => Ok s
  | S fuel' =>
      let tag := if (tag =? 1)%Z then 2%Z else 1%Z in
      let* indices := accel_detect tag s in
      if (zlen indices =? 0)%Z then Ok s else
      let* s := replace3 li3 s indices in
      accel_loop fuel' tag s
  end.
(** examples/filtration/acceleration.py:26-59. *)
Definition accel_script (s : rec3) : res rec3 := accel_loop 10 1 s.

(** examples/filtration/phase-space.py:26-52. *)
Definition phase_detect (s : rec3) : res (list Z) := by_component (fun v _ => phasespace_thresholding DFloat v) s.
Definition phase_script (s : rec3) : res rec3 := despike (fun _ => phase_detect) li3 10 0 s.

(** examples/filtration/phase-space-3d.py:27-53. *)
Definition sphere_detect (iteration : Z) (s : rec3) : res (list Z) :=
  by_component (fun v a => spherical_phasespace_thresholding v iteration a) s.
Definition sphere_script (s : rec3) : res rec3 := despike sphere_detect li3 3 0 s.

(** examples/filtration/correlation.py:26-50. *)
Definition corr_detect (s : rec3) : res (list Z) :=
  let '(x, y, z) := s in
  let* ax := mean_num x in
  let* ay := mean_num y in
  let* az := mean_num z in
  velocity_correlation (map (fun v => v - ax) x) (map (fun v => v - ay) y) (map (fun v => v - az) z).
Definition corr_script (s : rec3) : res rec3 := despike (fun _ => corr_detect) (mean_value DFloat) 10 0 s.

(** examples/filtration/trivariate-kernel.py:25-35: one pass, [kde] as in M_detection. *)
Definition tri_script (kde : list N -> list N -> list N -> list N -> res matrix) (s : rec3) : res rec3 :=
  let '(x, y, z) := s in
  let* ix := three_dimensional_kernel_full kde DFloat x 64 in
  let* iy := three_dimensional_kernel_full kde DFloat y 64 in
  let* iz := three_dimensional_kernel_full kde DFloat z 64 in
  replace3 li3 s (zunique (ix ++ iy ++ iz)).

(** examples/filtration/bivariate-kernel.py:69-74, the flag of one sample. *)
Definition biv_flag (uu1 ul1 at_ bt u w : N) : bool :=
  if (u >? uu1) || (u <? ul1) then true else
  let we := nsqrt (nipow bt 2 * (#1 - nipow u 2 / nipow at_ 2)) in
  (w >? we) || (w <? - we).

(** examples/filtration/bivariate-kernel.py:55-77 from the cut-offs. *)
Definition biv_indices (ut wt : list N) (ul uu wl wu : N) : list Z :=
  let half := lit 5 1 in
  let uu1 := uu - half * (uu + ul) in
  let ul1 := ul - half * (uu + ul) in
  let wu1 := wu - half * (wu + wl) in
  let wl1 := wl - half * (wu + wl) in
  let at_ := half * (uu1 - ul1) in
  let bt := half * (wu1 - wl1) in
  nonzero (zipwith (fun u w => biv_flag uu1 ul1 at_ bt (u - half * (uu + ul)) (w - half * (wu + wl))) ut wt).

(** examples/filtration/bivariate-kernel.py:23-54: derivative, rotation, density on the 256 x 256 grid, peak and
    cut-offs. [kde] is the oracle of M_detection ([gaussian_kde(values)(positions)] on the grid). *)
Definition biv_detect (kde : list N -> list N -> list N -> list N -> res matrix) (data : list N) : res (list Z) :=
  let* derivative := biv_derivative data in
  let theta := k_rotation data derivative in
  let ut := zipwith nadd (map (fun v => v * ncos theta) data) (map (fun v => v * nsin theta) derivative) in
  let wt := zipwith nadd (map (fun v => - v * nsin theta) data) (map (fun v => v * ncos theta) derivative) in
  let* xmin := arr_min ut in
  let* xmax := arr_max ut in
  let* ymin := arr_min wt in
  let* ymax := arr_max wt in
  let* uf := mgrid_axis xmin xmax 256 in
  let* wf := mgrid_axis ymin ymax 256 in
  let* density := kde ut wt uf wf in
  let* (dp, up, wp, fu, fw) := tri_peak density in
  let* (ul, uu) := cutoff [dp] uf (lit 4 1) (lit 4 1) fu up #256 in
  let* (wl, wu) := cutoff [dp] wf (lit 4 1) (lit 4 1) fw wp #256 in
  Ok (biv_indices ut wt ul uu wl wu).
(** examples/filtration/bivariate-kernel.py:23-80. *)
Definition biv_script (kde : list N -> list N -> list N -> list N -> res matrix) (data : list N) : res (list N) :=
  let* indices := biv_detect kde data in
  linear_interpolation DFloat data indices 4.

(** [np.arange(0, stop, step)]: its length is the ceiling of [(stop - 0) / step], none when that is negative. *)
Definition arange_len (stop step : N) : Z := Z.max 0 (nceilZ ((stop - #0) / step)).
(** The time axis every script draws against, e.g. examples/filtration/acceleration.py:63-65: its length for a
    record of [n] samples. *)
Definition time_len (n : Z) : Z :=
  let delta_time := #1 / #100 in
  arange_len (#n * delta_time) delta_time.

End Pipeline.
Arguments rec3 : clear implicits.
