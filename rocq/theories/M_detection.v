(** Model of proadv/filtration/detection: pollution, acceleration, phasespace, poincare, correlation,
    spherical, bivariatekernel, trivariatekernel. Records are 1-D arrays. *)
From Verif Require Export M_replacement M_signal.

Section Detection.
Context {N : Num}.
Local Open Scope num_scope.

(** pollution.py:21-32. [x] and [xfil] are broadcast as NumPy does. *)
Definition pollution_rate (x xfil : list N) (k : N) : res N :=
  let* s := spread_std (farr x) in
  let* above := bcast (fun xi fi => xi >? fi + k * s) x xfil in
  let* below := bcast (fun xi fi => xi <? - fi - k * s) x xfil in
  let noises := nonzero above ++ nonzero below in
  Ok (#(zlen noises) / #(zlen x) * #100).

(** acceleration.py:49-65. [0] is stored as the float 0. *)
Definition acceleration_thresholding (velocities : list N) (frequency : N) (tag : Z)
  (gravity k_gravity k_sigma : N) : res (list Z) :=
  let differences := #0 :: map (fun d => d * frequency) (np_diff velocities) in
  if (tag =? 1)%Z then
    let* s := spread_std (farr velocities) in
    Ok (intersect1d (nonzero (map (fun d => d >? k_gravity * gravity) differences))
                    (nonzero (map (fun v => v >? np_mean velocities + k_sigma * s) velocities)))
  else if (tag =? 2)%Z then
    let* s := spread_std (farr velocities) in
    Ok (intersect1d (nonzero (map (fun d => d <? (- k_gravity) * gravity) differences))
                    (nonzero (map (fun v => v <? np_mean velocities - k_sigma * s) velocities)))
  else Raise ValueError.

(** One pass of the loops phasespace.py:24-25 and 28-29 ([f] the rounding applied). *)
Definition central_loop (f : N -> N) (dt : dtype) (c d : list N) : res (list N) :=
  foldM (fun d i =>
    let* n := getz c (i + 1) in
    let* p := getz c (i - 1) in
    setz d i (store dt (f ((n - p) / #2)))) d (zrange 1 (zlen c - 1)).

(** phasespace.py:20-31; [zeros_like] keeps the dtype of [c]. *)
Definition ps_derivatives (dt : dtype) (c : list N) : res (list N * list N) :=
  let zeros := repeat #0 (length c) in
  let* dc := central_loop (fun x => around x 4) dt c zeros in
  let* dc2 := central_loop (fun x => around x 4) dt dc zeros in
  Ok (dc, dc2).

(** The tuple returned at phasespace.py:77. *)
Record ps_params := { p_std_c : N; p_std_dc : N; p_std_dc2 : N; p_lambda : N; p_theta : N;
  p_a1 : N; p_b1 : N; p_a2 : N; p_b2 : N; p_a3 : N; p_b3 : N }.

(** phasespace.py:59-77. *)
Definition ps_parameters (c dc dc2 : list N) : res ps_params :=
  let* std_c := spread_std (farr c) in
  let* std_dc := spread_std (farr dc) in
  let* std_dc2 := spread_std (farr dc2) in
  let lambda_ := nsqrt (#2 * nlog #(zlen c)) in
  let* prods := bcast nmul c dc2 in
  let theta := natan (nsum prods / nsum (map sq c)) in
  let a1 := lambda_ * std_c in
  let b1 := lambda_ * std_dc in
  let a2 := lambda_ * std_dc in
  let b2 := lambda_ * std_dc2 in
  let fact := nipow (ncos theta) 4 - nipow (nsin theta) 4 in
  let a3 := nsqrt (nipow a1 2 * nipow (ncos theta) 2 - nipow b2 2 * nipow (nsin theta) 2) / fact in
  let b3 := nsqrt (nipow b2 2 * nipow (ncos theta) 2 - nipow a1 2 * nipow (nsin theta) 2) / fact in
  Ok {| p_std_c := std_c; p_std_dc := std_dc; p_std_dc2 := std_dc2; p_lambda := lambda_; p_theta := theta;
        p_a1 := a1; p_b1 := b1; p_a2 := a2; p_b2 := b2; p_a3 := a3; p_b3 := b3 |}.

(** The second value returned by calculate_ab: a number, or (conditional expression binding tighter than
    the tuple) the pair (1e10, 1e10). *)
Inductive bval := BNum (b : N) | BPair (b1 b2 : N).

(** poincare.py:20-25. *)
Definition calculate_ab (std1 std2 theta lambda_ : N) : N * bval :=
  let r1 := lambda_ * std1 in
  let r2 := lambda_ * std2 in
  let fact := nipow (ncos theta) 4 - nipow (nsin theta) 4 in
  let fa := (nipow r1 2 * nipow (ncos theta) 2 - nipow r2 2 * nipow (nsin theta) 2) / fact in
  let fb := (nipow r2 2 * nipow (ncos theta) 2 - nipow r1 2 * nipow (nsin theta) 2) / fact in
  (nsqrt fa, if (fa >? #0) && (fb >? #0) then BNum (nsqrt fb) else BPair #(10 ^ 10) #(10 ^ 10)).

(** poincare.py:44-46. Dividing by a pair broadcasts against a two-element array. *)
Definition calculate_rho (x y : list N) (theta a : N) (b : bval) : res (list N) :=
  let* xp := bcast nadd (map (fun v => v * ncos theta) x) (map (fun v => v * nsin theta) y) in
  let* yp := bcast nsub (map (fun v => v * ncos theta) y) (map (fun v => v * nsin theta) x) in
  let* q := match b with
            | BNum b => Ok (map (fun v => v / b) yp)
            | BPair b1 b2 => bcast ndiv yp [b1; b2]
            end in
  bcast nadd (map (fun v => sq (v / a)) xp) (map sq q).

(** phasespace.py:116-121 and correlation.py:71-76: [np.sort(np.unique(np.concatenate(...)))]. *)
Definition union_above_one (rho1 rho2 rho3 : list N) : list Z :=
  zunique (nonzero (map (fun r => r >? #1) rho1) ++ nonzero (map (fun r => r >? #1) rho2)
           ++ nonzero (map (fun r => r >? #1) rho3)).

(** phasespace.py:105-123. *)
Definition phasespace_thresholding (dt : dtype) (c : list N) : res (list Z) :=
  let* (dc, dc2) := ps_derivatives dt c in
  let* p := ps_parameters c dc dc2 in
  let* rho1 := calculate_rho c dc #0 (p_a1 p) (BNum (p_b1 p)) in
  let* rho2 := calculate_rho dc dc2 #0 (p_a2 p) (BNum (p_b2 p)) in
  let* rho3 := calculate_rho c dc2 (p_theta p) (p_a3 p) (BNum (p_b3 p)) in
  Ok (union_above_one rho1 rho2 rho3).

(** phasespace.py:156-173. The array itself is modified and returned (see the heap model for aliasing). *)
Definition premodification (data : list N) (c1 c2 : N) : res (list N * list Z) :=
  let med := np_median data in
  let theta := np_median (map (fun x => nabs (x - med)) data) in
  let unremovable := intersect1d (nonzero (map (fun x => x >=? (- c1) * theta) data))
                                 (nonzero (map (fun x => x <=? c1 * theta) data)) in
  let removable_threshold := c2 * theta * nsqrt (#2 * nlog #(zlen data)) in
  let removable := intersect1d (nonzero (map (fun x => x >? removable_threshold) data))
                               (nonzero (map (fun x => x <? - removable_threshold) data)) in
  let* data := foldM (fun d i => let* v := getz d (i - 1) in setz d i v) data removable in
  Ok (data, unremovable).

(** correlation.py:23-28 and 51-78; [fluct] is [u - mean(u)]. *)
Definition velocity_correlation (ui vi wi : list N) : res (list Z) :=
  let* ui := fluct ui in
  let* vi := fluct vi in
  let* wi := fluct wi in
  let* std_u := spread_std (farr ui) in
  let* std_v := spread_std (farr vi) in
  let* std_w := spread_std (farr wi) in
  let lambda_ := nsqrt (#2 * nlog #(zlen ui)) in
  let* uv := bcast nmul ui vi in
  let theta1 := natan (nsum uv / nsum (map sq ui)) in
  let* uw := bcast nmul ui wi in
  let theta2 := natan (nsum uw / nsum (map sq ui)) in
  let* vw := bcast nmul vi wi in
  let theta3 := natan (nsum vw / nsum (map sq vi)) in
  let (a1, b1) := calculate_ab std_u std_v theta1 lambda_ in
  let (a2, b2) := calculate_ab std_u std_w theta2 lambda_ in
  let (a3, b3) := calculate_ab std_v std_w theta3 lambda_ in
  let* rho1 := calculate_rho ui vi theta1 a1 b1 in
  let* rho2 := calculate_rho ui wi theta2 a2 b2 in
  let* rho3 := calculate_rho vi wi theta3 a3 b3 in
  Ok (union_above_one rho1 rho2 rho3).

(** ** spherical.py *)

(** spherical.py:19-24. *)
Definition sph_descript (c : list N) (iteration : Z) (c_mean : N) : list N * N :=
  let m := np_nanmean c in
  (map (fun x => around (x - m) 4) c,
   if (iteration =? 1)%Z then around m 4 else around (c_mean + m) 4).

(** [np.gradient] of a 1-D array, unit spacing, first-order edges; fewer than 2 elements: ValueError. *)
Definition np_gradient (f : list N) : res (list N) :=
  if (zlen f <? 2)%Z then Raise ValueError else
  let n := zlen f in
  mapM (fun i =>
    if (i =? 0)%Z then let* b := getz f 1 in let* a := getz f 0 in Ok ((b - a) / #1)
    else if (i =? n - 1)%Z then let* b := getz f (n - 1) in let* a := getz f (n - 2) in Ok ((b - a) / #1)
    else let* b := getz f (i + 1) in let* a := getz f (i - 1) in Ok ((b - a) / #2)) (zrange 0 n).

(** [c * r0 + dc * r1 + dc2 * r2], rounded: one row of spherical.py:71-73. *)
Definition sph_row (c dc dc2 : list N) (r0 r1 r2 : N) : res (list N) :=
  let* s := bcast nadd (map (fun v => v * r0) c) (map (fun v => v * r1) dc) in
  let* s := bcast nadd s (map (fun v => v * r2) dc2) in
  Ok (map (fun v => around v 4) s).

(** spherical.py:61-74. *)
Definition sph_rotation (c dc dc2 : list N) (theta : N) : res (list N * list N * list N) :=
  if theta =? #0 then Ok (c, dc, dc2) else
  let r v := around v 4 in
  let* x := sph_row c dc dc2 (r (ncos theta)) (r #0) (r (nsin theta)) in
  let* y := sph_row c dc dc2 (r #0) (r #1) (r #0) in
  let* z := sph_row c dc dc2 (r (- nsin theta)) (r #0) (r (ncos theta)) in
  Ok (x, y, z).

(** [np.nanstd]: NaNs are left out of the mean, the sum of squares and the count. *)
Definition np_nanstd (l : list N) : N :=
  let m := np_nanmean l in
  nsqrt (nsum (map (fun x => if nisnan x then #0 else sq (x - m)) l) / #(zlen (valid_only l))).

(** spherical.py:93-97. *)
Definition sph_parameters (x y z : list N) : N * N * N :=
  let lambda_ := around (nsqrt (#2 * nlog #(zlen x))) 4 in
  (around (lambda_ * np_nanstd x) 4, around (lambda_ * np_nanstd y) 4, around (lambda_ * np_nanstd z) 4).

(** spherical.py:119-132, the test for one point. *)
Definition sph_flag (a b c x1 y1 z1 : N) : bool :=
  let den := nsqrt (nipow (a * c * y1) 2
                    + nipow b 2 * (nipow c 2 * nipow x1 2 + nipow a 2 * nipow z1 2)) in
  let x2 := around (a * b * c * x1 / den) 4 in
  let y2 := around (a * b * c * y1 / den) 4 in
  let zt := around (nipow c 2 * (#1 - nipow (x2 / a) 2 - nipow (y2 / b) 2)) 4 in
  let z2 := if z1 <? #0 then - around (nsqrt zt) 4 else if z1 >? #0 then around (nsqrt zt) 4 else #0 in
  let dis := (nipow x2 2 + nipow y2 2 + nipow z2 2) - (nipow x1 2 + nipow y1 2 + nipow z1 2) in
  dis <? #0.

(** spherical.py:117-138. [y] and [z] are indexed by the positions of [x]. *)
Definition sph_spike_indices (x y z : list N) (a b c : N) : res (list Z) :=
  foldM (fun ip i =>
    let* x1 := getz x i in
    let* y1 := getz y i in
    let* z1 := getz z i in
    Ok (if sph_flag a b c x1 y1 z1 then ip ++ [i] else ip)) [] (zrange 0 (zlen x)).

(** spherical.py:163-181. *)
Definition spherical_phasespace_thresholding (c : list N) (iteration : Z) (c_mean : N) : res (list Z) :=
  let (c, c_mean) := sph_descript c iteration c_mean in
  let* dc := np_gradient c in
  let* dc2 := np_gradient dc in
  let* prods := bcast nmul c dc in
  let theta := around (natan2 (nsum prods) (nsum (map sq dc2))) 4 in
  let* (x, y, z) := sph_rotation c dc dc2 theta in
  let '(a, b, c) := sph_parameters x y z in
  sph_spike_indices x y z a b c.

(** ** bivariatekernel.py, trivariatekernel.py *)

(** First element of a list for which the test holds (for ... if ...: break; else: default). *)
Fixpoint first_such {A} (test : A -> res bool) (l : list A) (default : A) : res A :=
  match l with
  | [] => Ok default
  | x :: l' => let* b := test x in if b then Ok x else first_such test l' default
  end.

(** The test of bivariatekernel.py:36 and 44. *)
Definition cutoff_test (c1 c2 : N) (force delta_force : list N) (peak_index i : Z) : res bool :=
  let* f := getz force i in
  let* p := getz force peak_index in
  if f / p <=? c1 then
    let* d := getz delta_force i in Ok (nabs d <=? c2)
  else Ok false.

(** bivariatekernel.py:31-53 = trivariatekernel.py:435-457 (the same text). A scalar [density_profile]
    is a one-element array. *)
Definition cutoff (density velocity : list N) (c1 c2 : N) (force : list N) (peak_index : Z) (grid : N)
  : res (N * N) :=
  let profile_length := zlen force in
  let* delta_force := bcast ndiv (map (fun d => d * grid) (#0 :: np_diff force)) density in
  let test := cutoff_test c1 c2 force delta_force peak_index in
  let* lower := first_such test (rev (zrange 1 peak_index)) 1%Z in
  let* upper := first_such test (zrange (peak_index + 1) (profile_length - 1)) (profile_length - 1)%Z in
  let* vl := getz velocity lower in
  let* vu := getz velocity upper in
  Ok (vl, vu).

(** bivariatekernel.py:57-63. *)
Definition biv_derivative (data : list N) : res (list N) :=
  foldM (fun d i =>
    let* m := getz data i in
    let* p := getz data (i - 1) in
    let* n := getz data (i + 1) in
    let backward := m - p in
    let forward := n - m in
    setz d i (if nabs backward >? nabs forward then forward else backward))
    (repeat #0 (length data)) (zrange 1 (zlen data - 1)).

(** trivariatekernel.py:22-34. *)
Definition tri_derivatives (dt : dtype) (data : list N) : res (list N * list N) :=
  let zeros := repeat #0 (length data) in
  let* dc := central_loop (fun x => x) dt data zeros in
  let* dc2 := central_loop (fun x => x) dt dc zeros in
  Ok (dc, dc2).

(** trivariatekernel.py:51-58. *)
Definition tri_rotation (u1 w1 : list N) : res N :=
  let n := #(zlen u1) in
  let* uw := bcast nmul u1 w1 in
  Ok (natan2 (n * nsum uw - nsum u1 * nsum w1) (n * nsum (map sq u1) - nsum u1 * nsum u1)).

(** trivariatekernel.py:76-80. *)
Definition tri_transform (x y : list N) (theta : N) : res (list N * list N) :=
  let* xt := bcast nadd (map (fun v => v * ncos theta) x) (map (fun v => v * nsin theta) y) in
  let* yt := bcast nadd (map (fun v => - v * nsin theta) x) (map (fun v => v * ncos theta) y) in
  Ok (xt, yt).

(** [a.min()], [a.max()]: NaN if any element is NaN, ValueError when empty. *)
Definition arr_min (l : list N) : res N :=
  match l with [] => Raise ValueError | x :: l' => Ok (if existsb nisnan l then nnan else np_min x l') end.
Definition arr_max (l : list N) : res N :=
  match l with [] => Raise ValueError | x :: l' => Ok (if existsb nisnan l then nnan else np_max x l') end.

(** One axis of [np.mgrid[lo:hi:grid*1j]] (trivariatekernel.py:104, then 122: [meshgrid_x[:, 0]] and
    [meshgrid_y[0, :]]). [grid = 0] makes 122 fail with IndexError; [grid < 0] has [|grid|] points. *)
Definition mgrid_axis (lo hi : N) (grid : Z) : res (list N) :=
  let g := Z.abs grid in
  if (g =? 0)%Z then Raise IndexError else
  let step := if (g =? 1)%Z then #1 else (hi - lo) / #(g - 1) in
  Ok (map (fun k => #k * step + lo) (zrange 0 g)).

(** [pdf.max()] and the first position (row-major) holding it, trivariatekernel.py:401-402; no such
    position (NaN) raises IndexError. *)
Fixpoint find_index (f : N -> bool) (l : list N) (k : Z) : option Z :=
  match l with [] => None | x :: l' => if f x then Some k else find_index f l' (k + 1)%Z end.
Fixpoint find_pos (f : N -> bool) (m : matrix) (r : Z) : option (Z * Z) :=
  match m with
  | [] => None
  | row :: m' => match find_index f row 0 with Some c => Some (r, c) | None => find_pos f m' (r + 1)%Z end
  end.
(** trivariatekernel.py:401-405. *)
Definition tri_peak (pdf : matrix) : res (N * Z * Z * list N * list N) :=
  let* peak := arr_max (concat pdf) in
  match find_pos (fun x => x =? peak) pdf 0 with
  | None => Raise IndexError
  | Some (up, wp) =>
      let* fu := mapM (fun row => getz row wp) pdf in
      let* fw := getz pdf up in
      Ok (peak, up, wp, fu, fw)
  end.

(** trivariatekernel.py:475-500, the first returned value. [kde ut wt uf wf] is the oracle for lines
    480-484: the density of the points (ut, wt) evaluated on the grid uf x wf, or an exception (too few
    or collinear points). The second returned value, the array [estimation], is in M_trikde.v. *)
Definition tri_kernel (kde : list N -> list N -> list N -> list N -> res matrix) (u1 w1 : list N) (grid : Z)
  : res (list Z) :=
  let* theta := tri_rotation u1 w1 in
  let* (ut, wt) := tri_transform u1 w1 theta in
  let* umin := arr_min ut in
  let* umax := arr_max ut in
  let* wmin := arr_min wt in
  let* wmax := arr_max wt in
  let* uf := mgrid_axis umin umax grid in
  let* wf := mgrid_axis wmin wmax grid in
  let* density := kde ut wt uf wf in
  let* (peak, up, wp, fu, fw) := tri_peak density in
  let lambda_ := nsqrt (#2 * nlog #(zlen u1)) in
  let* stdu := spread_std (farr u1) in
  let* stdw := spread_std (farr w1) in
  let cu := lambda_ * stdu / nsqrt #(zlen u1) in
  let cw := lambda_ * stdw / nsqrt #(zlen u1) in
  let* (ul, uu) := cutoff [peak] uf cu cu fu up #grid in
  let* (wl, wu) := cutoff [peak] wf cw cw fw wp #grid in
  let half := lit 5 1 in
  let uu1 := uu - half * (uu + ul) in
  let wu1 := wu - half * (wu + wl) in
  let* rho := bcast nadd (map (fun v => sq ((v - half * (uu + ul)) / uu1)) ut)
                         (map (fun v => sq ((v - half * (wu + wl)) / wu1)) wt) in
  Ok (nonzero (map (fun r => r >? #1) rho)).

(** trivariatekernel.py:516-521. *)
Definition three_dimensional_kernel (kde : list N -> list N -> list N -> list N -> res matrix) (dt : dtype)
  (data : list N) (grid : Z) : res (list Z) :=
  let* (dc, dc2) := tri_derivatives dt data in
  let* x1 := tri_kernel kde data dc grid in
  let* x2 := tri_kernel kde data dc2 grid in
  let* x3 := tri_kernel kde dc dc2 grid in
  Ok (zunique (x1 ++ x2 ++ x3)).

End Detection.
Arguments ps_params : clear implicits.
Arguments bval : clear implicits.
