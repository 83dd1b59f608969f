(** Model of trivariatekernel.py:120-386: the kernel density estimate computed next to scipy's. Two rows of
    data of the same length (every call in the file). *)
From Verif Require Export M_detection.

Section Trikde.
Context {N : Num}.
Local Open Scope num_scope.
Local Notation matrix := (@matrix N).

(** trivariatekernel.py:163. *)
Definition td_factor (rows : Z) (cols : N) : N := npow cols (- #1 / #(rows + 4)).

(** trivariatekernel.py:180. *)
Definition td_weight (cols : nat) : list N := repeat (#1 / #(Z.of_nat cols)) cols.

(** trivariatekernel.py:198, one entry of [np.cov(data, rowvar=1, bias=False, aweights=w)]
    (numpy/lib/function_base.py): weighted averages, [fact = w_sum - ddof * sum(w * aweights) / w_sum]
    (0 when not positive), [dot(X, (X * w).T) * (1 / fact)]. *)
Definition np_cov (w x y : list N) : N :=
  let w_sum := nsum w in
  let ax := nsum (zipwith nmul x w) / w_sum in
  let ay := nsum (zipwith nmul y w) / w_sum in
  let fact := w_sum - #1 * nsum (map sq w) / w_sum in
  let fact := if fact <=? #0 then #0 else fact in
  dot (map (fun v => v - ax) x) (zipwith nmul (map (fun v => v - ay) y) w) * (#1 / fact).

(** trivariatekernel.py:215: [scipy.linalg.cholesky] of a 2 x 2 matrix [[a, b], [b', c]]: every entry must be
    finite (ValueError); LAPACK potrf on the upper triangle, a pivot that is not positive is LinAlgError. The
    result is the upper factor [[r11, r12], [0, r22]]. *)
Definition cholesky2 (a b b' c : N) : res (N * N * N) :=
  if negb (nisfin a && nisfin b && (nisfin b' && nisfin c)) then Raise ValueError else
  if negb (a >? #0) then Raise LinAlgError else
  let r11 := nsqrt a in
  let r12 := b / r11 in
  let d := c - r12 * r12 in
  if negb (d >? #0) then Raise LinAlgError else Ok (r11, r12, nsqrt d).

(** trivariatekernel.py:232, for the upper factor. *)
Definition td_determination (r11 r22 : N) : N :=
  #2 * nsum (map nlog [r11 * nsqrt (npi * #2); r22 * nsqrt (npi * #2)]).

(** The dictionary of trivariatekernel.py:270-277; the covariance as (xx, xy, yx, yy), the Cholesky factor as
    (r11, r12, r22). *)
Record td_evals := { e_factor : N; e_weight : list N; e_net : N; e_cov : N * N * N * N;
                     e_chol : N * N * N; e_log : N }.

(** trivariatekernel.py:251-279. [cholesky.dtype = np.float64] changes nothing on a float64 array. *)
Definition td_covariance (x y : list N) : res td_evals :=
  let weight := td_weight (length x) in
  let net := npow (nsum (map sq weight)) #(-1) in
  let factor := td_factor 2 net in
  let xx := np_cov weight x x in
  let xy := np_cov weight x y in
  let yx := np_cov weight y x in
  let yy := np_cov weight y y in
  let* (r11, r12, r22) := cholesky2 xx xy yx yy in
  let f2 := sq factor in
  let c11 := r11 * factor in
  let c12 := r12 * factor in
  let c22 := r22 * factor in
  Ok {| e_factor := factor; e_weight := weight; e_net := net;
        e_cov := (xx * f2, xy * f2, yx * f2, yy * f2);
        e_chol := (c11, c12, c22); e_log := td_determination c11 c22 |}.

(** trivariatekernel.py:320-327 on two rows. *)
Definition td_density (x y : list N) : res td_evals :=
  if (length x =? 0)%nat then Raise ValueError else
  if (length x <? 2)%nat then Raise ValueError else td_covariance x y.

(** scipy.stats._stats.gaussian_kernel_estimate (SciPy 1.10 on) for two columns, one column of values:
    [l11], [l21], [l22] is the lower Cholesky factor; points and positions are whitened by forward
    substitution, the weighted Gaussians are accumulated point by point. *)
Definition whiten (l11 l21 l22 : N) (p : N * N) : N * N :=
  let a := fst p / l11 in (a, (snd p - l21 * a) / l22).
Definition gke_term (norm : N) (q p : N * N) : N :=
  let r0 := fst p - fst q in
  let r1 := snd p - snd q in
  nexp (- (#0 + r0 * r0 + r1 * r1) / #2) * norm.
Definition gke (points : list (N * N)) (weights : list N) (l11 l21 l22 : N) (position : N * N) : N :=
  let norm := npow (#2 * npi) #(-1) / l11 / l22 in
  let q := whiten l11 l21 l22 position in
  fold_left (fun est pw => est + snd pw * gke_term norm q (fst pw))
            (combine (map (whiten l11 l21 l22) points) weights) #0.

(** trivariatekernel.py:343, 360-386: [_extraction] and [_evolve] followed by [_estimation]. The lower factor is
    [cholesky.T]; the data are float64, so [_type] yields 'double'. The value at row i, column j of the grid. *)
Definition td_evolve (points : list (N * N)) (e : td_evals) (uf wf : list N) : matrix :=
  let '(c11, c12, c22) := e_chol e in
  map (fun x => map (fun y => gke points (e_weight e) c11 c12 c22 (x, y)) wf) uf.

(** The density of the points (x, y) themselves on the grid: what [scipy.stats.gaussian_kde(values)(positions)]
    computes (trivariatekernel.py:484) with Scott's rule. *)
Definition scott_kde (x y uf wf : list N) : res matrix :=
  let* e := td_density x y in Ok (td_evolve (combine x y) e uf wf).

(** trivariatekernel.py:475-483. The points handed to [_evolve] are the original ones ([dataset]). *)
Definition tri_estimation (u1 w1 : list N) (grid : Z) : res matrix :=
  let* theta := tri_rotation u1 w1 in
  let* (ut, wt) := tri_transform u1 w1 theta in
  let* umin := arr_min ut in
  let* umax := arr_max ut in
  let* wmin := arr_min wt in
  let* wmax := arr_max wt in
  let* uf := mgrid_axis umin umax grid in
  let* wf := mgrid_axis wmin wmax grid in
  let* e := td_density ut wt in
  Ok (td_evolve (combine u1 w1) e uf wf).

(** trivariatekernel.py:475-500, both returned values. *)
Definition tri_kernel_full (kde : list N -> list N -> list N -> list N -> res matrix) (u1 w1 : list N) (grid : Z)
  : res (list Z * matrix) :=
  let* estimation := tri_estimation u1 w1 grid in
  let* id_ := tri_kernel kde u1 w1 grid in
  Ok (id_, estimation).

(** trivariatekernel.py:516-521. *)
Definition three_dimensional_kernel_full (kde : list N -> list N -> list N -> list N -> res matrix) (dt : dtype)
  (data : list N) (grid : Z) : res (list Z) :=
  let* (dc, dc2) := tri_derivatives dt data in
  let* (x1, _) := tri_kernel_full kde data dc grid in
  let* (x2, _) := tri_kernel_full kde data dc2 grid in
  let* (x3, _) := tri_kernel_full kde dc dc2 grid in
  Ok (zunique (x1 ++ x2 ++ x3)).

End Trikde.
Arguments td_evals : clear implicits.
