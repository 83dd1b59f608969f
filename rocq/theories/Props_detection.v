(** Property theorems C31-C40 (filtration/detection). *)
From Coq Require Import Reals Lra.
From Flocq Require Import Core.Raux.
From Verif Require Import F64ex P_nan.
Local Open Scope Z_scope.

(** Float records with integer values, for the examples. *)
Local Notation zs := (map (@nofZ (F64 libm_ex))).

(** ** C31 *)
Theorem C31_structure : forall (N : Num) (v : list N) (f g kg ks s d : N),
  v <> [] -> spread_std (farr v) = Ok s ->
  (exists r, acceleration_thresholding v f 1 g kg ks = Ok r /\ StronglySorted Z.lt r /\
     forall i, In i r <-> 0 <= i < zlen v /\
       nltb (nmul kg g) (if i =? 0 then nofZ 0 else nmul (nsub (nth (Z.to_nat i) v d) (nth (Z.to_nat (i - 1)) v d)) f) = true /\
       nltb (nadd (ndiv (nsum v) (nofZ (zlen v))) (nmul ks s)) (nth (Z.to_nat i) v d) = true) /\
  (exists r, acceleration_thresholding v f 2 g kg ks = Ok r /\ StronglySorted Z.lt r /\
     forall i, In i r <-> 0 <= i < zlen v /\
       nltb (if i =? 0 then nofZ 0 else nmul (nsub (nth (Z.to_nat i) v d) (nth (Z.to_nat (i - 1)) v d)) f) (nmul (nopp kg) g) = true /\
       nltb (nth (Z.to_nat i) v d) (nsub (ndiv (nsum v) (nofZ (zlen v))) (nmul ks s)) = true).
Proof. exact accel_general. Qed.
Print Assumptions C31_structure.
Theorem C31_exact : forall (l : list R) (f g kg ks : R),
  l <> [] ->
  (exists r, acceleration_thresholding (fins l) (Fin f) 1 (Fin g) (Fin kg) (Fin ks) = Ok r /\ StronglySorted Z.lt r /\
     forall i, In i r <-> 0 <= i < zlen l /\ (kg * g < raccel l f i)%R /\ (rmean l + ks * rstd l < nth (Z.to_nat i) l 0)%R) /\
  (exists r, acceleration_thresholding (fins l) (Fin f) 2 (Fin g) (Fin kg) (Fin ks) = Ok r /\ StronglySorted Z.lt r /\
     forall i, In i r <-> 0 <= i < zlen l /\ (raccel l f i < - (kg * g))%R /\ (nth (Z.to_nat i) l 0 < rmean l - ks * rstd l)%R).
Proof. exact accel_exact. Qed.
Print Assumptions C31_exact.
Theorem C31_first : forall (l : list R) (f g kg ks : R) tag r,
  (0 <= kg * g)%R ->
  acceleration_thresholding (fins l) (Fin f) tag (Fin g) (Fin kg) (Fin ks) = Ok r -> ~ In 0 r.
Proof. exact accel_first. Qed.
Print Assumptions C31_first.
Theorem C31_mirror : forall (l : list R) (f g kg ks : R),
  acceleration_thresholding (fins l) (Fin f) 2 (Fin g) (Fin kg) (Fin ks) =
  acceleration_thresholding (fins (map Ropp l)) (Fin f) 1 (Fin g) (Fin kg) (Fin ks).
Proof. exact accel_mirror. Qed.
Print Assumptions C31_mirror.
Theorem C31_bad_tag : forall (N : Num) (v : list N) f tag g kg ks,
  tag <> 1 -> tag <> 2 ->
  acceleration_thresholding v f tag g kg ks = Raise ValueError.
Proof. exact accel_tag. Qed.
Print Assumptions C31_bad_tag.
Example C31_nonvacuous :
  acceleration_thresholding (zs [0; 0; 90; 0; 0; 0]) (nofZ 25) 1 (nofZ 10) (nofZ 1) (nofZ 1) = Ok [2] /\
  acceleration_thresholding (zs [0; 0; -90; 0; 0; 0]) (nofZ 25) 2 (nofZ 10) (nofZ 1) (nofZ 1) = Ok [2] /\
  acceleration_thresholding (zs [0; 1]) (nofZ 25) 3 (nofZ 10) (nofZ 1) (nofZ 1) = Raise ValueError.
Proof. vm_compute. auto. Qed.

(** ** C32 *)
Theorem C32_structure : forall (N : Num) dt (c : list N) d,
  c <> [] ->
  exists dc dc2 p r,
    ps_derivatives dt c = Ok (dc, dc2) /\ length dc = length c /\ length dc2 = length c /\
    (forall i, 0 <= i < zlen c -> nth (Z.to_nat i) dc d =
       if (0 <? i) && (i <? zlen c - 1) then store dt (around (ndiv (nsub (nth (Z.to_nat (i + 1)) c d) (nth (Z.to_nat (i - 1)) c d)) (nofZ 2)) 4) else nofZ 0) /\
    (forall i, 0 <= i < zlen c -> nth (Z.to_nat i) dc2 d =
       if (0 <? i) && (i <? zlen c - 1) then store dt (around (ndiv (nsub (nth (Z.to_nat (i + 1)) dc d) (nth (Z.to_nat (i - 1)) dc d)) (nofZ 2)) 4) else nofZ 0) /\
    ps_parameters c dc dc2 = Ok p /\
    phasespace_thresholding dt c = Ok r /\ StronglySorted Z.lt r /\
    let rho theta a b x y :=
      nadd (nmul (ndiv (nadd (nmul x (ncos theta)) (nmul y (nsin theta))) a) (ndiv (nadd (nmul x (ncos theta)) (nmul y (nsin theta))) a))
           (nmul (ndiv (nsub (nmul y (ncos theta)) (nmul x (nsin theta))) b) (ndiv (nsub (nmul y (ncos theta)) (nmul x (nsin theta))) b)) in
    forall i, In i r <-> 0 <= i < zlen c /\
      (nltb (nofZ 1) (rho (nofZ 0) (p_a1 p) (p_b1 p) (nth (Z.to_nat i) c d) (nth (Z.to_nat i) dc d)) = true \/
       nltb (nofZ 1) (rho (nofZ 0) (p_a2 p) (p_b2 p) (nth (Z.to_nat i) dc d) (nth (Z.to_nat i) dc2 d)) = true \/
       nltb (nofZ 1) (rho (p_theta p) (p_a3 p) (p_b3 p) (nth (Z.to_nat i) c d) (nth (Z.to_nat i) dc2 d)) = true).
Proof. exact phasespace_general. Qed.
Print Assumptions C32_structure.
Theorem C32_exact : forall (l : list R),
  let dc := rcentral (round_dec 4) l in let dc2 := rcentral (round_dec 4) dc in
  let lam := runiv (length l) in let theta := atan (rdot l dc2 / rdot l l) in
  let a1 := (lam * rstd l)%R in let b1 := (lam * rstd dc)%R in let b2 := (lam * rstd dc2)%R in
  let fact := (cos theta ^ 4 - sin theta ^ 4)%R in
  let A := (a1 ^ 2 * cos theta ^ 2 - b2 ^ 2 * sin theta ^ 2)%R in
  let B := (b2 ^ 2 * cos theta ^ 2 - a1 ^ 2 * sin theta ^ 2)%R in
  (2 <= length l)%nat -> rvar l <> 0%R -> rvar dc <> 0%R -> rvar dc2 <> 0%R -> (0 < A)%R -> (0 < B)%R -> fact <> 0%R ->
  exists r, phasespace_thresholding DFloat (fins l) = Ok r /\ StronglySorted Z.lt r /\
    forall i, In (Z.of_nat i) r <-> (i < length l)%nat /\
      (outside 0 a1 b1 (nth i l 0%R) (nth i dc 0%R) \/ outside 0 b1 b2 (nth i dc 0%R) (nth i dc2 0%R) \/
       outside theta (sqrt A / fact) (sqrt B / fact) (nth i l 0%R) (nth i dc2 0%R)).
Proof. exact phasespace_exact. Qed.
Print Assumptions C32_exact.
Theorem C32_constant : forall (x : R) n,
  (0 < n)%nat -> phasespace_thresholding DFloat (fins (repeat x n)) = Ok [].
Proof. exact phasespace_constant. Qed.
Print Assumptions C32_constant.
Theorem C32_empty : forall (N : Num) dt,
  @phasespace_thresholding N dt [] = Raise ValueError.
Proof. exact phasespace_empty. Qed.
Print Assumptions C32_empty.
(** A record meeting every hypothesis of [C32_exact]. *)
Example C32_nonvacuous :
  let l := [4; 0; 4; 8]%R in let dc := rcentral (round_dec 4) l in let dc2 := rcentral (round_dec 4) dc in
  let theta := atan (rdot l dc2 / rdot l l) in let a1 := (runiv 4 * rstd l)%R in let b2 := (runiv 4 * rstd dc2)%R in
  (2 <= length l)%nat /\ rvar l <> 0%R /\ rvar dc <> 0%R /\ rvar dc2 <> 0%R /\
  (0 < a1 ^ 2 * cos theta ^ 2 - b2 ^ 2 * sin theta ^ 2)%R /\ (0 < b2 ^ 2 * cos theta ^ 2 - a1 ^ 2 * sin theta ^ 2)%R /\
  (cos theta ^ 4 - sin theta ^ 4 <> 0)%R.
Proof. exact phasespace_example. Qed.

Example C32_run : phasespace_thresholding DFloat (zs [1; 2; 1; 3; 2; 1; 90; 2; 3; 1; 2; 1]) = Ok [5; 6; 7].
Proof. vm_compute. reflexivity. Qed.

(** ** C33 *)
(** poincare.calculate_ab: whenever a number is returned for b the equations hold ... *)
Theorem C33_poincare : forall (s1 s2 theta lam : R) a b,
  @calculate_ab XR (Fin s1) (Fin s2) (Fin theta) (Fin lam) = (a, BNum b) ->
  (cos theta ^ 4 - sin theta ^ 4 <> 0)%R ->
  exists x y, a = Fin x /\ b = Fin y /\ (0 < x)%R /\ (0 < y)%R /\
    (x ^ 2 * cos theta ^ 2 + y ^ 2 * sin theta ^ 2 = (lam * s1) ^ 2)%R /\
    (x ^ 2 * sin theta ^ 2 + y ^ 2 * cos theta ^ 2 = (lam * s2) ^ 2)%R.
Proof. exact ab_equations. Qed.
Print Assumptions C33_poincare.
(** ... and they have one positive solution. *)
Theorem C33_unique : forall (R1 R2 theta x y x' y' : R),
  (cos theta ^ 4 - sin theta ^ 4 <> 0)%R ->
  (0 < x)%R -> (0 < y)%R -> (0 < x')%R -> (0 < y')%R ->
  (x ^ 2 * cos theta ^ 2 + y ^ 2 * sin theta ^ 2 = R1)%R -> (x ^ 2 * sin theta ^ 2 + y ^ 2 * cos theta ^ 2 = R2)%R ->
  (x' ^ 2 * cos theta ^ 2 + y' ^ 2 * sin theta ^ 2 = R1)%R -> (x' ^ 2 * sin theta ^ 2 + y' ^ 2 * cos theta ^ 2 = R2)%R ->
  x = x' /\ y = y'.
Proof. exact axes_unique. Qed.
Print Assumptions C33_unique.
(** phasespace.calculate_parameters divides by the factor after the square root: the left-hand sides come
    out divided by cos^4 t - sin^4 t, ... *)
Theorem C33_phasespace_scaled : forall (l dc dc2 : list R),
  length dc = length l -> length dc2 = length l -> rdot l l <> 0%R ->
  let lam := runiv (length l) in let theta := atan (rdot l dc2 / rdot l l) in
  let a1 := (lam * rstd l)%R in let b2 := (lam * rstd dc2)%R in
  let fact := (cos theta ^ 4 - sin theta ^ 4)%R in
  (0 <= a1 ^ 2 * cos theta ^ 2 - b2 ^ 2 * sin theta ^ 2)%R -> (0 <= b2 ^ 2 * cos theta ^ 2 - a1 ^ 2 * sin theta ^ 2)%R -> fact <> 0%R ->
  exists p a3 b3, ps_parameters (fins l) (fins dc) (fins dc2) = Ok p /\ p_a3 p = Fin a3 /\ p_b3 p = Fin b3 /\
    (a3 ^ 2 * cos theta ^ 2 + b3 ^ 2 * sin theta ^ 2 = a1 ^ 2 / fact)%R /\
    (a3 ^ 2 * sin theta ^ 2 + b3 ^ 2 * cos theta ^ 2 = b2 ^ 2 / fact)%R.
Proof. exact ps_axes_wrong. Qed.
Print Assumptions C33_phasespace_scaled.
(** ... so the equations fail on every record whose angle is not 0 and whose variance is not 0. *)
Theorem C33_phasespace_refuted : forall (l dc dc2 : list R),
  length dc = length l -> length dc2 = length l ->
  rvar l <> 0%R -> rdot l l <> 0%R -> rdot l dc2 <> 0%R -> (2 <= length l)%nat ->
  let lam := runiv (length l) in let theta := atan (rdot l dc2 / rdot l l) in
  let a1 := (lam * rstd l)%R in let b2 := (lam * rstd dc2)%R in
  let fact := (cos theta ^ 4 - sin theta ^ 4)%R in
  (0 <= a1 ^ 2 * cos theta ^ 2 - b2 ^ 2 * sin theta ^ 2)%R -> (0 <= b2 ^ 2 * cos theta ^ 2 - a1 ^ 2 * sin theta ^ 2)%R -> fact <> 0%R ->
  exists p a3 b3, ps_parameters (fins l) (fins dc) (fins dc2) = Ok p /\ p_a3 p = Fin a3 /\ p_b3 p = Fin b3 /\
    (a3 ^ 2 * cos theta ^ 2 + b3 ^ 2 * sin theta ^ 2 <> a1 ^ 2)%R.
Proof. exact ps_axes_refuted. Qed.
Print Assumptions C33_phasespace_refuted.
Example C33_nonvacuous : let l := [2; -2]%R in let dc2 := [-1; 1]%R in
  rdot l l <> 0%R /\ rvar l <> 0%R /\ rdot l dc2 <> 0%R /\
  (let t := atan (rdot l dc2 / rdot l l) in let a1 := (runiv 2 * rstd l)%R in let b2 := (runiv 2 * rstd dc2)%R in
   0 <= a1 ^ 2 * cos t ^ 2 - b2 ^ 2 * sin t ^ 2 /\ 0 <= b2 ^ 2 * cos t ^ 2 - a1 ^ 2 * sin t ^ 2 /\ cos t ^ 4 - sin t ^ 4 <> 0)%R.
Proof. exact ps_axes_example. Qed.

(** ** C34 *)
Theorem C34_structure : forall (N : Num) (data : list N) (c1 c2 : N) d,
  let med := np_median data in
  let theta := np_median (map (fun x => nabs (nsub x med)) data) in
  let T := nmul (nmul c2 theta) (nsqrt (nmul (nofZ 2) (nlog (nofZ (zlen data))))) in
  exists r unrem, premodification data c1 c2 = Ok (r, unrem) /\ length r = length data /\ StronglySorted Z.lt unrem /\
    (forall i, In i unrem <-> 0 <= i < zlen data /\
       nleb (nmul (nopp c1) theta) (nth (Z.to_nat i) data d) = true /\ nleb (nth (Z.to_nat i) data d) (nmul c1 theta) = true) /\
    forall i, 0 <= i < zlen data ->
      nth (Z.to_nat i) r d =
        if nltb T (nth (Z.to_nat i) data d) && nltb (nth (Z.to_nat i) data d) (nopp T)
        then (if i =? 0 then nth (length data - 1) data d else nth (Z.to_nat (i - 1)) r d)
        else nth (Z.to_nat i) data d.
Proof. exact premod_general. Qed.
Print Assumptions C34_structure.
(** With a non-negative multiplier nothing is ever replaced. *)
Theorem C34_exact : forall (l s t : list R) (c1 c2 : R),
  l <> [] -> (0 <= c2)%R ->
  is_sorting s l -> is_sorting t (map (fun x => Rabs (x - rmiddle s)) l) ->
  exists unrem, premodification (fins l) (Fin c1) (Fin c2) = Ok (fins l, unrem) /\ StronglySorted Z.lt unrem /\
    forall i, In (Z.of_nat i) unrem <-> (i < length l)%nat /\ (Rabs (nth i l 0) <= c1 * rmiddle t)%R.
Proof. exact premod_correct. Qed.
Print Assumptions C34_exact.
Theorem C34_refuted : 
  exists (l s : list R) (theta : R) (i : nat) r unrem,
  s = [0; 0; 0; 0; 100]%R /\ is_sorting s l /\ rmiddle s = 0%R /\ is_sorting s (map (fun x => Rabs (x - rmiddle s)) l) /\ theta = rmiddle s /\
  premodification (fins l) (Fin 1) (Fin 1) = Ok (r, unrem) /\ (1 <= i < length l)%nat /\
  (1 * theta * runiv (length l) < nth i l 0)%R /\ nth i r (Fin 0) <> nth (i - 1) r (Fin 0).
Proof. exact premod_not_replaced. Qed.
Print Assumptions C34_refuted.
Example C34_nonvacuous : is_sorting [1; 2; 30]%R [2; 30; 1]%R /\ rmiddle [1; 2; 30]%R = 2%R /\
  is_sorting [0; 1; 28]%R (map (fun x => Rabs (x - rmiddle [1; 2; 30]))%R [2; 30; 1]%R).
Proof. exact premod_example. Qed.
Example C34_negative_multiplier :
  (match premodification (zs [8; 3; -1; 9; -9; 2; 7]) (nofZ 1) (nofZ (-1)) with Ok (r, u) => (map nfloorZ r, u) | _ => ([], []) end)
  = ([8; 8; 8; 9; -9; -9; -9], [1; 2; 5]).
Proof. vm_compute. reflexivity. Qed.

(** ** C35 *)
(** From three samples on: the call returns exactly when the three ellipses exist, with the points outside
    one of them; otherwise ValueError. *)
Theorem C35_decided : forall (u v w : list R),
  (3 <= length u)%nat -> length v = length u -> length w = length u ->
  let lam := runiv (length u) in
  (ellipse_exists u v /\ ellipse_exists u w /\ ellipse_exists v w ->
   exists r, velocity_correlation (fins u) (fins v) (fins w) = Ok r /\ StronglySorted Z.lt r /\
     forall i, In i r <-> 0 <= i < zlen u /\
       let k := Z.to_nat i in
       let du := (nth k u 0 - rmean u)%R in let dv := (nth k v 0 - rmean v)%R in let dw := (nth k w 0 - rmean w)%R in
       (outside (rangle u v) (raxis1 lam u v) (raxis2 lam u v) du dv \/
        outside (rangle u w) (raxis1 lam u w) (raxis2 lam u w) du dw \/
        outside (rangle v w) (raxis1 lam v w) (raxis2 lam v w) dv dw)) /\
  (~ (ellipse_exists u v /\ ellipse_exists u w /\ ellipse_exists v w) ->
   velocity_correlation (fins u) (fins v) (fins w) = Raise ValueError).
Proof. exact correlation_exact. Qed.
Print Assumptions C35_decided.
(** Proportional components always raise. *)
Theorem C35_refuted : forall (u w : list R) (k b : R),
  (3 <= length u)%nat -> length w = length u ->
  velocity_correlation (fins u) (fins (map (fun x => k * x + b)%R u)) (fins w) = Raise ValueError.
Proof. exact correlation_proportional. Qed.
Print Assumptions C35_refuted.
Theorem C35_mean_flow : forall (u v w : list R) (a b c : R),
  u <> [] -> v <> [] -> w <> [] ->
  velocity_correlation (fins (map (fun x => x + a)%R u)) (fins (map (fun x => x + b)%R v)) (fins (map (fun x => x + c)%R w)) =
  velocity_correlation (fins u) (fins v) (fins w).
Proof. exact correlation_shift. Qed.
Print Assumptions C35_mean_flow.
Example C35_nonvacuous : ellipse_exists [1; -1; 1; -1]%R [1; 1; -1; -1]%R /\ ellipse_exists [1; -1; 1; -1]%R [1; -1; -1; 1]%R /\
  ellipse_exists [1; 1; -1; -1]%R [1; -1; -1; 1]%R.
Proof. unfold ellipse_exists, rcov, rvar, rmoment, rmean. cbn. lra. Qed.

Example C35_run :
  velocity_correlation (zs [1; -1; 1; -1; 40; -2]) (zs [2; -2; 2; -2; 80; -4]) (zs [1; -1; -1; 1; -1; 2]) = Raise ValueError /\
  velocity_correlation (zs [3; -3; 3; -3; 3; -3; 30]) (zs [2; 2; -2; -2; 2; 2; -20]) (zs [1; -1; -1; 1; 1; 1; 14]) = Ok [6].
Proof. vm_compute. auto. Qed.

(** ** C36 *)
Theorem C36_structure : forall (N : Num) (data : list N) (iteration : Z) (c_mean d : N),
  2 <= zlen data ->
  let m := np_nanmean data in
  exists dc dc2 theta x y z r,
    let c := map (fun v => around (nsub v m) 4) data in
    np_gradient c = Ok dc /\ np_gradient dc = Ok dc2 /\
    theta = around (natan2 (nsum (zipwith nmul c dc)) (nsum (map sq dc2))) 4 /\
    length x = length data /\ length y = length data /\ length z = length data /\
    (forall i, (i < length data)%nat ->
       (neqb theta (nofZ 0) = true -> nth i x d = nth i c d /\ nth i y d = nth i dc d /\ nth i z d = nth i dc2 d) /\
       (neqb theta (nofZ 0) = false ->
          let row r0 r1 r2 := around (nadd (nadd (nmul (nth i c d) (around r0 4)) (nmul (nth i dc d) (around r1 4))) (nmul (nth i dc2 d) (around r2 4))) 4 in
          nth i x d = row (ncos theta) (nofZ 0) (nsin theta) /\ nth i y d = row (nofZ 0) (nofZ 1) (nofZ 0) /\
          nth i z d = row (nopp (nsin theta)) (nofZ 0) (ncos theta))) /\
    spherical_phasespace_thresholding data iteration c_mean = Ok r /\ StronglySorted Z.lt r /\
    let lam := around (nsqrt (nmul (nofZ 2) (nlog (nofZ (zlen data))))) 4 in
    let axis v := around (nmul lam (np_nanstd v)) 4 in
    forall i, In i r <-> 0 <= i < zlen data /\
      sph_flag (axis x) (axis y) (axis z) (nth (Z.to_nat i) x d) (nth (Z.to_nat i) y d) (nth (Z.to_nat i) z d) = true.
Proof. exact spherical_general. Qed.
Print Assumptions C36_structure.
Theorem C36_short : forall (N : Num) (data : list N) iteration c_mean,
  zlen data < 2 ->
  spherical_phasespace_thresholding data iteration c_mean = Raise ValueError.
Proof. exact spherical_short. Qed.
Print Assumptions C36_short.
Theorem C36_gradient : forall (N : Num) (f : list N) d,
  2 <= zlen f ->
  exists g, np_gradient f = Ok g /\ length g = length f /\
    forall i, 0 <= i < zlen f -> nth (Z.to_nat i) g d =
      if i =? 0 then ndiv (nsub (nth 1 f d) (nth 0 f d)) (nofZ 1)
      else if i =? zlen f - 1 then ndiv (nsub (nth (length f - 1) f d) (nth (length f - 2) f d)) (nofZ 1)
      else ndiv (nsub (nth (Z.to_nat (i + 1)) f d) (nth (Z.to_nat (i - 1)) f d)) (nofZ 2).
Proof. exact np_gradient_gen. Qed.
Print Assumptions C36_gradient.
(** np.nanmean and np.nanstd, used above: mean and population standard deviation of the samples that are there. *)
Theorem C36_nan_moments : 
  forall l : list (option R), present l <> [] ->
  @np_nanmean XR (map stored l) = Fin (rmean (present l)) /\ @np_nanstd XR (map stored l) = Fin (sqrt (rvar (present l))).
Proof. exact nan_moments. Qed.
Print Assumptions C36_nan_moments.
Theorem C36_nan_moments_none : 
  forall l : list (option R), present l = [] ->
  @np_nanmean XR (map stored l) = NaN /\ @np_nanstd XR (map stored l) = NaN.
Proof. exact nan_moments_none. Qed.
Print Assumptions C36_nan_moments_none.
Example C36_nan_run : @np_nanmean XR (map stored [Some 1; None; Some 3; None])%R = Fin 2 /\ @np_nanstd XR (map stored [Some 1; None; Some 3; None])%R = Fin 1.
Proof.
  destruct (nan_moments [Some 1; None; Some 3; None]%R) as [E1 E2]; [discriminate|]. rewrite E1, E2.
  change (present [Some 1; None; Some 3; None]%R) with [1; 3]%R.
  assert (Em : rmean [1; 3]%R = 2%R) by (unfold rmean, Rsum; cbn; lra).
  assert (Ev : rvar [1; 3]%R = 1%R) by (unfold rvar, rmoment; rewrite Em; unfold rmean, Rsum; cbn; lra).
  rewrite Em, Ev, sqrt_1. split; reflexivity.
Qed.
Theorem C36_margin : forall (a b c x y z : R),
  (0 < a)%R -> (0 < b)%R -> (0 < c)%R ->
  let h := (/ 20000)%R in let S := ((x / a) ^ 2 + (y / b) ^ 2 + (z / c) ^ 2)%R in let r2 := (x ^ 2 + y ^ 2 + z ^ 2)%R in
  (0 < S)%R ->
  ((sph_E h a b c <= r2 * (1 / S - 1))%R -> @sph_flag XR (Fin a) (Fin b) (Fin c) (Fin x) (Fin y) (Fin z) = false) /\
  ((sph_E h a b c < r2 * (1 - 1 / S))%R -> (z = 0 \/ sph_D h a b c + h <= z ^ 2 / S)%R ->
   @sph_flag XR (Fin a) (Fin b) (Fin c) (Fin x) (Fin y) (Fin z) = true).
Proof. exact sph_margin. Qed.
Print Assumptions C36_margin.
Theorem C36_origin : forall (a b c : R),
  (0 < a)%R -> (0 < b)%R -> (0 < c)%R ->
  @sph_flag XR (Fin a) (Fin b) (Fin c) (Fin 0) (Fin 0) (Fin 0) = false.
Proof. exact sph_origin. Qed.
Print Assumptions C36_origin.
(** A point a thousand radii away that is not flagged. *)
Theorem C36_refuted : 
  exists x y z : R, (1000000 < (x / 1) ^ 2 + (y / 1) ^ 2 + (z / 1) ^ 2)%R /\
  @sph_flag XR (Fin 1) (Fin 1) (Fin 1) (Fin x) (Fin y) (Fin z) = false.
Proof. exact sph_missed. Qed.
Print Assumptions C36_refuted.
Example C36_nonvacuous : (sph_E (/ 20000) 1 1 1 < (4 ^ 2 + 4 ^ 2 + 4 ^ 2) * (1 - 1 / ((4 / 1) ^ 2 + (4 / 1) ^ 2 + (4 / 1) ^ 2)) /\
  sph_D (/ 20000) 1 1 1 + / 20000 <= 4 ^ 2 / ((4 / 1) ^ 2 + (4 / 1) ^ 2 + (4 / 1) ^ 2))%R /\
  (sph_E (/ 20000) 1 1 1 <= ((1 / 4) ^ 2 + (1 / 4) ^ 2 + (1 / 4) ^ 2) * (1 / ((1 / 4 / 1) ^ 2 + (1 / 4 / 1) ^ 2 + (1 / 4 / 1) ^ 2) - 1))%R.
Proof. exact sph_example. Qed.

Example C36_run : spherical_phasespace_thresholding (zs [1; 2; 1; 3; 2; 1; 90; 2; 3; 1; 2; 1]) 1 (nofZ 0) = Ok [5; 6; 7].
Proof. vm_compute. reflexivity. Qed.

(** ** C37 *)
Theorem C37_structure : forall (N : Num) (x xfil : list N) (k s : N) d,
  length xfil = length x ->
  spread_std (farr x) = Ok s ->
  pollution_rate x xfil k = Ok (nmul (ndiv (nofZ (Z.of_nat
    (count_idx (length x) (fun i => nltb (nadd (nth i xfil d) (nmul k s)) (nth i x d))
     + count_idx (length x) (fun i => nltb (nth i x d) (nsub (nopp (nth i xfil d)) (nmul k s)))))) (nofZ (zlen x))) (nofZ 100)).
Proof. exact pollution_general. Qed.
Print Assumptions C37_structure.
Theorem C37_exact : forall (l f : list R) (k : R),
  l <> [] -> length f = length l ->
  pollution_rate (fins l) (fins f) (Fin k) = Ok (Fin (100 *
    INR (count_idx (length l) (fun i => Rlt_bool (nth i f 0 + k * rstd l) (nth i l 0))
         + count_idx (length l) (fun i => Rlt_bool (nth i l 0) (- nth i f 0 - k * rstd l))) / INR (length l)))%R.
Proof. exact pollution_exact. Qed.
Print Assumptions C37_exact.
Theorem C37_bounds : forall (l f : list R) (k : R),
  l <> [] -> length f = length l ->
  exists p, pollution_rate (fins l) (fins f) (Fin k) = Ok (Fin p) /\ (0 <= p <= 200)%R /\
    ((forall i, (i < length l)%nat -> 0 <= nth i f 0 + k * rstd l)%R -> (p <= 100)%R).
Proof. exact pollution_bounds. Qed.
Print Assumptions C37_bounds.
Theorem C37_refuted : forall (l f : list R) (k : R),
  l <> [] -> length f = length l ->
  (forall i, (i < length l)%nat -> nth i f 0 + k * rstd l < - Rabs (nth i l 0))%R ->
  pollution_rate (fins l) (fins f) (Fin k) = Ok (Fin 200).
Proof. exact pollution_double. Qed.
Print Assumptions C37_refuted.
Theorem C37_errors : forall (N : Num) (x xfil : list N) k,
  (x = [] -> pollution_rate x xfil k = Raise ValueError) /\
  ((2 <= length x)%nat -> length xfil <> length x -> length xfil <> 1%nat -> pollution_rate x xfil k = Raise ValueError).
Proof. exact pollution_errors. Qed.
Print Assumptions C37_errors.
Example C37_nonvacuous : (forall i, (i < length [1; 1])%nat -> nth i [-2; -2] 0 + 0 * rstd [1; 1] < - Rabs (nth i [1; 1] 0))%R.
Proof. intros [|[|i]] Hi; cbn in *; try lia; rewrite Rabs_pos_eq; lra. Qed.

(** ** C38 *)
Theorem C38_structure : forall (N : Num) (density velocity force : list N) (c1 c2 grid : N) (p : Z) d,
  2 <= zlen force -> zlen velocity = zlen force -> (zlen density = zlen force \/ zlen density = 1) -> 0 <= p < zlen force ->
  let f i := nth (Z.to_nat i) force d in
  let dens i := if zlen density =? 1 then nth 0 density d else nth (Z.to_nat i) density d in
  let meets i := nleb (ndiv (f i) (f p)) c1 = true /\
                 nleb (nabs (ndiv (nmul (nsub (f i) (f (i - 1))) grid) (dens i))) c2 = true in
  exists lo up, cutoff density velocity c1 c2 force p grid = Ok (nth (Z.to_nat lo) velocity d, nth (Z.to_nat up) velocity d) /\
    ((1 <= lo < p /\ meets lo /\ forall j, lo < j < p -> ~ meets j) \/ (lo = 1 /\ forall j, 1 <= j < p -> ~ meets j)) /\
    ((p < up < zlen force - 1 /\ meets up /\ forall j, p < j < up -> ~ meets j) \/
     (up = zlen force - 1 /\ forall j, p < j < zlen force - 1 -> ~ meets j)).
Proof. exact cutoff_general. Qed.
Print Assumptions C38_structure.
Theorem C38_brackets : forall (N : Num) (density velocity force : list N) (c1 c2 grid : N) (p : Z) d,
  2 <= zlen force -> zlen velocity = zlen force -> (zlen density = zlen force \/ zlen density = 1) -> 1 < p < zlen force - 1 ->
  exists lo up, cutoff density velocity c1 c2 force p grid = Ok (nth (Z.to_nat lo) velocity d, nth (Z.to_nat up) velocity d) /\
    1 <= lo < p /\ p < up < zlen force.
Proof. exact cutoff_brackets. Qed.
Print Assumptions C38_brackets.
(** At the edges the fallback indices 1 and n-1 do not bracket the peak. *)
Theorem C38_refuted : forall (N : Num) (density velocity force : list N) (c1 c2 grid : N) (p : Z) d,
  2 <= zlen force -> zlen velocity = zlen force -> (zlen density = zlen force \/ zlen density = 1) ->
  (0 <= p <= 1 -> exists y, cutoff density velocity c1 c2 force p grid = Ok (nth 1 velocity d, y)) /\
  (zlen force - 2 <= p < zlen force -> exists x, cutoff density velocity c1 c2 force p grid = Ok (x, nth (length velocity - 1) velocity d)).
Proof. exact cutoff_edge. Qed.
Print Assumptions C38_refuted.
Example C38_nonvacuous :
  (match cutoff (zs [1]) (zs [10; 11; 12; 13; 14; 15]) (lit 5 1) (nofZ 9) (zs [0; 1; 4; 6; 2; 1]) 3 (nofZ 1) with
   | Ok (a, b) => [nfloorZ a; nfloorZ b] | _ => [] end) = [11; 14].
Proof. vm_compute. reflexivity. Qed.

(** ** C39 *)
Theorem C39_structure : forall (N : Num) (data : list N) d,
  exists r, biv_derivative data = Ok r /\ length r = length data /\
    forall i, 0 <= i < zlen data -> nth (Z.to_nat i) r d =
      if (0 <? i) && (i <? zlen data - 1) then
        let backward := nsub (nth (Z.to_nat i) data d) (nth (Z.to_nat (i - 1)) data d) in
        let forward := nsub (nth (Z.to_nat (i + 1)) data d) (nth (Z.to_nat i) data d) in
        if nltb (nabs forward) (nabs backward) then forward else backward
      else nofZ 0.
Proof. exact biv_general. Qed.
Print Assumptions C39_structure.
Theorem C39_exact : forall (l : list R),
  exists m, biv_derivative (fins l) = Ok (fins m) /\ length m = length l /\
    (forall i, (i = 0 \/ S i = length l)%nat -> nth i m 0%R = 0%R) /\
    (forall i, (0 < i)%nat -> (S i < length l)%nat ->
       let b := (nth i l 0 - nth (i - 1) l 0)%R in let f := (nth (S i) l 0 - nth i l 0)%R in
       (nth i m 0%R = b \/ nth i m 0%R = f) /\ Rabs (nth i m 0%R) = Rmin (Rabs b) (Rabs f) /\ (Rabs b = Rabs f -> nth i m 0%R = b)).
Proof. exact biv_exact. Qed.
Print Assumptions C39_exact.
Theorem C39_affine : forall (a b : R) (n : nat),
  exists m, biv_derivative (fins (map (fun k => a * INR k + b)%R (seq 0 n))) = Ok (fins m) /\ length m = n /\
    forall i, (0 < i)%nat -> (S i < n)%nat -> nth i m 0%R = a.
Proof. exact biv_affine. Qed.
Print Assumptions C39_affine.
Example C39_nonvacuous : (match biv_derivative (zs [1; 5; 6; 2; 2]) with Ok l => map nfloorZ l | _ => [] end) = [0; 1; 1; 0; 0].
Proof. vm_compute. reflexivity. Qed.

(** ** C40 *)
Theorem C40_union : forall (N : Num) (kde : list N -> list N -> list N -> list N -> res (list (list N))) dt (data : list N) grid r,
  three_dimensional_kernel kde dt data grid = Ok r ->
  exists dc dc2 x1 x2 x3, tri_derivatives dt data = Ok (dc, dc2) /\
    tri_kernel kde data dc grid = Ok x1 /\ tri_kernel kde data dc2 grid = Ok x2 /\ tri_kernel kde dc dc2 grid = Ok x3 /\
    StronglySorted Z.lt r /\ forall i, In i r <-> In i x1 \/ In i x2 \/ In i x3.
Proof. exact tri_kernel_union. Qed.
Print Assumptions C40_union.
Theorem C40_plane : forall (N : Num) (kde : list N -> list N -> list N -> list N -> res (list (list N))) (u1 w1 : list N) grid r d,
  length u1 = length w1 -> u1 <> [] -> tri_kernel kde u1 w1 grid = Ok r ->
  exists theta ut wt uf wf density peak up wp fu fw ul uu wl wu,
    tri_rotation u1 w1 = Ok theta /\ tri_transform u1 w1 theta = Ok (ut, wt) /\
    kde ut wt uf wf = Ok density /\ tri_peak density = Ok (peak, up, wp, fu, fw) /\
    let lam := nsqrt (nmul (nofZ 2) (nlog (nofZ (zlen u1)))) in
    let cu := ndiv (nmul lam (np_std u1)) (nsqrt (nofZ (zlen u1))) in
    let cw := ndiv (nmul lam (np_std w1)) (nsqrt (nofZ (zlen u1))) in
    cutoff [peak] uf cu cu fu up (nofZ grid) = Ok (ul, uu) /\
    cutoff [peak] wf cw cw fw wp (nofZ grid) = Ok (wl, wu) /\
    StronglySorted Z.lt r /\
    forall i, In i r <-> 0 <= i < zlen u1 /\
      let mid a b := nmul (lit 5 1) (nadd b a) in
      let q x a b := ndiv (nsub x (mid a b)) (nsub b (mid a b)) in
      nltb (nofZ 1) (nadd (nmul (q (nth (Z.to_nat i) ut d) ul uu) (q (nth (Z.to_nat i) ut d) ul uu))
                          (nmul (q (nth (Z.to_nat i) wt d) wl wu) (q (nth (Z.to_nat i) wt d) wl wu))) = true.
Proof. exact tri_kernel_spec. Qed.
Print Assumptions C40_plane.
Theorem C40_peak : forall (N : Num) (HO : ord_laws N) (pdf : list (list N)) peak up wp fu fw,
  (forall row x, In row pdf -> In x row -> nisnan x = false) -> tri_peak pdf = Ok (peak, up, wp, fu, fw) ->
  (forall row x, In row pdf -> In x row -> nleb x peak = true) /\
  nth_error pdf (Z.to_nat up) = Some fw /\ 0 <= up /\ 0 <= wp /\
  (exists x, nth_error fw (Z.to_nat wp) = Some x /\ neqb x peak = true) /\
  length fu = length pdf /\
  (forall i row, nth_error pdf i = Some row -> exists x, nth_error row (Z.to_nat wp) = Some x /\ nth_error fu i = Some x) /\
  (forall i row y, (i < Z.to_nat up)%nat -> nth_error pdf i = Some row -> In y row -> neqb y peak = false) /\
  (forall j y, (j < Z.to_nat wp)%nat -> nth_error fw j = Some y -> neqb y peak = false).
Proof. exact tri_peak_spec. Qed.
Print Assumptions C40_peak.
Theorem C40_derivatives : forall (l : list R),
  tri_derivatives DFloat (fins l) = Ok (fins (rcentral (fun x => x) l), fins (rcentral (fun x => x) (rcentral (fun x => x) l))).
Proof. exact tri_derivatives_exact. Qed.
Print Assumptions C40_derivatives.
Theorem C40_isometry : forall (x y : list R) (theta : R),
  length x = length y ->
  exists xt yt, tri_transform (fins x) (fins y) (Fin theta) = Ok (fins xt, fins yt) /\
    length xt = length x /\ length yt = length x /\
    (forall i, (i < length x)%nat -> nth i xt 0%R = (nth i x 0 * cos theta + nth i y 0 * sin theta)%R /\
                                     nth i yt 0%R = (nth i y 0 * cos theta - nth i x 0 * sin theta)%R) /\
    (forall i j, (i < length x)%nat -> (j < length x)%nat ->
       ((nth i xt 0 - nth j xt 0) ^ 2 + (nth i yt 0 - nth j yt 0) ^ 2 = (nth i x 0 - nth j x 0) ^ 2 + (nth i y 0 - nth j y 0) ^ 2)%R).
Proof. exact tri_transform_isometry. Qed.
Print Assumptions C40_isometry.
Theorem C40_angle : forall (u w : list R),
  length u = length w -> u <> [] -> rvar u <> 0%R ->
  tri_rotation (fins u) (fins w) = Ok (Fin (atan (rcov u w / rvar u))).
Proof. exact tri_rotation_exact. Qed.
Print Assumptions C40_angle.
Example C40_nonvacuous :
  three_dimensional_kernel (fun _ _ _ _ => Ok (map zs [[0; 0; 0; 0]; [0; 1; 2; 0]; [0; 2; 9; 2]; [0; 1; 3; 1]])) DFloat (zs [1; 2; 1; 50; 1; 2; 1]) 4
  = Ok [0; 1; 2; 3; 4; 5; 6].
Proof. vm_compute. reflexivity. Qed.
