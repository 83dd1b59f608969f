(** Property theorems C83 to C88 (despiking scripts of examples/filtration). *)
From Coq Require Import Reals Lra Sorted.
From Verif Require Import F64 F64ex Spec2 Spec3 Spec4 Spec5 M_pipeline P_pipeline P_pipeline2.
Local Open Scope Z_scope.

Local Notation NF := (F64 libm_ex).
Local Definition raised {A} (r : res A) : option exn := match r with Ok _ => None | Raise e => Some e end.
Local Definition ints (l : list Z) : list NF := map nofZ l.
(** Rows in thousandths. *)
Local Definition milli (r : res (rec3 NF)) : list (list Z) :=
  match r with
  | Ok (x, y, z) => map (map (fun v => nceilZ (nmul v (nofZ 1000)))) [x; y; z]
  | Raise _ => []
  end.

(** ** C83 *)
(** Each iterated script returns [s'] exactly when [s'] comes from a run of passes that stops at the iteration limit
    or at the first pass that flags nothing. *)
Theorem C83_acceleration : forall (N : Num) (s s' : rec3 N),
  accel_script s = Ok s' <->
  exists hist, despiked (fun pass => accel_detect (if Nat.even pass then 2 else 1))
                        (replace3 (fun v idx => linear_interpolation DFloat v idx 3)) 10 s hist s'.
Proof. exact accel_history. Qed.
Print Assumptions C83_acceleration.
Theorem C83_phasespace : forall (N : Num) (s s' : rec3 N),
  phase_script s = Ok s' <->
  exists hist, despiked (fun _ => phase_detect) (replace3 (fun v idx => linear_interpolation DFloat v idx 3)) 10 s hist s'.
Proof. exact phase_history. Qed.
Print Assumptions C83_phasespace.
Theorem C83_spherical : forall (N : Num) (s s' : rec3 N),
  sphere_script s = Ok s' <->
  exists hist, despiked (fun pass => sphere_detect (Z.of_nat pass)) (replace3 (fun v idx => linear_interpolation DFloat v idx 3)) 3 s hist s'.
Proof. exact sphere_history. Qed.
Print Assumptions C83_spherical.
Theorem C83_correlation : forall (N : Num) (s s' : rec3 N),
  corr_script s = Ok s' <->
  exists hist, despiked (fun _ => corr_detect) (replace3 (mean_value DFloat)) 10 s hist s'.
Proof. exact corr_history. Qed.
Print Assumptions C83_correlation.
(** What one pass flags. *)
Theorem C83_acceleration_pass : forall (x y z : list R),
  x <> [] -> length y = length x -> length z = length x ->
  (exists r, accel_detect 1 (fins x, fins y, fins z) = Ok r /\ StronglySorted Z.lt r /\
     forall i, In i r <-> 0 <= i < zlen x /\ (rising x i \/ rising y i \/ rising z i)) /\
  (exists r, accel_detect 2 (fins x, fins y, fins z) = Ok r /\ StronglySorted Z.lt r /\
     forall i, In i r <-> 0 <= i < zlen x /\ (falling x i \/ falling y i \/ falling z i)).
Proof. exact accel_detect_exact. Qed.
Print Assumptions C83_acceleration_pass.
Theorem C83_phasespace_pass : forall (N : Num) (x y z : list N),
  x <> [] -> length y = length x -> length z = length x ->
  exists ix iy iz r, phasespace_thresholding DFloat (centred x) = Ok ix /\ phasespace_thresholding DFloat (centred y) = Ok iy /\
    phasespace_thresholding DFloat (centred z) = Ok iz /\
    phase_detect (x, y, z) = Ok r /\ StronglySorted Z.lt r /\ (forall i, In i r <-> In i ix \/ In i iy \/ In i iz) /\
    forall i, In i r -> 0 <= i < zlen x.
Proof. exact phase_detect_union. Qed.
Print Assumptions C83_phasespace_pass.
Theorem C83_spherical_pass : forall (N : Num) (pass : Z) (x y z : list N),
  2 <= zlen x -> length y = length x -> length z = length x ->
  exists ix iy iz r,
    spherical_phasespace_thresholding (centred x) pass (ndiv (nsum x) (nofZ (zlen x))) = Ok ix /\
    spherical_phasespace_thresholding (centred y) pass (ndiv (nsum y) (nofZ (zlen y))) = Ok iy /\
    spherical_phasespace_thresholding (centred z) pass (ndiv (nsum z) (nofZ (zlen z))) = Ok iz /\
    sphere_detect pass (x, y, z) = Ok r /\ StronglySorted Z.lt r /\ (forall i, In i r <-> In i ix \/ In i iy \/ In i iz) /\
    forall i, In i r -> 0 <= i < zlen x.
Proof. exact sphere_detect_union. Qed.
Print Assumptions C83_spherical_pass.
Theorem C83_correlation_pass : forall (N : Num) (x y z : list N),
  x <> [] -> y <> [] -> z <> [] ->
  corr_detect (x, y, z) = velocity_correlation (centred x) (centred y) (centred z).
Proof. exact corr_detect_is. Qed.
Print Assumptions C83_correlation_pass.
(** Nothing flagged in the first pass: the record is returned as it is. *)
Theorem C83_untouched : forall (N : Num) (s : rec3 N),
  (accel_detect 2 s = Ok [] -> accel_script s = Ok s) /\ (phase_detect s = Ok [] -> phase_script s = Ok s) /\
  (sphere_detect 0 s = Ok [] -> sphere_script s = Ok s) /\ (corr_detect s = Ok [] -> corr_script s = Ok s).
Proof. exact scripts_untouched. Qed.
Print Assumptions C83_untouched.
Example C83_nonvacuous : accel_detect 2 (ints [0; 0; 90; 0; 0; 0]%Z, ints [0; 0; 0; 0; -90; 0]%Z, ints [1; 2; 3; 4; 5; 7]%Z) = Ok [4%Z] /\
  milli (accel_script (ints [0; 0; 90; 0; 0; 0]%Z, ints [0; 0; 0; 0; -90; 0]%Z, ints [1; 2; 3; 4; 5; 7]%Z)) =
  [[0; 0; 0; 0; 0; 0]; [0; 0; 0; 0; 0; 0]; [1000; 2000; 3000; 4000; 5500; 7000]]%Z.
Proof. vm_compute. split; reflexivity. Qed.
Example C83_nonvacuous_correlation :
  corr_detect (ints [0; 0; 90; 0; 0; 0]%Z, ints [0; 0; 0; 0; -90; 0]%Z, ints [1; 2; 3; 4; 5; 7]%Z) = Ok [2; 4; 5]%Z.
Proof. vm_compute. reflexivity. Qed.

(** ** C84 *)
Local Open Scope R_scope.
Theorem C84_acceleration : forall (x y z : list R),
  x <> [] -> length y = length x -> length z = length x ->
  script_result accel_script (fun pass => accel_detect (if Nat.even pass then 2 else 1)) 10 x y z.
Proof. exact accel_filtered. Qed.
Print Assumptions C84_acceleration.
Theorem C84_phasespace : forall (x y z : list R),
  x <> [] -> length y = length x -> length z = length x ->
  script_result phase_script (fun _ => phase_detect) 10 x y z.
Proof. exact phase_filtered. Qed.
Print Assumptions C84_phasespace.
Theorem C84_spherical : forall (x y z : list R),
  (2 <= length x)%nat -> length y = length x -> length z = length x ->
  script_result sphere_script (fun pass => sphere_detect (Z.of_nat pass)) 3 x y z.
Proof. exact sphere_filtered. Qed.
Print Assumptions C84_spherical.
(** The correlation script, any arithmetic: samples never flagged are unchanged. *)
Theorem C84_correlation : forall (N : Num) (x y z x' y' z' : list N) hist,
  despiked (fun _ => corr_detect) (replace3 (mean_value DFloat)) 10 (x, y, z) hist (x', y', z') ->
  same_unless hist x x' /\ same_unless hist y y' /\ same_unless hist z z'.
Proof. exact corr_keeps. Qed.
Print Assumptions C84_correlation.
(** Rounding again changes nothing. *)
Theorem C84_round_once : forall dec x,
  round_dec dec (round_dec dec x) = round_dec dec x.
Proof. exact round_dec_idem. Qed.
Print Assumptions C84_round_once.
Example C84_nonvacuous :
  milli (sphere_script (ints [0; 0; 90; 0; 0; 0]%Z, ints [0; 0; 0; 0; -90; 0]%Z, ints [1; 2; 3; 4; 5; 7]%Z)) =
  [[15000; 15000; 15000; 15000; 15000; 15000]; [-15000; -15000; -15000; -15000; -15000; -15000]; [3667; 3667; 3667; 3667; 3667; 3667]]%Z.
Proof. vm_compute. reflexivity. Qed.

(** ** C85 *)
(** The first pass looks for falling spikes only: a record without any is returned unchanged, whatever rising spikes
    it has. *)
Theorem C85_falling_first : forall (x y z : list R),
  x <> [] -> length y = length x -> length z = length x ->
  (forall i, (0 <= i < zlen x)%Z -> ~ falling x i /\ ~ falling y i /\ ~ falling z i) ->
  accel_script (fins x, fins y, fins z) = Ok (fins x, fins y, fins z).
Proof. exact accel_no_falling. Qed.
Print Assumptions C85_falling_first.
(** Refuted: a record with a rising spike which the script returns unchanged. *)
Theorem C85_refuted : 
  exists x y z : list R, exists i r, length y = length x /\ length z = length x /\
  accel_script (fins x, fins y, fins z) = Ok (fins x, fins y, fins z) /\ accel_detect 1 (fins x, fins y, fins z) = Ok r /\
  In i r /\ rising x i.
Proof. exact accel_misses_rising. Qed.
Print Assumptions C85_refuted.
Example C85_nonvacuous :
  milli (accel_script (ints [0; 0; 90; 0; 0; 0]%Z, ints [0; 0; 90; 0; 0; 0]%Z, ints [1; 2; 3; 4; 5; 7]%Z)) =
  [[0; 0; 90000; 0; 0; 0]; [0; 0; 90000; 0; 0; 0]; [1000; 2000; 3000; 4000; 5000; 7000]]%Z.
Proof. vm_compute. reflexivity. Qed.

(** ** C86 *)
(** One plane. *)
Theorem C86_plane : forall kde F (P : list (R * R)) grid a b c d,
  let T := turned P in ~ collinear P -> (3 <= Z.abs grid)%Z ->
  is_min (map fst T) a -> is_max (map fst T) b -> is_min (map snd T) c -> is_max (map snd T) d ->
  kde_gives kde T F (axis a b grid) (axis c d grid) ->
  exists r ul uu wl wu, @tri_kernel XR kde (fins (map fst P)) (fins (map snd P)) grid = Ok r /\ bounded_sorted (zlen P) r /\
    In ul (axis a b grid) /\ In uu (axis a b grid) /\ In wl (axis c d grid) /\ In wu (axis c d grid) /\
    a < ul <= uu /\ c < wl <= wu /\
    (ul < uu -> wl < wu -> forall i, In i r <-> (0 <= i < zlen P)%Z /\
       beyond ((uu - ul) / 2) ((wu - wl) / 2) (fst (nth (Z.to_nat i) T (0, 0)) - (uu + ul) / 2) (snd (nth (Z.to_nat i) T (0, 0)) - (wu + wl) / 2)) /\
    ((exists x y, In x (axis a b grid) /\ In y (axis c d grid) /\ F a c < F x y) -> (ul < uu \/ wl < wu) /\ r <> []).
Proof. exact tri_kernel_points. Qed.
Print Assumptions C86_plane.
(** The detector. *)
Theorem C86_detector_refuted : forall kde F (l : list R) grid a b c d,
  let T := turned (combine l (rdc l)) in
  estimator kde -> (3 <= Z.abs grid)%Z -> in_general_position l ->
  is_min (map fst T) a -> is_max (map fst T) b -> is_min (map snd T) c -> is_max (map snd T) d ->
  kde_gives kde T F (axis a b grid) (axis c d grid) ->
  (exists x y, In x (axis a b grid) /\ In y (axis c d grid) /\ F a c < F x y) ->
  exists r, @three_dimensional_kernel_full XR kde DFloat (fins l) grid = Ok r /\ r <> [] /\ bounded_sorted (zlen l) r.
Proof. exact three_full_flags. Qed.
Print Assumptions C86_detector_refuted.
(** The script. *)
Theorem C86_script_refuted : forall kde F (x y z : list R) a b c d,
  let T := turned (combine x (rdc x)) in
  estimator kde -> length y = length x -> length z = length x -> in_general_position x -> in_general_position y -> in_general_position z ->
  is_min (map fst T) a -> is_max (map fst T) b -> is_min (map snd T) c -> is_max (map snd T) d ->
  kde_gives kde T F (axis a b 64) (axis c d 64) ->
  (exists u w, In u (axis a b 64) /\ In w (axis c d 64) /\ F a c < F u w) ->
  exists idx x' y' z', idx <> [] /\ bounded_sorted (zlen x) idx /\ tri_script kde (fins x, fins y, fins z) = Ok (fins x', fins y', fins z') /\
    filtered_from [idx] x x' /\ filtered_from [idx] y y' /\ filtered_from [idx] z z'.
Proof. exact tri_script_flags. Qed.
Print Assumptions C86_script_refuted.
(** scipy's estimate is an estimator in this sense. *)
Theorem C86_scott : estimator (@scott_kde XR).
Proof. exact scott_estimator. Qed.
Print Assumptions C86_scott.
Example C86_nonvacuous : exists kde F (l : list R) a b c d, let T := turned (combine l (rdc l)) in
  estimator kde /\ in_general_position l /\ is_min (map fst T) a /\ is_max (map fst T) b /\ is_min (map snd T) c /\ is_max (map snd T) d /\
  kde_gives kde T F (axis a b 64) (axis c d 64) /\ (exists x y, In x (axis a b 64) /\ In y (axis c d 64) /\ F a c < F x y).
Proof. exact flags_hypotheses. Qed.

(** ** C87 *)
(** What the script flags, for any estimate. *)
Theorem C87_detect : forall kde F (l : list R) a b c d,
  let T := turned (cloud l) in ~ collinear (cloud l) ->
  is_min (map fst T) a -> is_max (map fst T) b -> is_min (map snd T) c -> is_max (map snd T) d ->
  kde_gives kde T F (axis a b 256) (axis c d 256) ->
  exists r ul uu wl wu, biv_detect kde (fins l) = Ok r /\ bounded_sorted (zlen l) r /\
    In ul (axis a b 256) /\ In uu (axis a b 256) /\ In wl (axis c d 256) /\ In wu (axis c d 256) /\
    a < ul <= uu /\ c < wl <= wu /\
    (ul < uu -> wl < wu -> forall i, In i r <-> (0 <= i < zlen l)%Z /\
       beyond ((uu - ul) / 2) ((wu - wl) / 2) (fst (nth (Z.to_nat i) T (0, 0)) - (uu + ul) / 2) (snd (nth (Z.to_nat i) T (0, 0)) - (wu + wl) / 2)) /\
    (forall i, (0 <= i < zlen l)%Z -> fst (nth (Z.to_nat i) T (0, 0)) < ul \/ uu < fst (nth (Z.to_nat i) T (0, 0)) -> In i r) /\
    r <> [].
Proof. exact biv_detect_ellipse. Qed.
Print Assumptions C87_detect.
(** The script with scipy's estimate: it always replaces something, or fails. *)
Theorem C87_script_refuted : forall (l : list R),
  (~ collinear (cloud l) -> exists idx m, biv_detect scott_kde (fins l) = Ok idx /\ idx <> [] /\ bounded_sorted (zlen l) idx /\
     (forall i a, is_min (map fst (turned (cloud l))) a -> (i < length l)%nat -> fst (nth i (turned (cloud l)) (0, 0)) = a -> In (Z.of_nat i) idx) /\
     biv_script scott_kde (fins l) = Ok (fins m) /\ length m = length l /\
     (forall i, (i < length l)%nat -> ~ In (Z.of_nat i) idx -> nth i m 0 = round_dec 4 (nth i l 0)) /\
     (forall lo hi, (forall x, In x l -> lo <= x <= hi) -> forall x, In x m -> round_dec 4 lo <= x <= round_dec 4 hi)) /\
  ((2 <= length l)%nat -> collinear (cloud l) -> biv_script scott_kde (fins l) = Raise LinAlgError) /\
  ((length l <= 1)%nat -> biv_script scott_kde (fins l) = Raise ValueError).
Proof. exact biv_scott. Qed.
Print Assumptions C87_script_refuted.
(** A script with a single pass fails when there is nothing to replace. *)
Theorem C87_nothing_flagged : forall (N : Num) kde,
  (forall data : list N, biv_detect kde data = Ok [] -> biv_script kde data = Raise IndexError) /\
  (forall x y z : list N, three_dimensional_kernel_full kde DFloat x 64 = Ok [] -> three_dimensional_kernel_full kde DFloat y 64 = Ok [] ->
     three_dimensional_kernel_full kde DFloat z 64 = Ok [] -> tri_script kde (x, y, z) = Raise IndexError).
Proof. exact one_pass_empty. Qed.
Print Assumptions C87_nothing_flagged.
Example C87_nonvacuous : exists l : list R, ~ collinear (cloud l) /\ (exists l' : list R, (2 <= length l')%nat /\ collinear (cloud l')).
Proof. exact biv_hypotheses. Qed.
Example C87_run : raised (@linear_interpolation NF DFloat (ints [1; 2; 3]%Z) [] 4) = Some IndexError.
Proof. vm_compute. reflexivity. Qed.

(** ** C88 *)
Theorem C88_exact : forall (n : Z),
  (0 <= n)%Z -> @time_len XR n = n.
Proof. exact time_len_exact. Qed.
Print Assumptions C88_exact.
Theorem C88_binary64 : forall (L : Libm) (n : Z),
  (0 <= n <= 2 ^ 50)%Z -> @time_len (F64 L) n = n \/ @time_len (F64 L) n = (n + 1)%Z.
Proof. exact time_len_near. Qed.
Print Assumptions C88_binary64.
(** Refuted in binary64: seven samples get eight times; the record of the dataset gets the right number. *)
Theorem C88_refuted : forall (L : Libm),
  @time_len (F64 L) 7 = 8%Z /\ @time_len (F64 L) 18000 = 18000%Z.
Proof. exact time_len_float. Qed.
Print Assumptions C88_refuted.
Example C88_nonvacuous : map (fun n => Z.sub (@time_len NF n) n) [0; 1; 7; 13; 14; 28; 29; 100]%Z = [0; 0; 1; 0; 1; 1; 0; 0]%Z.
Proof. vm_compute. reflexivity. Qed.
