(** Property theorems C157: repaired records and the range of the record. *)
From Coq Require Import Reals Lra List ZArith Sorted.
From Verif Require Import Num NpBase XR F64 F64ex Spec Spec30 M_descriptive M_series M_replacement M_pipeline P_range.
Import ListNotations.
Local Open Scope R_scope.

(** Nothing but samples of the record, in every arithmetic. *)
Theorem C157_copies : forall (N : Num) (v r : list N) idx, last_valid_data v idx = Ok r -> forall x, In x r -> In x v.
Proof. exact lvd_copies. Qed.
Print Assumptions C157_copies.
(** Whatever the indices, windows and smoothing factors, as soon as a record is returned. *)
Theorem C157_simple : keeps_range (@last_valid_data XR) /\ keeps_range (@mean_value XR DFloat) /\ keeps_range (@median_value XR DFloat) /\
  (forall w, keeps_range (fun v idx => @repl_sma XR DFloat v idx w)) /\
  (forall a, keeps_range (fun v idx => @repl_ema XR DFloat v idx (Fin a))) /\
  (forall p, keeps_range (fun v idx => @repl_wma XR DFloat v idx p)).
Proof. exact simple_ranges. Qed.
Print Assumptions C157_simple.
(** Interpolation rounds, so that the range is the rounded one. *)
Theorem C157_interpolation : forall (l : list R) idx dec, idx <> [] -> StronglySorted Z.lt idx -> (forall i, In i idx -> (0 <= i < zlen l)%Z) ->
  exists m, @linear_interpolation XR DFloat (fins l) idx dec = Ok (fins m) /\ length m = length l /\
    forall lo hi, within lo hi l -> within (round_dec dec lo) (round_dec dec hi) m.
Proof. exact li_range. Qed.
Print Assumptions C157_interpolation.
(** The script that replaces by the mean keeps the range of every component. *)
Theorem C157_correlation_script : forall (x y z : list R) r, corr_script (fins x, fins y, fins z) = Ok r ->
  exists x' y' z', r = (fins x', fins y', fins z') /\ length x' = length x /\ length y' = length y /\ length z' = length z /\
    forall lo hi, (within lo hi x -> within lo hi x') /\ (within lo hi y -> within lo hi y') /\ (within lo hi z -> within lo hi z').
Proof. exact corr_range. Qed.
Print Assumptions C157_correlation_script.
(** The regression extrapolates: 0, 1, ..., 11 and two spikes in the same range become 0, 1, ..., 13. *)
Theorem C157_polynomial_refuted : forall regress : list XR -> list Z -> Z -> Z -> res XR, fits_lines regress ->
  within 0 11 (map IZR (zrange 0 12) ++ [0; 0]) /\
  exists r, polynomial_replacement regress DFloat (fins (map IZR (zrange 0 12) ++ [0; 0])) [12; 13]%Z 12 2 4 = Ok r /\
    nth_error r 12 = Some (Fin 12) /\ nth_error r 13 = Some (Fin 13).
Proof. exact poly_leaves. Qed.
Print Assumptions C157_polynomial_refuted.
Example C157_nonvacuous : within 1 9 [1; 9; 2] /\ (exists regress, fits_lines regress) /\ StronglySorted Z.lt [1]%Z /\ (forall i, In i [1]%Z -> (0 <= i < zlen [1; 9; 2])%Z).
Proof.
  split; [intros x [<-|[<-|[<-|[]]]]; lra|]. split; [exists two_points; exact two_points_fit|].
  split; [repeat constructor|]. intros i [<-|[]]. cbn. split; reflexivity || discriminate.
Qed.
(** In binary64: spikes at both ends of the range, repaired by mean, median and moving average. *)
Example C157_run :
  let z := map (@nofZ (F64 libm_basic)) in
  let ints := fun r : res (list (F64 libm_basic)) => match r with Ok l => map nfloorZ l | Raise _ => [] end in
  ints (mean_value DFloat (z [4; 90; 6; -40]%Z) [1; 3]%Z) = [4; 15; 6; 15]%Z /\
  ints (median_value DFloat (z [4; 90; 6; -40; 8]%Z) [1; 3]%Z) = [4; 6; 6; 6; 8]%Z /\
  ints (repl_sma DFloat (z [4; 90; 6; -40]%Z) [1; 3]%Z 2) = [4; 47; 6; -17]%Z.
Proof. vm_compute. repeat split. Qed.
