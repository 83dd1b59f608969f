(** Property theorem C89 (replacement in integer records). *)
From Coq Require Import Reals Lra.
From Verif Require Import F64 F64ex Spec Spec5 M_replacement P_intrec.
Local Open Scope Z_scope.

Local Notation NF := (F64 libm_ex).
Local Definition ints (l : list Z) : list NF := map nofZ l.
Local Definition back (r : res (list NF)) : list Z := match r with Ok l => map nceilZ l | Raise _ => [] end.

(** ** C89 *)
(** Mean and median: the flagged samples get the truncated value. *)
Theorem C89_mean : forall (l : list R) idx,
  l <> [] -> in_bounds (zlen l) idx ->
  exists r, @mean_value XR DInt (fins l) idx = Ok r /\ length r = length l /\
    forall k, (k < length l)%nat -> flagged (zlen l) idx k -> nth_error r k = Some (Fin (rtrunc (rmean l))).
Proof. exact mean_value_int. Qed.
Print Assumptions C89_mean.
Theorem C89_median : forall (l s : list R) idx,
  l <> [] -> is_sorting s l -> in_bounds (zlen l) idx ->
  exists r, @median_value XR DInt (fins l) idx = Ok r /\ length r = length l /\
    forall k, (k < length l)%nat -> flagged (zlen l) idx k -> nth_error r k = Some (Fin (rtrunc (rmiddle s))).
Proof. exact median_value_int. Qed.
Print Assumptions C89_median.
(** Simple, weighted and singular-spectrum averages: the result of the same call on a float array, truncated where flagged. *)
Theorem C89_averages : forall (N : Num) (v rf : list N) idx,
  (forall w, repl_sma DFloat v idx w = Ok rf -> exists r, repl_sma DInt v idx w = Ok r /\ truncated_at (zlen v) idx r rf) /\
  (forall p, repl_wma DFloat v idx p = Ok rf -> exists r, repl_wma DInt v idx p = Ok r /\ truncated_at (zlen v) idx r rf) /\
  (forall eigh fs f, repl_ssa eigh DFloat v idx fs f = Ok rf -> exists r, repl_ssa eigh DInt v idx fs f = Ok r /\ truncated_at (zlen v) idx r rf).
Proof. exact averages_int. Qed.
Print Assumptions C89_averages.
(** Exponential average: the average itself is kept in the integer array, so every step is truncated. *)
Theorem C89_exponential : forall (l : list R) (a : R) idx,
  (0 < a <= 1)%R -> l <> [] -> in_bounds (zlen l) idx ->
  exists r, @repl_ema XR DInt (fins l) idx (Fin a) = Ok r /\ length r = length l /\
    forall k, (k < length l)%nat -> flagged (zlen l) idx k -> nth_error r k = Some (Fin (riema a l k)).
Proof. exact ema_int. Qed.
Print Assumptions C89_exponential.
(** Truncation goes towards zero and moves a value by less than one. *)
Theorem C89_toward_zero : forall (x : R),
  (Rabs (x - rtrunc x) < 1 /\ Rabs (rtrunc x) <= Rabs x /\ (exists z, rtrunc x = IZR z) /\ (forall z, rtrunc (IZR z) = IZR z) /\ 0 <= x * rtrunc x)%R.
Proof. exact rtrunc_spec. Qed.
Print Assumptions C89_toward_zero.
(** The mean is not what is written. *)
Theorem C89_refuted : 
  exists (zs : list Z) (idx : list Z) r,
  @mean_value XR DInt (fins (map IZR zs)) idx = Ok (fins r) /\ flagged (zlen zs) idx 0 /\ nth 0 r 0%R <> rmean (map IZR zs).
Proof. exact mean_int_refuted. Qed.
Print Assumptions C89_refuted.
(** A binary64 run: mean 2.5 and mean -2.5 are both cut to 2; the exponential average of ratio 1/2 stays behind. *)
Example C89_nonvacuous :
  back (mean_value DInt (ints [1; 2; 3; 4]) [0; -1]) = [2; 2; 3; 2] /\
  back (mean_value DInt (ints [-1; -2; -3; -4]) [0]) = [-2; -2; -3; -4] /\
  back (median_value DInt (ints [5; 9; 8; 0]) [3]) = [5; 9; 8; 6] /\
  back (repl_ema DInt (ints [0; 1; 2; 3; 4]) [1; 2; 3; 4] (ndiv (nofZ 1) (nofZ 2))) = [0; 0; 1; 2; 3] /\
  in_bounds (zlen [1; 2; 3; 4]) [0; -1].
Proof. repeat split; try (vm_compute; reflexivity). - destruct H as [<-|[<-|[]]]; vm_compute; congruence. - destruct H as [<-|[<-|[]]]; vm_compute; congruence. Qed.
