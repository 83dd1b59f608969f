(** Property theorems C143-C144 (what the bivariate density, the statistics and the correlation filter do not depend on). *)
From Coq Require Import Reals Lra Lia List ZArith Permutation.
From Flocq Require Import Core.Raux.
From Verif Require Import F64ex P_dct P_korder.
Import ListNotations.
Local Open Scope Z_scope.

Local Notation NF := (F64 libm_ex).
Local Definition zs (l : list Z) : list NF := map nofZ l.
Local Definition milli (r : res NF) : Z := match r with Ok x => nceilZ (nsub (nmul x (nofZ 1000)) (ndiv (nofZ 1) (nofZ 2))) | Raise _ => (-1)%Z end.

(** ** C143 *)
Theorem C143_search : forall (N : Num) fft s1 s2 (xs ys : list N) hx hy grid,
  (forall m k, exists t, s1 m k = Ok t) -> (forall m k, exists t, s2 m k = Ok t) ->
  bivariate_kernel fft s1 xs ys hx hy grid = bivariate_kernel fft s2 xs ys hx hy grid.
Proof. exact kernel_search_unused. Qed.
Print Assumptions C143_search.
Theorem C143_search_raises : forall (N : Num) fft s1 e (xs ys : list N) hx hy grid out,
  (forall m k, s1 m k = Raise e) -> bivariate_kernel fft s1 xs ys hx hy grid = Ok out -> False.
Proof. exact kernel_search_raises. Qed.
Print Assumptions C143_search_raises.
Theorem C143_order : forall fft search (T T' : list (R * R)) (hx hy : XR) grid,
  1 <= grid -> Permutation T T' ->
  @bivariate_kernel XR fft search (fins (map fst T)) (fins (map snd T)) hx hy grid =
  @bivariate_kernel XR fft search (fins (map fst T')) (fins (map snd T')) hx hy grid.
Proof. exact kernel_order. Qed.
Print Assumptions C143_order.
Theorem C143_signs : forall fft search (xs ys : list XR) (hx hy : R) grid,
  @bivariate_kernel XR fft search xs ys (Fin (- hx)) (Fin (- hy)) grid = @bivariate_kernel XR fft search xs ys (Fin hx) (Fin hy) grid.
Proof. exact kernel_even. Qed.
Print Assumptions C143_signs.
Example C143_nonvacuous : forall fft search, exact_fft fft -> (forall m k, exists t, search m k = Ok t) ->
  Permutation [(0, 0); (1, 1)]%R [(1, 1); (0, 0)]%R /\
  exists out, bivariate_kernel fft search (fins [1; 0]%R) (fins [1; 0]%R) (Fin (-3)) (Fin (-4)) 2 = Ok out.
Proof.
  intros fft search Hf Hs. split; [apply perm_swap|]. rewrite (kernel_even fft search _ _ 3 4).
  rewrite (kernel_order fft search [(1, 1); (0, 0)]%R [(0, 0); (1, 1)]%R) by (try lia; apply perm_swap).
  destruct (mass_refuted fft search 3 4 Hf Hs) as (d & xm & ym & E & _). eexists. exact E.
Qed.

(** ** C144 *)
Theorem C144_statistics : forall (l l' : list XR),
  Permutation l l' ->
  mean_of l = mean_of l' /\ spread_variance (farr l) = spread_variance (farr l') /\ spread_std (farr l) = spread_std (farr l') /\
  moment_skewness l = moment_skewness l' /\ moment_kurtosis l = moment_kurtosis l' /\
  forall alt, skewtest l alt = skewtest l' alt /\ kurtotest l alt = kurtotest l' alt.
Proof. exact stats_order. Qed.
Print Assumptions C144_statistics.
Theorem C144_turbulence : forall (T T' : list (XR * XR * XR)),
  Permutation T T' ->
  let u := map (fun p => fst (fst p)) in let v := map (fun p => snd (fst p)) in let w := map (fun p => snd p) in
  kinetic_turbulent_energy (u T) (v T) (w T) = kinetic_turbulent_energy (u T') (v T') (w T') /\
  reynolds_stresses (u T) (v T) (w T) = reynolds_stresses (u T') (v T') (w T').
Proof. exact turbulence_order. Qed.
Print Assumptions C144_turbulence.
Theorem C144_correlation : forall (T T' : list (R * R * R)),
  Permutation T T' -> (3 <= length T)%nat ->
  let u := map (fun p => fst (fst p)) in let v := map (fun p => snd (fst p)) in let w := map (fun p => snd p) in
  (velocity_correlation (fins (u T)) (fins (v T)) (fins (w T)) = Raise ValueError /\
   velocity_correlation (fins (u T')) (fins (v T')) (fins (w T')) = Raise ValueError) \/
  (exists r r', velocity_correlation (fins (u T)) (fins (v T)) (fins (w T)) = Ok r /\
   velocity_correlation (fins (u T')) (fins (v T')) (fins (w T')) = Ok r' /\
   Permutation (map (fun i => nth (Z.to_nat i) T (0, 0, 0)%R) r) (map (fun i => nth (Z.to_nat i) T' (0, 0, 0)%R) r')).
Proof. exact correlation_order. Qed.
Print Assumptions C144_correlation.
Example C144_nonvacuous : Permutation [Fin 2; NaN; Inf true] [NaN; Inf true; Fin 2 : XR] /\
  Permutation [(3, 2, 1); (-3, 2, -1); (3, -2, -1)]%R [(3, -2, -1); (3, 2, 1); (-3, 2, -1)]%R.
Proof.
  split.
  - apply (Permutation_cons_append [NaN; Inf true] (Fin 2)).
  - apply Permutation_sym, (Permutation_cons_append [(3, 2, 1); (-3, 2, -1)]%R (3, -2, -1)%R).
Qed.
Example C144_run :
  milli (moment_skewness (zs [1; 2; 9; 4; 4])) = 859 /\ milli (moment_skewness (zs [9; 4; 1; 4; 2])) = 859 /\
  velocity_correlation (zs [3; -3; 3; -3; 3; -3; 30]) (zs [2; 2; -2; -2; 2; 2; -20]) (zs [1; -1; -1; 1; 1; 1; 14]) = Ok [6] /\
  velocity_correlation (zs [3; 30; -3; 3; -3; 3; -3]) (zs [2; -20; 2; -2; -2; 2; 2]) (zs [1; 14; -1; -1; 1; 1; 1]) = Ok [1].
Proof. repeat split; vm_compute; reflexivity. Qed.
