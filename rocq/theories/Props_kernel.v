(** Property theorems C41-C45 and C69-C74 (kernel/bivariate). *)
From Coq Require Import Reals Lra Lia.
From Verif Require Import XR F64 F64ex M_series M_kernel Spec Spec2 P_hist P_kernel P_band P_dct.
Local Open Scope Z_scope.

Local Notation NF := (F64 libm_ex).
Local Definition raised {A} (r : res A) : option exn := match r with Ok _ => None | Raise e => Some e end.
Local Definition shape {A} (r : res (list (list A))) : option (list nat) := match r with Ok m => Some (map (@length A) m) | Raise _ => None end.
Local Definition no_fft (r : list NF) : list (NF * NF) := map (fun x => (x, nofZ 0)) r.
Local Definition counts (r : res (list (list NF))) (n : Z) : option (list (list Z)) :=
  match r with Ok m => Some (map (map (fun x => nfloorZ (nadd (nmul x (@nofZ NF n)) (lit 5 1)))) m) | Raise _ => None end.

(** ** C41 *)
(** Every number type, every sample: no exception, a grid x grid array. *)
Theorem C41_total : 
  forall (N : Num) (trans : list (N * N)) g, 1 <= g ->
  exists m, k_histogram trans g = Ok m /\ length m = Z.to_nat g /\ (forall r, In r m -> length r = Z.to_nat g).
Proof. exact hist_total. Qed.
Print Assumptions C41_total.
(** Exact arithmetic, any data (infinities and NaN included): each entry is the fraction of the samples in its
    cell, no entry is negative, the entries sum to 1. *)
Theorem C41_mass : 
  forall (trans : list (XR * XR)) g, 1 <= g -> trans <> [] ->
  exists B, k_histogram trans g = Ok (finm B) /\ mshape B (Z.to_nat g) (Z.to_nat g) /\
    (forall i j, (i < Z.to_nat g)%nat -> (j < Z.to_nat g)%nat ->
       nth j (nth i B []) 0%R =
       (INR (length (filter (fun p => (cell g (fst p) =? Z.of_nat i) && (cell g (snd p) =? Z.of_nat j)) trans)) / INR (length trans))%R) /\
    Forall (Forall (fun x => (0 <= x)%R)) B /\ Rsum (concat B) = 1%R.
Proof. exact hist_exact. Qed.
Print Assumptions C41_mass.
Example C41_nonvacuous : [(Fin 0, Fin 1); (NaN, Inf true)] <> ([] : list (XR * XR)) /\
  cell 4 (Fin 1) = 3 /\ cell 4 NaN = 3 /\ cell 4 (Inf true) = 0.
Proof.
  split; [discriminate|]. split; [|split; reflexivity]. cbn [cell]. rewrite Rmult_1_r, Flocq.Core.Raux.Zceil_IZR. reflexivity.
Qed.
Example C41_run : counts (@k_histogram NF [(nofZ 0, lit 3 1); (lit 25 2, nofZ 1); (lit 26 2, lit 99 2); (nnan, nofZ 0)] 4) 4 =
  Some [[0; 0; 1; 0]; [0; 0; 0; 1]; [0; 0; 0; 1]; [1; 0; 0; 0]].
Proof. vm_compute. reflexivity. Qed.

(** ** C42 *)
Theorem C42_unit : 
  forall l a b, is_min l a -> is_max l b ->
  k_scaling (fins l) = Ok (Fin b, Fin a, Fin (b - a)) /\
  ((a < b)%R -> exists t, k_transform (fins l) (Fin a) (Fin (b - a)) = fins t /\
     t = map (fun x => ((x - a) / (b - a))%R) l /\ Forall (fun x => (0 <= x <= 1)%R) t /\ In 0%R t /\ In 1%R t) /\
  (a = b -> k_transform (fins l) (Fin a) (Fin (b - a)) = map (fun _ => NaN) l).
Proof. exact scaling_unit. Qed.
Print Assumptions C42_unit.
Example C42_nonvacuous : is_min [3; -1; 2]%R (-1) /\ is_max [3; -1; 2]%R 3.
Proof. split; (split; [cbn; tauto | intros x [<-|[<-|[<-|[]]]]; lra]). Qed.
Example C42_run : (match @k_scaling NF (map nofZ [3; -1; 2]) with
  | Ok (b, a, r) => (nfloorZ b, nfloorZ a, nfloorZ r, map (fun x => nfloorZ (nmul x (nofZ 100))) (k_transform (map nofZ [3; -1; 2]) a r))
  | Raise _ => (0, 0, 0, [])
  end) = (3, -1, 4, [100; 0; 75]).
Proof. vm_compute. reflexivity. Qed.

(** ** C43: refuted, every odd size from 3 on is rejected; every even size is accepted. *)
Theorem C43_refuted : 
  forall (N : Num) (fft : list N -> list (N * N)) data n, (1 <= n)%nat ->
  length data = (2 * n + 1)%nat -> dct2 fft data = Raise ValueError.
Proof. exact dct_odd. Qed.
Print Assumptions C43_refuted.
Theorem C43_even : 
  forall (N : Num) (fft : list N -> list (N * N)) data n, (1 <= n)%nat ->
  (forall r, length (fft r) = length r) -> length data = (2 * n)%nat -> (forall r, In r data -> length r = (2 * n)%nat) ->
  exists m, dct2 fft data = Ok m /\ length m = (2 * n)%nat /\ forall r, In r m -> length r = (2 * n)%nat.
Proof. exact dct_even. Qed.
Print Assumptions C43_even.
Theorem C43_kernel_refuted : 
  forall (N : Num) fft search (xs ys : list N) hx hy grid, 3 <= grid -> Z.odd grid = true ->
  bivariate_kernel fft search xs ys hx hy grid = Raise ValueError.
Proof. exact kernel_odd. Qed.
Print Assumptions C43_kernel_refuted.
Example C43_run : raised (dct2 no_fft (map (map (@nofZ NF)) [[1; 0; 0]; [0; 1; 0]; [0; 0; 1]])) = Some ValueError /\
  shape (dct2 no_fft (map (map (@nofZ NF)) [[1; 0; 0; 0]; [0; 1; 0; 0]; [0; 0; 1; 0]; [0; 0; 0; 1]])) = Some [4; 4; 4; 4]%nat.
Proof. vm_compute. split; reflexivity. Qed.
Example C43_nonvacuous : (1 <= 1)%nat /\ Z.odd 255 = true /\ forall r, length (no_fft r) = length r.
Proof. split; [lia|]. split; [reflexivity|]. intros r. apply map_length. Qed.

(** ** C44 *)
(** Exact arithmetic: at most 37 attempts, on intervals that double; which result is returned. *)
Theorem C44_search : 
  forall (brentq : XR -> res XR) (fminbound : res XR) n, exists r (c : nat),
  @k_root XR 37 brentq fminbound n = Some (r, Z.of_nat c) /\ (1 <= c <= 37)%nat /\
  let tol k := (tol0 n * 2 ^ k)%R in
  (forall k, (k < c - 1)%nat -> brentq (Fin (tol k)) = Raise ValueError) /\ (tol (c - 1)%nat < 1 / 10)%R /\
  match brentq (Fin (tol (c - 1)%nat)) with
  | Ok t => r = Ok t
  | Raise ValueError => r = fminbound /\ (1 / 10 <= tol c)%R
  | Raise e => r = Raise e
  end.
Proof. exact root_search. Qed.
Print Assumptions C44_search.
(** Binary64: also at most 37 attempts. *)
Theorem C44_terminates_f64 : 
  forall L (brentq : F64 L -> res (F64 L)) fminbound n, exists r c,
  k_root 37 brentq fminbound n = Some (r, c) /\ 1 <= c <= 37.
Proof. exact root_search_f64. Qed.
Print Assumptions C44_terminates_f64.
Example C44_run : match @k_root NF 37 (fun _ => Raise ValueError) (Ok (nofZ 7)) 10 with
  | Some (Ok t, c) => (nfloorZ t, c) = (7, 37) | _ => False end.
Proof. vm_compute. reflexivity. Qed.
(** Fewer turns are not enough. *)
Example C44_sharp : match @k_root NF 36 (fun _ => Raise ValueError) (Ok (nofZ 7)) 10 with None => True | _ => False end.
Proof. vm_compute. exact I. Qed.

(** ** C45 *)
(** Every number type where the replacement value and 0 are not below 0: no returned entry is below 0. *)
Theorem C45_nonneg : 
  forall (N : Num) fft search (xs ys : list N) hx hy grid dm xm ym,
  nltb (ndiv (nofZ 1) (nofZ (2 ^ 52))) (@nofZ N 0) = false -> nltb (@nofZ N 0) (nofZ 0) = false ->
  bivariate_kernel fft search xs ys hx hy grid = Ok (dm, xm, ym) ->
  forall r v, In r dm -> In v r -> nltb v (nofZ 0) = false.
Proof. exact kernel_nonneg. Qed.
Print Assumptions C45_nonneg.
Example C45_nonneg_exact : nltb (ndiv (nofZ 1) (nofZ (2 ^ 52))) (@nofZ XR 0) = false /\ nltb (@nofZ XR 0) (nofZ 0) = false.
Proof.
  rewrite !xofZ_fin, xdiv_fin by (apply (IZR_neq _ 0); lia). rewrite !xltb_fin. split; apply Flocq.Core.Raux.Rlt_bool_false; [|lra].
  apply Rlt_le, Rdiv_lt_0_compat; [lra | apply (IZR_lt 0); lia].
Qed.
Example C45_nonneg_f64 : nltb (ndiv (nofZ 1) (nofZ (2 ^ 52))) (@nofZ NF 0) = false /\ nltb (@nofZ NF 0) (nofZ 0) = false.
Proof. vm_compute. split; reflexivity. Qed.
(** Exact arithmetic, even grids, non-constant data: the arrays are grid x grid and the grid vectors are
    equally spaced from the minimum to the maximum. *)
Theorem C45_grid : 
  forall fft search xs ys hx hy n a0 b0 a1 b1, 1 <= n ->
  (forall r, length (fft r) = length r) -> (forall m k, exists t, search m k = Ok t) ->
  is_min xs a0 -> is_max xs b0 -> is_min ys a1 -> is_max ys b1 -> (a0 < b0)%R -> (a1 < b1)%R ->
  let g := Z.to_nat (2 * n) in
  let axis a b := map (fun i => (a + INR i * ((b - a) / (IZR (2 * n) - 1)))%R) (seq 0 g) in
  exists dm, @bivariate_kernel XR fft search (fins xs) (fins ys) hx hy (2 * n) =
    Ok (dm, finm (map (fun _ => axis a0 b0) (axis a1 b1)), finm (map (fun y => map (fun _ => y) (axis a0 b0)) (axis a1 b1))) /\
    length dm = g /\ (forall r, In r dm -> length r = g).
Proof. exact kernel_grid. Qed.
Print Assumptions C45_grid.
(** A constant first dimension never gives a result. *)
Theorem C45_constant : 
  forall fft search xs ys hx hy grid a, is_min xs a -> is_max xs a -> 
  forall out, @bivariate_kernel XR fft search (fins xs) (fins ys) hx hy grid <> Ok out.
Proof. exact kernel_constant. Qed.
Print Assumptions C45_constant.
Example C45_nonvacuous : (forall r, length (the_fft r) = length r) /\ (forall (m : list (list XR)) (k : Z), exists t, @Ok XR (Fin 0) = Ok t) /\
  is_min [3; -1; 2]%R (-1) /\ is_max [3; -1; 2]%R 3 /\ (-1 < 3)%R.
Proof.
  split; [exact the_fft_length|]. split; [intros; eexists; reflexivity|].
  split; [|split; [|lra]]; (split; [cbn; tauto | intros x [<-|[<-|[<-|[]]]]; lra]).
Qed.

(** ** C69: refuted for every even grid: the coefficient of index (0, 0) is not the sum of the entries. *)
Theorem C69_refuted : 
  forall fft n, exact_fft fft -> 1 <= n -> let g := Z.to_nat (2 * n) in
  exists M Y, mshape M g g /\ dct2 fft (finm M) = Ok Y /\ dctII g M 0 0 = 1%R /\
    nth 0 (nth 0 Y []) NaN = Fin (2 * sin (PI / (2 * IZR (2 * n)))) /\ (2 * sin (PI / (2 * IZR (2 * n))) <> 1)%R.
Proof. exact dct_refuted. Qed.
Print Assumptions C69_refuted.
Example C69_nonvacuous : exact_fft the_fft. Proof. exact the_fft_exact. Qed.

(** ** C70 *)
Theorem C70_k : forall s, @k_k XR s = Ok (Fin ((-1) ^ s * odd_fact s / sqrt (2 * PI))).
Proof. exact k_exact. Qed.
Print Assumptions C70_k.
Example C70_run : match @k_k NF 3 with Ok k => nfloorZ (nmul k (nofZ 1000)) | Raise _ => 0 end = -5985.
Proof. vm_compute. reflexivity. Qed.

(** ** C71 *)
(** The functional in closed form. *)
Theorem C71_psi : 
  forall s0 s1 t ic A n, length ic = n -> mshape A n n -> (1 <= n)%nat ->
  @k_psi XR s0 s1 (Fin t) (fins ic) (finm A) = Fin (rpsi s0 s1 t ic A).
Proof. exact psi_exact. Qed.
Print Assumptions C71_psi.
(** One step of the fixed-point iteration is defined and gives a positive time. *)
Theorem C71_evolve : 
  forall ic A m n t, length ic = m -> mshape A m m -> (1 <= m)%nat -> positive_mass ic A -> 1 <= n ->
  exists a, (0 < a)%R /\ k_evolve (Fin t) n (fins ic) (finm A) = Ok (Fin ((t - a) / a), Fin a).
Proof. exact evolve_defined. Qed.
Print Assumptions C71_evolve.
Example C71_nonvacuous : positive_mass [0; 1]%R [[1; 2]; [0; 3]]%R /\ mshape [[1; 2]; [0; 3]]%R 2 2.
Proof.
  split.
  - split; [intros x [<-|[<-|[]]]; lra|]. split; [intros r x [<-|[<-|[]]] [<-|[<-|[]]]; lra|].
    exists 1%nat, 1%nat. cbn. repeat split; try lia; lra.
  - split; [reflexivity|]. intros r [<-|[<-|[]]]; reflexivity.
Qed.

(** ** C72: refuted: the first cell holds the minimum only, the last one is twice as wide as the others. *)
Theorem C72_refuted : 
  forall g x, 2 <= g ->
  (cell g (Fin x) = 0 <-> (x <= 0)%R) /\
  (forall k, 1 <= k <= g - 2 -> (cell g (Fin x) = k <-> ((IZR k - 1) / IZR g < x <= IZR k / IZR g)%R)) /\
  (cell g (Fin x) = g - 1 <-> ((IZR g - 2) / IZR g < x)%R).
Proof. exact cell_uneven. Qed.
Print Assumptions C72_refuted.
(** Nine equally spaced samples on a grid of four: one, two, two and four samples. *)
Example C72_nonvacuous : 2 <= 4 /\ counts (@k_histogram NF (map (fun i => (ndiv (nofZ i) (nofZ 8), nofZ 0)) [0; 1; 2; 3; 4; 5; 6; 7; 8]) 4) 9 =
  Some [[1; 0; 0; 0]; [2; 0; 0; 0]; [2; 0; 0; 0]; [4; 0; 0; 0]].
Proof. split; [lia | vm_compute; reflexivity]. Qed.

(** ** C73: refuted for two samples, grid 2 and every pair of bandwidths. *)
Theorem C73_refuted : 
  forall fft search hx hy, exact_fft fft -> (forall m k, exists t, search m k = Ok t) ->
  exists d xm ym, bivariate_kernel fft search (fins [0; 1]%R) (fins [0; 1]%R) (Fin hx) (Fin hy) 2 = Ok (finm d, xm, ym) /\
    (29 / 10 < Rsum (concat d) * ((1 - 0) * (1 - 0) / 4))%R.
Proof. exact mass_refuted. Qed.
Print Assumptions C73_refuted.
Example C73_nonvacuous : exact_fft the_fft /\ (forall m k : Z, exists t, (fun _ _ => Ok (Fin 1) : res XR) m k = Ok t).
Proof. split; [exact the_fft_exact | intros m k; eexists; reflexivity]. Qed.

(** ** C74 *)
Theorem C74_rotation : 
  forall u w, length u = length w -> u <> [] -> rvar u <> 0%R ->
  k_rotation (fins u) (fins w) = Fin (atan (rcov u w / rvar u)).
Proof. exact rotation_slope. Qed.
Print Assumptions C74_rotation.
Example C74_nonvacuous : rvar [0; 2]%R <> 0%R.
Proof. unfold rvar, rmoment, rmean. cbn. lra. Qed.
(** Slope 3/4 about the means: the tangent of the angle is 3/4. *)
Example C74_run : map (fun y => nfloorZ (nmul (k_rotation (map (@nofZ NF) [1; 5; 9]) (map nofZ y)) (nofZ 1000))) [[2; 5; 8]; [8; 5; 2]] = [643; -644].
Proof. vm_compute. reflexivity. Qed.
