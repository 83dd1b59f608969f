(** Property theorems C51-C55 and C68 (statistics/distributions/normal). *)
From Coq Require Import Reals Lra.
From Coquelicot Require Import Coquelicot.
From Verif Require Import XR F64 F64ex M_series M_normal Spec2 P_normal P_normtest.
Local Open Scope R_scope.

Local Notation NF := (F64 libm_ex).
(** First eight decimals, rounded to nearest. *)
Local Notation dec8 x := (nfloorZ (nadd (nmul x (@nofZ NF (10 ^ 8))) (lit 5 1))).
Local Definition raised {A} (r : res A) : option exn := match r with Ok _ => None | Raise e => Some e end.
(** The array of the docstrings. *)
Local Definition doc_array : list NF := map (fun k => lit k 8) [43385221; 61265808; -662029; 44512392; 40659420]%Z.

(** ** C51 *)
(** Exact arithmetic: on every NaN-free, non-empty float array of any shape the result is, element by
    element, the standard normal distribution function. *)
Theorem C51_cdf : 
  forall s (d : list XR), d <> [] -> Forall (fun x => nisnan x = false) d ->
  cdf DFloat (Arr s d) = Ok (Arr s (map ext_Phi d)).
Proof. exact cdf_exact. Qed.
Print Assumptions C51_cdf.
Theorem C51_laws : 
  (forall x, 0 < Phi x < 1) /\ (forall x, Phi (- x) = 1 - Phi x) /\ Phi 0 = 1 / 2 /\
  (forall x y, x < y -> Phi x < Phi y) /\ (forall x, is_derive Phi x (gauss 0 1 x)) /\
  is_lim Phi m_infty 0 /\ is_lim Phi p_infty 1.
Proof. exact Phi_laws. Qed.
Print Assumptions C51_laws.
(** Every number type and dtype: when an exception is raised. *)
Theorem C51_errors : 
  forall (N : Num) dt (a : ndarr N),
  (elements a = [] -> cdf dt a = Raise ValueError) /\
  ((exists x, In x (elements a) /\ nisnan x = true) -> cdf dt a = Raise TypeError) /\
  ((exists x, a = Scal x) -> cdf dt a = Raise TypeError) /\
  (forall b, cdf dt a = Ok b -> exists s d, a = Arr s d /\ d <> [] /\ Forall (fun x => nisnan x = false) d).
Proof. exact cdf_errors. Qed.
Print Assumptions C51_errors.
(** Every number type and dtype: pointwise and shape preserving. *)
Theorem C51_pointwise : 
  forall (N : Num) dt, exists f : N -> N, forall s d,
  d <> [] -> Forall (fun x => nisnan x = false) d -> cdf dt (Arr s d) = Ok (Arr s (map f d)).
Proof. exact cdf_pointwise. Qed.
Print Assumptions C51_pointwise.
Example C51_nonvacuous : cdf DFloat (Arr [1; 3]%Z [Fin (-1) : XR; Inf true; Fin 7]) =
  Ok (Arr [1; 3]%Z [Fin (Phi (-1)) : XR; Fin 0; Fin (Phi 7)]).
Proof. apply cdf_exact; [discriminate | repeat constructor]. Qed.
(** The docstring example: 0.66780212, 0.72994878, 0.49735891, 0.6718849, 0.65784697. *)
Example C51_run : match cdf DFloat (Arr [5]%Z doc_array) with
  | Ok (Arr s d) => (s, map (fun x => dec8 x) d) = ([5], [66780212; 72994878; 49735891; 67188490; 65784697])%Z
  | _ => False
  end.
Proof. vm_compute. reflexivity. Qed.
Example C51_run_nan : raised (cdf DFloat (Arr [2]%Z [@nofZ NF 1; nnan])) = Some TypeError /\
  raised (cdf DFloat (Arr [0]%Z ([] : list NF))) = Some ValueError.
Proof. vm_compute. split; reflexivity. Qed.

(** ** C52: refuted for every integer array. *)
Theorem C52_refuted : 
  forall s (zs : list Z), zs <> [] ->
  cdf DInt (Arr s (fins (map IZR zs))) = Ok (Arr s (fins (map (fun _ => 0) zs))) /\
  sf DInt (Arr s (fins (map IZR zs))) = Ok (Arr s (fins (map (fun _ => 1) zs))) /\
  log_cdf DInt (Arr s (fins (map IZR zs))) = Ok (Arr s (map (fun _ => Inf true : XR) zs)) /\
  log_sf DInt (Arr s (fins (map IZR zs))) = Ok (Arr s (fins (map (fun _ => 0) zs))) /\
  (exists c, cdf DFloat (Arr s (fins (map IZR zs))) = Ok (Arr s (fins c)) /\ Forall (fun p => 0 < p < 1) c).
Proof. exact cdf_integers. Qed.
Print Assumptions C52_refuted.
Example C52_run : match cdf DInt (Arr [3]%Z [@nofZ NF (-1); @nofZ NF 0; @nofZ NF 2]) with
  | Ok (Arr s d) => (s, map (fun x => dec8 x) d) = ([3], [0; 0; 0])%Z
  | _ => False
  end.
Proof. vm_compute. reflexivity. Qed.

(** ** C53 *)
Theorem C53_pdf : 
  forall sh l x m s, l <> [] -> 0 < s ->
  pdf (Arr sh (fins l)) (Fin s : XR) (Fin m : XR) = Ok (Arr sh (fins (map (gauss m s) l))) /\
  pdf (Scal (Fin x : XR)) (Fin s : XR) (Fin m : XR) = Ok (Scal (Fin (gauss m s x) : XR)).
Proof. exact pdf_exact. Qed.
Print Assumptions C53_pdf.
Theorem C53_density : 
  forall m s, 0 < s ->
  (forall x, 0 < gauss m s x) /\ (forall d, gauss m s (m + d) = gauss m s (m - d)) /\
  (forall x, x <> m -> gauss m s x < gauss m s m) /\
  (forall x y, Rabs (x - m) < Rabs (y - m) -> gauss m s y < gauss m s x) /\
  (forall a b, RInt (gauss m s) a b = Phi ((b - m) / s) - Phi ((a - m) / s)) /\
  is_lim (fun b => RInt (gauss m s) m b) p_infty (1 / 2).
Proof. exact gauss_laws. Qed.
Print Assumptions C53_density.
Theorem C53_log_pdf : 
  forall sh l x m s, l <> [] -> 0 < s ->
  log_pdf (Arr sh (fins l)) (Fin s : XR) (Fin m : XR) =
    Ok (Arr sh (fins (map (fun y => - (1 / 2) * ln (2 * PI) - ln s - (y - m) * (y - m) / (2 * (s * s))) l))) /\
  log_pdf (Scal (Fin x : XR)) (Fin s : XR) (Fin m : XR) = Ok (Scal (Fin (ln (gauss m s x)) : XR)) /\
  ln (gauss m s x) = - (1 / 2) * ln (2 * PI) - ln s - (x - m) * (x - m) / (2 * (s * s)).
Proof. exact log_pdf_exact. Qed.
Print Assumptions C53_log_pdf.
Theorem C53_sf : 
  forall sh l, l <> [] ->
  sf DFloat (Arr sh (fins l)) = Ok (Arr sh (fins (map (fun x => 1 - Phi x) l))) /\
  log_cdf DFloat (Arr sh (fins l)) = Ok (Arr sh (fins (map (fun x => ln (Phi x)) l))) /\
  log_sf DFloat (Arr sh (fins l)) = Ok (Arr sh (fins (map (fun x => ln (1 - Phi x)) l))) /\
  (forall x, ln (Phi x) < 0 /\ ln (1 - Phi x) < 0).
Proof. exact sf_exact. Qed.
Print Assumptions C53_sf.
(** A standard deviation that is zero or negative is not rejected: every value is NaN. *)
Theorem C53_bad_std : 
  forall sh l m s, l <> [] -> s <= 0 ->
  pdf (Arr sh (fins l)) (Fin s : XR) (Fin m : XR) = Ok (Arr sh (map (fun _ => NaN : XR) l)).
Proof. exact pdf_bad_std. Qed.
Print Assumptions C53_bad_std.
Example C53_nonvacuous : [0; 1; -2] <> [] /\ 0 < 1 / 2 /\ -3 <= 0. Proof. repeat split; try lra. discriminate. Qed.
(** The docstring example of pdf: 0.36310893, 0.33067691, 0.39893354, 0.36131462, 0.36729206. *)
Example C53_run : match pdf (Arr [5]%Z doc_array) (nofZ 1) (nofZ 0) with
  | Ok (Arr s d) => (s, map (fun x => dec8 x) d) = ([5], [36310893; 33067691; 39893354; 36131462; 36729206])%Z
  | _ => False
  end.
Proof. vm_compute. reflexivity. Qed.

(** ** C54: refuted for every data set, every number type. *)
Theorem C54_refuted : 
  forall (N : Num) (data : list N) alt,
  skewtest data alt =
    Raise (if (zlen data <? 8)%Z then ValueError else if known_alternative alt then TypeError else ValueError) /\
  kurtotest data alt =
    Raise (if (zlen data <? 5)%Z then ValueError else if known_alternative alt then TypeError else ValueError).
Proof. exact tests_never. Qed.
Print Assumptions C54_refuted.
Example C54_run : let data := map (@nofZ NF) [1; 2; 3; 4; 5; 6; 7; 9]%Z in
  raised (skewtest data "two-sided") = Some TypeError /\ raised (kurtotest data "less") = Some TypeError /\
  raised (skewtest data "both") = Some ValueError /\ raised (skewtest (firstn 7 data) "less") = Some ValueError.
Proof. vm_compute. repeat split. Qed.

(** ** C55 *)
Theorem C55_skew : 
  forall n, (8 <= n)%Z ->
  exists w d a, @skew_w2 XR n = Fin w /\ 1 < w /\ @skew_delta XR n = Fin d /\ 0 < d /\ d * d * ln w = 2 /\
    @skew_alpha XR n = Fin a /\ 0 < a /\ a * a * (w - 1) = 2.
Proof. exact skew_constants. Qed.
Print Assumptions C55_skew.
Theorem C55_exactly : 
  forall n, (3 <= n)%Z ->
  ((exists w, @skew_w2 XR n = Fin w /\ 1 < w) <-> (8 <= n)%Z) /\
  @skew_w2 XR 7 = Fin 1 /\ @skew_delta XR 7 = Inf false /\ @skew_alpha XR 7 = Inf false.
Proof. exact skew_w2_exactly. Qed.
Print Assumptions C55_exactly.
Theorem C55_kurt : 
  forall n, (5 <= n)%Z ->
  exists v b a, @kurt_variance XR n = Fin v /\ 0 < v /\ @kurt_sqrt_beta1 XR n = Fin b /\ 0 < b /\
    @kurt_a XR n = Fin a /\ 6 < a.
Proof. exact kurt_constants. Qed.
Print Assumptions C55_kurt.
(** w2 for 8 samples, to nine decimals. *)
Example C55_run : nfloorZ (nmul (@skew_w2 NF 8) (@nofZ NF (10 ^ 9))) = 1066759108%Z /\
  nfloorZ (nmul (@kurt_a NF 5) (@nofZ NF (10 ^ 6))) = 399989898%Z.
Proof. vm_compute. split; reflexivity. Qed.

(** ** C68 *)
Theorem C68_formula : 
  forall n, (8 <= n)%Z ->
  exists d a c, 0 < d /\ 0 < a /\ 0 < c /\
    (forall k, k <> 0 -> @skew_z XR n (Fin k) = Fin (d * arcsinh (k * c / a))) /\
    @skew_z XR n (Fin 0) = Fin (d * arcsinh (1 / a)) /\ 0 < d * arcsinh (1 / a).
Proof. exact skew_statistic. Qed.
Print Assumptions C68_formula.
Theorem C68_refuted : 
  forall n, (8 <= n)%Z ->
  exists z : R -> R, (forall k, @skew_z XR n (Fin k) = Fin (z k)) /\
    (forall k, k <> 0 -> z (- k) = - z k) /\
    (forall j k, j <> 0 -> k <> 0 -> j < k -> z j < z k) /\ 0 < z 0 /\
    (exists k, 0 < k /\ z k < z 0).
Proof. exact skew_statistic_shape. Qed.
Print Assumptions C68_refuted.
Example C68_run : nltb (@nofZ NF 0) (@skew_z NF 8 (@nofZ NF 0)) = true /\ nltb (@skew_z NF 8 (lit 1 1)) (@skew_z NF 8 (@nofZ NF 0)) = true.
Proof. vm_compute. split; reflexivity. Qed.
