(** Property theorems C125-C127 (density of integer arrays and with array-valued parameters; arrays of any dimension). *)
From Coq Require Import Reals Lra Lia List ZArith String.
From Flocq Require Import Core IEEE754.BinarySingleNaN.
From Verif Require Import Num Lib XR F64 F64ex Spec Spec2 Spec15 M_pdf P_moment P_pdf P_pdf2 P_logpdf.
Import ListNotations.
Local Open Scope R_scope.

Local Notation NF := (F64 libm_ex).
(** First eight decimals, rounded to nearest. *)
Local Notation dec8 x := (nfloorZ (nadd (nmul x (@nofZ NF (10 ^ 8))) (lit 5 1))).
Local Definition raised {A} (r : res A) : option exn := match r with Ok _ => None | Raise e => Some e end.

(** ** C125 *)
(** Exact arithmetic: a multiple of 2^32 away from the mean the largest density is reported; 3037000500 away, more than the largest. *)
Theorem C125_refuted : forall (s m : Z),
  (0 < s)%Z ->
  (forall k, k <> 0%Z -> @pdf_int XR [m + 2 ^ 32 * k]%Z s m = Ok (fins [gauss (IZR m) (IZR s) (IZR m)]) /\
     gauss (IZR m) (IZR s) (IZR (m + 2 ^ 32 * k)) < gauss (IZR m) (IZR s) (IZR m)) /\
  (exists v, @pdf_int XR [m + 3037000500]%Z s m = Ok (fins [v]) /\ gauss (IZR m) (IZR s) (IZR m) < v).
Proof. exact pdf_int_refuted. Qed.
Print Assumptions C125_refuted.
(** What is computed: the square of the distance is taken modulo 2^64. *)
Theorem C125_wraps : forall (l : list Z) (s m : Z),
  l <> [] -> (0 < s)%Z ->
  exists r, @pdf_int XR l s m = Ok (fins r) /\ Forall2 (fun x v => exists w k, (w = (x - m) * (x - m) - k * 2 ^ 64)%Z /\ (- 2 ^ 63 <= w < 2 ^ 63)%Z /\
    v = exp (- IZR w / (2 * (IZR s * IZR s))) / (IZR s * sqrt (2 * PI)) /\ (gauss (IZR m) (IZR s) (IZR m) < v <-> (w < 0)%Z)) l r.
Proof. exact pdf_int_wraps. Qed.
Print Assumptions C125_wraps.
(** Up to 3037000499 from the mean the density is right. *)
Theorem C125_true : forall (l : list Z) (s m : Z),
  l <> [] -> (0 < s)%Z -> Forall (fun x => (Z.abs (x - m) <= 3037000499)%Z) l ->
  @pdf_int XR l s m = Ok (fins (map (fun x => gauss (IZR m) (IZR s) (IZR x)) l)).
Proof. exact pdf_int_true. Qed.
Print Assumptions C125_true.
(** Binary64, every libm: up to 2^26 from the mean the result is that of the same numbers as floats, bit for bit. *)
Theorem C125_f64 : forall (L : Libm) (l : list Z) (s m : Z),
  (0 < s <= 2 ^ 26)%Z -> (Z.abs m <= 2 ^ 53)%Z -> Forall (fun x => (Z.abs x <= 2 ^ 53)%Z /\ (Z.abs (x - m) <= 2 ^ 26)%Z) l ->
  (let* r := @pdf_int (F64 L) l s m in Ok (Arr [zlen l] r)) = pdf (Arr [zlen l] (map (@nofZ (F64 L)) l)) (@nofZ (F64 L) s) (@nofZ (F64 L) m).
Proof. exact pdf_int_f64. Qed.
Print Assumptions C125_f64.
(** The logarithm of the density: right exactly up to 3037000499 from the mean. *)
Theorem C125_log : forall (l : list Z) (s m : Z),
  l <> [] -> (0 < s)%Z ->
  exists r, @log_pdf_int XR l s m = Ok (fins r) /\ Forall2 (fun x v => exists w k, (w = (x - m) * (x - m) - k * 2 ^ 64)%Z /\ (- 2 ^ 63 <= w < 2 ^ 63)%Z /\
    v = - (1 / 2) * ln (2 * PI) - ln (IZR s) - IZR w / (2 * (IZR s * IZR s)) /\
    (v = ln (gauss (IZR m) (IZR s) (IZR x)) <-> (Z.abs (x - m) <= 3037000499)%Z)) l r.
Proof. exact log_pdf_int_wraps. Qed.
Print Assumptions C125_log.
Example C125_nonvacuous : Forall (fun x => (Z.abs (x - 5) <= 3037000499)%Z) [0; 5; 3037000504]%Z /\
  Forall (fun x => (Z.abs x <= 2 ^ 53)%Z /\ (Z.abs (x - (2 ^ 53 - 2)) <= 2 ^ 26)%Z) [2 ^ 53; 2 ^ 53 - 2 ^ 26]%Z.
Proof. split; repeat constructor; lia. Qed.
Example C125_run : match @pdf_int NF [0; 1; 2 ^ 32; 3037000499; 3037000500]%Z 1 0 with
  | Ok [a; b; c; d; e] => (dec8 a, dec8 b, dec8 c, dec8 d) = (39894228, 24197072, 39894228, 0)%Z /\ match (e : f64) with B754_infinity false => True | _ => False end
  | _ => False
  end.
Proof. vm_compute. repeat split. Qed.

(** ** C126 *)
(** Every number type: shapes are combined, every element is the density of the elements at its position; ValueError otherwise. *)
Theorem C126_elements : forall (N : Num) (a sd mu : nd N),
  filled (nd_shape a) (nd_data a) -> filled (nd_shape sd) (nd_data sd) -> filled (nd_shape mu) (nd_data mu) ->
  nd_data a <> [] -> existsb nisnan (nd_data a) = false ->
  (fitting (nd_shape a) (nd_shape mu) -> fitting (nd_shape a) (nd_shape sd) -> fitting (nd_shape mu) (nd_shape sd) ->
   exists o r, pdf_nd a sd mu = Ok (ND o r) /\ common [nd_shape a; nd_shape mu; nd_shape sd] o /\ filled o r /\
   forall ix, index_of o ix ->
     pdf (Arr [1%Z] [entry (nd_shape a) (nd_data a) ix (nofZ 0)]) (entry (nd_shape sd) (nd_data sd) ix (nofZ 0)) (entry (nd_shape mu) (nd_data mu) ix (nofZ 0)) =
       Ok (Arr [1%Z] [entry o r ix (nofZ 0)])) /\
  (~ (fitting (nd_shape a) (nd_shape mu) /\ fitting (nd_shape a) (nd_shape sd) /\ fitting (nd_shape mu) (nd_shape sd)) ->
   pdf_nd a sd mu = Raise ValueError).
Proof. exact pdf_broadcast. Qed.
Print Assumptions C126_elements.
Theorem C126_errors : forall (N : Num) (a sd mu : nd N),
  (nd_data a = [] -> pdf_nd a sd mu = Raise ValueError) /\
  ((exists x, In x (nd_data a) /\ nisnan x = true) -> pdf_nd a sd mu = Raise TypeError).
Proof. exact pdf_nd_errors. Qed.
Print Assumptions C126_errors.
(** Exact arithmetic. *)
Theorem C126_exact : forall (sa ss sm : list nat) (a sd mu : list R),
  filled sa a -> filled ss sd -> filled sm mu -> a <> [] -> Forall (fun s => 0 < s) sd ->
  fitting sa sm -> fitting sa ss -> fitting sm ss ->
  exists o r, @pdf_nd XR (ND sa (fins a)) (ND ss (fins sd)) (ND sm (fins mu)) = Ok (ND o (fins r)) /\ common [sa; sm; ss] o /\ filled o r /\
  forall ix, index_of o ix -> entry o r ix 0 = gauss (entry sm mu ix 0) (entry ss sd ix 0) (entry sa a ix 0).
Proof. exact pdf_broadcast_exact. Qed.
Print Assumptions C126_exact.
(** The logarithm of the density. *)
Theorem C126_log_elements : forall (N : Num) (a sd mu : nd N),
  filled (nd_shape a) (nd_data a) -> filled (nd_shape sd) (nd_data sd) -> filled (nd_shape mu) (nd_data mu) ->
  nd_data a <> [] -> existsb nisnan (nd_data a) = false ->
  (fitting (nd_shape a) (nd_shape mu) -> fitting (nd_shape a) (nd_shape sd) -> fitting (nd_shape mu) (nd_shape sd) ->
   exists o r, log_pdf_nd a sd mu = Ok (ND o r) /\ common [nd_shape a; nd_shape mu; nd_shape sd] o /\ filled o r /\
   forall ix, index_of o ix ->
     log_pdf (Arr [1%Z] [entry (nd_shape a) (nd_data a) ix (nofZ 0)]) (entry (nd_shape sd) (nd_data sd) ix (nofZ 0)) (entry (nd_shape mu) (nd_data mu) ix (nofZ 0)) =
       Ok (Arr [1%Z] [entry o r ix (nofZ 0)])) /\
  (~ (fitting (nd_shape a) (nd_shape mu) /\ fitting (nd_shape a) (nd_shape sd) /\ fitting (nd_shape mu) (nd_shape sd)) ->
   log_pdf_nd a sd mu = Raise ValueError).
Proof. exact log_pdf_broadcast. Qed.
Print Assumptions C126_log_elements.
Theorem C126_log_errors : forall (N : Num) (a sd mu : nd N),
  (nd_data a = [] -> log_pdf_nd a sd mu = Raise ValueError) /\
  ((exists x, In x (nd_data a) /\ nisnan x = true) -> log_pdf_nd a sd mu = Raise TypeError).
Proof. exact log_pdf_nd_errors. Qed.
Print Assumptions C126_log_errors.
Theorem C126_log_exact : forall (sa ss sm : list nat) (a sd mu : list R),
  filled sa a -> filled ss sd -> filled sm mu -> a <> [] -> Forall (fun s => 0 < s) sd ->
  fitting sa sm -> fitting sa ss -> fitting sm ss ->
  exists o r, @log_pdf_nd XR (ND sa (fins a)) (ND ss (fins sd)) (ND sm (fins mu)) = Ok (ND o (fins r)) /\ common [sa; sm; ss] o /\ filled o r /\
  forall ix, index_of o ix -> let s := entry ss sd ix 0 in let m := entry sm mu ix 0 in let x := entry sa a ix 0 in
    entry o r ix 0 = - (1 / 2) * ln (2 * PI) - ln s - (x - m) * (x - m) / (2 * (s * s)).
Proof. exact log_pdf_broadcast_exact. Qed.
Print Assumptions C126_log_exact.
Example C126_nonvacuous : filled [2; 1]%nat [0; 1] /\ filled [3]%nat [1; 2; 4] /\ filled [] [7] /\
  fitting [2; 1]%nat [] /\ fitting [2; 1]%nat [3]%nat /\ fitting [] [3]%nat /\ ~ fitting [2]%nat [3]%nat /\
  common [[2; 1]; []; [3]]%nat [2; 3]%nat /\ index_of [2; 3]%nat [1; 2]%nat /\ entry [2; 1]%nat [0; 1] [1; 2]%nat 9 = 1 /\ entry [3]%nat [1; 2; 4] [1; 2]%nat 9 = 4.
Proof.
  repeat split; try reflexivity.
  - intros [|[|[|k]]]; cbn; auto.
  - intros [|[|[|k]]]; cbn; auto.
  - intros [|[|[|k]]]; cbn; auto.
  - intros H. destruct (H 0%nat) as [C|[C|C]]; discriminate C.
  - intros [|[|[|k]]] s [<-|[<-|[<-|[]]]]; cbn; auto.
  - intros [|[|[|k]]].
    + exists [3%nat]. cbn. auto.
    + exists [2; 1]%nat. cbn. auto.
    + exists []. cbn. auto.
    + exists []. cbn. auto.
  - repeat constructor.
Qed.
(** A column of two numbers, a row of three standard deviations. *)
Example C126_run : let row := map (@nofZ NF) [1; 2; 4]%Z in
  match pdf_nd (ND [2; 1]%nat (map (@nofZ NF) [0; 1]%Z)) (ND [3]%nat row) (ND [] [@nofZ NF 0]) with
  | Ok (ND s d) => (s, map (fun x => dec8 x) d) = ([2; 3]%nat, [39894228; 19947114; 9973557; 24197072; 17603266; 9666703]%Z)
  | _ => False
  end /\ raised (pdf_nd (ND [2]%nat (map (@nofZ NF) [0; 1]%Z)) (ND [3]%nat row) (ND [] [@nofZ NF 0])) = Some ValueError.
Proof. vm_compute. repeat split. Qed.

(** ** C127 *)
Theorem C127_extrema : forall (N : Num) d (data : list (pyval N)) xs,
  ord_laws N -> (1 <= d)%Z -> Forall2 denotes data xs -> xs <> [] -> (forall x, In x xs -> nisnan x = false) ->
  (exists m, min_c (CArr (NDA d data)) = Ok m /\ In m xs /\ forall x, In x xs -> nleb m x = true) /\
  (exists m, max_c (CArr (NDA d data)) = Ok m /\ In m xs /\ forall x, In x xs -> nleb x m = true).
Proof. exact extrema_any_dim. Qed.
Print Assumptions C127_extrema.
Theorem C127_extrema_errors : forall (N : Num) d (data : list (pyval N)),
  ((d <= 0)%Z -> min_c (CArr (NDA d data)) = Raise TypeError /\ max_c (CArr (NDA d data)) = Raise TypeError) /\
  ((1 <= d)%Z -> ((exists s, In (PyStr s) data) -> min_c (CArr (NDA d data)) = Raise TypeError /\ max_c (CArr (NDA d data)) = Raise TypeError) /\
     (forall xs, Forall2 denotes data xs -> (xs = [] \/ exists x, In x xs /\ nisnan x = true) -> min_c (CArr (NDA d data)) = Raise ValueError /\ max_c (CArr (NDA d data)) = Raise ValueError)).
Proof. exact extrema_errors. Qed.
Print Assumptions C127_extrema_errors.
Theorem C127_mode : forall (N : Num) d (data : list (pyval N)) xs,
  Forall2 denotes data xs ->
  mode_c (CArr (NDA d data)) = desc_mode xs /\ mode_c (CList data) = desc_mode xs.
Proof. exact mode_any_dim. Qed.
Print Assumptions C127_mode.
(** No container, no length and no alternative makes a test of normality return. *)
Theorem C127_tests_never : forall (N : Num) parse (data : container N) rows alt v w,
  skewtest_c parse data rows alt <> Ok v /\ kurtotest_c parse data rows alt <> Ok w.
Proof. exact tests_c_never. Qed.
Print Assumptions C127_tests_never.
Theorem C127_tests : forall (N : Num) parse d (items : list (pyval N)) rows alt,
  existsb is_str items = false ->
  ((2 <= d)%Z -> skewtest_c parse (CArr (NDA d items)) rows alt = Raise ValueError /\ kurtotest_c parse (CArr (NDA d items)) rows alt = Raise ValueError) /\
  (skewtest_c parse (CArr (NDA 0 items)) rows alt = Raise TypeError /\ kurtotest_c parse (CArr (NDA 0 items)) rows alt = Raise IndexError) /\
  (skewtest_c parse (CList items) rows alt = skewtest_c parse (CArr (NDA 1 items)) rows alt /\ kurtotest_c parse (CList items) rows alt = kurtotest_c parse (CArr (NDA 1 items)) rows alt).
Proof. exact tests_c_dims. Qed.
Print Assumptions C127_tests.
Example C127_nonvacuous : let items := [PyInt 3; PyFloat (@nofZ NF (-2)); NpInt 3; PyInt 5] in
  (match min_c (CArr (NDA 2 items)), max_c (CArr (NDA 3 items)), mode_c (CArr (NDA 2 items)) with
   | Ok a, Ok b, Ok (c, k) => (nfloorZ a, nfloorZ b, nfloorZ c, k) = (-2, 5, 3, 2%nat)%Z
   | _, _, _ => False end) /\ raised (min_c (CArr (NDA 0 [PyInt (N := NF) 3]))) = Some TypeError /\
  raised (skewtest_c (fun _ => None) (CArr (NDA 2 items)) 2 "less") = Some ValueError /\ raised (kurtotest_c (fun _ => None) (CArr (NDA 0 items)) 2 "less") = Some IndexError.
Proof. vm_compute. repeat split. Qed.
