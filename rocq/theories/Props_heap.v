(** Property theorems C30 and C79 (aliasing). *)
From Verif Require Import F64 F64ex M_heap P_heap.
Local Open Scope Z_scope.

Local Notation NF := (F64 libm_ex).
(** Ten times the elements of the arrays. *)
Local Definition show (h : heap NF) : list (list Z) :=
  map (fun c => match c with Data _ l => map (fun x => nfloorZ (nmul x (@nofZ NF 10))) l | Index l => l end) h.

(** ** C30 *)
(** Every heap, number type and dtype: the ten replacement functions that return an array leave the caller's heap
    as it was, also when they raise, and return a new array with the contents of the pure model. *)
Theorem C30_replacement : forall (N : Num) (h : M_heap.heap N) v s dt vel idx,
  nth_error h v = Some (Data dt vel) -> nth_error h s = Some (Index idx) ->
  leaves_caller h (h_last_valid_data v s) dt (last_valid_data vel idx) /\
  leaves_caller h (h_mean_value v s) dt (mean_value dt vel idx) /\
  leaves_caller h (h_median_value v s) dt (median_value dt vel idx) /\
  (forall d, leaves_caller h (h_linear_interpolation v s d) DFloat (linear_interpolation dt vel idx d)) /\
  (forall spline d, leaves_caller h (h_cubic spline v s d) DFloat (cubic_12points_polynomial spline dt vel idx d)) /\
  (forall w, leaves_caller h (h_sma v s w) dt (repl_sma dt vel idx w)) /\
  (forall al, leaves_caller h (h_ema v s al) dt (repl_ema dt vel idx al)) /\
  (forall p, leaves_caller h (h_wma v s p) dt (repl_wma dt vel idx p)) /\
  (forall eigh fs f, leaves_caller h (h_ssa eigh v s fs f) dt (repl_ssa eigh dt vel idx fs f)) /\
  (forall regress w g d, leaves_caller h (h_polynomial regress v s w g d) dt
                           (polynomial_replacement regress dt vel idx w g d)).
Proof. exact @replacement_heap. Qed.
Print Assumptions C30_replacement.
(** kalman_filter, which returns None. *)
Theorem C30_kalman : forall (N : Num) (h : M_heap.heap N) v s dt vel x0 p0 q r,
  nth_error h v = Some (Data dt vel) ->
  exists new, fst (h_kalman v s x0 p0 q r h) = h ++ new.
Proof. exact @kalman_heap. Qed.
Print Assumptions C30_kalman.
(** The two averages of series.py that write to an array. *)
Theorem C30_averages : forall (N : Num) (h : M_heap.heap N) v dt vel,
  nth_error h v = Some (Data dt vel) ->
  (forall w, leaves_caller h (h_moving_average v w) DFloat (moving_average 1 vel w)) /\
  (forall al, leaves_caller h (h_exponential_moving_average v al) dt (exponential_moving_average dt vel al)).
Proof. exact @averages_heap. Qed.
Print Assumptions C30_averages.
Example C30_nonvacuous : let h := [Index [1; 2]; Data DFloat (map (@nofZ NF) [4; 8; 6; 2])] in
  nth_error h 1 = Some (Data DFloat (map (@nofZ NF) [4; 8; 6; 2])) /\ nth_error h 0 = Some (Index [1; 2]).
Proof. split; reflexivity. Qed.
Example C30_run : let h := [Index [1; 2]; Data DFloat (map (@nofZ NF) [4; 8; 6; 2])] in
  show (fst (h_last_valid_data 1 0 h)) = [[1; 2]; [40; 80; 60; 20]; [40; 40; 40; 20]] /\
  show (fst (h_mean_value 1 0 h)) = [[1; 2]; [40; 80; 60; 20]; [40; 50; 50; 20]].
Proof. vm_compute. split; reflexivity. Qed.

(** ** C79: refuted: the array itself is processed and returned. *)
Theorem C79_refuted : forall (N : Num) (h : M_heap.heap N) a dt d c1 c2,
  nth_error h a = Some (Data dt d) ->
  match premodification d c1 c2 with
  | Ok (d', unremovable) => h_premodification a c1 c2 h = (upd h a (Data dt d'), Ok (a, unremovable))
  | Raise e => snd (h_premodification a c1 c2 h) = Raise e
  end.
Proof. exact @premod_heap. Qed.
Print Assumptions C79_refuted.
(** With a negative c2 the caller's array changes. *)
Example C79_run : let h := [Data DFloat (map (@nofZ NF) [9; 1; 2; 1; 9; 0])] in
  show (fst (h_premodification 0 (lit 15 1) (@nofZ NF (-1)) h)) <> show h /\
  match snd (h_premodification 0 (lit 15 1) (@nofZ NF (-1)) h) with Ok (a, _) => a = 0%nat | Raise _ => False end.
Proof. vm_compute. split; [discriminate|reflexivity]. Qed.
