(** Property theorems C151 and C61_case: order of the second-order sections; letter case of the options. *)
From Coq Require Import Reals Lra List ZArith String Permutation.
From Coquelicot Require Import Complex.
From Verif Require Import Num NpBase XR F64 F64ex M_butter Spec3 Spec26 P_cx P_butter P_poly P_sop P_bwfinal P_worst.
Import ListNotations.
Local Open Scope R_scope.
Local Notation NF := (F64 libm_basic).

(** Whenever [xyz_to_sop] returns for conjugate-closed poles, whatever the zeros, the pairing and the argsort: each
    section holds a pole with the least margin among its own poles and those of the sections before it. Only the
    pole 0 that 'kd' adds to an odd number of poles is not compared. *)
Theorem C151_sections : forall (argsort : list XR -> list nat) (x : list (XR * XR)) (y : list C) k pg ag rows,
  conj_closed y -> x <> [] \/ y <> [] ->
  @xyz_to_sop XR argsort x (cfs y) (Fin k) pg ag = Ok (map fins rows) ->
  worst_last ag (fun p => p = RtoC 0 /\ pg = Some "kd"%string /\ Nat.Odd (Nat.max (length x) (length y))) rows.
Proof. exact sop_worst. Qed.
Print Assumptions C151_sections.
(** The sections of every butterworth design, without exception. *)
Theorem C151_butterworth : forall (argsort : list XR -> list nat) b n s o' (ag : bool) rows,
  (0 < n)%nat -> (if ag then band_ok b else digital_ok b) -> lower s = band_name b -> lower o' = "sop"%string ->
  butterworth argsort (Fin (INR n)) (fins (band_freqs b)) s ag o' (@SrNone XR) = Ok (Sop (map fins rows)) ->
  worst_last ag (fun _ => False) rows.
Proof. exact butter_worst. Qed.
Print Assumptions C151_butterworth.
(** The hypotheses are met by the poles 3 and 1/2 without zeros, and by every design of C63_butterworth. *)
Example C151_nonvacuous : conj_closed [RtoC 3; RtoC (1 / 2)] /\
  exists rows, @xyz_to_sop XR ins_argsort (cfs []) (cfs [RtoC 3; RtoC (1 / 2)]) (Fin 1) None false = Ok (map fins rows).
Proof.
  assert (H : conj_closed [RtoC 3; RtoC (1 / 2)]) by (apply conj_closed_reals; intros v [<-|[<-|[]]]; reflexivity).
  split; [exact H|]. destruct (sop_spec_nr ins_argsort [] [RtoC 3; RtoC (1 / 2)] 1 None) as (rows & E & _);
    [apply ins_argsort_ok | constructor | exact H | left; reflexivity | right; discriminate|].
  exists rows. exact E.
Qed.
(** Poles 0.1, 0.95, -0.5, 1.01 in binary64: the last section holds 1.01 and 0.95, the first one 0.1 and -0.5. *)
Example C151_run :
  match @xyz_to_sop NF ins_argsort [] (map (fun z => (lit z 2, nofZ 0)) [10; 95; -50; 101]%Z) (nofZ 1) None false with
  | Ok rows => map (map (fun x => nfloorZ (nadd (nmul x (nofZ 10000)) (lit 5 1)))) rows = [[10000; 0; 0; 10000; 4000; -500]; [10000; 0; 0; 10000; -19600; 9595]]%Z
  | Raise _ => False end.
Proof. vm_compute. reflexivity. Qed.

(** The result does not depend on the case of the letters of the two options. *)
Theorem C61_case : forall (N : Num) argsort (q : N) w s s' ag o o' sr, same_text s s' -> same_text o o' ->
  butterworth argsort q w s ag o sr = butterworth argsort q w s' ag o' sr.
Proof. exact butter_case. Qed.
Print Assumptions C61_case.
Example C61_case_nonvacuous : same_text "bP" "Bp" /\ same_text "ZPS" "zps" /\ ~ same_text "zps" "zp5".
Proof.
  unfold same_text, same_char. repeat split; try (left; reflexivity); try (right; left; vm_compute; tauto); try (right; right; vm_compute; tauto).
  intros (_ & _ & [H|[H|H]] & _); [discriminate H | |]; vm_compute in H; repeat (destruct H as [H|H]; [discriminate H|]); exact H.
Qed.
