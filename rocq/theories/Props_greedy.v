(** Property theorems C152: which poles and zeros share a second-order section. *)
From Coq Require Import Reals Lra List ZArith String Permutation.
From Coquelicot Require Import Complex.
From Verif Require Import Num NpBase XR F64 F64ex M_butter Spec3 Spec26 Spec27 P_cx P_butter P_poly P_cxr P_sop P_sop2 P_bwprops P_bwfinal P_worst P_greedy.
Import ListNotations.
Local Open Scope R_scope.
Local Notation NF := (F64 libm_basic).

(** Whenever poles and zeros, filled up with zeros at the origin, are equal and even in number: [xyz_to_sop] returns, and
    its sections are the greedy pairing, the last one chosen first. *)
Theorem C152_pairing : forall argsort, is_argsort argsort -> sorts argsort -> forall x y k pgs ag,
  conj_closed x -> conj_closed y -> x <> [] \/ y <> [] ->
  let m := Nat.max (length x) (length y) in let n := Nat.div (m + 1) 2 in
  ag = false /\ (pgs = None \/ pgs = Some "nr"%string) \/
  ag = false /\ pgs = Some "kd"%string /\ Nat.Even m \/
  (ag = true /\ pgs = None \/ pgs = Some "ml"%string) /\ length x = length y /\ Nat.Even m ->
  exists rows, @xyz_to_sop XR argsort (cfs x) (cfs y) (Fin k) pgs ag = Ok (map fins (with_gain k rows)) /\ length rows = n /\
    greedy ag (padded_to (2 * n) (map snap y)) (padded_to (2 * n) (map snap x)) rows.
Proof. exact sop_greedy. Qed.
Print Assumptions C152_pairing.
(** The sections of every digital butterworth design. *)
Theorem C152_butterworth : forall argsort, is_argsort argsort -> sorts argsort -> forall b n s o o' zs ps k,
  (0 < n)%nat -> digital_ok b -> lower s = band_name b -> lower o = "zps"%string -> lower o' = "sop"%string ->
  butterworth argsort (Fin (INR n)) (fins (band_freqs b)) s false o (@SrNone XR) = Ok (Zps (cfs zs, cfs ps, Fin k)) ->
  let c := Nat.div (length ps + 1) 2 in
  exists rows, butterworth argsort (Fin (INR n)) (fins (band_freqs b)) s false o' (@SrNone XR) = Ok (Sop (map fins (with_gain k rows))) /\ length rows = c /\
    greedy false (padded_to (2 * c) (map snap ps)) (padded_to (2 * c) (map snap zs)) rows.
Proof. exact butter_greedy. Qed.
Print Assumptions C152_butterworth.
(** The hypotheses are met: a stable insertion sort, zeros 1, -1 and poles 1/2, -1/2, 3. *)
Example C152_nonvacuous : is_argsort (@ins_argsort XR) /\ sorts (@ins_argsort XR) /\
  conj_closed [RtoC 1; RtoC (-1)] /\ conj_closed [RtoC (1 / 2); RtoC (- (1 / 2)); RtoC 3].
Proof.
  split; [apply ins_argsort_ok|]. split; [apply ins_argsort_sorts|].
  split; apply conj_closed_reals; intros v Hv; repeat (destruct Hv as [<-|Hv]; [reflexivity|]); destruct Hv.
Qed.
(** Poles 0.9, 0.8, -0.5, -0.25 and zeros 0.5, 0.7, -1, -0.75 in binary64: the last section holds the poles 0.9 and 0.8
    with the zeros 0.7 and 0.5, the first one the other four. *)
Example C152_run :
  let q := map (fun z => (@lit NF z 2, @nofZ NF 0)) in
  match @xyz_to_sop NF ins_argsort (q [50; 70; -100; -75]%Z) (q [90; -50; 80; -25]%Z) (nofZ 1) None false with
  | Ok rows => map (map (fun x => nfloorZ (nadd (nmul x (nofZ 10000)) (lit 5 1)))) rows =
      [[10000; 17500; 7500; 10000; 7500; 1250]; [10000; -12000; 3500; 10000; -17000; 7200]]%Z
  | Raise _ => False end.
Proof. vm_compute. reflexivity. Qed.
