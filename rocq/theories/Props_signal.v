(** Property theorems C64-C67 (synthetic.py, spectrum.py). *)
From Coq Require Import Reals Lra.
From Flocq Require Import Core.Raux.
From Verif Require Import P_signal.
Local Open Scope Z_scope.

(** ** C64 *)
Theorem C64_random_index : forall (N : Num) (n : Z) (percent : N) (draws : list Z) r,
  (forall i, In i draws -> 0 <= i < n) ->
  random_index n percent draws = Some (Ok r) ->
  length r = Z.to_nat (nfloorZ (ndiv (nmul (nofZ n) percent) (nofZ 100))) /\
  StronglySorted Z.lt r /\ forall i, In i r -> 0 <= i < n /\ In i draws.
Proof. exact random_index_correct. Qed.
Print Assumptions C64_random_index.
Example C64_nonvacuous : random_index 5 (lit 600 1 : F64 libm_basic) [4; 0; 4; 2; 1] = Some (Ok [0; 2; 4]).
Proof. vm_compute. reflexivity. Qed.

(** ** C65 *)
Theorem C65_terminates : forall (N : Num) (data : list N) (percent : N) (draws : list Z) (r : list N),
  nfloorZ (ndiv (nmul (nofZ (zlen data)) percent) (nofZ 100)) <= zlen data ->
  (forall i, 0 <= i < zlen data -> In i draws) ->
  exists out, synthetic_noise data percent draws r = Some out.
Proof. exact noise_terminates. Qed.
Print Assumptions C65_terminates.
(** Above 100 percent no stream of draws, however long, lets the call return. *)
Theorem C65_refuted : forall (N : Num) (data : list N) (percent : N) (draws : list Z) (r : list N),
  let q := ndiv (nmul (nofZ (zlen data)) percent) (nofZ 100) in
  nisnan q = false -> nisfin q = true -> zlen data < nfloorZ q ->
  (forall i, In i draws -> 0 <= i < zlen data) ->
  synthetic_noise data percent draws r = None.
Proof. exact noise_never_terminates. Qed.
Print Assumptions C65_refuted.
(** A percentage that is not a number, or an infinite one, raises. *)
Theorem C65_raises : forall (N : Num) (data : list N) (percent : N) (draws : list Z) (r : list N),
  let q := ndiv (nmul (nofZ (zlen data)) percent) (nofZ 100) in
  (nisnan q = true -> synthetic_noise data percent draws r = Some (Raise ValueError)) /\
  (nisnan q = false -> nisfin q = false -> synthetic_noise data percent draws r = Some (Raise OverflowError)).
Proof. exact noise_raises. Qed.
Print Assumptions C65_raises.
(** The two cases in terms of the percentage (exact arithmetic). *)
Theorem C65_count : forall (n : Z) (percent : R), 0 < n ->
  let q := @ndiv XR (nmul (nofZ n) (Fin percent)) (nofZ 100) in
  nisnan q = false /\ nisfin q = true /\ (nfloorZ q <= n <-> (percent < 100 + 100 / IZR n)%R).
Proof. exact noise_count_exact. Qed.
Print Assumptions C65_count.
Example C65_nonvacuous : (100 + 100 / IZR 4 <= 150)%R /\
  nfloorZ (ndiv (nmul (nofZ 4) (nofZ 150)) (nofZ 100) : F64 libm_basic) = 6.
Proof. split; [lra | vm_compute; reflexivity]. Qed.

(** ** C66 *)
Theorem C66_noise_effect : forall (N : Num) (data : list N) (percent : N) (draws : list Z) (r : list N) idx,
  (forall i, In i draws -> 0 <= i < zlen data) -> length r = length data ->
  random_index (zlen data) percent draws = Some (Ok idx) ->
  exists out, synthetic_noise data percent draws r = Some (Ok out) /\ length out = length data /\
    (forall i, 0 <= i < zlen data -> ~ In i idx -> nth (Z.to_nat i) out nnan = nadd (nth (Z.to_nat i) data nnan) (nofZ 0)) /\
    (forall k, (k < length idx)%nat ->
       let i := Z.to_nat (nth k idx 0) in
       nth i out nnan = nadd (nth i data nnan)
         (nmul (if Nat.even k then nadd (nabs (nth k r nnan)) percent else nsub (nopp (nabs (nth k r nnan))) percent)
               (ndiv (nsum data) (nofZ (zlen data))))).
Proof. exact noise_effect. Qed.
Print Assumptions C66_noise_effect.
Example C66_nonvacuous : random_index (zlen [1; 2; 3]%R) (lit 700 1 : F64 libm_basic) [2; 2; 0] = Some (Ok [0; 2]).
Proof. vm_compute. reflexivity. Qed.

(** ** C67 *)
Theorem C67_overlap : forall (overlap block : Z) (onesided : bool),
  w_noverlap (power_spectra_call overlap block onesided) = overlap /\
  (100 * w_noverlap (power_spectra_call overlap block onesided) = overlap * block <-> overlap = 0 \/ block = 100).
Proof. exact (fun o b s => conj eq_refl (overlap_documented o b s)). Qed.
Print Assumptions C67_overlap.
(** The documented default (50 percent of 2048) asks for 1024 samples of overlap; the call passes 50. *)
Theorem C67_refuted : exists (overlap block : Z), 0 <= overlap < 100 /\
  100 * w_noverlap (power_spectra_call overlap block true) <> overlap * block.
Proof. exact overlap_witness. Qed.
Print Assumptions C67_refuted.
Example C67_run : (w_noverlap (power_spectra_call 50 2048 true), 50 * 2048 / 100) = (50, 1024).
Proof. reflexivity. Qed.
