(** Property theorems C159: components of different lengths in fluid.py. *)
From Coq Require Import Reals Lra List ZArith.
From Verif Require Import Num NpBase XR F64 F64ex Spec Spec31 M_signal P_fluidlen.
Import ListNotations.
Local Open Scope R_scope.

(** The stresses: all non-empty triples of components. *)
Theorem C159_stresses : forall u v w : list R, u <> [] -> v <> [] -> w <> [] ->
  (multiply u v -> multiply u w -> multiply v w -> @reynolds_stresses XR (fins u) (fins v) (fins w) =
     Ok (Fin (rvar u), Fin (rvar v), Fin (rvar w), Fin (cov_or_zero u v), Fin (cov_or_zero u w), Fin (cov_or_zero v w))) /\
  (~ (multiply u v /\ multiply u w /\ multiply v w) -> @reynolds_stresses XR (fins u) (fins v) (fins w) = Raise ValueError).
Proof. exact reynolds_any. Qed.
Print Assumptions C159_stresses.
(** The energy never looks at the lengths, in any arithmetic. *)
Theorem C159_energy_refuted : forall (N : Num) (u v w : list N), u <> [] -> v <> [] -> w <> [] -> exists k, kinetic_turbulent_energy u v w = Ok k.
Proof. exact tke_any. Qed.
Print Assumptions C159_energy_refuted.
Example C159_nonvacuous : multiply [1; 2; 3] [4] /\ ~ multiply [1; 2; 3] [4; 5] /\ cov_or_zero [0; 2; 4] [1; 5; 0] = - (2 / 3) /\ cov_or_zero [0; 2; 4] [7] = 0.
Proof. unfold multiply, cov_or_zero, rcov, rmean. cbn. split; [right; right; reflexivity|]. split; [intros [H|[H|H]]; discriminate H|]. split; lra. Qed.
(** In binary64: three, two and one samples; the energy 0.5 * (8/3 + 1 + 0) is returned, the stresses are not; with
    three, three and one samples they are. *)
Example C159_run : let f := map (@nofZ (F64 libm_basic)) in
  match kinetic_turbulent_energy (f [0; 2; 4]%Z) (f [1; 3]%Z) (f [9]%Z) with Ok a => nfloorZ (nmul a (nofZ 1000)) = 1833%Z | _ => False end /\
  reynolds_stresses (f [0; 2; 4]%Z) (f [1; 3]%Z) (f [9]%Z) = Raise ValueError /\
  match reynolds_stresses (f [0; 2; 4]%Z) (f [1; 5; 0]%Z) (f [9]%Z) with
  | Ok (a, b, c, d, e, g) => map (fun x => nceilZ (nsub (nmul x (nofZ 100)) (ndiv (nofZ 1) (nofZ 2)))) [a; b; c; d; e; g] = [267; 467; 0; -67; 0; 0]%Z | _ => False end.
Proof. vm_compute. repeat split. Qed.
