(** Property theorems C119-C120 (roots that are not in exact conjugate pairs). *)
From Coq Require Import Reals Lra Permutation.
From Coquelicot Require Import Complex.
From Flocq Require Import Core.Raux.
From Verif Require Import Num NpBase Lib XR F64 F64ex M_butter Spec3 Spec12 P_cxr P_unpaired.
Local Open Scope Z_scope.

Local Notation NF := (F64 libm_ex).
Local Notation parts r := (match r with Ok (c, l) => Some (map (fun v => (nfloorZ (fst v), nfloorZ (snd v))) c, map (fun v => nfloorZ (fst v)) l) | Raise _ => None end).
Local Notation zc := (map (fun ab => (@nofZ NF (fst ab), @nofZ NF (snd ab)))).

(** ** C119 *)
(** Every arithmetic: not as many roots above as below the axis. *)
Theorem C119_unbalanced : forall (N : Num) (x : list (cx N)),
  length (filter above x) <> length (filter below x) -> cxr x = Raise ValueError.
Proof. exact cxr_unbalanced. Qed.
Print Assumptions C119_unbalanced.
(** Exact arithmetic: the same for the sections of a filter, whatever the pairing and kind of filter. *)
Theorem C119_sections : forall argsort (x y : list C) (k : XR) pg ag,
  unbalanced x \/ unbalanced y ->
  @xyz_to_sop XR argsort (cfs x) (cfs y) k pg ag = Raise ValueError.
Proof. exact sop_unbalanced. Qed.
Print Assumptions C119_sections.
(** Every arithmetic: what is returned when no exception is raised. *)
Theorem C119_pairs : forall (N : Num) (x : list (cx N)) xc xr,
  cxr x = Ok (xc, xr) ->
  exists rs ps ns, Permutation rs (filter near_real x) /\ Permutation ps (filter above x) /\ Permutation ns (filter below x) /\
    length ps = length ns /\ (forall k p n, nth_error ps k = Some p -> nth_error ns k = Some n -> too_far p n = false) /\
    xr = map (fun v => (fst v, nofZ 0)) rs /\
    xc = map (fun pn => cdiv (nadd (fst (fst pn)) (fst (snd pn)), nadd (snd (fst pn)) (nopp (snd (snd pn)))) (nofZ 2, nofZ 0)) (combine ps ns).
Proof. exact cxr_sound. Qed.
Print Assumptions C119_pairs.
Theorem C119_only_ValueError : forall (N : Num) (x : list (cx N)) e,
  cxr x = Raise e -> e = ValueError.
Proof. exact cxr_only. Qed.
Print Assumptions C119_only_ValueError.
Example C119_nonvacuous : parts (@cxr NF (zc [(5, 0); (1, 2); (1, 3); (1, -2); (4, 0); (1, -3)])) = Some ([(1, 2); (1, 3)], [4; 5]) /\
  parts (@cxr NF (zc [(5, 0); (1, 2); (1, 3); (1, -2); (4, 0)])) = None /\
  length (filter above (zc [(5, 0); (1, 2); (1, 3); (1, -2); (4, 0)])) = 2%nat /\ length (filter below (zc [(5, 0); (1, 2); (1, 3); (1, -2); (4, 0)])) = 1%nat.
Proof. repeat split; vm_compute; reflexivity. Qed.
Example C119_unbalanced_example : unbalanced [(0, 1)%R].
Proof.
  assert (E : Cmod (0, 1)%R = 1%R) by (unfold Cmod; cbn; replace (0 * (0 * 1) + 1 * (1 * 1))%R with 1%R by ring; apply sqrt_1).
  unfold unbalanced, upper_root, lower_root. cbn [filter]. rewrite E. cbn [snd].
  rewrite Rlt_bool_true, Rlt_bool_false by lra. discriminate.
Qed.

(** ** C120 *)
(** A single pair within the tolerance is accepted and replaced by the midpoint. *)
Theorem C120_pair : forall (p n : C),
  upper_root p = true -> lower_root n = true -> (Cmod (p - Cconj n)%C <= 100 / 2 ^ 52 * Cmod n)%R ->
  @cxr XR (cfs [p; n]) = Ok (cfs [(p + Cconj n) / RtoC 2]%C, []) /\ @cxr XR (cfs [n; p]) = Ok (cfs [(p + Cconj n) / RtoC 2]%C, []).
Proof. exact cxr_pair. Qed.
Print Assumptions C120_pair.
(** The positive members are cut into maximal runs of close real parts, each run is sorted by imaginary part. *)
Theorem C120_runs : forall (N : Num) (me : N) (xp : list (cx N)),
  concat (cut (run_lengths me xp) xp) = xp /\
  maximal_runs (fun a b => nleb (nsub (fst b) (fst a)) (nmul me (cabs a))) (cut (run_lengths me xp) xp).
Proof. exact run_lengths_maximal. Qed.
Print Assumptions C120_runs.
(** Two pairs in one run. *)
Theorem C120_refuted : forall (L : Libm),
  exists p1 n1 p2 n2 : F64 L * F64 L,
  map above [p1; p2] = [true; true] /\ map below [n1; n2] = [true; true] /\
  too_far p1 n1 = false /\ too_far p2 n2 = false /\ @cxr (F64 L) [p1; n1; p2; n2] = Raise ValueError.
Proof. exact near_pairs_rejected. Qed.
Print Assumptions C120_refuted.
(** A gap of real parts equal to the tolerance still links two roots: 3 and 4 are sorted before they are compared. *)
Example C120_nonvacuous : let q a := @frac51 NF a in
  parts (@cxr NF [(q (-3 * 2^51), q (2^53)); (q (-3 * 2^51 + 250), q (3*2^51)); (q (-3 * 2^51 + 125), q (-3*2^51)); (q (-3 * 2^51 + 125), q (-2^53))])
  = Some ([(-3, 3); (-3, 4)], []).
Proof. vm_compute. reflexivity. Qed.
