(** Property theorems C103 to C108 and C67_blocks (spectrum.py with scipy's Welch estimate, examples/signal/spectrum.py). *)
From Coq Require Import Reals Lra Lia.
From Verif Require Import Num Lib XR F64 Spec Spec2 Spec8 M_spectrum P_dct P_spectrum P_spectrum2 P_spectrum3.
Import ListNotations.
Local Open Scope R_scope.

(** ** C67 *)
Theorem C67_blocks : forall (l : list R) fft fs,
  exact_fft fft -> (4096 <= zlen l)%Z -> fs <> 0 ->
  let n := Z.to_nat ((zlen l - 50) / (2048 - 50)) in
  (exists f, power_spectra fft (fins l) (Fin fs) 50 2048 false = Ok (f, fins (map (rwelch 2048 1998 n fs l) (seq 0 2048)))) /\
  (Z.of_nat n < (zlen l - 1024) / (2048 - 1024))%Z.
Proof. exact default_overlap_blocks. Qed.
Print Assumptions C67_blocks.
Example C67_blocks_nonvacuous : ((18000 - 50) / (2048 - 50) = 8 /\ (18000 - 1024) / (2048 - 1024) = 16)%Z.
Proof. split; reflexivity. Qed.

(** ** C103 *)
Theorem C103_welch : forall fft l fs ov B (os : bool),
  exact_fft fft -> (3 <= B <= length l)%nat -> (ov < Z.of_nat B)%Z -> fs <> 0 ->
  power_spectra fft (fins l) (Fin fs) ov (Z.of_nat B) os =
  Ok (fins (map (fun k => (if os then INR k else signed_freq B k) * fs / INR B) (seq 0 (if os then B / 2 + 1 else B))),
      fins (map (fun k => (if os then sides B k else 1) * rwelch B (Z.to_nat (Z.of_nat B - ov)) (Z.to_nat ((zlen l - ov) / (Z.of_nat B - ov))) fs l k)
                (seq 0 (if os then B / 2 + 1 else B)))).
Proof. exact spectra_welch. Qed.
Print Assumptions C103_welch.
Theorem C103_blocks : forall (l : list R) ov B,
  (3 <= B <= length l)%nat -> (ov < Z.of_nat B)%Z ->
  let n := Z.to_nat ((zlen l - ov) / (Z.of_nat B - ov)) in let st := Z.to_nat (Z.of_nat B - ov) in
  (1 <= n)%nat /\ (forall i, (i < n)%nat <-> (i * st + B <= length l)%nat).
Proof. exact spectra_blocks. Qed.
Print Assumptions C103_blocks.
Example C103_nonvacuous : exact_fft the_fft /\ power_spectra the_fft (fins [0; 3; 0]) (Fin 1) 0 3 true = Ok (fins [0; 1 / 3], fins [4; 8]).
Proof. exact (conj the_fft_exact (spectrum_example the_fft the_fft_exact)). Qed.

(** ** C104 *)
Theorem C104_affine : forall fft l fs ov B (os : bool) c d,
  exact_fft fft -> (3 <= B <= length l)%nat -> (ov < Z.of_nat B)%Z -> fs <> 0 ->
  exists f p, power_spectra fft (fins l) (Fin fs) ov (Z.of_nat B) os = Ok (fins f, fins p) /\
    power_spectra fft (fins (map (fun x => c * x + d) l)) (Fin fs) ov (Z.of_nat B) os = Ok (fins f, fins (map (fun v => c ^ 2 * v) p)).
Proof. exact spectra_affine. Qed.
Print Assumptions C104_affine.
Theorem C104_trailing : forall (N : Num) (fft : list N -> list (N * N)) data t fs ov block os,
  (0 < block <= zlen data)%Z -> (ov < block)%Z -> ((zlen data - block) mod (block - ov) = 0)%Z -> (zlen t < block - ov)%Z ->
  power_spectra fft (data ++ t) fs ov block os = power_spectra fft data fs ov block os.
Proof. exact spectra_trailing. Qed.
Print Assumptions C104_trailing.
Example C104_nonvacuous : exact_fft the_fft /\ ((9 - 5) mod (5 - 3) = 0)%Z /\ (zlen [7] < 5 - 3)%Z.
Proof. split; [exact the_fft_exact | split; reflexivity]. Qed.

(** ** C105 *)
Theorem C105_energy : forall fft l fs ov B (os : bool),
  exact_fft fft -> (3 <= B <= length l)%nat -> (ov < Z.of_nat B)%Z -> fs <> 0 ->
  exists f p, power_spectra fft (fins l) (Fin fs) ov (Z.of_nat B) os = Ok (fins f, fins p) /\
    Rsum p * (fs / INR B) = rmean (map (fun i => windowed_var B (segment l B (Z.to_nat (Z.of_nat B - ov)) i)) (seq 0 (Z.to_nat ((zlen l - ov) / (Z.of_nat B - ov))))) /\
    (0 < fs -> forall v, In v p -> 0 <= v).
Proof. exact spectra_energy. Qed.
Print Assumptions C105_energy.
(** In the example of C103: (4 + 8) / 3 is the windowed variance (3 - 1)^2. *)
Example C105_nonvacuous : (4 + 8) * (1 / 3) = (3 - 1) ^ 2.
Proof. lra. Qed.

(** ** C106 *)
Theorem C106_errors : forall (N : Num) (fft : list N -> list (N * N)) data fs ov block os,
  ((block < 0)%Z -> power_spectra fft data fs ov block os = Raise ValueError) /\
  ((0 <= block)%Z -> data = [] -> power_spectra fft data fs ov block os = Ok ([], [])) /\
  ((0 < zlen data < block)%Z -> power_spectra fft data fs ov block os = Raise ValueError) /\
  ((0 <= block <= ov)%Z -> data <> [] -> power_spectra fft data fs ov block os = Raise ValueError) /\
  ((ov < block <= zlen data)%Z -> (0 < block)%Z -> neqb fs (@nofZ N 0) = true -> power_spectra fft data fs ov block os = Raise ZeroDivisionError) /\
  ((ov < block <= zlen data)%Z -> (0 < block)%Z -> neqb fs (@nofZ N 0) = false -> exists f p, power_spectra fft data fs ov block os = Ok (f, p) /\ zlen f = zlen p /\
     zlen f = if os then (block / 2 + 1)%Z else block).
Proof. exact spectra_errors. Qed.
Print Assumptions C106_errors.
Example C106_nonvacuous : forall data : list XR, zlen data = 2047%Z -> (0 < zlen data < 2048)%Z /\ power_spectra the_fft data (Fin 100) 50 2048 true = Raise ValueError.
Proof. intros data H. split; [lia|]. destruct (spectra_errors XR the_fft data (Fin 100) 50 2048 true) as (_ & _ & E & _). apply E. lia. Qed.

(** ** C107 *)
Theorem C107_refuted : forall fft l fs ov os,
  exact_fft fft -> (2 <= length l)%nat -> (ov < 2)%Z -> fs <> 0 ->
  exists f, power_spectra fft (fins l) (Fin fs) ov 2 os = Ok (f, [NaN; NaN]).
Proof. exact spectra_block_2. Qed.
Print Assumptions C107_refuted.
Example C107_nonvacuous : exact_fft the_fft /\ exists f, power_spectra the_fft (fins [1; 5; 2; 7]) (Fin 100) 1 2 true = Ok (f, [NaN; NaN]).
Proof. split; [exact the_fft_exact|]. apply spectra_block_2; [exact the_fft_exact | cbn; lia | lia | lra]. Qed.

(** ** C108 *)
Theorem C108_law : forall f p fmax,
  is_max f fmax -> 0 < fmax -> p <> [] -> (forall v, In v p -> 0 < v) ->
  exists x1 y1 x2 y2 pmin pmax, slope_line (fins f) (fins p) = Ok ((Fin x1, Fin y1), (Fin x2, Fin y2)) /\
    is_min p pmin /\ is_max p pmax /\ exp x1 = 1 /\ exp x2 = fmax /\
    exp y2 / exp y1 = Rpower (exp x2 / exp x1) (- 5 / 3) /\ exp y1 * exp y2 = pmin * pmax.
Proof. exact slope_line_law. Qed.
Print Assumptions C108_law.
Theorem C108_refuted : forall f p fmax,
  is_max f fmax -> 0 < fmax -> In 0 p -> (forall v, In v p -> 0 <= v) ->
  exists x1 x2, slope_line (fins f) (fins p) = Ok ((Fin x1, Inf true), (Fin x2, Inf true)).
Proof. exact slope_line_zero. Qed.
Print Assumptions C108_refuted.
Theorem C108_empty : forall (N : Num) (f p : list N),
  f = [] \/ p = [] -> slope_line f p = Raise ValueError.
Proof. exact slope_line_empty. Qed.
Print Assumptions C108_empty.
Theorem C108_nan : forall (f p : list XR),
  f <> [] -> p <> [] -> In (NaN : xr) f \/ In (NaN : xr) p ->
  exists x2 : XR, slope_line f p = Ok ((Fin 0 : XR, NaN : XR), (x2, NaN : XR)) /\ (In (NaN : xr) f -> x2 = NaN).
Proof. exact slope_line_nan. Qed.
Print Assumptions C108_nan.
Example C108_nonvacuous : is_max [0; 1; 50] 50 /\ 0 < 50 /\ [4; 8; 1] <> [] /\ forall v, In v [4; 8; 1] -> 0 < v.
Proof.
  split; [split; [right; right; left; reflexivity|]|split; [lra|split; [discriminate|]]].
  - intros x [<-|[<-|[<-|[]]]]; lra.
  - intros x [<-|[<-|[<-|[]]]]; lra.
Qed.
