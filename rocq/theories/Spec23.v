(** Frequencies passed and rejected by a filter, independent of the models. *)
From Coq Require Import Reals.
From Coquelicot Require Import Complex.
From Verif Require Import Spec3.
Local Open Scope R_scope.

(** [v] lies strictly inside the band that is kept, or strictly outside. *)
Definition passed (b : band) (v : R) : Prop :=
  match b with
  | LP w => Rabs v < w
  | HP w => w < Rabs v
  | BP w1 w2 => w1 < Rabs v < w2
  | BS w1 w2 => Rabs v < w1 \/ w2 < Rabs v
  end.
Definition rejected (b : band) (v : R) : Prop :=
  match b with
  | LP w => w < Rabs v
  | HP w => Rabs v < w
  | BP w1 w2 => Rabs v < w1 \/ w2 < Rabs v
  | BS w1 w2 => w1 < Rabs v < w2
  end.

(** Designs of both kinds, [ag] telling analog ones: admissible critical frequencies, frequencies at
    which the response is looked at (below the Nyquist frequency 1 for digital designs), the point at
    which the transfer function is evaluated, and the analog frequency that corresponds to a
    frequency. *)
Definition design_ok (ag : bool) (b : band) : Prop := if ag then band_ok b else digital_ok b.
Definition freq_ok (ag : bool) (v : R) : Prop := ag = true \/ -1 < v < 1.
Definition point (ag : bool) (v : R) : C := if ag then (0, v) else Ei (PI * v).
Definition afreq (ag : bool) (v : R) : R := if ag then v else plain_tan v.
