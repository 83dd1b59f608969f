(** A runnable libm for the binary64 examples: Taylor series evaluated in binary64. It stands for "some
    libm"; no theorem mentions it. Values agree with the usual ones to about 1e-15 for moderate arguments. *)
From Verif Require Import NpBase F64.
Local Open Scope Z_scope.
Local Notation N := (F64 libm_basic).
Local Notation fl z := (@nofZ N z).
Definition ex_pi : N := ndiv (fl 3141592653589793) (fl (10 ^ 15)).
(** Sum of [t, t*q/(a*(a+1)), ...]: [k] terms, each obtained from the last by [next]. *)
Fixpoint series (k : nat) (next : Z -> N -> N) (i : Z) (t acc : N) : N :=
  match k with O => acc | S k' => series k' next (i + 1) (next i t) (nadd acc t) end.
Definition ex_sin (x : N) : N :=
  series 25 (fun i t => nopp (ndiv (nmul t (nmul x x)) (fl ((2 * i + 2) * (2 * i + 3))))) 0 x (fl 0).
Definition ex_cos (x : N) : N :=
  series 25 (fun i t => nopp (ndiv (nmul t (nmul x x)) (fl ((2 * i + 1) * (2 * i + 2))))) 0 (fl 1) (fl 0).
(** e^x = (e^(x/1024))^1024. *)
Definition ex_exp (x : N) : N :=
  Nat.iter 10 (fun y => nmul y y) (series 20 (fun i t => ndiv (nmul t (ndiv x (fl 1024))) (fl (i + 1))) 0 (fl 1) (fl 0)).
(** ln x = 2 artanh((x-1)/(x+1)) after halving / doubling into [3/4, 3/2]. *)
Definition ex_artanh_sum (z : N) : N :=
  let q := nmul z z in
  snd (Nat.iter 30 (fun p => let '(i, t, acc) := p in (i + 1, nmul t q, nadd acc (ndiv t (fl (2 * i + 1))))) (0, z, fl 0)).
Definition ex_ln2 : N := nmul (fl 2) (ex_artanh_sum (ndiv (fl 1) (fl 3))).
Fixpoint ex_log_red (k : nat) (x : N) (e : Z) : N * Z :=
  match k with
  | O => (x, e)
  | S k' => if nltb (lit 15 1) x then ex_log_red k' (ndiv x (fl 2)) (e + 1)
            else if nltb x (lit 75 2) then ex_log_red k' (nmul x (fl 2)) (e - 1) else (x, e)
  end.
Definition ex_log (x : N) : N :=
  if nleb x (fl 0) then nnan else
  let (m, e) := ex_log_red 1100 x 0 in
  nadd (nmul (fl e) ex_ln2) (nmul (fl 2) (ex_artanh_sum (ndiv (nsub m (fl 1)) (nadd m (fl 1))))).
(** atan x = 8 atan(x') after three half-angle steps. *)
Definition ex_atan (x : N) : N :=
  let half x := ndiv x (nadd (fl 1) (nsqrt (nadd (fl 1) (nmul x x)))) in
  let z := half (half (half x)) in
  let q := nopp (nmul z z) in
  nmul (fl 8) (snd (Nat.iter 25 (fun p => let '(i, t, acc) := p in (i + 1, nmul t q, nadd acc (ndiv t (fl (2 * i + 1))))) (0, z, fl 0))).
Definition ex_atan2 (y x : N) : N :=
  if nltb (fl 0) x then ex_atan (ndiv y x)
  else if nltb x (fl 0) then (if nleb (fl 0) y then nadd (ex_atan (ndiv y x)) ex_pi else nsub (ex_atan (ndiv y x)) ex_pi)
  else if nltb (fl 0) y then ndiv ex_pi (fl 2) else if nltb y (fl 0) then nopp (ndiv ex_pi (fl 2)) else fl 0.
(** erf by its Taylor series, for |x| < 5; +-1 beyond. *)
Definition ex_erf (x : N) : N :=
  if nltb (fl 5) (nabs x) then (if nltb x (fl 0) then fl (-1) else fl 1) else
  let q := nopp (nmul x x) in
  nmul (ndiv (fl 2) (nsqrt ex_pi))
    (snd (Nat.iter 100 (fun p => let '(i, t, acc) := p in (i + 1, ndiv (nmul t q) (fl (i + 1)), nadd acc (ndiv t (fl (2 * i + 1))))) (0, x, fl 0))).
Definition libm_ex : Libm := {|
  l_sum := l_sum libm_basic; l_prod := l_prod libm_basic; l_ipow := l_ipow libm_basic;
  l_pow := fun x y => ex_exp (@nmul N y (ex_log x));
  l_sin := ex_sin; l_cos := ex_cos; l_tan := fun x => @ndiv N (ex_sin x) (ex_cos x); l_atan := ex_atan; l_atan2 := ex_atan2;
  l_exp := ex_exp; l_log := ex_log; l_erf := ex_erf; l_erfc := fun x => @nsub N (fl 1) (ex_erf x); l_pi := ex_pi |}.

(** First 12 decimals of familiar values. *)
Local Notation dec12 x := (@nfloorZ N (@nmul N x (fl (10 ^ 12)))).
Example libm_ex_values :
  dec12 (ex_sin (fl 1)) = 841470984807 /\ dec12 (ex_cos (fl 1)) = 540302305868 /\ dec12 (ex_exp (fl 1)) = 2718281828459 /\
  dec12 (ex_log (fl 10)) = 2302585092994 /\ dec12 (ex_atan (fl 1)) = 785398163397 /\ dec12 (ex_erf (fl 1)) = 842700792949.
Proof. vm_compute. repeat split. Qed.
