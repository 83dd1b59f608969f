(** Numbers, exceptions and the error monad shared by every model file. *)
From Coq Require Export String.
From Coq Require Export ZArith Bool List Lia.
Export ListNotations.

(** Python exceptions that the modelled code can let escape. *)
Inductive exn :=
| ValueError | TypeError | IndexError | ZeroDivisionError | AttributeError
| AssertionError | NotImplementedError | LinAlgError | RuntimeError | OverflowError.

(** Outcome of a Python call: a returned value or an escaping exception. *)
Inductive res (A : Type) := Ok (a : A) | Raise (e : exn).
Arguments Ok {A} a. Arguments Raise {A} e.

Definition bind {A B} (m : res A) (k : A -> res B) : res B :=
  match m with Ok a => k a | Raise e => Raise e end.
Notation "'let*' x ':=' m 'in' k" := (bind m (fun x => k))
  (at level 200, x pattern, m at level 100, k at level 200, right associativity).

Definition is_ok {A} (m : res A) : bool := match m with Ok _ => true | Raise _ => false end.

(** [for x in xs: s = f(s, x)], stopping at the first exception. *)
Fixpoint foldM {S A} (f : S -> A -> res S) (s : S) (xs : list A) : res S :=
  match xs with
  | [] => Ok s
  | x :: xs' => let* s' := f s x in foldM f s' xs'
  end.

(** [[f(x) for x in xs]] with exceptions. *)
Fixpoint mapM {A B} (f : A -> res B) (xs : list A) : res (list B) :=
  match xs with
  | [] => Ok []
  | x :: xs' => let* y := f x in let* ys := mapM f xs' in Ok (y :: ys)
  end.

(** The numeric primitives the code takes from Python, NumPy and libm.  No law is attached:
    a theorem quantified over [N : Num] holds for every implementation, binary64 included.
    - [nsum], [nprod]: [np.sum], [np.prod] of a 1-D array (any summation order);
    - [nrint]: [np.rint] (used by [np.around]); [ntrunc]: truncation towards zero, the cast
      performed when a float is stored into an integer array; [nfloorZ], [nceilZ]: [int(x)] for
      non-negative x and [int(np.ceil(x))];
    - [nipow x k]: [x ** k] for a literal non-negative integer [k]; [npow]: [x ** y];
    - [nofZ]: conversion of a Python/NumPy integer. *)
Record Num : Type := MkNum {
  car :> Type;
  nadd : car -> car -> car; nsub : car -> car -> car;
  nmul : car -> car -> car; ndiv : car -> car -> car;
  nopp : car -> car; nabs : car -> car; nsqrt : car -> car;
  nrint : car -> car; ntrunc : car -> car;
  nfloorZ : car -> Z; nceilZ : car -> Z;
  nltb : car -> car -> bool; nleb : car -> car -> bool; neqb : car -> car -> bool;
  nisnan : car -> bool; nisfin : car -> bool;
  nofZ : Z -> car; nnan : car; ninf : car;
  nsum : list car -> car; nprod : list car -> car;
  nipow : car -> nat -> car; npow : car -> car -> car;
  nsin : car -> car; ncos : car -> car; ntan : car -> car; natan : car -> car;
  natan2 : car -> car -> car;
  nexp : car -> car; nlog : car -> car;
  nerf : car -> car; nerfc : car -> car; npi : car
}.
Arguments nadd {_}. Arguments nsub {_}. Arguments nmul {_}. Arguments ndiv {_}.
Arguments nopp {_}. Arguments nabs {_}. Arguments nsqrt {_}. Arguments nrint {_}. Arguments ntrunc {_}.
Arguments nfloorZ {_}. Arguments nceilZ {_}.
Arguments nltb {_}. Arguments nleb {_}. Arguments neqb {_}. Arguments nisnan {_}. Arguments nisfin {_}.
Arguments nofZ {_}. Arguments nnan {_}. Arguments ninf {_}. Arguments nsum {_}. Arguments nprod {_}.
Arguments nipow {_}. Arguments npow {_}.
Arguments nsin {_}. Arguments ncos {_}. Arguments ntan {_}. Arguments natan {_}. Arguments natan2 {_}.
Arguments nexp {_}. Arguments nlog {_}. Arguments nerf {_}. Arguments nerfc {_}. Arguments npi {_}.

Declare Scope num_scope.
Delimit Scope num_scope with num.
Infix "+" := nadd : num_scope.
Infix "-" := nsub : num_scope.
Infix "*" := nmul : num_scope.
Infix "/" := ndiv : num_scope.
Notation "- x" := (nopp x) : num_scope.
Infix "<?" := nltb : num_scope.
Infix "<=?" := nleb : num_scope.
Infix "=?" := neqb : num_scope.
Notation "x >? y" := (nltb y x) (at level 70) : num_scope.
Notation "x >=? y" := (nleb y x) (at level 70) : num_scope.
Notation "# z" := (nofZ z%Z) (at level 9, format "# z") : num_scope.

Section Derived.
Context {N : Num}.
Local Open Scope num_scope.

(** A decimal literal [m * 10^(-k)] of the source, e.g. [0.5] is [lit 5 1]. Numerator and
    denominator are exact in binary64 for all literals used, so one division rounds correctly. *)
Definition lit (m : Z) (k : Z) : N := #m / #(10 ^ k).

(** [x ** 2]: NumPy evaluates a square as [x * x]. *)
Definition sq (x : N) : N := x * x.

(** [np.sign]. *)
Definition nsign (x : N) : N :=
  if nisnan x then x else if x >? #0 then #1 else if x <? #0 then #(-1) else #0.

(** [np.around(x, decimals)]: multiply by 10^d, round half to even, divide
    (NumPy's algorithm; for negative d divide first, then multiply). *)
Definition around (x : N) (d : Z) : N :=
  if (0 <=? d)%Z then nrint (x * #(10 ^ d)) / #(10 ^ d)
  else nrint (x / #(10 ^ (- d))) * #(10 ^ (- d)).

(** [np.minimum]/[np.maximum]/builtin [max], [min] on two floats without NaN:
    [min(a, b)] returns [a] unless [b < a]. *)
Definition nmin2 (a b : N) : N := if b <? a then b else a.
Definition nmax2 (a b : N) : N := if b >? a then b else a.

End Derived.
