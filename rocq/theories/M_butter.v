(** Model of /repo/proadv/statistics/signal/butter.py.

    A NumPy complex128 value is a pair (real part, imaginary part) over the number structure
    [N]; a 1-D array of zeros or poles is a list of such pairs.  Simplification common to the
    whole file: an array of real dtype is represented by pairs with imaginary part [#0] (the
    values computed are the same; only the sign of zero imaginary parts could differ), the gain
    is a real number, and arrays are one-dimensional (lines 442-448 and 495-496 are unreachable
    for 1-D input; M_ptf.v models them). *)
From Verif Require Import Num NpBase.
From Coq Require Import Ascii.
Local Open Scope num_scope.

Section Complex.
Context {N : Num}.

(** complex128 scalars. *)
Local Notation cx := (car N * car N)%type.
Definition re (a : cx) : N := fst a.
(** real scalar converted to complex. *)
Definition cre (x : N) : cx := (x, #0).
(** NumPy complex arithmetic (npymath / loops.c.src): textbook formulas for +, -, *, negation
    and conjugation. *)
Definition cadd (a b : cx) : cx := (fst a + fst b, snd a + snd b).
Definition csub (a b : cx) : cx := (fst a - fst b, snd a - snd b).
Definition cmul (a b : cx) : cx :=
  (fst a * fst b - snd a * snd b, fst a * snd b + snd a * fst b).
Definition copp (a : cx) : cx := (- fst a, - snd a).
Definition cconj (a : cx) : cx := (fst a, - snd a).
(** NumPy complex division: Smith's algorithm (numpy/core/src/umath/loops.c.src). *)
Definition cdiv (a b : cx) : cx :=
  let ar := fst a in let ai := snd a in let br := fst b in let bi := snd b in
  if nabs bi <=? nabs br then
    if (br =? #0) && (bi =? #0) then (ar / nabs br, ai / nabs br)
    else let rat := bi / br in let scl := #1 / (br + bi * rat) in
         ((ar + ai * rat) * scl, (ai - ar * rat) * scl)
  else let rat := br / bi in let scl := #1 / (bi + br * rat) in
       ((ar * rat + ai) * scl, (ai * rat - ar) * scl).
(** [np.abs] of a complex number: hypot, taken as the square root of the sum of squares. *)
Definition cabs (a : cx) : N := nsqrt (fst a * fst a + snd a * snd a).
(** Sign bit of a real number, -0.0 included. *)
Definition nneg (y : N) : bool := (y <? #0) || ((y =? #0) && (#1 / y <? #0)).
(** [np.sqrt] of a complex number: principal branch, C99 [csqrt] on finite values. *)
Definition csqrt (a : cx) : cx :=
  let x := fst a in let y := snd a in
  if (x =? #0) && (y =? #0) then (#0, y)
  else if x >=? #0 then let t := nsqrt ((x + cabs a) / #2) in (t, y / (#2 * t))
  else let t := nsqrt ((cabs a - x) / #2) in
       (nabs y / (#2 * t), if nneg y then - t else t).
(** [np.exp] of a complex number. *)
Definition cexp (a : cx) : cx := (nexp (fst a) * ncos (snd a), nexp (fst a) * nsin (snd a)).
(** [a == b] and [np.isreal]. *)
Definition ceqb (a b : cx) : bool := (fst a =? fst b) && (snd a =? snd b).
Definition isreal (a : cx) : bool := snd a =? #0.
(** [np.prod] of a complex array: left fold from 1. *)
Definition cprod (l : list cx) : cx := fold_left cmul l (cre #1).

(** A filter as zeros, poles, gain: the triple returned by the transformations. *)
Local Notation zpk := (list cx * list cx * car N)%type.

(** butter.py 4-12 [_relative_scale]. *)
Definition relative_scale (zero poles : list cx) : res nat :=
  let scale := (zlen poles - zlen zero)%Z in
  if (scale <? 0)%Z then Raise ValueError else Ok (Z.to_nat scale).

(** butter.py 15-21 [_catenate]; [array ** 2] is [array * array] in NumPy, [fpc ** 2] the
    square of a Python float. *)
Definition catenate (array : list cx) (fpc : N) : list cx :=
  map (fun v => cadd v (csqrt (csub (cmul v v) (cre (fpc * fpc))))) array ++
  map (fun v => csub v (csqrt (csub (cmul v v) (cre (fpc * fpc))))) array.

(** butter.py 24-78 [low_to_stop]. *)
Definition low_to_stop (zero poles : list cx) (system pc pw : N) : res zpk :=
  let* scale := relative_scale zero poles in
  let lf b := cdiv (cre (pw / #2)) b in
  let zerol := map lf zero in
  let polesl := map lf poles in
  let zerob := catenate zerol pc in
  let polesb := catenate polesl pc in
  let zerob := zerob ++ repeat (#0, pc) scale in
  let zerob := zerob ++ repeat (#0, - pc) scale in
  let systemb := system * re (cdiv (cprod (map copp zero)) (cprod (map copp poles))) in
  Ok (zerob, polesb, systemb).

(** butter.py 81-137 [low_to_band]. *)
Definition low_to_band (zero poles : list cx) (system pc pw : N) : res zpk :=
  let* scale := relative_scale zero poles in
  let lf a := cdiv (cmul a (cre pw)) (cre #2) in
  let zerol := map lf zero in
  let polesl := map lf poles in
  let zerob := catenate zerol pc in
  let polesb := catenate polesl pc in
  let zerob := zerob ++ repeat (cre #0) scale in
  let systemb := system * nipow pw scale in
  Ok (zerob, polesb, systemb).

(** butter.py 140-175 [low_to_high]. *)
Definition low_to_high (zero poles : list cx) (system dc : N) : res zpk :=
  let* scale := relative_scale zero poles in
  let zeroh := map (cdiv (cre dc)) zero in
  let polesh := map (cdiv (cre dc)) poles in
  let zeroh := zeroh ++ repeat (cre #0) scale in
  let systemh := system * re (cdiv (cprod (map copp zero)) (cprod (map copp poles))) in
  Ok (zeroh, polesh, systemh).

(** The sampling-rate argument: absent, a scalar, or something that is not a scalar. *)
Inductive sr_arg := SrNone | SrScalar (x : N) | SrArray.

(** butter.py 557-571 [_valid_g] (a scalar that is a non-numeric string is not modelled). *)
Definition valid_g (g : sr_arg) (an : bool) : res (option N) :=
  match g with
  | SrNone => if an then Ok None else Raise ValueError
  | SrScalar x => Ok (Some x)
  | SrArray => Raise ValueError
  end.

(** butter.py 178-216 [bilinear]. *)
Definition bilinear (zero poles : list cx) (system : N) (sr : sr_arg) : res zpk :=
  let* fsr := valid_g sr false in
  let fsr := match fsr with Some x => x | None => nnan end in
  let* scale := relative_scale zero poles in
  let fsr2 := cre (#2 * fsr) in
  let lf y := cdiv (cadd fsr2 y) (csub fsr2 y) in
  let zerob := map lf zero in
  let polesb := map lf poles in
  let zerob := zerob ++ repeat (cre (- #1)) scale in
  let systemb := system * re (cdiv (cprod (map (csub fsr2) zero))
                                   (cprod (map (csub fsr2) poles))) in
  Ok (zerob, polesb, systemb).

(** butter.py 219-261 [low_to_low]. *)
Definition low_to_low (zero poles : list cx) (system dc : N) : res zpk :=
  let* scale := relative_scale zero poles in
  let zerol := map (cmul (cre dc)) zero in
  let polesl := map (cmul (cre dc)) poles in
  let systeml := system * nipow dc scale in
  Ok (zerol, polesl, systeml).

(** butter.py 264-275 [buttap].  [int(number)] is [ntrunc]; [int] of a NaN is a ValueError and
    of an infinity an OverflowError. *)
Definition buttap (number : N) : res zpk :=
  if nisnan number then Raise ValueError
  else if negb (nisfin number) then Raise OverflowError
  else if negb (nabs (ntrunc number) =? number) then Raise ValueError
  else
    let n := nfloorZ number in
    let y := map (fun k => (- n + 1 + 2 * k)%Z) (zrange 0 n) in
    let z := map (fun v => copp (cexp (cdiv (cmul (#0, npi) (cre (#v))) (cre (#2 * number))))) y in
    Ok ([], z, #1).

(** ** Polynomial form *)

(** One step of [np.poly]: [np.convolve(a, [1, -zero])]. *)
Definition poly_step (a : list cx) (zero : cx) : list cx :=
  zipwith cadd (a ++ [cre #0]) (cre #0 :: map (fun v => cmul v (copp zero)) a).

(** [np.sort] / [np.sort_complex]: lexicographic order on (real, imaginary). *)
Definition cleb (a b : cx) : bool :=
  (fst a <? fst b) || ((fst a =? fst b) && (snd a <=? snd b)).
Fixpoint insert_by {A} (leb : A -> A -> bool) (x : A) (l : list A) : list A :=
  match l with
  | [] => [x]
  | y :: l' => if leb x y then x :: l else y :: insert_by leb x l'
  end.
(** A stable sort by a boolean order (the order decides; NaN parts are not modelled). *)
Definition sort_by {A} (leb : A -> A -> bool) (l : list A) : list A :=
  fold_right (insert_by leb) [] l.
Definition sort_complex := sort_by cleb.

(** Elementwise [np.all(a == b)] of two arrays of equal length. *)
Fixpoint all_eqb (a b : list cx) : bool :=
  match a, b with
  | x :: a', y :: b' => ceqb x y && all_eqb a' b'
  | _, _ => true
  end.
(** [a.real.copy()] of an array. *)
Definition real_part (l : list cx) : list cx := map (fun v => cre (re v)) l.

(** [np.poly] of a 1-D array of roots (numpy/lib/polynomial.py): the leading coefficient first;
    the result is made real when the roots are equal to their own conjugates as sorted
    multisets. *)
Definition np_poly (roots : list cx) : list cx :=
  let a := fold_left poly_step roots [cre #1] in
  if all_eqb (sort_complex roots) (sort_complex (map cconj roots)) then real_part a else a.

(** butter.py 453-461 / 463-471: make the coefficients real when positive and negative
    imaginary halves of the roots match. *)
Definition real_if_paired (r g : list cx) : list cx :=
  let pr := filter (fun v => snd v >? #0) r in
  let nr := map cconj (filter (fun v => snd v <? #0) r) in
  if (length pr =? length nr)%nat then
    if all_eqb (sort_complex nr) (sort_complex pr) then real_part g else g
  else g.

(** butter.py 427-473 [xyz_to_ptf] for 1-D [x], [y].  The test that the coefficient array is
    still complex (lines 453 and 463) is subsumed: taking the real part of a real array changes
    nothing. *)
Definition xyz_to_ptf (x y : list cx) (z : N) : list cx * list cx :=
  let g := map (cmul (cre z)) (np_poly x) in
  let h := np_poly y in
  (real_if_paired x g, real_if_paired y h).

(** ** Second-order sections *)

(** butter.py 498-500: [100 * np.finfo(...).eps] = 100 * 2^-52. *)
Definition cxr_tol : N := #100 * (#1 / #(2 ^ 52)).

(** butter.py 503: order of [np.lexsort((abs(x.imag), x.real))]. *)
Definition lex_re_absim (a b : cx) : bool :=
  (fst a <? fst b) || ((fst a =? fst b) && (nabs (snd a) <=? nabs (snd b))).
(** butter.py 533: order of [np.lexsort([np.abs(chunk.imag)])]. *)
Definition lex_absim (a b : cx) : bool := nabs (snd a) <=? nabs (snd b).

(** butter.py 523-526 and 529-531: the array is cut into maximal runs whose consecutive
    members satisfy [diff(xp.real) <= me * abs(xp[:-1])]; lengths of the runs, from left to
    right ([rst], [rss] list the runs of length at least two; a run of length one is not
    re-sorted, which is the same as sorting it). *)
Fixpoint run_lengths (me : N) (xp : list cx) : list nat :=
  match xp with
  | [] => []
  | a :: xp' =>
      match xp' with
      | [] => [1%nat]
      | b :: _ =>
          let rest := run_lengths me xp' in
          if (fst b - fst a) <=? me * cabs a then
            match rest with k :: ks => S k :: ks | [] => [1%nat] end
          else 1%nat :: rest
      end
  end.
(** butter.py 532-533: sort every chunk of the given lengths by absolute imaginary part. *)
Fixpoint sort_chunks (lens : list nat) (l : list cx) : list cx :=
  match lens with
  | [] => l
  | k :: lens' => sort_by lex_absim (firstn k l) ++ sort_chunks lens' (skipn k l)
  end.

(** butter.py 491-543 [_cxr] with the default tolerance. *)
Definition cxr (x : list cx) : res (list cx * list cx) :=
  match x with
  | [] => Ok ([], [])
  | _ =>
      let me := cxr_tol in
      let x := sort_by lex_re_absim x in
      let ri v := nabs (snd v) <=? me * cabs v in
      let xr := map (fun v => cre (re v)) (filter ri x) in
      if (length xr =? length x)%nat then Ok ([], xr)
      else
        let x := filter (fun v => negb (ri v)) x in
        let xp := filter (fun v => snd v >? #0) x in
        let xn := filter (fun v => snd v <? #0) x in
        if negb (length xp =? length xn)%nat then Raise ValueError
        else
          let lens := run_lengths me xp in
          let xp := sort_chunks lens xp in
          let xn := sort_chunks lens xn in
          if existsb (fun b => b)
               (zipwith (fun p n => cabs (csub p (cconj n)) >? me * cabs n) xp xn)
          then Raise ValueError
          else Ok (zipwith (fun p n => cdiv (cadd p (cconj n)) (cre #2)) xp xn, xr)
  end.

(** butter.py 546-554 [_lone_xyzsop]: [np.zeros(6)] is a real array, so the real parts of the
    coefficients are stored, right-aligned in each half; more than three coefficients would be
    a shape error (ValueError). *)
Definition pad3 (g : list cx) : res (list N) :=
  if (3 <? length g)%nat then Raise ValueError
  else Ok (repeat #0 (3 - length g) ++ map re g).
Definition lone_xyzsop (x y : list cx) (z : N) : res (list N) :=
  let '(g, h) := xyz_to_ptf x y z in
  let* g := pad3 g in
  let* h := pad3 h in
  Ok (g ++ h).

(** [np.argmin] of a 1-D array (index of the first minimum); ValueError when empty. *)
Fixpoint argmin_from (best : N) (bi i : nat) (l : list N) : nat :=
  match l with
  | [] => bi
  | v :: l' => if v <? best then argmin_from v i (S i) l' else argmin_from best bi (S i) l'
  end.
Definition argmin (l : list N) : res nat :=
  match l with [] => Raise ValueError | v :: l' => Ok (argmin_from v 0 1 l') end.

(** butter.py 342-347: index of the "worst" pole. *)
Definition iw (ag : bool) (a : list cx) : res nat :=
  argmin (map (fun v => if ag then nabs (re v) else nabs (#1 - cabs v)) a).

(** [np.delete(l, i)] for an index in range. *)
Definition delete {A} (l : list A) (i : nat) : list A := firstn i l ++ skipn (S i) l.

(** [l[i]] for a non-negative index. *)
Definition geti {A} (l : list A) (i : nat) : res A :=
  match nth_error l i with Some v => Ok v | None => Raise IndexError end.

Inductive kind := KReal | KComplex | KAny.

Section Sop.
(** [np.argsort] with the default (unstable) sort: a parameter, so that every theorem holds for
    every way of breaking ties. *)
Variable argsort : list N -> list nat.

(** butter.py 476-488 [_closest_real_complex_i]. *)
Definition closest (x : list cx) (y : cx) (z : kind) : res nat :=
  let g := argsort (map (fun v => cabs (csub v y)) x) in
  match z with
  | KAny => geti g 0
  | _ =>
      let* xs := mapM (geti x) g in
      let h := map isreal xs in
      let h := match z with KComplex => map negb h | _ => h end in
      let nz := filter (fun i => nth i h false) (seq 0 (length h)) in
      let* j := geti nz 0 in
      geti g j
  end.

(** [np.isreal(l).sum()]. *)
Definition count_real (l : list cx) : nat := length (filter isreal l).

Inductive pairing := PNr | PKd | PMl.
Definition is_ml (pg : pairing) : bool := match pg with PMl => true | _ => false end.

(** butter.py 353-417: one turn of the loop; the state is the remaining poles, the remaining
    zeros and the rows built so far (rows are built from the last to the first, line 352). *)
Definition sop_step (ag : bool) (pg : pairing) (st : list cx * list cx * list (list N)) (ci : Z)
  : res (list cx * list cx * list (list N)) :=
  let '(y, x, sop) := st in
  let* y1_i := iw ag y in
  let* y1 := geti y y1_i in
  let y := delete y y1_i in
  if isreal y1 && (count_real y =? 0)%nat then
    if negb (is_ml pg) then
      let* x1_i := closest x y1 KReal in
      let* x1 := geti x x1_i in
      let x := delete x x1_i in
      let* row := lone_xyzsop [x1; cre #0] [y1; cre #0] #1 in
      Ok (y, x, row :: sop)
    else if (0 <? length x)%nat then
      let* x1_i := closest x y1 KReal in
      let* x1 := geti x x1_i in
      let x := delete x x1_i in
      let* row := lone_xyzsop [x1] [y1] #1 in
      Ok (y, x, row :: sop)
    else
      let* row := lone_xyzsop [] [y1] #1 in
      Ok (y, x, row :: sop)
  else if (length y + 1 =? length x)%nat && negb (isreal y1)
          && (count_real y =? 1)%nat && (count_real x =? 1)%nat then
    let* x1_i := closest x y1 KComplex in
    let* x1 := geti x x1_i in
    let x := delete x x1_i in
    let* row := lone_xyzsop [x1; cconj x1] [y1; cconj y1] #1 in
    Ok (y, x, row :: sop)
  else
    let* yy2 :=
      if isreal y1 then
        let prealidx := filter (fun i => match nth_error y i with
                                         | Some v => isreal v | None => false end)
                               (seq 0 (length y)) in
        let* ys := mapM (geti y) prealidx in
        let* w := iw ag ys in
        let* y2_i := geti prealidx w in
        let* y2 := geti y y2_i in
        Ok (delete y y2_i, y2)
      else Ok (y, cconj y1) in
    let '(y, y2) := yy2 in
    if (0 <? length x)%nat then
      let* x1_i := closest x y1 KAny in
      let* x1 := geti x x1_i in
      let x := delete x x1_i in
      if negb (isreal x1) then
        let* row := lone_xyzsop [x1; cconj x1] [y1; y2] #1 in
        Ok (y, x, row :: sop)
      else if (0 <? length x)%nat then
        let* x2_i := closest x y1 KReal in
        let* x2 := geti x x2_i in
        if negb (isreal x2) then Raise AssertionError
        else
          let x := delete x x2_i in
          let* row := lone_xyzsop [x1; x2] [y1; y2] #1 in
          Ok (y, x, row :: sop)
      else
        let* row := lone_xyzsop [x1] [y1; y2] #1 in
        Ok (y, x, row :: sop)
    else
      let* row := lone_xyzsop [] [y1; y2] #1 in
      Ok (y, x, row :: sop).

(** butter.py 423: [sop[0][:3] *= z]. *)
Definition scale_first (z : N) (sop : list (list N)) : res (list (list N)) :=
  match sop with
  | [] => Raise IndexError
  | r :: rs => Ok ((map (fun v => v * z) (firstn 3 r) ++ skipn 3 r) :: rs)
  end.

(** butter.py 278-424 [xyz_to_sop]; [pg] is [None] or a string (lines 300-305).  The gain is a
    real number, so lines 338-340 never raise. *)
Definition xyz_to_sop (x y : list cx) (z : N) (pg : option string) (ag : bool)
  : res (list (list N)) :=
  let pg := match pg with None => if ag then "ml"%string else "nr"%string | Some s => s end in
  let* pg :=
    if String.eqb pg "nr"%string then Ok PNr
    else if String.eqb pg "kd"%string then Ok PKd
    else if String.eqb pg "ml"%string then Ok PMl
    else Raise ValueError in
  if ag && negb (is_ml pg) then Raise ValueError
  else if (length x =? 0)%nat && (length y =? 0)%nat then
    Ok (if negb ag then [[z; #0; #0; #1; #0; #0]] else [[#0; #0; z; #0; #0; #1]])
  else
    let* pre :=
      if negb (is_ml pg) then
        let y := y ++ repeat (cre #0) (length x - length y) in
        let x := x ++ repeat (cre #0) (length y - length x) in
        let c_parts := Nat.div (Nat.max (length y) (length x) + 1) 2 in
        let '(y, x) :=
          if (Nat.modulo (length y) 2 =? 1)%nat && match pg with PNr => true | _ => false end
          then (y ++ [cre #0], x ++ [cre #0]) else (y, x) in
        if negb (length y =? length x)%nat then Raise AssertionError
        else Ok (y, x, c_parts)
      else if (length y <? length x)%nat then Raise ValueError
      else Ok (y, x, Nat.div (length y + 1) 2) in
    let '(y, x, c_parts) := pre in
    let* xx := cxr x in
    let x := fst xx ++ snd xx in
    let* yy := cxr y in
    let y := fst yy ++ snd yy in
    let* st := foldM (sop_step ag pg) (y, x, []) (rev (zrange 0 (Z.of_nat c_parts))) in
    let '(y, x, sop) := st in
    if negb ((length y =? length x)%nat && (length x =? 0)%nat) then Raise AssertionError
    else scale_first z sop.

(** ** The design function *)

(** [str.lower] on ASCII letters. *)
Definition lower_ascii (c : ascii) : ascii :=
  let n := nat_of_ascii c in
  if (65 <=? n)%nat && (n <=? 90)%nat then ascii_of_nat (n + 32) else c.
Fixpoint lower (s : string) : string :=
  match s with
  | EmptyString => EmptyString
  | String c s' => String (lower_ascii c) (lower s')
  end.

(** The three output forms. *)
Inductive design := Zps (f : zpk) | Nd (g h : list cx) | Sop (s : list (list N)).

(** butter.py 574-668 [butterworth].  [w] is the array of critical frequencies (a scalar is an
    array of size one: [dc[1]] raises IndexError in both cases, line 647); NaN sampling rates
    and frequencies are ordinary values here as in NumPy. *)
Definition butterworth (q : N) (w : list N) (btype : string) (ag : bool) (output : string)
  (sr : sr_arg) : res design :=
  let* sr := valid_g sr true in
  let btype := lower btype in
  let output := lower output in
  let* w :=
    match sr with
    | Some s => if ag then Raise ValueError else Ok (map (fun v => #2 * v / s) w)
    | None => Ok w
    end in
  if existsb (fun v => v <=? #0) w then Raise ValueError
  else if match w with w0 :: w1 :: _ => negb (w0 <? w1) | _ => false end then Raise ValueError
  else if negb (existsb (String.eqb output) ["nd"; "zps"; "sop"]%string) then Raise ValueError
  else
    let* proto := buttap q in
    let '(zero, poles, system) := proto in
    let* dc :=
      if negb ag then
        if existsb (fun v => v <=? #0) w || existsb (fun v => v >=? #1) w then Raise ValueError
        else Ok (map (fun v => #2 * #2 * ntan (npi * v / #2)) w)
      else Ok w in
    let* f :=
      if String.eqb btype "lp"%string then
        match w, dc with
        | [_], [d] => low_to_low zero poles system d
        | _, _ => Raise ValueError
        end
      else if String.eqb btype "hp"%string then
        match w, dc with
        | [_], [d] => low_to_high zero poles system d
        | _, _ => Raise ValueError
        end
      else if String.eqb btype "bp"%string then
        match dc with
        | d0 :: d1 :: _ => low_to_band zero poles system (nsqrt (d0 * d1)) (d1 - d0)
        | _ => Raise ValueError
        end
      else if String.eqb btype "bs"%string then
        match dc with
        | d0 :: d1 :: _ => low_to_stop zero poles system (nsqrt (d0 * d1)) (d1 - d0)
        | _ => Raise ValueError
        end
      else Raise NotImplementedError in
    let* f := if negb ag then let '(z, p, k) := f in bilinear z p k (SrScalar #2) else Ok f in
    let '(z, p, k) := f in
    if String.eqb output "zps"%string then Ok (Zps (z, p, k))
    else if String.eqb output "nd"%string then
      let '(g, h) := xyz_to_ptf z p k in Ok (Nd g h)
    else let* s := xyz_to_sop z p k None ag in Ok (Sop s).

End Sop.
End Complex.

Notation cx N := (car N * car N)%type.
Notation zpk N := (list (car N * car N) * list (car N * car N) * car N)%type.
Arguments sr_arg : clear implicits.
Arguments design : clear implicits.
