(** The repository's unit tests (proadv/tests) and the examples with printed results in its docstrings, run on the
    binary64 model. These are checks of the model, not properties. *)
From Verif Require Import NpBase F64 F64ex M_descriptive M_series M_normal M_butter.
Local Notation NF := (F64 libm_ex).
Local Open Scope Z_scope.
Local Open Scope num_scope.

(** [round(x, 2) == m / 10^k]; [np.around] stands for Python's [round]. *)
Definition is_lit (r : res NF) (m k : Z) : bool :=
  match r with Ok x => around x 2 =? lit m k | Raise _ => false end.
Definition eq_lit (r : res NF) (m k : Z) : bool :=
  match r with Ok x => x =? lit m k | Raise _ => false end.
Definition raises {A} (r : res A) (e : exn) : bool :=
  match r, e with
  | Raise ValueError, ValueError => true
  | Raise TypeError, TypeError => true
  | _, _ => false
  end.
(** A list of decimals [m / 10^k] as Python floats, of integers as Python ints and as NumPy ints. *)
Definition fl1 (l : list Z) : list (@pyval NF) := map (fun m => PyFloat (lit m 1)) l.
Definition il (l : list Z) : list (@pyval NF) := map PyInt l.
Definition nl (l : list Z) : list (@pyval NF) := map NpInt l.
Definition mean_num_of (l : list (@pyval NF)) : res NF := let* o := desc_mean (fun _ => None) (ASeq l) in as_num o.

(** proadv/tests/statistics/descriptive/test_max.py (lists and tuples are alike in the model). *)
Example test_max :
  forallb (fun b => b)
    [eq_lit (desc_max (il [3; 5; 7; 9; 1])) 9 0; eq_lit (desc_max (fl1 [255; 105; 565; 235])) 565 1;
     eq_lit (desc_max (il [-1; -2; -3; -4])) (-1) 0; eq_lit (desc_max (fl1 [-15; -25; -35; -45])) (-15) 1;
     eq_lit (desc_max (il [5; 3; 7; 1])) 7 0; eq_lit (desc_max (fl1 [215; 55; 105; 85])) 215 1;
     eq_lit (desc_max (nl [5; 3; 7; 1])) 7 0; eq_lit (desc_max (nl [-1; -2; -3; -4])) (-1) 0;
     raises (desc_max (N := NF) []) ValueError;
     raises (desc_max (N := NF) (map PyStr ["p"; "r"; "o"; "a"; "d"; "v"]%string)) TypeError] = true.
Proof. vm_compute. reflexivity. Qed.

(** test_min.py *)
Example test_min :
  forallb (fun b => b)
    [eq_lit (desc_min (il [3; 5; 7; 9; 1])) 1 0; eq_lit (desc_min (fl1 [255; 105; 565; 235])) 105 1;
     eq_lit (desc_min (il [-1; -2; -3; -4])) (-4) 0; eq_lit (desc_min (fl1 [-15; -25; -35; -45])) (-45) 1;
     eq_lit (desc_min (il [5; 3; 7; 1])) 1 0; eq_lit (desc_min (fl1 [215; 55; 105; 85])) 55 1;
     eq_lit (desc_min (nl [5; 3; 7; 1])) 1 0; eq_lit (desc_min (nl [-1; -2; -3; -4])) (-4) 0;
     raises (desc_min (N := NF) []) ValueError;
     raises (desc_min (N := NF) (map PyStr ["p"; "r"; "o"; "a"; "d"; "v"]%string)) TypeError] = true.
Proof. vm_compute. reflexivity. Qed.

(** test_mean.py *)
Example test_mean :
  forallb (fun b => b)
    [is_lit (mean_num_of (il [2; 4; 6; 8])) 500 2; is_lit (mean_num_of (fl1 [25; 45; 65; 85])) 550 2;
     is_lit (mean_num_of (il [2; 4; 6; 8; 10])) 600 2; is_lit (mean_num_of (fl1 [25; 45; 65; 85; 105])) 650 2;
     is_lit (mean_num_of (il [-1; -2; -3; -4])) (-250) 2; is_lit (mean_num_of (il [-1; -2; -3; -4; -5])) (-300) 2;
     is_lit (mean_num_of (fl1 [-15; -25; -35; -45])) (-300) 2;
     is_lit (mean_num_of (fl1 [-15; -25; -35; -45; -55])) (-350) 2;
     is_lit (mean_num_of (nl [2; 4; 6; 8])) 500 2; is_lit (mean_num_of (nl [2; 4; 6; 8; 10])) 600 2;
     is_lit (mean_num_of (nl [-1; -2; -3; -4])) (-250) 2; is_lit (mean_num_of (nl [-1; -2; -3; -4; -5])) (-300) 2] = true.
Proof. vm_compute. reflexivity. Qed.

(** test_median.py *)
Example test_median :
  forallb (fun b => b)
    [is_lit (desc_median (NDA 1 (nl [2; 4; 6; 8]))) 500 2; is_lit (desc_median (NDA 1 (nl [2; 4; 8; 10]))) 600 2;
     is_lit (desc_median (NDA 1 (fl1 [25; 45; 55; 85]))) 500 2; is_lit (desc_median (NDA 1 (fl1 [25; 45; 65; 85]))) 550 2;
     is_lit (desc_median (NDA 1 (nl [2; 4; 6; 8; 10]))) 600 2;
     is_lit (desc_median (NDA 1 (fl1 [25; 45; 65; 85; 105]))) 650 2;
     is_lit (desc_median (NDA 1 (nl [-1; -2; -3; -4]))) (-25) 1;
     is_lit (desc_median (NDA 1 (fl1 [-15; -25; -35; -45]))) (-300) 2;
     is_lit (desc_median (NDA 1 (fl1 [-15; -25; -35; -45; -55]))) (-350) 2;
     raises (desc_median (N := NF) (NDA 1 [])) ValueError] = true.
Proof. vm_compute. reflexivity. Qed.

(** test_mode.py *)
Definition mode_is (l : list Z) (k m : Z) (c : nat) : bool :=
  match desc_mode (N := NF) (map (fun z => lit z k) l) with Ok (x, c') => (x =? lit m k) && Nat.eqb c c' | Raise _ => false end.
Example test_mode :
  forallb (fun b => b)
    [mode_is [15; 55; 55; 15; 75; 15; 85; 55; 75; 85; 55] 1 55 4%nat; mode_is [-25; -45; -65; -65; -65; -85; -85] 1 (-65) 3%nat;
     mode_is [1; 3; 5; 7; 9; 7; 5; 9; 5; 7; 9; 7] 0 7 4%nat; mode_is [-1; -2; -4; -3; -4; -5; -6] 0 (-4) 2%nat;
     mode_is [5] 0 5 1%nat; mode_is [3; 0; 3; 7; 2] 0 3 2%nat; mode_is [4; 6; 12; 4; 15; 4; 6; 16] 0 4 3%nat;
     raises (desc_mode (N := NF) []) ValueError] = true.
Proof. vm_compute. reflexivity. Qed.

(** test_moving_average.py (the default window is 20) and test_exponential_moving_average.py *)
Definition ints (l : list Z) : list NF := map (fun z => #z) l.
Example test_averages :
  forallb (fun b => b)
    [raises (moving_average 1 (ints [5]) 20) ValueError; raises (moving_average 1 (ints [1; 2; 3; 4; 5]) 20) ValueError;
     raises (moving_average 1 (ints [-1; -2; -3]) 20) ValueError;
     raises (moving_average 1 (ints [1; 2; 3; 4; 5; 6; 7; 8; 9; 10]) 20) ValueError;
     raises (moving_average 1 (ints [1; 2; 3]) 0) ValueError; raises (moving_average 1 (ints [1; 2; 3]) (-5)) ValueError;
     raises (exponential_moving_average DInt (ints [1; 2; 3; 4; 5]) (#(-1))) ValueError;
     raises (exponential_moving_average DInt (ints [1; 2; 3; 4; 5]) #2) ValueError] = true.
Proof. vm_compute. reflexivity. Qed.

(** ** Printed results in docstrings *)

Definition within (x y tol : NF) : bool := nabs (x - y) <=? tol.
Fixpoint all_within (l m : list NF) (tol : NF) : bool :=
  match l, m with
  | [], [] => true
  | x :: l', y :: m' => within x y tol && all_within l' m' tol
  | _, _ => false
  end.
Definition shows (r : res NF) (m k d : Z) : bool := match r with Ok x => within x (lit m k) (lit 1 d) | Raise _ => false end.
Definition shows_all (r : res (list NF)) (l : list Z) (k d : Z) : bool :=
  match r with Ok xs => all_within xs (map (fun m => lit m k) l) (lit 1 d) | Raise _ => false end.

(** moment.py:35-40, 51-56, 91-96. *)
Example doc_moment :
  forallb (fun b => b)
    [shows (moment_skewness (ints [2; 8; 0; 4; 1; 9; 9; 0])) 2650554122698573 16 15;
     shows (moment_skewness (ints [1; 2; 3; 4; 5])) 0 0 15;
     shows (moment_kurtosis (ints [1; 2; 2; 3; 3; 3; 4; 4; 4; 4])) 22 1 15] = true.
Proof. vm_compute. reflexivity. Qed.

(** spread.py:23-28, 39-44, 91-96, 100-105; docs/statistics/spread.md:41-67. *)
Example doc_spread :
  forallb (fun b => b)
    [shows (spread_variance (farr (ints [14; 8; 11; 10]))) 46875 4 15;
     shows (spread_variance (farr (ints (zrange 15 30)))) 18666666666666668 15 14;
     shows (spread_std (farr (ints [14; 8; 11; 10; 5; 7]))) 29107081994288304 16 15;
     shows (spread_std (farr (ints (zrange 3 10)))) 2 0 15;
     raises (spread_variance (N := NF) (farr [])) ValueError;
     raises (spread_variance (NDA 2 (nl [1; 2; 9; 3]))) ValueError;
     raises (spread_variance (N := NF) (NDA 1 [PyStr "proadv"])) TypeError] = true.
Proof. vm_compute. reflexivity. Qed.

(** series.py:37-42, 107-112 (an integer array), 167-173. *)
Example doc_series :
  forallb (fun b => b)
    [shows_all (moving_average 1 (ints (zrange 1 11)) 3) [10; 15; 20; 30; 40; 50; 60; 70; 80; 90] 1 14;
     shows_all (exponential_moving_average DInt (ints (zrange 1 11)) (lit 5 1)) [1; 1; 2; 3; 4; 5; 6; 7; 8; 9] 0 15;
     shows_all (let* r := weighted_moving_average (ints (zrange 1 11)) 3 in Ok (snd r))
       [233333333; 333333333; 433333333; 533333333; 633333333; 733333333; 833333333] 8 8] = true.
Proof. vm_compute. reflexivity. Qed.

(** descriptive.py:28-33, 100-105, 162-195 (the array of line 182 holds the strings '1', '2', '3.5', 'not a number'),
    248-253, 265-270. *)
Definition parse_doc (s : string) : option NF :=
  if String.eqb s "1" then Some #1 else if String.eqb s "2" then Some #2 else
  if String.eqb s "3.5" then Some (lit 35 1) else None.
Example doc_descriptive :
  forallb (fun b => b)
    [shows (desc_min (nl [1; 2; 3; 4; 5])) 1 0 15; shows (desc_max (nl [1; 2; 3; 4; 5])) 5 0 15;
     shows (desc_max (nl (zrange 2 10))) 9 0 15;
     raises (desc_min [PyFloat #1; PyFloat #2; PyFloat nnan; PyFloat (N := NF) #4]) ValueError;
     shows (mean_num_of (nl [1; 2; 3])) 2 0 15; shows (mean_num_of (nl [1; 2; 3; 4; 5])) 3 0 15;
     shows (let* o := desc_mean parse_doc (ASeq (map PyStr ["1"; "2"; "3.5"; "not a number"]%string)) in as_num o)
       21666666666666665 16 15;
     match desc_mean parse_doc (ASeq []) with Ok MInvalid => true | _ => false end;
     shows (desc_median (NDA 1 (nl [14; 8; 11; 10; 5; 7]))) 9 0 15;
     shows (desc_median (NDA 1 (nl (zrange 14 45)))) 29 0 15] = true.
Proof. vm_compute. reflexivity. Qed.

(** normal.py: the five values of lines 31-36, 106-111, 350-355, 403-408, 456-461, 509-514. *)
Definition doc_input : list NF := map (fun m => lit m 8) [43385221; 61265808; -662029; 44512392; 40659420]%Z.
Definition nd_list (r : res (ndarr NF)) : res (list NF) := let* a := r in Ok (elements a).
Example doc_normal :
  let a := Arr [5]%Z doc_input in
  forallb (fun b => b)
    [shows_all (nd_list (cdf DFloat a)) [66780212; 72994878; 49735891; 67188490; 65784697] 8 8;
     shows_all (nd_list (pdf a #1 #0)) [36310893; 33067691; 39893354; 36131462; 36729206] 8 8;
     shows_all (nd_list (log_pdf a #1 #0)) [-101305240; -110661349; -91896045; -101800619; -100159795] 8 8;
     shows_all (nd_list (log_cdf DFloat a)) [-40376338; -31478092; -69844337; -39766824; -41878294] 8 8;
     shows_all (nd_list (sf DFloat a)) [33219788; 27005122; 50264109; 32811510; 34215303] 8 8;
     shows_all (nd_list (log_sf DFloat a)) [-110202446; -130914362; -68787889; -111439081; -107249719] 8 8;
     raises (cdf DFloat (Arr [2]%Z [lit 43385221 8; nnan (n := NF)])) TypeError] = true.
Proof. vm_compute. reflexivity. Qed.

(** butter.py:44-53, 102-111, 238-244. The documented call passes a list of integers as poles, which NumPy divides as
    reals; the model's poles are complex, which flips the sign of the zero imaginary part of the squared pole and so swaps
    the last conjugate pair of low_to_stop. *)
Definition cxz (a b : Z) : NF * NF := (#a, #b).
Definition parts (l : list (NF * NF)) : list NF := map fst l ++ map snd l.
Example doc_low_to_stop :
  match low_to_stop [cxz 6 3; cxz 6 (-3)] [cxz 8 0; cxz (-20) 0] (lit 5 1) (lit 53 2) #14 with
  | Ok (z, p, k) =>
      all_within (parts z) (map (fun m => lit m 8) [174568173; 174568173; 12098494; 12098494;
                                                    -100283509; 100283509; 6950176; -6950176]%Z) (lit 1 8) &&
      all_within (parts p) (map (fun m => lit m 8) [157122195; -35000000; 17877805; -35000000;
                                                    0; 39799497; 0; -39799497]%Z) (lit 1 8) &&
      within k (lit (-140625) 6) (lit 1 15)
  | Raise _ => false
  end = true.
Proof. vm_compute. reflexivity. Qed.
Example doc_low_to_band :
  match low_to_band [cxz 6 3; cxz 6 (-3)] [cxz 8 0; cxz (-20) 0] (lit 5 1) (lit 53 2) #14 with
  | Ok (z, p, k) =>
      all_within (map fst z) (map (fun m => lit m 11) [8399732470000; 8399732470000; 267525513; 267525513]%Z) (lit 1 6) &&
      all_within (map snd z) (map (fun m => lit m 11) [4200133770000; -4200133770000; -133771277; 133771277]%Z) (lit 1 6) &&
      all_within (map fst p) (map (fun m => lit m 11) [11199749200000; -100321788; 250809188; -27999899700000]%Z) (lit 1 5) &&
      all_within (map snd p) [#0; #0; #0; #0] #0 && within k (lit 5 1) (lit 1 15)
  | Raise _ => false
  end = true.
Proof. vm_compute. reflexivity. Qed.
Example doc_low_to_low :
  match low_to_low [cxz 8 0; cxz 3 0] [cxz 6 0; cxz 14 0] (lit 7 1) (lit 5 1) with
  | Ok (z, p, k) => all_within (parts z) [#4; lit 15 1; #0; #0] #0 && all_within (parts p) [#3; #7; #0; #0] #0 &&
                    within k (lit 7 1) #0
  | Raise _ => false
  end = true.
Proof. vm_compute. reflexivity. Qed.
