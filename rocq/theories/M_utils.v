(** Model of tftb/utils.py. *)
From Coq Require Import Reals ZArith List Lia Lra Bool.
From Coquelicot Require Import Coquelicot.
From Flocq Require Import Core.
From Verif Require Import Py Scalars CSum DFT.
Import ListNotations.
Local Open Scope Z_scope.

(** Rounding of a real to double precision (53 significant bits, ties to even).
    Simplified: no overflow and no subnormal numbers. *)
Definition b64 (x : R) : R := round radix2 (FLX_exp 53) ZnearestE x.

(** ** divider, utils.py 80-89.  [s] is the value of math.sqrt(N). *)
(** utils.py 85-88: the loop [for i in range(k, 0, -1)]; [k = 0]: the loop body
    never ran and [i] is unbound at line 89. *)
Fixpoint divider_loop (N : Z) (k : nat) : option (Z * Z) :=
  match k with
  | O => None
  | S k' => let i := Z.of_nat k in
            if N mod i =? 0 then Some (i, N / i)
            else match k' with O => Some (i, N / i) | _ => divider_loop N k' end
  end.
Definition divider_s (s : R) (N : Z) : res (Z * Z) :=
  if Req_EM_T (IZR (Zfloor s)) s then Ok (Zfloor s, Zfloor s)
  else match divider_loop N (Z.to_nat (Zceil s)) with
       | Some p => Ok p
       | None => Raise UnboundLocalError
       end.
(** math.sqrt raises ValueError on negative numbers. *)
Definition divider_with (sq : R -> R) (N : Z) : res (Z * Z) :=
  if N <? 0 then Raise ValueError else divider_s (sq (IZR N)) N.
(** Exact arithmetic. *)
Definition divider (N : Z) : res (Z * Z) := divider_with sqrt N.
(** Double precision: N is converted to a float, then correctly rounded sqrt. *)
Definition divider_f64 (N : Z) : res (Z * Z) := divider_with (fun r => b64 (sqrt (b64 r))) N.

(** ** nextpow2, utils.py 59 *)
Definition log2 (x : R) : R := (ln x / ln 2)%R.
(** math.log2 raises ValueError for non-positive arguments. *)
Definition nextpow2 (x : R) : res Z :=
  if Rlt_dec 0 x then Ok (Zceil (log2 x)) else Raise ValueError.
(** Integer argument in double precision: it is converted to a float first. *)
Definition nextpow2_f64 (n : Z) : res Z :=
  if n <=? 0 then Raise ValueError else Ok (Zceil (b64 (log2 (b64 (IZR n))))).
(** Array argument: math.log2 accepts only arrays of size 1. *)
Definition nextpow2_arr (l : list R) : res Z :=
  match l with [x] => nextpow2 x | _ => Raise TypeError end.

(** ** nearest_odd, utils.py 92-117 *)
(** Python's [%] with 2 on a float: x - 2*floor(x/2). *)
Definition rmod2 (x : R) : R := (x - 2 * IZR (Zfloor (x / 2)))%R.
(** Scalar branch, 111-117. *)
Definition nearest_odd (x : R) : R :=
  if Req_EM_T (rmod2 x) 0 then (x + 1)%R
  else if Zfloor x mod 2 =? 0 then IZR (Zceil x)
  else if negb (Zfloor x mod 2 =? 0) then IZR (Zfloor x)
  else x.
(** Array branch, 107-110. *)
Definition nearest_odd_arr (l : list R) : list Z :=
  map (fun y => if y mod 2 =? 0 then y + 1 else y) (map Zfloor l).
(** A [range] object has no [%]. *)
Definition nearest_odd_range : res Z := Raise TypeError.

(** ** modulo, utils.py 120-137 *)
(** Integer array.  For an empty array [any] is False and the complex branch
    returns an empty array; it is written as the same (empty) list. *)
Definition modulo (x : list Z) (N : Z) : list Z :=
  map (fun y => if y =? 0 then N else y) (map (fun v => v mod N) x).
(** Complex dtype (Gaussian integers): np.mod is not defined on complex numbers. *)
Definition modulo_cplx (x : list (Z * Z)) (N : Z) : res (list (Z * Z)) :=
  if existsb (fun z => snd z =? 0) x then Raise TypeError
  else Ok (map (fun z => (fst z mod N, snd z mod N)) x).

(** ** is_linear, utils.py 28-30 *)
Definition diffs (x : list R) : list R := zipw (fun a b => (b - a)%R) x (tl x).
(** np.around(v, d): v times 10^d, rounded half to even, divided by 10^d. *)
Definition p10 (d : nat) : R := (10 ^ d)%R.
Definition around (d : nat) (v : R) : R := (IZR (ZnearestE (v * p10 d)) / p10 d)%R.
(** [np.unique(l).shape[0] == 1]. *)
Definition one_value (l : list R) : bool :=
  match l with
  | [] => false
  | a :: l' => forallb (fun b => if Req_EM_T a b then true else false) l'
  end.
Definition is_linear (x : list R) (d : nat) : bool := one_value (map (around d) (diffs x)).

(** ** izak, utils.py 33-42, on a matrix given by its columns *)
(** np.fft.ifft *)
Definition ifft (x : list C) : list C :=
  let n := zlen x in
  map (fun k => / RtoC (IZR n) * csum (arange 0 n) (fun f => cnth x f * root n (f * k)))%C (arange 0 n).
Definition izak_step (n m : Z) (sig : list C) (ic : Z * list C) : res (list C) :=
  let '(im, col) := ic in
  put sig (map (fun k => im + k * m) (arange 0 n)) (map (fun v => RtoC (sqrt (IZR n)) * v)%C (ifft col)).
(** [n] rows, the columns are [cols]. *)
Definition izak (n : Z) (cols : list (list C)) : res (list C) :=
  let m := zlen cols in
  foldM (izak_step n m) (combine (arange 0 m) cols) (zeros (n * m)).
(** utils.py 37-41 on a 1-d array: [x[:, im]] has too many indices. *)
Definition izak_1d (x : list C) : res (list C) := Raise IndexError.

(** linear.py 141-142: the Zak matrix of a signal of length nb*m, by columns
    (column [i] is [msig.T[:, i]] transformed). *)
Definition zak (nb m : Z) (x : list C) : list (list C) :=
  map (fun i => map (fun v => v / RtoC (sqrt (IZR m)))%C (fft (map (fun j => cnth x (i + j * nb)) (arange 0 m))))
      (arange 0 nb).
