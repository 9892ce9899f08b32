(** Model of tftb/generators/analytic_signals.py, noise.py and utils.py.

    Random draws are arguments: [rand m] is the array of m numbers returned by
    np.random.rand / randn / normal, about which the theorems assume at most
    its length and its range.  Exact real arithmetic; [None] marks arrays that
    numpy fills with NaN because of a division by zero. *)
From Coq Require Import Reals ZArith List Lia Lra Bool.
From Coquelicot Require Import Coquelicot.
From Flocq Require Import Core.
From Verif Require Import Py Scalars CSum DFT M_base M_utils M_dom M_gen1.
Import ListNotations.
Local Open Scope Z_scope.

(** scipy.signal.hilbert on a real 1-D array: the one-sided spectrum. *)
Definition hfac (n f : Z) : R :=
  if f =? 0 then 1%R
  else if 2 * f =? n then 1%R
  else if 2 * f <? n then 2%R else 0%R.
Definition hilbert (x : list R) : res (list C) :=
  if zlen x =? 0 then Raise ValueError
  else Ok (ifft (zipw (fun X f => X * RtoC (hfac (zlen x) f))%C (fft (map RtoC x)) (arange 0 (zlen x)))).

(** int(np.ceil(n / d)) for integers, d <> 0. *)
Definition cdiv (n d : Z) : Z := - ((- n) / d).
(** np.repeat(l, k) *)
Definition nrepeat {A} (l : list A) (k : Z) : list A := flat_map (fun v => repeat v (Z.to_nat k)) l.
(** A negative k raises unless there is nothing to repeat. *)
Definition repeat_np {A} (l : list A) (k : Z) : res (list A) :=
  if (k <? 0) && (0 <? zlen l) then Raise ValueError else Ok (nrepeat l k).
(** np.random.rand(m): negative sizes raise. *)
Definition draw (rand : Z -> list R) (m : Z) : res (list R) := if m <? 0 then Raise ValueError else Ok (rand m).
Definition omul (a : R) (z : option C) : option C := option_map (fun z => RtoC a * z)%C z.

(** Lines 25-34 / 55-63 of analytic_signals.py.  [nc = None]:
    the default round(n / 2.0) resp. round(n / 5.0).  am * fm: both arrays
    have n_points entries (otherwise numpy broadcasts or raises). *)
Definition keyed (rand : Z -> list R) (jump : R -> R) (dflt n : Z) (nc : option Z) (f0 : R) : res (list (option C) * list R) :=
  let nc := match nc with Some k => k | None => ZnearestE (IZR n / IZR dflt) end in
  if Rlt_dec f0 0 then Raise TypeError
  else if Rlt_dec (1 / 2) f0 then Raise TypeError
  else if nc =? 0 then Raise ZeroDivisionError
  else
    u <- draw rand (cdiv n nc) ;;
    am <- repeat_np (map jump u) nc ;;
    let am := prefix am n in
    '(fm, _) <- fmconst n f0 (Some 1%R) ;;
    y <- bcast omul am fm ;;
    Ok (y, am).
Definition anaask (rand : Z -> list R) := keyed rand (fun u => u) 2.
Definition anabpsk (rand : Z -> list R) := keyed rand (fun u => 2 * IZR (ZnearestE u) - 1)%R 5.

(** Lines 84-91. *)
Definition anafsk (rand : Z -> list R) (n : Z) (nc : option Z) (nbf : Z) : res (list C * list R) :=
  let nc := match nc with Some k => k | None => ZnearestE (IZR n / 5) end in
  if nc =? 0 then Raise ZeroDivisionError
  else
    u <- draw rand (cdiv n nc) ;;
    if nbf =? 0 then Raise ZeroDivisionError
    else
      let freqs := map (fun v => 1 / 4 + 1 / 4 * (IZR (Zfloor (IZR nbf * v)) / IZR nbf - (IZR nbf - 1) / (2 * IZR nbf)))%R u in
      iflaw <- repeat_np freqs nc ;;
      Ok (map (fun v => cis (2 * PI * v)) (cumsum 0 iflaw), iflaw).

(** Lines 136-147. *)
Definition anaqpsk (rand : Z -> list R) (n : Z) (nc : option Z) (f0 : R) : res (list C * list R) :=
  let nc := match nc with Some k => k | None => ZnearestE (IZR n / 5) end in
  if Rlt_dec f0 0 then Raise TypeError
  else if Rlt_dec (1 / 2) f0 then Raise TypeError
  else if nc =? 0 then Raise ZeroDivisionError
  else
    u <- draw rand (cdiv n nc) ;;
    let jumps := map (fun v => let j := Zfloor (4 * v) in if j =? 4 then 3 else j) u in
    rj <- repeat_np jumps nc ;;
    let pm0 := map (fun j => PI * IZR j / 2)%R rj in
    pm <- bcast (fun k p => 2 * PI * f0 * (IZR k - 1) + p)%R (arange 0 n) pm0 ;;
    Ok (map cis pm, pm0).

(** Lines 109-114 and 202-207.  np.round(n / 2) is a float. *)
Definition anapulse (n : Z) (ti : option R) : res (list C) :=
  let ti := match ti with Some t => t | None => IZR (half_round n) end in
  hilbert (map (fun k => if Req_EM_T (IZR k) ti then 1%R else 0%R) (arange 0 n)).
Definition anastep (n : Z) (ti : option R) : res (list C) :=
  let ti := match ti with Some t => t | None => IZR (half_round n) end in
  hilbert (map (fun k => if Rlt_dec ti (IZR k) then 1%R else 0%R) (arange 0 n)).

(** Lines 168-184.  [count] is N = int(end / start), given as an
    argument because it depends on rounding: [sing_count] in exact arithmetic,
    [sing_count64] in binary64.  The assignment to y[1:int(n/2)] needs N equal
    to the length of the slice (or 1).  1.0 / 0 raises, np.linspace refuses a negative
    count, max and hilbert refuse an empty array.  [None]: NaN. *)
Definition sing_count (n : Z) : Z := Ztrunc ((1 / 2 - 1 / IZR n) / (1 / IZR n)).
Definition sing_count64 (n : Z) : Z :=
  let start := b64 (1 / IZR n) in
  let stop := b64 (1 / 2 - start) in
  Ztrunc (b64 (stop / start)).
Definition rpow0 (t h : R) : R := if Req_EM_T t 0 then 0%R else Rpower t h.
Fixpoint rmaxl (l : list R) : R := match l with [] => 0%R | [v] => v | v :: l' => Rmax v (rmaxl l') end.
Fixpoint rminl (l : list R) : R := match l with [] => 0%R | [v] => v | v :: l' => Rmin v (rminl l') end.
(** np.linspace(a, b, N): for one sample only the start. *)
Definition linspace1 (a b : R) (n : Z) : list R := if n =? 1 then [a] else linspace a b n.
(** np.sign *)
Definition rsign (v : R) : R := if Rlt_dec v 0 then (-1)%R else if Req_EM_T v 0 then 0%R else 1%R.
Definition anasing (count : Z -> Z) (n : Z) (t0 : option R) (h : R) : res (option (list C)) :=
  let t0 := match t0 with Some t => t | None => (IZR n / 2)%R end in
  if Rle_dec h 0 then
    if n =? 0 then Raise ZeroDivisionError
    else if count n <? 0 then Raise ValueError
    else
    let start := (1 / IZR n)%R in
    let f := linspace1 start (1 / 2 - start) (count n) in
    let v := map (fun a => RtoC (Rpower a (-1 - h)) * cis (- (2 * PI * a * (t0 - 1))))%C f in
    let m := Z.max 0 (n / 2 - 1) in
    v <- (if zlen v =? m then Ok v else match v with [w] => Ok (repeat w (Z.to_nat m)) | _ => Raise ValueError end) ;;
    let y := prefix (RtoC 0 :: v ++ repeat (RtoC 0) (Z.to_nat n)) n in
    let x := map Re (ifft y) in
    if Req_EM_T (rmaxl x) 0 then Ok None
    else
      let x := map (fun a => a / rmaxl x)%R x in
      let x := map (fun a => a - rsign (rminl x) * Rabs (rminl x))%R x in
      r <- hilbert x ;; Ok (Some r)
  else
    let x := map (fun k => rpow0 (Rabs (IZR k - t0)) h) (arange 0 n) in
    r <- hilbert (map (fun a => rmaxl x - a)%R x) ;; Ok (Some r).

(** ** noise.py *)
(** x.std() *)
Definition rstd (x : list R) : R :=
  let m := rmean x in sqrt (rmean (map (fun v => (v - m) ^ 2)%R x)).
(** Lines 32-34 / 71-72: the last n samples; [None]: zero standard deviation. *)
Definition noise_tail (n : Z) (x : list R) : res (option (list C)) :=
  z <- hilbert x ;;
  z <- take z (map (fun k => zlen x - k - 1) (map (fun k => n - 1 - k) (arange 0 n))) ;;
  Ok (if Req_EM_T (rstd x) 0 then None else Some (map (fun v => v / RtoC (rstd x) / RtoC (sqrt 2))%C z)).
Inductive noise := Row (z : option (list C)) | Column (z : list C).
(** Lines 27-35; r1, r2: the two draws of the short case. *)
Definition noisecu (rand : Z -> list R) (r1 r2 : list R) (n : Z) : res noise :=
  if n <=? 2 then
    if n <? 0 then Raise ValueError
    else Ok (Column (zipw (fun a b => ((a - 1 / 2) * sqrt 6, (b - 1 / 2) * sqrt 6)%R) r1 r2))
  else
    p <- nextpow2 (IZR n) ;;
    z <- noise_tail n (map (fun v => v - 1 / 2)%R (rand (2 ^ p))) ;; Ok (Row z).
(** Lines 66-73; randn(n, 1.) raises. *)
Definition noisecg (rand : Z -> list R) (n : Z) : res noise :=
  if n <=? 0 then Raise AssertionError
  else if n <=? 2 then Raise TypeError
  else p <- nextpow2 (IZR n) ;; z <- noise_tail n (rand (2 ^ p)) ;; Ok (Row z).

(** Lines 106-124; s_freq, distance and c non-zero.  The recursive filter
    fills y from index 2 on. *)
Fixpoint ar_filter (x law : list R) (x2 x1 y2 y1 : R) : list R :=
  match x, law with
  | v :: x', f :: law' =>
      let y := (v - 81 / 100 * (x2 + y2) + 2 * (9 / 10) * cos (2 * PI * f) * y1)%R in
      y :: ar_filter x' law' x1 v y1 y
  | _, _ => []
  end.
Definition slice {A} (l : list A) (a b : Z) : list A := firstn (Z.to_nat (b - a)) (skipn (Z.to_nat a) l).
Definition dopnoise (rand : Z -> list R) (n : Z) (sf ft dist v : R) (tc : option R) (c : R) : res (option (list C) * list R) :=
  let tc := match tc with Some t => t | None => IZR (Zfloor (IZR n / 2)) end in
  x <- draw rand (2 * n) ;;
  let tm := map (fun k => (IZR k - tc - IZR n) / sf)%R (arange 1 (2 * n + 1)) in
  let ds := map (fun t => sqrt (dist ^ 2 + (v * t) ^ 2)) tm in
  let law := map (fun t => (1 - v ^ 2 * t / sqrt (dist ^ 2 + (v * t) ^ 2) / c) * ft / sf)%R tm in
  let y := match x with
           | x0 :: x1 :: x' => 0%R :: 0%R :: ar_filter x' (skipn 2 law) x0 x1 0 0
           | _ => map (fun _ => 0%R) x
           end in
  z <- hilbert (slice y (n + 1) (2 * n + 1)) ;;
  w <- bcast (fun a d => a / RtoC (sqrt d))%C z (slice ds (n + 1) (2 * n + 1)) ;;
  let e := sqrt (rsum w (fun a => Cmod a ^ 2)%R) in
  Ok (if Req_EM_T e 0 then None else Some (map (fun a => a / RtoC e)%C w), slice law (n + 1) (2 * n + 1)).

(** ** utils.py *)
(** Lines 20-27 for 1-D arrays; [None]: x2 has no energy (0/0 or inf * 0). *)
Definition mean_energy (x : list C) : R := rmean (map (fun z => Cmod z ^ 2)%R x).
Definition merge_gain (x1 x2 : list C) (ratio : R) : R :=
  sqrt (mean_energy x1 / (mean_energy x2 * Rpower 10 (ratio / 10))).
Definition sigmerge (x1 x2 : list C) (ratio : R) : res (option (list C)) :=
  s <- bcast (fun a b => a + RtoC (merge_gain x1 x2 ratio) * b)%C x1 x2 ;;
  Ok (if Req_EM_T (mean_energy x2) 0 then None else Some s).

(** Lines 46-75 for a 1-D signal of T samples and Python numbers fmin, fmax:
    hilbert of nothing (46), division by fmin, by N - 1, or a negative power of
    0 (58), the two reshapes (61), and np.zeros with a float64 dimension
    (71-75, for scalar and for array a). *)
Definition scale_outcome (T N : Z) (fmin fmax : R) : res (list C) :=
  if T =? 0 then Raise ValueError
  else if Req_EM_T fmin 0 then Raise ZeroDivisionError
  else if N =? 1 then Raise ZeroDivisionError
  else if (if Req_EM_T fmax 0 then N <? 1 else false) then Raise ZeroDivisionError
  else if negb (T =? 128) then Raise ValueError
  else if negb (Z.max 0 N =? 128) then Raise ValueError
  else Raise TypeError.
