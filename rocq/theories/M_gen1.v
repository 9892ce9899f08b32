(** Model of tftb/generators/amplitude_modulated.py and
    tftb/generators/frequency_modulated.py.

    [n_points] is an integer; centres, spreads and frequencies are exact reals
    ([Some v] = argument given, [None] = default).  Array entries that numpy
    makes NaN or infinite (division by zero) are [None].  Warnings are not
    modelled. *)
From Coq Require Import Reals ZArith List Lia Lra Bool.
From Coquelicot Require Import Coquelicot.
From Flocq Require Import Core.
From Verif Require Import Py Scalars CSum DFT M_base.
Import ListNotations.
Local Open Scope Z_scope.

(** Python 3 round(n / 2.0): half to even. *)
Definition half_round (n : Z) : Z := ZnearestE (IZR n / 2).

(** ** amplitude_modulated.py *)
(** Lines 27-34, 67-73, 100-106, 130-136: math.sqrt of a negative number
    raises before n_points is looked at. *)
Definition am_args (n : Z) (t0 spread : option R) : res (R * R) :=
  let t := match t0 with Some t => t | None => IZR (half_round n) end in
  s <- match spread with
       | Some s => Ok s
       | None => if n <? 0 then Raise ValueError else Ok (2 * sqrt (IZR n))%R
       end ;;
  if n <=? 0 then Raise TypeError else Ok (t, s).

(** Lines 36-38 (note arange(1, n_points + 1)).  With spread 0: 0/0 is NaN,
    exp(-inf) is 0. *)
Definition gauss_at (s d : R) : option R :=
  if Req_EM_T s 0 then if Req_EM_T d 0 then None else Some 0%R
  else Some (exp (- ((d / s) ^ 2) * PI)).
Definition amgauss (n : Z) (t0 spread : option R) : res (list (option R)) :=
  '(t, s) <- am_args n t0 spread ;;
  Ok (map (fun k => gauss_at s (IZR k - t)) (arange 1 (n + 1))).

(** Lines 75-80.  With spread 0: 0/0 is NaN, exp(-inf) is 0, inf * 0 is NaN. *)
Definition bilateral_at (s d : R) : option R :=
  if Req_EM_T s 0 then if Req_EM_T d 0 then None else Some 0%R
  else Some (exp (- sqrt (2 * PI) * Rabs d / s)).
Definition unilateral_at (s d : R) : option R :=
  if Req_EM_T s 0 then if Rlt_dec 0 d then Some 0%R else None
  else Some (exp (- sqrt PI * d / s) * (if Rle_dec 0 d then 1 else 0))%R.
Definition amexpos (n : Z) (t0 spread : option R) (bilateral : bool) : res (list (option R)) :=
  '(t, s) <- am_args n t0 spread ;;
  Ok (map (fun k => (if bilateral then bilateral_at else unilateral_at) s (IZR k - t)%R) (arange 0 n)).

(** Lines 108-110: a Boolean array. *)
Definition amrect (n : Z) (t0 spread : option R) : res (list bool) :=
  '(t, s) <- am_args n t0 spread ;;
  Ok (map (fun k => if Rle_dec (Rabs (IZR k - t)) (1 / 2 * s * sqrt (3 / PI)) then true else false) (arange 0 n)).

(** Lines 138-144. *)
Definition triang_at (s d : R) : option R :=
  let L := (sqrt (10 / PI) * s / 2)%R in
  if Req_EM_T L 0 then None else Some (Rmax (Rmin (L + d) (L - d)) 0 / L)%R.
Definition amtriang (n : Z) (t0 spread : option R) : res (list (option R)) :=
  '(t, s) <- am_args n t0 spread ;;
  Ok (map (fun k => triang_at s (IZR k - t)) (arange 0 n)).

(** ** frequency_modulated.py *)
(** Lines 25-37.  y / np.real(y[int(t0)]): [None] when that real part is 0. *)
Definition fmconst (n : Z) (f : R) (t0 : option R) : res (list (option C) * list R) :=
  let t := match t0 with Some t => t | None => IZR (half_round n) end in
  if n <=? 0 then Raise TypeError
  else if Rlt_dec (1 / 2) (Rabs f) then Raise TypeError
  else
    let y := map (fun k => cis (2 * PI * f * (IZR k - t))) (arange 0 n) in
    c <- get y (Ztrunc t) ;;
    Ok (map (fun z => if Req_EM_T (Re c) 0 then None else Some (z / RtoC (Re c))%C) y,
        map (fun _ => f) (arange 0 n)).

(** Lines 57-62, 70-72; p1 = (a1, b1), p2 = (a2, b2). *)
Definition hyp_coeffs (a1 b1 a2 b2 : R) : res (R * R) :=
  if Req_EM_T a2 0 then Raise ZeroDivisionError
  else if Req_EM_T a1 0 then Raise ZeroDivisionError
  else if Req_EM_T (1 / a2 - 1 / a1) 0 then Raise ZeroDivisionError
  else let c := ((b2 - b1) / (1 / a2 - 1 / a1))%R in Ok (c, b1 - c / a1)%R.
Definition fmhyp (n : Z) (a1 b1 a2 b2 : R) : res (list C * list R) :=
  '(c, f0) <- hyp_coeffs a1 b1 a2 b2 ;;
  let ts := arange 1 (n + 1) in
  Ok (map (fun t => cis (2 * PI * (f0 * IZR t + c * ln (Rabs (IZR t))))) ts,
      map (fun t => f0 + c / Rabs (IZR t))%R ts).

(** Lines 96-112.  The division by 2.0 * (n_points - 1) is between Python
    numbers and raises for one point; np.linspace(a, b, n), n >= 2. *)
Definition linspace (a b : R) (n : Z) : list R :=
  map (fun k => a + IZR k * ((b - a) / IZR (n - 1)))%R (arange 0 n).
Definition fmlin (n : Z) (fi ff : R) (t0 : option R) : res (list C * list R) :=
  let t := match t0 with Some t => t | None => IZR (half_round n) end in
  if n <=? 0 then Raise TypeError
  else if Rlt_dec (1 / 2) (Rabs fi) then Raise TypeError
  else if Rlt_dec (1 / 2) (Rabs ff) then Raise TypeError
  else if n =? 1 then Raise ZeroDivisionError
  else
    let y := map (fun k => fi * (IZR k - t) + (ff - fi) / (2 * IZR (n - 1)) * ((IZR k - 1) ^ 2 - (t - 1) ^ 2))%R (arange 1 (n + 1)) in
    let y := map (fun v => cis (2 * PI * v)) y in
    c <- get y (Ztrunc t - 1) ;;
    Ok (map (fun z => z / c)%C y, linspace fi ff n).

(** Lines 136-148.  [cols = None]: a 1-D law; [Some c]: a 2-D law with c
    columns and [zlen law] rows (only c = 1 gets past line 138). *)
Fixpoint cumsum (a : R) (l : list R) : list R :=
  match l with [] => [] | v :: l' => (a + v)%R :: cumsum (a + v) l' end.
Definition too_large (l : list R) : bool := existsb (fun v => if Rlt_dec (1 / 2) (Rabs v) then true else false) l.
Definition fmodany (cols : option Z) (law : list R) (t0 : Z) : res (list C) :=
  _ <- match cols with
       | Some c => if c =? 1 then Ok tt else Raise TypeError
       | None => if zlen law =? 0 then Raise ValueError
                 else if too_large law then Raise TypeError else Ok tt
       end ;;
  if (zlen law <? t0) || (t0 =? 0) then Raise TypeError
  else
    let y := map (fun v => cis (2 * PI * v)) (cumsum 0 law) in
    c <- get y t0 ;;
    Ok (map (fun z => z * Cconj c)%C y).

(** Lines 167-177. *)
Definition fmpar (n : Z) (a0 a1 a2 : R) : list C * list R :=
  let ts := map IZR (arange 0 n) in
  (map (fun t => cis (2 * PI * (a0 * t + (a1 / 2 * t) ^ 2 + (a2 / 3 * t) ^ 3))) ts,
   map (fun t => a0 + a1 * t + a2 * t ^ 2)%R ts).

(** Lines 199-216.  The degree is a Python int or a float.  numpy refuses
    non-empty integer arrays to negative integer powers.  [None]: 0 to a negative power.
    The points p1[0], p2[0] are taken to be positive (a negative base with a
    fractional power is complex in Python). *)
Inductive degree := DInt (k : Z) | DFloat (k : R).
Definition dval (k : degree) : R := match k with DInt k => IZR k | DFloat k => k end.
Definition pow_coeffs (k : R) (cs : list R) : res (R * R) :=
  match cs with
  | [] | [_] => Raise UnboundLocalError
  | [f0; c] => Ok (f0, c)
  | [_; _; _] => Raise IndexError
  | a1 :: b1 :: a2 :: b2 :: _ =>
      let den := (1 / Rpower a2 k - 1 / Rpower a1 k)%R in
      if Req_EM_T den 0 then Raise ZeroDivisionError
      else let c := ((b2 - b1) / den)%R in Ok (b1 - c / Rpower a1 k, c)%R
  end.
(** np.abs(t) ** e for an integer sample t >= 0. *)
Definition npow (t : Z) (e : R) : option R :=
  if t =? 0 then if Req_EM_T e 0 then Some 1%R else if Rlt_dec 0 e then Some 0%R else None
  else Some (Rpower (IZR t) e).
Definition fmpower (n : Z) (k : degree) (cs : list R) : res (list (option C) * list (option R)) :=
  '(f0, c) <- pow_coeffs (dval k) cs ;;
  if Req_EM_T (dval k) 1 then Raise ZeroDivisionError
  else if match k with DInt k => (1 <? k) && (0 <? n) | DFloat _ => false end then Raise ValueError
  else
    let kr := dval k in
    let ts := arange 0 n in
    Ok (map (fun t => option_map (fun p => cis (2 * PI * (f0 * IZR t + c / (1 - kr) * p))) (npow t (1 - kr))) ts,
        map (fun t => option_map (fun p => f0 + c * p)%R (npow t (- kr))) ts).

(** Lines 245-260.  np.arccos outside [-1, 1] is NaN; division by a zero
    period is inf or NaN: every entry is then NaN ([None]).  No points give
    two empty arrays whatever the parameters. *)
Definition fmsin (n : Z) (fmin fmax : R) (period t0 f0 : option R) (pm1 : R) : res (option (list C * list R)) :=
  let period := match period with Some p => p | None => IZR n end in
  let t0 := match t0 with Some t => t | None => (IZR n / 2)%R end in
  let f0 := match f0 with Some f => f | None => (1 / 2 * (fmin + fmax))%R end in
  let mid := (1 / 2 * (fmax + fmin))%R in
  let delta := (1 / 2 * (fmax - fmin))%R in
  if Req_EM_T delta 0 then Raise ZeroDivisionError
  else if n <=? 0 then Ok (Some ([], []))
  else
    let u := ((f0 - mid) / delta)%R in
    if Rlt_dec 1 (Rabs u) then Ok None
    else if Req_EM_T period 0 then Ok None
    else
      let phi := (- pm1 * acos u)%R in
      let ts := map (fun k => IZR k - t0)%R (arange 0 n) in
      Ok (Some (map (fun t => cis (2 * PI * mid * t + delta * period * sin (2 * PI * t / period + phi) - sin phi)) ts,
                map (fun t => mid + delta * cos (2 * PI * t / period + phi))%R ts)).
