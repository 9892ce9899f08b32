(** Model of tftb/generators/misc.py.  Exact real arithmetic; [None] marks
    arrays that numpy fills with NaN because of a division by zero. *)
From Coq Require Import Reals ZArith List Lia Lra Bool.
From Coquelicot Require Import Coquelicot.
From Flocq Require Import Core.
From Verif Require Import Py Scalars CSum DFT M_base M_utils M_putils M_dom M_gen1 M_gen2.
Import ListNotations.
Local Open Scope Z_scope.

(** x / np.linalg.norm(x) *)
Definition rnorm (x : list R) : R := sqrt (rsum x (fun v => v ^ 2)%R).
Definition cnorm (x : list C) : R := sqrt (rsum x (fun z => Cmod z ^ 2)%R).
Definition unit_norm (x : list R) : option (list R) :=
  if Req_EM_T (rnorm x) 0 then None else Some (map (fun v => v / rnorm x)%R x).

(** ** altes, lines 27-38; 0 < fmin, 0 < fmax, fmin <> fmax, 0 < alpha <> 1,
    n_points >= 1. *)
Definition altes (n : Z) (fmin fmax alpha : R) : option (list R) :=
  let g := exp ((ln (fmax / fmin)) ^ 2 / (8 * ln alpha)) in
  let nu0 := sqrt (fmin * fmax) in
  let beta := sqrt (2 * ln g * ln alpha) in
  let t0 := (IZR n / (exp beta - exp (- beta)))%R in
  let t1 := (t0 * exp (- beta))%R in
  let t2 := (t0 * exp beta)%R in
  let b := (- t0 * nu0 * g * ln g)%R in
  let t := prefix (linspace t1 t2 (n + 1)) n in
  unit_norm (map (fun t => exp (- (ln (t / t0) ^ 2) / (2 * ln g)) * cos (2 * PI * b * ln (t / t0) / ln g))%R t).

(** ** atoms, lines 58-68.  [coordinates]: the rows of a 2-D array with four
    columns.  round of a numpy float: half to even. *)
Definition omulc (a : option R) (z : option C) : option C :=
  match a, z with Some a, Some z => Some (RtoC a * z)%C | _, _ => None end.
Definition oaddc (a b : option C) : option C := match a, b with Some a, Some b => Some (a + b)%C | _, _ => None end.
Record atom := { a_t : R; a_f : R; a_T : R; a_A : R }.
Definition atom_centre (n : Z) (t : R) : Z := ZnearestE (Rmax (Rmin t (IZR n)) 1).
Definition atom_freq (f : R) : R := Rmax (Rmin f (1 / 2)) 0.
Definition atom_sig (n : Z) (a : atom) : res (list (option C)) :=
  let t0 := IZR (atom_centre n (a_t a)) in
  am <- amgauss n (Some t0) (Some (a_T a)) ;;
  '(fm, _) <- fmconst n (atom_freq (a_f a)) (Some t0) ;;
  bcast omulc (map (option_map (fun v => a_A a * v)%R) am) fm.
Definition atoms (n : Z) (coords : list atom) : res (list (option C)) :=
  if n <? 0 then Raise ValueError
  else
    fold_left (fun acc a => s <- acc ;; v <- atom_sig n a ;; bcast oaddc s v) coords
              (Ok (repeat (Some (RtoC 0)) (Z.to_nat n))).
(** 1-D coordinates become one column: coordinates[k, 1] raises. *)
Definition atoms_1d (n : Z) (coords : list R) : res (list (option C)) :=
  if n <? 0 then Raise ValueError
  else match coords with [] => Ok (repeat (Some (RtoC 0)) (Z.to_nat n)) | _ => Raise IndexError end.

(** ** doppler, lines 98-120; s_freq and v_wave non-zero.  The amplitude is
    the scalar 0 ([None]) when f0 is below np.spacing(1) = 2^-52. *)
Definition doppler (n : Z) (sf f0 dist v : R) (t0 : option R) (c : R) : res (list C * option (list R) * list R) :=
  let t0 := match t0 with Some t => t | None => (IZR n / 2)%R end in
  if Rle_dec dist 0 then Raise TypeError
  else if Rlt_dec sf 0 then Raise TypeError
  else if Rlt_dec t0 1 then Raise TypeError
  else if Rlt_dec (IZR n) t0 then Raise TypeError
  else if Rlt_dec f0 0 then Raise TypeError
  else if Rlt_dec (sf / 2) f0 then Raise TypeError
  else if Rlt_dec v 0 then Raise TypeError
  else
    let tm := map (fun k => (IZR k - t0) / sf)%R (arange 1 (n + 1)) in
    let ds := map (fun t => sqrt (dist ^ 2 + (v * t) ^ 2)) tm in
    let fm := zipw (fun t d => cis (2 * PI * f0 * (t - d / c))) tm ds in
    let am := if Rlt_dec (Rabs f0) (bpow radix2 (-52)) then None else Some (map (fun d => 1 / sqrt d)%R ds) in
    let law := zipw (fun t d => (1 - v ^ 2 * t / d / c) * f0 / sf)%R tm ds in
    Ok (fm, am, law).

(** ** klauder, lines 141-153.  wave[0] is overwritten, so 0 ** p does not
    matter. *)
Definition klauder_mod (att f0 f : R) : R := (exp (- 2 * PI * att * f) * Rpower f (2 * PI * att * f0 - 1 / 2))%R.
Definition klauder (n : Z) (att f0 : R) : res (option (list R)) :=
  if n <=? 0 then Raise AssertionError
  else if (if Rlt_dec f0 (1 / 2) then if Rlt_dec 0 f0 then true else false else false) then
    let f := linspace1 0 (1 / 2) (n / 2 + 1) in
    let wave := 0%R :: skipn 1 (map (klauder_mod att f0) f) in
    let a := prefix wave (n / 2) in
    let b := rev (slice wave 1 (n / 2 + 1)) in
    let wave := a ++ b in
    if zlen wave =? 0 then Raise ValueError
    else
      let w := fftshift (ifft (map RtoC wave)) in
      Ok (if Req_EM_T (cnorm w) 0 then None else Some (map (fun z => Re z / cnorm w)%R w))
  else Raise AssertionError.

(** ** mexhat, lines 169-175 *)
Definition mexhat (nu : R) : res (list R) :=
  if Rlt_dec (1 / 2) nu then Raise AssertionError
  else if Rlt_dec nu 0 then Raise AssertionError
  else if Req_EM_T nu 0 then Raise ZeroDivisionError
  else
    let alpha := (PI ^ 2 * nu ^ 2)%R in
    let n := Zceil (3 / 2 / nu) in
    Ok (map (fun t => nu * sqrt PI / 2 * exp (- alpha * IZR t ^ 2) * (1 - 2 * alpha * IZR t ^ 2))%R (arange (- n) (n + 1))).

(** ** gdpower, lines 191-237.  The branch of lines 225-228 is
    reached only for a NaN degree.  For degree 1: np.ones with a float
    dimension raises, after anapulse.  nu > 0, so ** is Rpower.  Without points:
    np.linspace with a negative count (195), np.zeros with a negative dimension (202),
    0.0 to a negative power (205), hilbert and np.fft.ifft of nothing. *)
Definition gd_bins (n : Z) : list R := skipn 1 (linspace 0 (1 / 2) (cdiv n 2 + 1)).
Definition gd_coeff (n : Z) (degree rate : R) : R :=
  if Req_EM_T degree 0 then rate
  else if Rlt_dec degree 1 then Rpower (IZR n) (degree * rate)
  else (IZR n * Rpower 2 (degree - 1) * rate)%R.
Definition gd_t0 (n : Z) (degree : R) : R := if Rlt_dec degree 1 then (IZR n / 10)%R else 0%R.
Definition gd_phase (n : Z) (degree rate nu : R) : R :=
  let d := gd_coeff n degree rate in
  if Req_EM_T degree 0 then (gd_t0 n degree * nu + d * ln nu)%R
  else (gd_t0 n degree * nu + d * Rpower nu degree / degree)%R.
Definition cmean (x : list C) : C := (csum x (fun z => z) / RtoC (IZR (zlen x)))%C.
Definition gdpower (n : Z) (degree rate : R) : res (option (list C) * list R * list R) :=
  let nu := gd_bins n in
  if cdiv n 2 + 1 <? 0 then Raise ValueError
  else if Req_EM_T rate 0 then Raise TypeError
  else if n <? 0 then Raise ValueError
  else if Req_EM_T degree 1 then (_ <- anapulse n (Some (IZR n)) ;; Raise TypeError)
  else if n =? 0 then
    if Req_EM_T degree 0 then Raise ValueError
    else if Rlt_dec degree 1 then if Rlt_dec (degree * rate) 0 then Raise ZeroDivisionError else Raise ValueError
    else Raise ValueError
  else
    let head := map (fun v => cis (- (2 * PI * gd_phase n degree rate v)) * RtoC (Rpower v ((degree - 2) / 6)))%C nu in
    let x := ifft (prefix (head ++ repeat (RtoC 0) (Z.to_nat n)) n) in
    let gpd := map (fun v => gd_t0 n degree + Rabs (rsign rate - 1) / 2 * (IZR n + 1) + gd_coeff n degree rate * Rpower v (degree - 1))%R nu in
    let x := map (fun z => z - cmean x)%C x in
    Ok (if Req_EM_T (cnorm x) 0 then None else Some (map (fun z => z / RtoC (cnorm x))%C x), gpd, nu).
