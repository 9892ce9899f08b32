(** Model of [wide_band], tftb/processing/ambiguity.py lines 23-97.

    Exact reals, one-dimensional signals, 0 < fmin and 0 < fmax when given.
    The matrix is a list of columns, one per delay.  [None] stands for arrays
    that contain NaN or infinities. *)
From Coq Require Import Reals ZArith List Lia Lra Bool.
From Coquelicot Require Import Coquelicot.
From Flocq Require Import Core.
From Verif Require Import Py Scalars CSum DFT M_base M_utils M_putils M_post M_gen1 M_gen2 M_aff.
Import ListNotations.
Local Open Scope Z_scope.

(** Lines 37-48: the "spectrum" STF is the shifted time signal. *)
Definition wb_band (z : list C) (fmin fmax : option R) : res (R * R) :=
  match fmin, fmax with
  | Some a, Some b => Ok (a, b)
  | _, _ =>
    let n := zlen z in
    let m := half_round n in
    let sp := prefix (map (fun v => Cmod v ^ 2)%R (fftshift z)) m in
    l <- loud sp ;;
    i0 <- zmin_list l ;;
    i1 <- zmax_list l ;;
    Ok (match fmin with Some a => a | None => Rmax (1 / 100) (5 / 100 * IZR (Ztrunc (band_freq n i0 / (5 / 100)))) end,
        match fmax with Some b => b | None => 5 / 100 * IZR (Zceil (band_freq n i1 / (5 / 100))) end)%R
  end.
(** Lines 49-54 ([_get_nvoices] of the affine class is the same code, with
    T = nx - 1).  Equal bounds: 2.0 / R raises when both are Python numbers
    (the computed bounds are numpy numbers, except the 0.01); otherwise nq is
    NaN and math.ceil refuses it. *)
Definition wb_python (fmin fmax : option R) (a : R) : bool :=
  match fmin, fmax with
  | _, None => false
  | Some _, Some _ => true
  | None, Some _ => if Req_EM_T a (1 / 100) then true else false
  end.
Definition wb_size (n : Z) (python : bool) (fmin fmax : R) (N : option Z) : res Z :=
  if Req_EM_T fmin fmax then
    if python then Raise ZeroDivisionError
    else match N with Some v => Ok v | None => Raise ValueError end
  else match N with Some v => Ok v | None => get_nvoices fmin fmax (Some (n - 1)) end.
(** Lines 30-31, 60-62: the kernel at delay t and frequency f, and the spectrum at f. *)
Definition wb_ker (t : Z) (f : R) : C := cis (- (2 * PI * (IZR t * f))).
Definition wb_spec (z : list C) (f : R) : C :=
  csum (arange 0 (zlen z)) (fun i => cnth z i * wb_ker (i - half_round (zlen z)) f)%C.
(** Lines 67-68, 71-78: one Mellin transform. *)
Definition wb_mellin (q : R) (N : Z) (v : list C) : list C :=
  fftshift (ifft (zipw Cmult (v ++ zeros N) (map (fun p => RtoC (exp (IZR p / 2 * ln q))) (arange 0 (2 * N))))).
(** Lines 63-64, 83-87: the column of delay t before normalisation; the
    transform of N points cuts the 2N rows. *)
Definition wb_col (q : R) (N : Z) (S : list C) (geo : list R) (t : Z) : list C :=
  let Sb := zipw (fun s f => s * wb_ker t f)%C S geo in
  let w := ifft (prefix (zipw (fun a b => a * Cconj b)%C (wb_mellin q N S) (wb_mellin q N Sb)) N) in
  let no2 := (N + N mod 2) / 2 in
  pyslice w no2 (N + 1) ++ prefix w no2.
(** Lines 89-95. *)
Definition wb_energy (z : list C) (fmin fmax : R) : res R := aff_mult z (zlen z) fmin fmax.
Definition wb_run (z : list C) (fmin fmax : R) (N : Z) : res (option (list (list C) * list Z * list R)) :=
  let n := zlen z in
  let m := half_round n in
  if N =? 1 then Raise ZeroDivisionError
  else if N <=? 0 then Raise ValueError
  else if Req_EM_T fmax 0 then Ok None
  else
    let q := geo_q fmin fmax N in
    let geo := geo_grid fmin fmax N in
    let S := map (wb_spec z) geo in
    let tau := map (fun i => i - m) (arange 0 n) in
    let waf := map (wb_col q N S geo) tau in
    let theta := map ln (logspace (log10 (fmin / fmax)) (log10 (fmax / fmin)) N) in
    E <- wb_energy z fmin fmax ;;
    col <- get waf (m - 1) ;;
    c <- get col ((N + N mod 2) / 2 - 1) ;;
    Ok (if Ceq_dec c (RtoC 0) then None
        else Some (map (map (fun v => v * (RtoC E / c / RtoC (IZR N)))%C) waf, tau, theta)).
Definition wide_band (x : list C) (fmin fmax : option R) (N : option Z) : res (option (list (list C) * list Z * list R)) :=
  z <- hilbert (map Re x) ;;
  fb <- wb_band z fmin fmax ;;
  let '(a, b) := fb in
  k <- wb_size (zlen z) (wb_python fmin fmax a) a b N ;;
  wb_run z a b k.
