(** Model of [smoothed_pseudo_wigner], tftb/processing/affine.py lines 488-652.

    One-dimensional signals, integer timestamps, 0 < fmin < fmax when both are
    given, nh0 > 0, n_voices >= 1.  Python integers and floats are kept apart
    where the code needs an index: [Int] and [Flt].  Exact reals.
    [None] stands for an array of NaN. *)
From Coq Require Import Reals ZArith List Lia Lra Bool.
From Coquelicot Require Import Coquelicot.
From Flocq Require Import Core.
From Verif Require Import Py Scalars CSum DFT M_base P_base M_utils M_putils M_post M_gen1 M_gen2 M_gen3 M_aff.
Import ListNotations.
Local Open Scope Z_scope.

Inductive num := Int (z : Z) | Flt (r : R).
Definition num_val (v : num) : R := match v with Int z => IZR z | Flt r => r end.

(** Lines 531-550, a bound is missing: np.linspace is given the float
    np.round(nstf / 2) + 1 for a number of points.  Before that the maximum of
    an empty array, and fft of one, raise ValueError. *)
Definition spw_band (x : list C) (ts : list Z) : res (R * R) :=
  lo <- zmin_list ts ;; hi <- zmax_list ts ;;
  let seg := pyslice (map Re x) lo (hi + 1) in
  if zlen seg =? 0 then Raise ValueError else
  _ <- rmax_list (half_power seg) ;;
  Raise TypeError.
(** Lines 557-562: mu, an integer when nh0 is one and m0 is 0. *)
Definition spw_mu (nh0 : num) (fmax umax : R) : num :=
  let h := num_val nh0 in
  let teq := (h / (fmax * umax))%R in
  if Rlt_dec (2 * h) teq then Flt (IZR (ZnearestE (h + (2 * h ^ 2 / teq - h + 1))))%R
  else match nh0 with Int z => Int z | Flt r => Flt (IZR (ZnearestE r)) end.
(** Lines 563, 565-569, as in [get_nvoices]. *)
Definition spw_voices (mu : num) (fmin fmax : R) (nv : option Z) : res Z :=
  match nv with Some v => Ok v | None => get_nvoices fmin fmax (Some (2 * Zfloor (num_val mu) - 1)) end.
(** Lines 598-600: the entries of u for an integer mu. *)
Definition spw_u (umax : R) (mu j : Z) : R := if j =? mu then 0%R else (- umax + IZR j * ((umax - - umax) / IZR (2 * mu)))%R.
(** Lines 601-606: l1 and l2 are one array, the second assignment stays.  A
    NaN of [lambdak] spreads to everything. *)
Definition spw_l (K : lamk) (q umax : R) (nv mu j p : Z) : option C :=
  match lambdak (- spw_u umax mu j) K with
  | None => None
  | Some v => Some (cis (- (2 * PI * aff_beta q nv p * ln v)))
  end.
(** Lines 609-615. *)
Definition spw_G (ng0 fmax umax : R) (mu r : Z) : R :=
  if Req_EM_T ng0 0 then 1%R
  else
    let sigma := (ng0 * fmax / sqrt (2 * 3 * ln 10))%R in
    let au := (2 * PI ^ 2 * sigma ^ 2 * umax ^ 2 / ln 10)%R in
    exp (- (au * ln 10 / IZR mu ^ 2) * IZR (r - mu) ^ 2)%R.
(** Lines 591-595: a column of matxte. *)
Definition spw_S (wt : list (list C)) (q : R) (nv i : Z) : list C :=
  map (fun v => cnth (nth (Z.to_nat v) wt []) i * RtoC (sqrt (exp (IZR (nv - v - 1) * ln q))))%C (arange 0 nv) ++ zeros nv.
(** Lines 622-637: np.sum(waf); [l] is the common l1, l2.  The transform runs
    along the first axis, G multiplies rows of the transpose. *)
Definition spw_tx (l : Z -> Z -> C) (mel : list C) (nv mu : Z) : list (list C) :=
  map (fun p => prefix (fft (map (fun m => l m p * cnth mel p)%C (arange 0 (2 * mu)))) nv) (arange 0 (2 * nv)).
Definition spw_sum (l : Z -> Z -> C) (G : Z -> R) (S : list C) (nv mu : Z) : R :=
  let tx := spw_tx l (mellin S) nv mu in
  rsum (arange 0 (2 * nv)) (fun p => let row := nth (Z.to_nat p) tx [] in
    rsum (zipw (fun a b => a * Cconj b)%C row row) (fun z => Re z * G p))%R.
(** Lines 617, 638. *)
Definition spw_rows (E : Z -> R) (n : Z) (geo : list R) : list (list R) := map (fun f => map (fun i => E i * f)%R (arange 0 n)) geo.
(** Lines 643-650. *)
Definition spw_normal (x : list C) (fmin fmax : R) (rows : list (list R)) (ts : list Z) (geo : list R) (nv : Z) : res (option (list (list R))) :=
  z <- hilbert (map Re x) ;;
  let xx := scal_mult z (zlen x) fmin fmax in
  i <- integrate_2d rows (zlen ts) (Some (map IZR ts)) (Some geo) ;;
  if Req_EM_T i 0 then Ok None else Ok (Some (map (map (fun v => v * xx / i / IZR nv)%R) rows)).
Definition spw (x : list C) (ts : option (list Z)) (K : lamk) (nh0 : option num) (ng0 : R) (fmin fmax : option R) (nv : option Z)
    : res (option (list (list R)) * list Z * list R) :=
  let N := zlen x in
  let ts := match ts with Some t => t | None => arange 0 N end in
  let nh0 := match nh0 with Some h => h | None => Flt (sqrt (IZR N)) end in
  fb <- match fmin, fmax with Some a, Some b => Ok (a, b) | _, _ => spw_band x ts end ;;
  let '(fmin, fmax) := fb in
  let umax := ln (fmax / fmin) in
  let mu := spw_mu nh0 fmax umax in
  nv <- spw_voices mu fmin fmax nv ;;
  if nv =? 1 then Raise ZeroDivisionError else
  let q := geo_q fmin fmax nv in
  let geo := geo_grid fmin fmax nv in
  r <- scalogram (map (fun v => RtoC (Re v)) x) (Some ts) (Some fmin) (Some fmax) (Some nv) (Some (Wnum (num_val nh0))) ;;
  let wt := snd r in
  (* line 594: rows of N entries into rows of len(ts) entries *)
  if negb (N =? 1) && negb (zlen ts =? N) then Raise ValueError else
  match mu with
  | Flt _ => Raise TypeError
  | Int mu =>
    (* lines 633-636: (2 nv) x nv against (2 mu) x nv *)
    if negb (mu =? nv) then Raise ValueError else
    (* the row of u = 0 *)
    match spw_l K q umax nv mu mu 0 with
    | None => Ok (None, ts, geo)
    | Some _ =>
      let l := fun m p => match spw_l K q umax nv mu m p with Some v => v | None => RtoC 0 end in
      let rows := spw_rows (fun i => spw_sum l (spw_G ng0 fmax umax mu) (spw_S wt q nv i) nv mu) (zlen ts) geo in
      m <- spw_normal x fmin fmax rows ts geo nv ;;
      Ok (m, ts, geo)
    end
  end.
