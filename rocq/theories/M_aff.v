(** Model of tftb/processing/affine.py.

    Numbers are exact reals.  One-dimensional signals; the two-column ("cross")
    input is [affine_2d].  Timestamps are integers.  0 < fmin and 0 < fmax when
    they are given (the defaults are positive or zero, see [default_fmax]).
    The constructors are modelled for fmin < fmax; with equal bounds the
    division by a zero umax raises or gives inf depending on the number types,
    and nothing is claimed about it.
    The root finders [newton] and [brenth] return the exact root; [newton]
    failing to converge is not modelled.  [splrep]/[splev] is an argument.
    An option [None] stands for an array of NaN or infinities. *)
From Coq Require Import Reals ZArith List Lia Lra Bool.
From Coquelicot Require Import Coquelicot.
From Flocq Require Import Core.
From Verif Require Import Py Scalars CSum DFT M_base P_base M_utils M_putils M_post M_gen1 M_gen2 M_gen3.
Import ListNotations.
Local Open Scope Z_scope.

(** Python slice [l[a:b]]. *)
Definition pyclip (n i : Z) : Z := if i <? 0 then Z.max 0 (i + n) else Z.min i n.
Definition pyslice {A} (l : list A) (a b : Z) : list A := slice l (pyclip (zlen l) a) (pyclip (zlen l) b).
Definition zmin_list (l : list Z) : res Z := match l with [] => Raise ValueError | a :: l => Ok (fold_left Z.min l a) end.
Definition zmax_list (l : list Z) : res Z := match l with [] => Raise ValueError | a :: l => Ok (fold_left Z.max l a) end.

(** ** AffineDistribution.__init__, lines 27-61 *)
(** Lines 39-49, the same for both columns. *)
Definition half_power (seg : list R) : list R :=
  prefix (map (fun z => Cmod z ^ 2)%R (fft (fftshift (map RtoC seg)))) (half_round (zlen seg)).
(** Lines 52-53, 56-57: indices above one hundredth of the maximum. *)
Definition loud (sp : list R) : res (list Z) :=
  mx <- rmax_list sp ;;
  Ok (filter (fun k => if Rlt_dec (mx / 100) (rnth sp k) then true else false) (arange 0 (zlen sp))).
(** Line 50: f[k]. *)
Definition band_freq (nstf k : Z) : R := (IZR k * (1 / 2 / IZR (half_round nstf)))%R.
Definition default_fmin (nstf : Z) (sp : list R) : res R :=
  l <- loud sp ;; i <- zmin_list l ;;
  Ok (Rmax (1 / 100) (5 / 100 * IZR (Zfloor (band_freq nstf i / (5 / 100)))))%R.
Definition default_fmax (nstf : Z) (sp : list R) : res R :=
  l <- loud sp ;; i <- zmax_list l ;;
  Ok (5 / 100 * IZR (Zceil (band_freq nstf i / (5 / 100))))%R.
Definition affine_band (x : list C) (ts : list Z) (fmin fmax : option R) : res (R * R) :=
  match fmin, fmax with
  | Some a, Some b => Ok (a, b)
  | _, _ =>
    lo <- zmin_list ts ;; hi <- zmax_list ts ;;
    let seg := pyslice (map Re x) lo (hi + 1) in
    (* np.fft.fft of an empty array raises; so does max() of an empty one *)
    if zlen seg =? 0 then Raise ValueError else
    let sp := half_power seg in
    _ <- rmax_list sp ;;
    a <- match fmin with Some a => Ok a | None => default_fmin (zlen seg) sp end ;;
    b <- match fmax with Some b => Ok b | None => default_fmax (zlen seg) sp end ;;
    Ok (a, b)
  end.
(** Lines 29-31: the base class has flattened the array, [self.signal[:, 0]]. *)
Definition affine_2d : res unit := Raise IndexError.

(** ** umaxdfla_solve, lines 655-658.  np.roots drops leading zero
    coefficients; the discriminant of the quadratic is r, and r > 0. *)
Definition umaxdfla (r : R) : R :=
  if Req_EM_T r 1 then 0%R
  else
    let a := ((1 - r) / 16)%R in let b := ((1 + r) / 2)%R in let c := (1 - r)%R in
    let d := sqrt (b ^ 2 - 4 * a * c) in
    Rmin (Rabs ((- b + d) / (2 * a))) (Rabs ((- b - d) / (2 * a))).

(** ** The three constructors: lines 258-282, 347-362, 404-422 *)
Inductive afk := Bert | Dfl | Unt.
(** Lines 264-268, 351, 408-409: the root finders.  [brenth] needs a sign
    change on [0, 4]. *)
Definition umax_of (k : afk) (r : R) : res R :=
  match k with
  | Unt => Ok (sqrt r - / sqrt r)%R
  | Dfl => Ok (umaxdfla r)
  | Bert => if Rlt_dec r 1 then Raise ValueError else if Rlt_dec (exp 4) r then Raise ValueError else Ok (ln r)
  end.
Definition half_len (N : Z) : Z := (N + N mod 2) / 2.
(** Lines 269-278, 352-358, 410-418: m1, and T where it is set.  A zero
    umax divides by zero. *)
Definition aff_size (k : afk) (N : Z) (fmax umax : R) : res (Z * option Z) :=
  let m := half_len N in
  if Req_EM_T (fmax * umax) 0 then Raise ZeroDivisionError
  else
    let teq := (IZR m / (fmax * umax))%R in
    let bound := match k with Bert => N | _ => 2 * m end in
    if Rlt_dec teq (IZR bound) then
      let m0 := ZnearestE (2 * IZR m ^ 2 / teq - IZR m) + 1 in
      Ok (m + m0, Some (2 * (m + m0) - 1))
    else Ok (m, None).
(** _get_nvoices, lines 63-73; [T] may be unset. *)
Definition get_nvoices (fmin fmax : R) (T : option Z) : res Z :=
  match T with
  | None => Raise AttributeError
  | Some T =>
    let bw := (fmax - fmin)%R in
    let Rr := (bw / (fmin + fmax) * 2)%R in
    let q := (bw * IZR T * (1 + 2 / Rr) * ln ((1 + Rr / 2) / (1 - Rr / 2)))%R in
    let nq := Zceil (q / 2) in
    let nmin := nq - nq mod 2 in
    e <- nextpow2 (IZR nmin) ;;
    Ok (2 ^ e)
  end.
Record aff := mkaff { a_kind : afk; a_sig : list C; a_ts : list Z; a_fmin : R; a_fmax : R; a_umax : R; a_m1 : Z; a_nv : Z }.
Definition aff_new (k : afk) (x : list C) (ts : option (list Z)) (fmin fmax : option R) (nv : option Z) : res aff :=
  let ts := match ts with Some t => t | None => arange 0 (zlen x) end in
  fb <- affine_band x ts fmin fmax ;;
  let '(fmin, fmax) := fb in
  umax <- umax_of k (fmax / fmin) ;;
  mt <- aff_size k (zlen x) fmax umax ;;
  let '(m1, T) := mt in
  nv <- match nv with Some v => Ok v | None => get_nvoices fmin fmax T end ;;
  Ok (mkaff k x ts fmin fmax umax m1 nv).

(** ** _geometric_sample, lines 84-95 *)
Definition geo_q (fmin fmax : R) (nv : Z) : R := Rpower (fmax / fmin) (1 / IZR (nv - 1)).
Definition geo_grid (fmin fmax : R) (nv : Z) : list R :=
  map (fun k => fmin * exp (IZR k * ln (geo_q fmin fmax nv)))%R (arange 0 nv).
Definition geo_sample (s : list R) (geo : list R) : list C :=
  map (fun f => csum (arange 0 (zlen s)) (fun i => RtoC (rnth s i) * cis (- (2 * PI * (IZR (i - half_len (zlen s)) * f))))%C) geo
  ++ zeros (zlen geo).

(** ** _mellin_transform, lines 97-107 *)
Definition mellin (S : list C) : list C := fftshift (ifft S).
Definition aff_beta (q : R) (nv p : Z) : R := ((IZR p / IZR nv - 1) / (2 * ln q))%R.
(** Lines 101-105; u[m1] is set to 0. *)
Definition aff_u (umax : R) (m1 j : Z) : R :=
  if j =? m1 then 0%R
  else let du := (Rabs (umax - - umax) / (2 * IZR m1))%R in (- umax + IZR j * ((umax - du - - umax) / IZR (2 * m1 - 1)))%R.

(** ** The dilations, lines 290-296, 369-383, 429-455: the logarithm of the
    dilation applied to the first ([s] = -1) or second ([s] = 1) signal, and
    the real part of the exponent's coefficient. *)
Definition aff_log (k : afk) (s u : R) : R :=
  match k with
  | Unt => ln (sqrt (1 + (u / 2) ^ 2) + s * (u / 2))
  | Dfl => 2 * ln (1 + s * (u / 4))
  | Bert => ln (u / 2 * exp (s * (u / 2)) / sinh (u / 2))
  end%R.
Definition aff_half (k : afk) : R := match k with Bert => (1 / 2)%R | _ => (- (1 / 2))%R end.
Definition aff_dilate (k : afk) (q : R) (nv : Z) (L : R) (mel : list C) : list C :=
  prefix (fft (fftshift (map (fun p => RtoC (exp (aff_half k * L)) * cis (- (2 * PI * aff_beta q nv p * L)) * cnth mel p)%C (arange 0 (2 * nv))))) nv.
(** One row of [waf]; for Bertrand row m1 is set separately (line 457). *)
Definition aff_row (k : afk) (q umax : R) (nv m1 : Z) (S : list C) (j : Z) : list C :=
  let u := aff_u umax m1 j in
  let mel := mellin S in
  match k, j =? m1 with
  | Bert, true => zipw (fun a b => a * Cconj b)%C (prefix S nv) (prefix S nv)
  | _, _ => zipw (fun a b => a * Cconj b)%C (aff_dilate k q nv (aff_log k (-1) u) mel) (aff_dilate k q nv (aff_log k 1 u) mel)
  end.
(** Lines 300-310 (and 385-395, 458-468): row [i] of tffr. *)
Definition aff_col (k : afk) (q umax : R) (nv m1 : Z) (S : list C) (geo : list R) (i : Z) : list C :=
  map (fun j => cnth (aff_row k q umax nv m1 S j) i * RtoC (rnth geo i))%C (arange 0 (2 * m1)).
Definition aff_tffr (k : afk) (q umax : R) (nv m1 : Z) (S : list C) (geo : list R) : list (list R) :=
  map (fun i => map Re (rev (fftshift (ifft (fftshift (aff_col k q umax nv m1 S geo i)))))) (arange 0 nv).

(** ** Conversion by interpolation, lines 311-328 and 120-137.  [spl] is
    splev(., splrep(x, y)); splrep wants at least four points. *)
Definition aff_interp (spl : list R -> list R -> list R -> list R) (shift : R) (geo : list R) (ts : list Z) (N nv m1 : Z) (tffr : list (list R))
    : res (list (list R)) :=
  let ts2 := (IZR (N - 1) / 2)%R in
  last <- get geo (nv - 1) ;;
  let gamma := linspace (- last * ts2) (last * ts2) (2 * m1) in
  mapM (fun i =>
    let f := rnth geo i in
    let ind := filter (fun j => (if Rle_dec (- f * ts2) (rnth gamma j) then true else false) && (if Rle_dec (rnth gamma j) (f * ts2) then true else false)) (arange 0 (zlen gamma)) in
    if zlen ind <=? 3 then Raise TypeError
    else Ok (spl (map (rnth gamma) ind) (map (rnth (nth (Z.to_nat i) tffr [])) ind) (map (fun t => (IZR t - ts2 - shift) * f)%R ts)))
    (arange 0 nv).

(** ** _normalize, lines 75-82, and lines 329-340, 138-148 *)
Definition aff_mult (x : list C) (nts : Z) (fmin fmax : R) : res R :=
  z <- hilbert (map Re x) ;;
  let indmin := 1 + ZnearestE (fmin * IZR (nts - 2)) in
  let indmax := 1 + ZnearestE (fmax * IZR (nts - 2)) in
  Ok (rsum (pyslice (fft z) (indmin - 1) indmax) (fun v => Cmod v ^ 2)%R).
Definition scale_rows (c : R) (rows : list (list R)) : list (list R) := map (map (fun v => v * c)%R) rows.
Definition aff_normal (mult : R) (rows : list (list R)) (ts : list Z) (f : list R) (nv : Z) : res (option (list (list R))) :=
  i <- integrate_2d rows (zlen ts) (Some (map IZR ts)) (Some f) ;;
  if Req_EM_T i 0 then Ok None
  else Ok (Some (map (map (fun v => v * mult / i / IZR nv)%R) rows)).

(** ** run, lines 284-340, 364-397, 424-470.  [form] is form == "A" and is
    used by the Unterberger distribution only: the other forms read u[2*m1]. *)
Definition aff_run (spl : list R -> list R -> list R -> list R) (form : bool) (o : aff) : res (option (list (list R)) * list Z * list R) :=
  let nv := a_nv o in let k := a_kind o in
  if nv =? 1 then Raise ZeroDivisionError
  else if nv <=? 0 then Raise ValueError
  else
    let s := map Re (a_sig o) in
    let geo := geo_grid (a_fmin o) (a_fmax o) nv in
    let S := geo_sample s geo in
    if match k with Unt => negb form | _ => false end then Raise IndexError
    else
      let tffr := aff_tffr k (geo_q (a_fmin o) (a_fmax o) nv) (a_umax o) nv (a_m1 o) S geo in
      rows <- aff_interp spl (match k with Unt => 1 | _ => 0 end)%R geo (a_ts o) (zlen s) nv (a_m1 o) tffr ;;
      mult <- aff_mult (a_sig o) (zlen (a_ts o)) (a_fmin o) (a_fmax o) ;;
      r <- aff_normal mult rows (a_ts o) geo nv ;;
      Ok (r, a_ts o, geo).

(** ** Scalogram, lines 154-251 *)
(** np.convolve(z, h), full. *)
Definition convolve (z h : list C) : list C :=
  map (fun i => csum (arange 0 (zlen z)) (fun s => cnth z s * (if (0 <=? i - s) && (i - s <? zlen h) then cnth h (i - s) else RtoC 0))%C)
    (arange 0 (zlen z + zlen h - 1)).
Definition log10 (v : R) : R := (ln v / ln 10)%R.
Definition logspace (a b : R) (n : Z) : list R := map (Rpower 10) (linspace1 a b n).
(** Lines 171-172. *)
Definition scal_z (x : list C) : res (list C) :=
  let s := map Re x in
  let mean := (rsum s (fun v => v) / IZR (zlen s))%R in
  hilbert (map (fun v => v - mean)%R s).
(** Lines 183-187. *)
Definition morlet (nha f : R) : list C :=
  map (fun t => RtoC (exp (- (2 * ln 10 / nha ^ 2) * IZR t ^ 2)) * cis (2 * PI * f * IZR t))%C (arange (- ZnearestE nha) (ZnearestE nha + 1)).
Definition sq_row (d : list C) : list R := map (fun v => Re (v * Cconj v)%C) d.
(** Lines 183-196: a row of wt and a row of the matrix. *)
Definition morlet_row (z : list C) (ts : list Z) (wp f a : R) : res (list C * list R) :=
  let nha := (wp * a)%R in
  let k := ZnearestE nha in
  let detail := map (fun v => v / RtoC (sqrt a))%C (convolve z (morlet nha f)) in
  w <- take detail ts ;;
  detail <- take detail (arange k (zlen detail - k + 1)) ;;
  d <- take detail ts ;;
  Ok (w, sq_row d).
(** Lines 198-207; [nha] is the integer (len - 1) / 2. *)
Definition mexhat_row (z : list C) (ts : list Z) (f a : R) : res (list C * list R) :=
  ha <- mexhat f ;;
  let k := (zlen ha - 1) / 2 in
  let detail := map (fun v => v / RtoC (sqrt a))%C (convolve z (map RtoC ha)) in
  detail <- take detail (arange (k + 1) (zlen detail - k + 1)) ;;
  w <- take detail ts ;;
  Ok (w, sq_row w).
(** The wavelet parameter: a number, or an array of several entries (which
    has no truth value, line 181). *)
Inductive wpar := Wnum (v : R) | Warr.
Definition scal_rows (z : list C) (ts : list Z) (wp : R) (fmin fmax : R) (nv N : Z) : res (list (list C) * list (list R)) :=
  let f := logspace (log10 fmin) (log10 fmax) nv in
  let a := logspace (log10 (fmax / fmin)) (log10 1) nv in
  let rows := mapM (fun i => r <- (if Rlt_dec 0 wp then morlet_row z ts wp (rnth f i) (rnth a i) else mexhat_row z ts (rnth f i) (rnth a i)) ;;
                             if i <? N then Ok r else Raise IndexError) (arange 0 nv) in
  if Rlt_dec wp 0 then Ok (repeat (zeros (zlen ts)) (Z.to_nat nv), repeat (repeat 0%R (Z.to_nat (zlen ts))) (Z.to_nat N))
  else
    r <- rows ;;
    Ok (map fst r, map snd r ++ repeat (repeat 0%R (Z.to_nat (zlen ts))) (Z.to_nat (N - nv))).
(** Lines 243-250. *)
Definition scal_mult (z : list C) (N : Z) (fmin fmax : R) : R :=
  let indmin := 1 + ZnearestE (fmin * IZR (N - 2)) in
  let indmax := 1 + ZnearestE (fmax * IZR (N - 2)) in
  rsum (pyslice (fft z) indmin (indmax + 1)) (fun v => Cmod v ^ 2)%R.
(** np.logspace refuses a negative number of voices (line 177).  With no voices f is empty.
    A representation object has n_fbins = len(signal) rows
    and its own timestamps 0, 1, .. (the constructor drops the keyword
    arguments, line 164). *)
Definition scalogram (x : list C) (ts : option (list Z)) (fmin fmax : option R) (nv : option Z) (wp : option wpar)
    : res (option (list (list R)) * list Z * list R * list (list C)) :=
  let N := zlen x in
  let ts := arange 0 N in
  fb <- affine_band x ts fmin fmax ;;
  let '(fmin, fmax) := fb in
  let wp := match wp with Some w => w | None => Wnum (sqrt (IZR N)) end in
  let nv := match nv with Some v => v | None => N end in
  z <- scal_z x ;;
  if nv <? 0 then Raise ValueError
  else match wp with
  | Warr => Raise ValueError
  | Wnum wp =>
    wr <- scal_rows z ts wp fmin fmax nv N ;;
    let '(wt, rows) := wr in
    let f := logspace (log10 fmin) (log10 fmax) nv in
    i <- integrate_2d rows N (Some (map IZR ts)) (Some f) ;;
    Ok (if Req_EM_T i 0 then None else Some (map (map (fun v => v * (scal_mult z N fmin fmax / i) / IZR nv)%R) rows), ts, f, wt)
  end.

(** ** lambdak, lines 473-485.  [None]: NaN (0/0). *)
Inductive lamk := LBert | LUnt | LDfl | LAspwv.
Definition lam_par (k : lamk) : R := match k with LBert => 0 | LUnt => -1 | LDfl => 1 / 2 | LAspwv => 2 end%R.
Definition lambdak (u : R) (k : lamk) : option R :=
  match k with
  | LBert => if Req_EM_T u 0 then Some 1%R else Some (- u / (exp (- u) - 1))%R
  | _ =>
    let p := lam_par k in
    if Req_EM_T (exp (- p * u) - 1) 0 then None
    else Some (Rpower (p * (exp (- u) - 1) / (exp (- p * u) - 1)) (1 / (p - 1)))%R
  end.
