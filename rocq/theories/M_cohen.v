(** Model of tftb/processing/cohen.py. *)
From Coq Require Import Reals ZArith List Lia Lra Bool.
From Coquelicot Require Import Coquelicot.
From Verif Require Import Py Scalars CSum DFT M_base M_stft.
Import ListNotations.
Local Open Scope Z_scope.

Definition remainder (n t : Z) : Z := (n + t) mod n.

(** ** WignerVilleDistribution, cohen.py 147-171 *)

(** cohen.py 159-167: one pass of the loop.  The branch at 164-167 indexes the
    1-d signal with two subscripts and therefore always raises IndexError. *)
Definition wvd_col {T} `{Num T} (real : bool) (x : list T) (n icol : Z) (col : list T) : res (list T) :=
  let tausec := round_half n in
  let winlength := tausec - 1 in
  let taumax := Z.min (Z.min icol (zlen x - icol - 1)) winlength in
  let tau := arange (- taumax) (taumax + 1) in
  xs <- take x (map (fun t => icol + t) tau) ;;
  cs <- take (map nconj x) (map (fun t => icol - t) tau) ;;
  vs <- bcast nmul xs cs ;;
  col' <- put col (map (remainder n) tau) (map (ncast real) vs) ;;
  if (icol <=? zlen x - tausec) && (tausec + 1 <=? icol) then Raise IndexError else Ok col'.

(** cohen.py 151-168: the complex matrix.  [np.c_] (154-156) needs as many
    timestamps as samples. *)
Definition wvd_cplx {T} `{Num T} (real : bool) (x : list T) (nts n : Z) (tfr : list (list T))
  : res (list (list T)) :=
  if nts =? zlen x then
    cols <- mapM (fun '(icol, col) => wvd_col real x n icol col) (enum tfr) ;;
    Ok (map fft cols)
  else Raise ValueError.
(** cohen.py 169: its real part. *)
Definition wvd_tfr {T} `{Num T} (real : bool) (x : list T) (nts n : Z) (tfr : list (list T))
  : res (list (list T)) :=
  m <- wvd_cplx real x nts n tfr ;; Ok (map (map nre) m).

(** cohen.py 170. *)
Definition wvd_freqs (n : Z) : list R := map (fun k => (0.5 * IZR k / IZR n)%R) (arange 0 n).

Definition wvd_run (o : rep C) : res (rep C) :=
  tfr <- wvd_tfr (r_real o) (r_sig o) (ts_len (r_ts o)) (r_n o) (r_tfr o) ;;
  Ok (mkrep (r_sig o) (r_ts o) (r_n o) (r_win o) (wvd_freqs (r_n o)) tfr true).

(** [WignerVilleDistribution(x, ts, n).run()] (the window is not used). *)
Definition wvd (x : list C) (ts : option tsarr) (n : option Z) : res (rep C) :=
  wvd_run (base_init x ts n None).

(** ** PseudoWignerVilleDistribution, cohen.py 190-213 *)

(** cohen.py 197-210: the branch at 205 indexes the window with a float and
    therefore always raises IndexError. *)
Definition pwvd_col {T} `{Num T} (real : bool) (x w : list T) (n icol : Z) (col : list T) : res (list T) :=
  let lh := win_lh w in
  let taumax := Z.min (Z.min icol (zlen x - icol - 1)) (Z.min (round_half n) lh) in
  let tau := arange (- taumax) (taumax + 1) in
  ws <- take w (map (fun t => lh + t) tau) ;;
  xs <- take x (map (fun t => icol + t) tau) ;;
  wx <- bcast nmul ws xs ;;
  ys <- take x (map (fun t => icol - t) tau) ;;
  vs <- bcast nmul wx (map nconj ys) ;;
  col' <- put col (map (remainder n) tau) (map (ncast real) vs) ;;
  let h := round_half n in
  if (icol <=? zlen x - h) && (h + 1 <=? icol) && (h <=? lh) then Raise IndexError else Ok col'.

(** cohen.py 194-213: content of [self.tfr] (complex) and the returned real part. *)
Definition pwvd_tfr {T} `{Num T} (real : bool) (x w : list T) (n : Z) (tfr : list (list T))
  : res (list (list T)) :=
  cols <- mapM (fun '(icol, col) => pwvd_col real x w n icol col) (enum tfr) ;;
  Ok (map fft cols).

Definition pwvd_run (o : rep C) : res (rep C * list (list C)) :=
  tfr <- pwvd_tfr (r_real o) (r_sig o) (r_win o) (r_n o) (r_tfr o) ;;
  Ok (mkrep (r_sig o) (r_ts o) (r_n o) (r_win o) (r_freqs o) tfr false, map (map nre) tfr).

Definition pwvd (x : list C) (ts : option tsarr) (n : option Z) (w : option (list C)) :=
  pwvd_run (base_init x ts n w).

(** ** MargenauHillDistribution, cohen.py 94-108 *)
Definition mh_col {T} `{Num T} (real : bool) (x : list T) (n ti : Z) (col : list T) : res (list T) :=
  let tau := arange (- Z.min (n - ti) (zlen x - ti) + 1) ti in
  s <- get x ti ;;
  ys <- take x (map (fun t => ti - t) tau) ;;
  put col (map (remainder n) tau) (map (fun y => ncast real (nmul s (nconj y))) ys).

(** A loop over integer timestamps; with float timestamps the first use of one
    as an index raises IndexError. *)
Definition ts_loop {T} (body : Z -> list T -> res (list T)) (ts : tsarr) (tfr : list (list T))
  : res (list (list T)) :=
  match ts with
  | TsI l => mapM (fun '(ti, col) => body ti col) (combine l tfr)
  | TsF [] => Ok []
  | TsF _ => Raise IndexError
  end.

Definition mh_tfr {T} `{Num T} (real : bool) (x : list T) (ts : tsarr) (n : Z) (tfr : list (list T))
  : res (list (list T)) :=
  cols <- ts_loop (mh_col real x n) ts tfr ;; Ok (map (fun c => map nre (fft c)) cols).

Definition mh_run (o : rep C) : res (rep C) :=
  tfr <- mh_tfr (r_real o) (r_sig o) (r_ts o) (r_n o) (r_tfr o) ;;
  Ok (mkrep (r_sig o) (r_ts o) (r_n o) (r_win o) (r_freqs o) tfr true).

Definition mh (x : list C) (ts : option tsarr) (n : option Z) : res (rep C) :=
  mh_run (base_init x ts n None).

(** ** PageRepresentation, cohen.py 47-60 *)
Definition page_col {T} `{Num T} (real : bool) (x : list T) (n ti : Z) (col : list T) : res (list T) :=
  let tau := arange (- Z.min (n - ti) (zlen x - ti)) ti in
  s <- get x ti ;;
  ys <- take x (map (fun t => ti - t - 1) tau) ;;
  put col (map (remainder n) tau) (map (fun y => ncast real (nmul s (nconj y))) ys).

Definition page_tfr {T} `{Num T} (real : bool) (x : list T) (ts : tsarr) (n : Z) (tfr : list (list T))
  : res (list (list T)) :=
  cols <- ts_loop (page_col real x n) ts tfr ;; Ok (map (fun c => map nre (fft c)) cols).

Definition page_run (o : rep C) : res (rep C) :=
  tfr <- page_tfr (r_real o) (r_sig o) (r_ts o) (r_n o) (r_tfr o) ;;
  Ok (mkrep (r_sig o) (r_ts o) (r_n o) (r_win o) (r_freqs o) tfr true).

Definition page (x : list C) (ts : option tsarr) (n : option Z) : res (rep C) :=
  page_run (base_init x ts n None).

(** ** PseudoMargenauHillDistribution, cohen.py 120-144 *)
(** cohen.py 137-142.  [start] and [end] are Python [min]s of a float
    (np.round(..) - 1) and two ints: they are floats when the float is chosen,
    and then [fwindow[lh + tau]] raises IndexError. *)
Definition pmh_col {T} `{Num T} (real : bool) (x w : list T) (n icol : Z) (col : list T) : res (list T) :=
  let lh := win_lh w in
  let start := pymin (F (round_half n - 1)) [I lh; I (zlen x - icol)] in
  let stop := pymin (F (round_half n - 1)) [I lh; I (icol - 1)] in
  if isfloat start || isfloat stop then Raise IndexError
  else
    let tau := arange (- nval start) (nval stop + 1) in
    ws <- take w (map (fun t => lh + t) tau) ;;
    s <- get x icol ;;
    ys <- take x (map (fun t => icol - t - 1) tau) ;;
    vs <- bcast nmul (map (fun v => nmul v s) ws) (map nconj ys) ;;
    put col (map (remainder n) tau) (map (ncast real) vs).

Definition pmh_tfr {T} `{Num T} (real : bool) (x w : list T) (n : Z) (tfr : list (list T))
  : res (list (list T)) :=
  cols <- mapM (fun '(icol, col) => pmh_col real x w n icol col) (enum tfr) ;; Ok (map fft cols).

Definition pmh_run (o : rep C) : res (rep C) :=
  tfr <- pmh_tfr (r_real o) (r_sig o) (r_win o) (r_n o) (r_tfr o) ;;
  Ok (mkrep (r_sig o) (r_ts o) (r_n o) (r_win o) (r_freqs o) tfr false).

(** cohen.py 124-131 [_make_window]: the Hamming window divided by its centre. *)
Definition pmh_winlen (n : Z) : Z := let h := n / 4 in if h mod 2 =? 0 then h + 1 else h.
Definition pmh_window (n : Z) : res (list C) :=
  let w := map RtoC (hamming (pmh_winlen n)) in
  c <- get w (win_lh w) ;; Ok (map (fun v => Cdiv v c) w).

Definition pmh (x : list C) (ts : option tsarr) (n : option Z) (w : option (list C)) : res (rep C) :=
  w' <- match w with
        | Some w => Ok w
        | None => pmh_window (match n with Some n => n | None => zlen x end)
        end ;;
  pmh_run (base_init x ts n (Some w')).

(** ** PseudoPageRepresentation, cohen.py 70-91 *)
(** cohen.py 74-81: [lh] is a float, indexing the window with it raises. *)
Definition ppage_window (n : Z) : res (list C) := Raise IndexError.
(** cohen.py 83-91: [lh] is a float, so is the index array [lh + tau]. *)
Definition ppage_run (o : rep C) : res (rep C) :=
  _ <- mapM (fun _ : list C => Raise IndexError : res unit) (r_tfr o) ;;
  Ok (mkrep (r_sig o) (r_ts o) (r_n o) (r_win o) (r_freqs o) (r_tfr o) true).
Definition ppage (x : list C) (ts : option tsarr) (n : option Z) (w : option (list C)) : res (rep C) :=
  w' <- match w with
        | Some w => Ok w
        | None => ppage_window (match n with Some n => n | None => zlen x end)
        end ;;
  ppage_run (base_init x ts n (Some w')).

(** ** Spectrogram, cohen.py 18-39 *)
(** np.linalg.norm *)
Definition norm2 (l : list C) : R := sqrt (rsum l (fun z => Cmod z ^ 2)%R).

(** Column before the FFT; [None] when it holds NaN (0/0 because the used part
    of the window vanishes). *)
Definition spec_col (real : bool) (x w : list C) (n ti : Z) (col : list C) : res (option (list C)) :=
  let lh := win_lh w in
  let rangemin := Z.min (round_half n - 1) lh in
  let start := - Z.min rangemin (ti - 1) in
  let stop := Z.min rangemin (zlen x - ti) in
  let tau := arange start (stop + 1) in
  xs <- take x (map (fun t => ti + t - 1) tau) ;;
  cs <- take (map Cconj w) (map (fun t => lh + t) tau) ;;
  vs <- bcast Cmult xs cs ;;
  ws <- take w (map (fun t => lh + t) tau) ;;
  let nrm := norm2 ws in
  col' <- put col (map (remainder n) tau) (map (fun v => ncast real (Cdiv v (RtoC nrm))) vs) ;;
  Ok (match tau with
      | [] => Some col'
      | _ => if Req_EM_T nrm 0 then None else Some col'
      end).

(** Values of a spectrogram: real columns, or a NaN column. *)
Definition spectrogram_tfr (real : bool) (x w : list C) (ts : tsarr) (n : Z) (tfr : list (list C))
  : res (list (option (list R))) :=
  match ts with
  | TsI l =>
    cols <- mapM (fun '(ti, col) => spec_col real x w n ti col) (combine l tfr) ;;
    Ok (map (fun c => match c with
                      | Some c => Some (map (fun z => Cmod z ^ 2)%R (fft c))
                      | None => None end) cols)
  | TsF [] => Ok []
  | TsF _ => Raise IndexError
  end.

(** [Spectrogram(x, ts, n, w).run()] on a fresh object: returned matrix. *)
Definition spectrogram (x : list C) (ts : option tsarr) (n : option Z) (w : option (list C))
  : res (list (option (list R))) :=
  let o := base_init x ts n w in
  spectrogram_tfr (r_real o) (r_sig o) (r_win o) (r_ts o) (r_n o) (r_tfr o).

(** ** smoothed_pseudo_wigner_ville, cohen.py 221-299 *)
(** [g2 / np.sum(g2)]: [None] when NaN. *)
Definition normalise (g : list C) : option (list C) :=
  let s := csum g (fun z => z) in
  match g with
  | [] => Some []
  | _ => if Ceq_dec s (RtoC 0) then None else Some (map (fun z => Cdiv z s) g)
  end.

Definition cplus3 (g a b : list C) : res C :=
  ga <- bcast Cmult g a ;; gab <- bcast Cmult ga (map Cconj b) ;; Ok (csum gab (fun z => z)).

(** cohen.py 273-283, body of the loop over tau; [None] is a NaN column. *)
Definition spwv_tau (x tw fw : list C) (n ti tau : Z) (oc : option (list C)) : res (option (list C)) :=
  let lg := win_lh tw in let lh := win_lh fw in
  let points := arange (- Z.min lg (zlen x - ti - tau)) (Z.min lg (ti - 1 - tau) + 1) in
  g <- take tw (map (fun p => lg + p) points) ;;
  x1 <- take x (map (fun p => ti + tau - p - 1) points) ;;
  x2 <- take x (map (fun p => ti - tau - p - 1) points) ;;
  w1 <- get fw (lh + tau + 1) ;;
  w2 <- get fw (lh - tau + 1) ;;
  match normalise g with
  | None => Ok None
  | Some g2 =>
    R1 <- cplus3 g2 x1 x2 ;;
    R2 <- cplus3 g2 x2 x1 ;;
    match oc with
    | None => Ok None
    | Some c => c1 <- set c (1 + tau) (Cmult w1 R1) ;;
                c2 <- set c1 (n - tau - 1) (Cmult w2 R2) ;; Ok (Some c2)
    end
  end.

(** cohen.py 262-297, one column.  The branch at 285 ends with a float row
    index and always raises IndexError. *)
Definition spwv_col (x tw fw : list C) (n ti : Z) (col : list C) : res (option (list C)) :=
  let lg := win_lh tw in let lh := win_lh fw in
  let taumax := Z.min (Z.min (ti + lg - 1) (zlen x - ti + lg)) (Z.min (round_half n - 1) lh) in
  let points := arange (- Z.min lg (zlen x - ti)) (Z.min lg (ti - 1) + 1) in
  g <- take tw (map (fun p => lg + p) points) ;;
  xs <- take x (map (fun p => ti - p - 1) points) ;;
  c0 <- match normalise g with
        | None => Ok None
        | Some g2 => s <- cplus3 g2 xs xs ;; c <- set col 0 s ;; Ok (Some c)
        end ;;
  c1 <- foldM (fun oc tau => spwv_tau x tw fw n ti tau oc) (arange 0 taumax) c0 ;;
  let h := round_half n in
  if (ti <=? zlen x - h) && (h + 1 <=? ti) && (h <=? lh) then Raise IndexError else Ok c1.

(** cohen.py 237-299.  [None] entries are NaN columns; result is the real part. *)
Definition spwv (x : list C) (ts : option (list Z)) (n : option Z) (tw fw : option (list C))
  : res (list (option (list R))) :=
  let ts := match ts with Some t => t | None => arange 0 (zlen x) end in
  let n := match n with Some n => n | None => zlen x end in
  fw <- match fw with
        | None => Ok (map RtoC (hamming (let h := n / 4 in h + 1 - h mod 2)))
        | Some fw => if zlen fw mod 2 =? 0 then Raise ValueError else Ok fw
        end ;;
  tw <- match tw with
        | None => Ok (map RtoC (hamming (let h := n / 10 in h + (1 - h mod 2))))
        | Some tw => if zlen tw mod 2 =? 0 then Raise ValueError else Ok tw
        end ;;
  cols <- mapM (fun ti => spwv_col x tw fw n ti (zeros n)) ts ;;
  Ok (map (option_map (fun c => map Re (fft c))) cols).

(** Executions on Gaussian integers: N = 4, default bins. *)
Example wvd_exec :
  wvd_tfr false [(1,0);(0,1);(2,0);(-1,0)] 4 4 (zeros2 4 4)
  = Ok [[(1,0);(1,0);(1,0);(1,0)]; [(5,0);(1,0);(-3,0);(1,0)];
        [(4,0);(6,0);(4,0);(2,0)]; [(1,0);(1,0);(1,0);(1,0)]].
Proof. reflexivity. Qed.
(** N = 5 with default bins raises. *)
Example wvd_exec5 :
  wvd_tfr false [(1,0);(0,1);(2,0);(-1,0);(1,0)] 5 5 (zeros2 5 5) = Raise IndexError.
Proof. reflexivity. Qed.
