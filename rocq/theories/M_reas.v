(** Model of tftb/processing/reassigned.py.  Timestamps are integers. *)
From Coq Require Import Reals ZArith List Lia Lra Bool.
From Coquelicot Require Import Coquelicot.
From Flocq Require Import Core.
From Verif Require Import Py Scalars CSum DFT M_base M_stft M_cohen M_putils P_base.
Import ListNotations.
Local Open Scope Z_scope.

(** ** The reassignment loop (lines 80-92 and 531-543) *)
Definition rent (m : list (list R)) (r c : Z) : R := rnth (nth (Z.to_nat c) m []) r.

(** [m[r, c] += v] on a matrix held as a list of columns. *)
Definition add2 (m : list (list R)) (r c : Z) (v : R) : res (list (list R)) :=
  col <- get m c ;;
  a <- get col r ;;
  col' <- set col r (a + v)%R ;;
  set m c col'.

(** [hat i j]: matrix position (row, column) computed for a cell above the
    threshold; [thr] = None is a NaN threshold, above which nothing is. *)
Definition above (thr : option R) (v : R) : bool :=
  match thr with None => false | Some t => if Rlt_dec t (Rabs v) then true else false end.
Definition reassign_step (tfr : list (list R)) (thr : option R) (hat : Z -> Z -> res (Z * Z))
  (m : list (list R)) (ij : Z * Z) : res (list (list R)) :=
  let '(i, j) := ij in
  let v := rent tfr j i in
  if above thr v then '(r, c) <- hat i j ;; add2 m r c v else add2 m j i v.
Definition reassign (tfr : list (list R)) (n T : Z) (thr : option R) (hat : Z -> Z -> res (Z * Z)) : res (list (list R)) :=
  foldM (reassign_step tfr thr hat) (list_prod (arange 0 T) (arange 0 n))
    (repeat (repeat 0%R (Z.to_nat n)) (Z.to_nat T)).

(** ** spectrogram (lines 470-548) *)
(** [np.unique(np.diff(ts)).shape[0] > 1] is false. *)
Definition zdiffs (l : list Z) : list Z := zipw (fun a b => b - a) l (tl1 l).
Definition regular (l : list Z) : bool :=
  match zdiffs l with [] => true | d :: r => forallb (Z.eqb d) r end.

(** Lines 509-511. *)
Definition rs_tau (N : Z) (w : list C) (n ti : Z) : list Z :=
  let lh := win_lh w in
  arange (- Z.min (Z.min (round_half n - 1) lh) ti) (Z.min (Z.min (round_half n - 1) lh) (N - ti) + 1).

(** Lines 512-516 for one of the three windows [g]; [None] is a NaN column. *)
Definition rs_col (x w g : list C) (n ti : Z) : res (option (list C)) :=
  let lh := win_lh w in
  let tau := rs_tau (zlen x) w n ti in
  ws <- take w (map (fun t => lh + t) tau) ;;
  let nrm := norm2 ws in
  xs <- take x (map (fun t => ti + t - 1) tau) ;;
  gs <- take (map Cconj g) (map (fun t => lh + t) tau) ;;
  vs <- bcast Cmult xs gs ;;
  col <- put (zeros n) (map (remainder n) tau) (map (fun v => Cdiv v (RtoC nrm)) vs) ;;
  Ok (match tau with [] => Some col | _ => if Req_EM_T nrm 0 then None else Some col end).

Fixpoint all_some {A} (l : list (option A)) : option (list A) :=
  match l with
  | [] => Some []
  | None :: _ => None
  | Some a :: l => match all_some l with Some r => Some (a :: r) | None => None end
  end.

(** np.min / np.max of an integer array. *)
Definition zmin (l : list Z) : res Z :=
  match l with [] => Raise ValueError | a :: l => Ok (fold_left Z.min l a) end.
Definition zmax (l : list Z) : res Z :=
  match l with [] => Raise ValueError | a :: l => Ok (fold_left Z.max l a) end.

Definition mean2 (l : list C) : R := (rsum l (fun z => Cmod z ^ 2) / IZR (zlen l))%R.

(** Lines 534-537: destination of a cell with displacement (dt, df), row then
    1-based column. *)
Definition rs_hat (n T i j dt df : Z) : Z * Z :=
  (((j - df - 1) mod n + n) mod n, Z.min (Z.max (i + dt) 1) T).

(** Lines 521-523: rounded displacements from the three transforms. *)
Definition rs_dt (s st : C) : Z := ZnearestE (Re (st / s)%C).
Definition rs_df (n : Z) (s sd : C) : Z := ZnearestE (Im (RtoC (IZR n) * sd / s / RtoC (2 * PI))%C).

(** [None]: the first output contains NaN (the used part of the window is 0).
    Otherwise spectrogram, reassigned spectrogram and reassignment vectors
    ([Some (row, 1-based column)], [None] for inf).  The loop reads each cell of
    tf2 before overwriting it, so the vectors are computed separately.  A window
    of one sample gives a NaN derivative, and int(NaN) raises ValueError for the
    first cell above the threshold. *)
Definition rspec (x : list C) (ts : option (list Z)) (n : option Z) (w : option (list C))
  : res (option (list (list R) * list (list R) * list (list (option (Z * Z))))) :=
  ts <- match ts with
        | None => Ok (arange 0 (zlen x))
        | Some l => if regular l then Ok l else Raise ValueError
        end ;;
  let n := match n with Some n => n | None => zlen x end in
  w <- match w with
       | None => Ok (map RtoC (hamming (let h := zlen x / 4 in h + (1 - h mod 2))))
       | Some w => if zlen w mod 2 =? 0 then Raise ValueError else Ok w
       end ;;
  if n <=? 0 then Raise ValueError
  else
    let T := zlen ts in
    let lh := win_lh w in
    let th := zipw (fun a t => a * RtoC (IZR t))%C w (arange (- lh) (lh + 1)) in
    dwin <- derive_window w ;;
    c1 <- mapM (rs_col x w w n) ts ;;
    c2 <- mapM (rs_col x w th n) ts ;;
    c3 <- mapM (rs_col x w (match dwin with Some d => d | None => w end) n) ts ;;
    mn <- zmin ts ;;
    mx <- zmax ts ;;
    xs <- take x (map (fun k => k - 1) (arange mn (mx + 1))) ;;
    let thr := (1 / 1000000 * mean2 xs)%R in
    match all_some c1, all_some c2, all_some c3 with
    | Some c1, Some c2, Some c3 =>
      let m1 := map fft c1 in let m2 := map fft c2 in let m3 := map fft c3 in
      let tfr := map (map (fun z => Cmod z ^ 2)%R) m1 in
      let vec i j := rs_hat n T i j (rs_dt (at2 m1 j i) (at2 m2 j i)) (rs_df n (at2 m1 j i) (at2 m3 j i)) in
      let hat i j := match dwin with
                     | None => Raise ValueError
                     | Some _ => Ok (fst (vec i j), snd (vec i j) - 1)
                     end in
      rtfr <- reassign tfr n T (Some thr) hat ;;
      Ok (Some (tfr, rtfr,
        map (fun i => map (fun j => if above (Some thr) (rent tfr j i) then Some (vec i j) else None) (arange 0 n)) (arange 0 T)))
    | _, _, _ => Ok None
    end.

(** ** pseudo_wigner_ville (lines 16-94) *)
(** Lines 49-66, one column.  [taumax] is a Python min over three ints and a
    float; if the float is chosen, the index arrays are floats: IndexError.  The
    branch at line 60 indexes with a float too. *)
Definition rp_taumax (N lh n ti : Z) : num := pymin (I (ti - 1)) [I (N - ti); F (round_half n - 1); I lh].
Definition rp_col (x fw g : list C) (n ti : Z) : res (list C) :=
  let lh := win_lh fw in
  let taumax := rp_taumax (zlen x) lh n ti in
  if isfloat taumax then Raise IndexError
  else
    let tau := arange (- nval taumax) (nval taumax + 1) in
    gs <- take g (map (fun t => lh + t) tau) ;;
    xs <- take x (map (fun t => ti + t - 1) tau) ;;
    gx <- bcast Cmult gs xs ;;
    ys <- take x (map (fun t => ti - t - 1) tau) ;;
    vs <- bcast Cmult gx (map Cconj ys) ;;
    col <- put (zeros n) (map (fun t => remainder n t + 1 - 1) tau) vs ;;
    let h := round_half n in
    if (ti <=? zlen x - h) && (h + 1 <? ti) && (h <=? lh) then Raise IndexError else Ok col.

(** [a[lo:hi]] with Python's treatment of negative bounds. *)
Definition pyslice {A} (l : list A) (lo hi : Z) : list A :=
  let cl b := if b <? 0 then Z.max (b + zlen l) 0 else Z.min b (zlen l) in
  firstn (Z.to_nat (cl hi - cl lo)) (skipn (Z.to_nat (cl lo)) l).

(** Line 72-73. *)
Definition rp_df (n : Z) (v s : R) : Z := ZnearestE (s * (IZR n / v / (2 * PI)))%R.

(** [None]: the centre of the window is 0, values may be NaN.  The vectors hold the
    1-based destination row. *)
Definition rpwv (x : list C) (ts : option (list Z)) (n : option Z) (w : option (list C))
  : res (option (list (list R) * list (list R) * list (list (option Z)))) :=
  let ts := match ts with Some l => l | None => arange 0 (zlen x) end in
  let n := match n with Some n => n | None => zlen x end in
  w <- match w with
       | None => Ok (map RtoC (hamming (pmh_winlen n)))
       | Some w => if zlen w mod 2 =? 0 then Raise ValueError else Ok w
       end ;;
  let lh := win_lh w in
  c <- get w lh ;;
  let T := zlen ts in
  if n <? 0 then Raise ValueError
  else
    let fw := map (fun v => v / c)%C w in
    dh <- derive_window fw ;;
    c1 <- mapM (rp_col x fw fw n) ts ;;
    c2 <- mapM (rp_col x fw (match dh with Some d => d | None => fw end) n) ts ;;
    if n =? 0 then Raise ValueError
    else
      mn <- zmin ts ;;
      mx <- zmax ts ;;
      if Ceq_dec c (RtoC 0) then Ok None
      else
        let tfr := map (fun col => map Re (fft col)) c1 in
        let tf2 := map (fun col => map Im (fft col)) c2 in
        let sl := pyslice x mn (mx + 1) in
        let thr := match sl with [] => None | _ => Some (1 / 1000000 * mean2 sl)%R end in
        let row i j := ((j - rp_df n (rent tfr j i) (rent tf2 j i) - 1) mod n + n) mod n + 1 in
        let hat i j := match dh with None => Raise ValueError | Some _ => Ok (row i j - 1, i) end in
        rtfr <- reassign tfr n T thr hat ;;
        Ok (Some (tfr, rtfr,
          map (fun i => map (fun j => if above thr (rent tfr j i) then Some (row i j) else None) (arange 0 n)) (arange 0 T))).

(** ** Functions that use a float as an index *)
Definition get_num {A} (l : list A) (i : num) : res A :=
  match i with I z => get l z | F _ => Raise IndexError end.
(** Index array [base + tau]: a float array if either is a float, and then an
    IndexError even if it is empty. *)
Definition take_num {A} (l : list A) (base : num) (tau : list Z) : res (list A) :=
  match base with I z => take l (map (fun t => z + t) tau) | F _ => Raise IndexError end.

(** scipy.signal.hamming called with a float length (line 122, 199, 386, 394):
    np.linspace / np.ones reject it. *)
Definition hamming_float (m : Z) : res (list C) := Raise TypeError.

(** pseudo_margenau_hill, lines 110-128: [lh] is a float (true division).
    [rest]: everything after line 128. *)
Definition rpmh {B} (rest : list C -> res B) (x : list C) (n : option Z) (w : option (list C)) : res B :=
  let n := match n with Some n => n | None => zlen x end in
  w <- match w with
       | None => hamming_float (pmh_winlen n)
       | Some w => if zlen w mod 2 =? 0 then Raise ValueError else Ok w
       end ;;
  c <- get_num w (F (win_lh w)) ;;
  rest (map (fun v => v / c)%C w).

(** pseudo_page, lines 187-204: the same prologue. *)
Definition rppage {B} (rest : list C -> res B) (x : list C) (n : option Z) (w : option (list C)) : res B :=
  let n := match n with Some n => n | None => zlen x end in
  w <- match w with
       | None => hamming_float (pmh_winlen n)
       | Some w => if zlen w mod 2 =? 0 then Raise ValueError else Ok w
       end ;;
  c <- get_num w (F (win_lh w)) ;;
  rest (map (fun v => v / c)%C w).

(** smoothed_pseudo_wigner_ville, lines 379-417 (up to the first use of [lg] as
    an index in the first pass of the loop). *)
Definition rspwv {B} (rest : list C -> res B) (x : list C) (ts : option (list Z)) (n : option Z) (tw fw : option (list C)) : res B :=
  let ts := match ts with Some l => l | None => arange 0 (zlen x) end in
  let n := match n with Some n => n | None => zlen x end in
  fw <- match fw with
        | None => hamming_float (pmh_winlen n)
        | Some w => if zlen w mod 2 =? 0 then Raise ValueError else Ok w
        end ;;
  tw <- match tw with
        | None => hamming_float (pmh_winlen n)
        | Some w => if zlen w mod 2 =? 0 then Raise ValueError else Ok w
        end ;;
  let lg := F (win_lh tw) in
  dmin <- zmin (zdiffs ts) ;;
  dmax <- zmax (zdiffs ts) ;;
  if negb (dmin =? dmax) then Raise ValueError
  else if n <? 0 then Raise ValueError
  else
    dh <- derive_window fw ;;
    (* the loop over the timestamps runs at least twice *)
    match ts with
    | [] => rest []
    | ti :: _ =>
      let points := arange (- Z.min (win_lh tw) (zlen x - ti)) (Z.min (win_lh tw) (ti - 1) + 1) in
      g2 <- take_num tw lg points ;;
      rest g2
    end.

(** ** morlet_scalogram, lines 340-357: the reassignment loop only.  The row index
    is a float (np.round), so a cell above the threshold raises IndexError. *)
Definition rmorlet_step (tfr : list (list R)) (thr : R) (m : list (list R)) (ij : Z * Z) : res (list (list R)) :=
  let '(i, j) := ij in
  let v := rent tfr j i in
  if Rlt_dec thr v then Raise IndexError else add2 m j i v.
Definition rmorlet_loop (tfr : list (list R)) (n T : Z) (thr : R) : res (list (list R)) :=
  foldM (rmorlet_step tfr thr) (list_prod (arange 0 T) (arange 0 n))
    (repeat (repeat 0%R (Z.to_nat n)) (Z.to_nat T)).
