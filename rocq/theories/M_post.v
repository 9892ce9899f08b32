(** Model of tftb/processing/postprocessing.py.  Matrices are lists of columns
    except where stated; arithmetic is over the reals. *)
From Coq Require Import Reals ZArith List Lia Lra Bool.
From Coquelicot Require Import Coquelicot.
From Flocq Require Import Core.
From Verif Require Import Py Scalars CSum DFT M_base M_putils M_reas P_base.
Import ListNotations.
Local Open Scope Z_scope.

(** [np.linspace(a, b, n)] for n >= 1. *)
Definition linspace (a b : R) (n : Z) : list R :=
  if n =? 1 then [a] else map (fun k => a + IZR k * ((b - a) / IZR (n - 1)))%R (arange 0 n).

Definition rmax_list (l : list R) : res R :=
  match l with [] => Raise ValueError | a :: l => Ok (fold_left Rmax l a) end.

(** ** hough_transform (lines 17-67).  [image] is a list of rows of [ymax]
    entries.  The accumulator is a list of columns (one per angle).  For m = 1
    numpy's deltar is infinite and rho / deltar is 0.0; here both quotients are
    0 (the real 1/0 is 0 in Coq's library), which gives the same row. *)
Definition hough_rhomax (xmax ymax : Z) : R := (sqrt (IZR xmax ^ 2 + IZR ymax ^ 2) / 2)%R.
(** Lines 42-54: centre and last centred coordinate of one axis. *)
Definition hough_axis (s : Z) : Z * Z :=
  if negb (s mod 2 =? 0) then ((s + 1) / 2, (s + 1) / 2 - 1) else (s / 2, s / 2).
(** Lines 59-64, one angle of one pixel. *)
Definition hough_vote (rhomax deltar deltat v : R) (x y : Z) (ht : list (list R)) (theta : R) : res (list (list R)) :=
  let rho := (IZR x * cos theta - IZR y * sin theta)%R in
  if Rle_dec 0 rho then
    if Rle_dec rho rhomax then add2 ht (ZnearestE (rho / deltar)) (ZnearestE (theta / deltat)) v
    else Ok ht
  else Ok ht.
(** Line 58-64, one pixel. *)
Definition hough_pixel (image : list (list R)) (imax rhomax deltar deltat : R) (n xc yc : Z)
  (ht : list (list R)) (xy : Z * Z) : res (list (list R)) :=
  let '(x, y) := xy in
  row <- get image (x + xc - 1) ;;
  v <- get row (y + yc - 1) ;;
  if Rlt_dec (imax / 20) (Rabs v)
  then foldM (hough_vote rhomax deltar deltat v x y) (linspace 0 (2 * PI - deltat) n) ht
  else Ok ht.
Definition hough (image : list (list R)) (ymax : Z) (m n : option Z) : res (list (list R) * list R * list R) :=
  let xmax := zlen image in
  let m := match m with Some m => m | None => xmax end in
  let n := match n with Some n => n | None => ymax end in
  let rhomax := hough_rhomax xmax ymax in
  let deltar := (rhomax / IZR (m - 1))%R in
  if n =? 0 then Raise ZeroDivisionError
  else if (m <? 0) || (n <? 0) then Raise ValueError
  else
    let deltat := (2 * PI / IZR n)%R in
    imax <- rmax_list (concat image) ;;
    let '(xc, xf) := hough_axis xmax in
    let '(yc, yf) := hough_axis ymax in
    ht <- foldM (hough_pixel image imax rhomax deltar deltat n xc yc)
            (list_prod (arange (1 - xc) (xf + 1)) (arange (1 - yc) (yf + 1)))
            (repeat (repeat 0%R (Z.to_nat m)) (Z.to_nat n)) ;;
    Ok (ht, linspace 0 rhomax n, linspace 0 (2 * PI - deltat) n).

(** ** renyi_information (lines 70-100).  [tfr] is a list of rows of [n] entries.
    [None] stands for a NaN or infinite value. *)
Definition spacing1 : R := (/ 2 ^ 52)%R.

(** [np.allclose(ts, np.arange(n))], with broadcasting. *)
Definition close (a b : R) : bool := if Rle_dec (Rabs (a - b)) (1 / 10 ^ 8 + 1 / 10 ^ 5 * Rabs b) then true else false.
Definition allclose (ts : list R) (n : Z) : res bool :=
  c <- bcast close ts (map IZR (arange 0 n)) ;; Ok (forallb (fun b => b) c).

(** [a.sort()] *)
Fixpoint rinsert (a : R) (l : list R) : list R :=
  match l with [] => [a] | b :: r => if Rle_dec a b then a :: l else b :: rinsert a r end.
Definition rsort (l : list R) : list R := fold_right rinsert [] l.

(** [np.power(a, alpha)] on float64. *)
Definition npow (a alpha : R) : option R :=
  if Req_EM_T alpha (IZR (Zfloor alpha)) then
    let k := Zfloor alpha in
    if 0 <=? k then Some (a ^ Z.to_nat k)%R
    else if Req_EM_T a 0 then None else Some (/ a ^ Z.to_nat (- k))%R
  else if Rlt_dec 0 a then Some (Rpower a alpha)
  else if Req_EM_T a 0 then (if Rlt_dec 0 alpha then Some 0%R else None) else None.
Definition nlog2 (a : R) : option R := if Rlt_dec 0 a then Some (ln a / ln 2)%R else None.

(** [integrate_2d] of a matrix some entries of which are not finite. *)
Definition integrate_o (mat : list (list (option R))) (n : Z) (x y : list R) : res (option R) :=
  match all_some (map (fun r => all_some r) mat) with
  | Some m => v <- integrate_2d m n (Some x) (Some y) ;; Ok (Some v)
  | None => _ <- integrate_2d (map (map (fun _ => 0%R)) mat) n (Some x) (Some y) ;; Ok None
  end.

Definition opt_map {A B} (f : A -> option B) (o : option A) : option B := match o with Some a => f a | None => None end.

(** Lines 94-100: the value, given the axes after lines 87-93. *)
Definition renyi_value (tfr : list (list R)) (n : Z) (ts freq : list R) (alpha : R) : res (option R) :=
  i <- integrate_2d tfr n (Some ts) (Some freq) ;;
  if Req_EM_T i 0 then Ok None
  else
    let p := map (map (fun v => v / i)%R) tfr in
    if Req_EM_T alpha 1 then
      r <- integrate_o (map (map (fun v => opt_map (fun l => Some (v * l)%R) (nlog2 (v + spacing1)))) p) n ts freq ;;
      Ok (opt_map (fun r => Some (- r)%R) r)
    else
      r <- integrate_o (map (map (fun v => npow v alpha)) p) n ts freq ;;
      Ok (opt_map (fun r => opt_map (fun l => Some (l / (1 - alpha))%R) (nlog2 (r + spacing1))) r).

(** The call: result, and the caller's two arrays afterwards. *)
Definition renyi (tfr : list (list R)) (n : Z) (ts freq : option (list R)) (alpha : R)
  : res (option R) * option (list R) * option (list R) :=
  let neg := if Req_EM_T alpha 1 then
               match concat tfr with
               | [] => Some ValueError
               | a :: l => if Rlt_dec (fold_left Rmin l a) 0 then Some ValueError else None
               end
             else None in
  match neg with
  | Some e => (Raise e, ts, freq)
  | None =>
    let f := rsort (match freq with Some f => f | None => map IZR (arange 0 (zlen tfr)) end) in
    let freq' := match freq with Some _ => Some f | None => None end in
    match ts with
    | None => (renyi_value tfr n (map (fun k => IZR k + 1)%R (arange 0 n)) f alpha, None, freq')
    | Some t =>
      match allclose t n with
      | Raise e => (Raise e, ts, freq)
      | Ok true => let t' := map (fun v => v + 1)%R t in (renyi_value tfr n t' f alpha, Some t', freq')
      | Ok false => (renyi_value tfr n t f alpha, Some t, freq')
      end
    end
  end.

(** ** ideal_tfr (lines 103-132).  [iflaws]: list of laws, [None] a NaN entry.
    Entries of the result: [None] is NaN. *)
Definition set2 {A} (m : list (list A)) (r c : Z) (v : A) : res (list (list A)) :=
  col <- get m c ;; col' <- set col r v ;; set m c col'.
Definition ideal_step (iflaws : list (list (option R))) (ts : list Z) (n : Z) (m : list (list (option R))) (cf : Z * Z)
  : res (list (list (option R))) :=
  let '(icol, fi) := cf in
  ti <- get ts icol ;;
  law <- get iflaws fi ;;
  f <- get law ti ;;
  match f with
  | None => set2 m ti fi None
  | Some f => set2 m (ZnearestE (f * 2 * IZR (n - 1))) icol (Some 1%R)
  end.
Definition ideal_tfr (iflaws : list (list (option R))) (ts : option (list Z)) (n : option Z)
  : res (list (list (option R)) * list Z * list R) :=
  ts <- match ts with Some l => Ok l | None => law <- get iflaws 0 ;; Ok (arange 0 (zlen law)) end ;;
  n <- match n with Some n => Ok n | None => law <- get iflaws 0 ;; Ok (zlen law) end ;;
  if n <? 0 then Raise ValueError
  else
    m <- foldM (ideal_step iflaws ts n) (list_prod (arange 0 (zlen ts)) (arange 0 (zlen iflaws)))
           (repeat (repeat (Some 0%R) (Z.to_nat n)) (Z.to_nat (zlen ts))) ;;
    Ok (m, ts, map (fun k => IZR k / IZR n * (1 / 2))%R (arange 0 n)).

(** ** friedman_density (lines 135-162) *)
Inductive ext := Fin (r : R) | PInf | MInf | NaN.
(** np.histogram with edges -inf, 1, 2, ..., n-1, +inf: half-open bins, the last
    one closed; NaN is in no bin. *)
Definition in_bin (n b : Z) (v : ext) : bool :=
  match v with
  | NaN => false
  | PInf => b =? n - 1
  | MInf => b =? 0
  | Fin r => (if b =? 0 then true else if Rle_dec (IZR b) r then true else false) &&
             (if b =? n - 1 then true else if Rlt_dec r (IZR (b + 1)) then true else false)
  end.
Definition count {A} (p : A -> bool) (l : list A) : Z := zlen (filter p l).
Definition mean_half (tfr : list (list R)) : R :=
  (rsum (concat tfr) (fun v => v) * (1 / 2) / IZR (zlen (concat tfr)))%R.
Definition gtb (a b : R) : bool := if Rlt_dec b a then true else false.
(** [tfr] and [re] have the same shape, [n] rows, n >= 1; [re]: real parts.
    [None]: all entries are NaN (0/0). *)
Definition friedman (tfr : list (list R)) (re : list (list ext)) (n : Z) : option (list (list R)) :=
  let thr := mean_half tfr in
  let tifd := zipw (fun c rc => map (fun b => IZR (count (fun vr => gtb (fst vr) thr && in_bin n b (snd vr)) (combine c rc))) (arange 0 n)) tfr re in
  let s := rsum (concat tifd) (fun v => v) in
  if Req_EM_T s 0 then None else Some (map (map (fun v => v / s)%R) tifd).

(** ** ridges (lines 165-218).  [re]: complex reassignment field, finite entries
    ([None]: infinite or NaN, never equal to a grid position). *)
Inductive rmethod := Rpwv | Rspwv | Rsp | Rother.  (* 'rpwv'/'rpmh', 'rspwv', 'rsp'/'type1', others *)
Definition ridge_idx (meth : rmethod) (thr : R) (icol : Z) (c : list R) (rc : list (option C)) : list Z :=
  filter (fun j =>
    match nth (Z.to_nat j) rc None with
    | None => false
    | Some z =>
      match meth with
      | Rpwv => gtb (rnth c j) thr && (if Ceq_dec z (RtoC (IZR j)) then true else false)
      | _ => (if Req_EM_T (Re z) (IZR j) then true else false) && (if Req_EM_T (Im z) (IZR icol) then true else false)
      end
    end) (arange 0 (zlen c)).
Definition ridges (tfr : list (list R)) (re : list (list (option C))) (n : Z) (ts : option (list R)) (meth : rmethod)
  : res (list R * list R) :=
  let T := zlen tfr in
  let ts := match ts with Some t => t | None => map IZR (arange 0 T) end in
  let thr := mean_half tfr in
  match meth with
  | Rother => Raise ValueError
  | _ =>
    o <- foldM (fun o icol =>
           ti <- get ts icol ;;
           c <- get tfr icol ;;
           rc <- get re icol ;;
           match ridge_idx meth thr icol c rc with
           | [] => Ok o
           | idx => Ok (Some (map (fun _ => ti) idx,
                       map (fun j => IZR j / (match meth with Rsp => IZR n | _ => 2 * IZR n end))%R idx))
           end) (arange 0 T) None ;;
    match o with Some p => Ok p | None => Raise UnboundLocalError end
  end.
