(** Model of [gabor], tftb/processing/linear.py lines 106-163.

    n_coeff >= 1 and q_oversample >= 1 are integers, the window is real.
    Exact reals; [x - l * m / q] (lines 146, 158) is an exact fraction, so its
    remainder and truncation are written with integers.  Matrices are lists of
    columns. *)
From Coq Require Import Reals ZArith List Lia Lra Bool.
From Coquelicot Require Import Coquelicot.
From Flocq Require Import Core.
From Verif Require Import Py Scalars CSum DFT M_base P_base M_utils M_putils M_gen1 M_gen2 M_post.
Import ListNotations.
Local Open Scope Z_scope.

(** Lines 146, 158: modulo(k - shift / q, n).astype(int) - 1 for one k. *)
Definition gb_index (n q shift k : Z) : Z :=
  let v := (k * q - shift) mod (n * q) in
  (if v =? 0 then n else v / q) - 1.
(** Lines 134-138: where the window goes. *)
Definition gb_alpha (N M q nh : Z) : Z := ZnearestE ((2 * IZR N / IZR M - 1 - IZR nh) / IZR (2 * q)).
Definition gb_start (N M q nh : Z) : Z := ZnearestE (IZR (N - (nh - 1)) / 2) - gb_alpha N M q nh.
Definition gb_end (N M q nh : Z) : Z := ZnearestE (IZR (N + nh - 1) / 2) - gb_alpha N M q nh.
(** Lines 136, 139. *)
Definition gb_place (N M q : Z) (w : list R) : res (list C) :=
  put (zeros N) (arange (gb_start N M q (zlen w) - 1) (gb_end N M q (zlen w))) (map RtoC w).
(** Lines 143-149, a column: the index -1 is the last row. *)
Definition gb_den (q m : Z) (col : list C) : list R :=
  map (fun k =>
    let s := rsum (arange 0 q) (fun l => Cmod (cnth col (gb_index m q (l * m) k mod m)) ^ 2)%R in
    if Rlt_dec s (/ 2 ^ 52) then 1%R else s) (arange 1 (m + 1)).
(** Lines 143-155. *)
Definition gb_dual (N q m mb nb : Z) (h : list C) : res (list R) :=
  let cols := zak nb m h in
  cols <- (if nb =? mb then Ok cols else if nb =? 1 then Ok (map (fun _ => nth 0 cols []) (arange 0 mb)) else Raise ValueError) ;;
  g <- izak m (map (fun col => zipw (fun z d => z / RtoC d)%C col (gb_den q m col)) cols) ;;
  Ok (map (fun z => Re z / IZR N)%R g).
(** Lines 158-160: column n of dgr. *)
Definition gb_col (x : list C) (q m nb : Z) (gam : list R) (n : Z) : res (list C) :=
  let N := zlen x in
  g <- mapM (get gam) (map (gb_index N q (n * m)) (arange 1 (N + 1))) ;;
  let s := fft (zipw (fun a b => a * b)%C x (fftshift (map RtoC g))) in
  mapM (fun k => get s (k * nb)) (arange 0 ((N + nb - 1) / nb)).
Definition gabor (x : list C) (M q : Z) (w : list R) : res (list (list R) * list (list C) * list R) :=
  let N := zlen x in
  let m := q * N / M in
  let mb := N / M in
  if m =? 0 then Raise ZeroDivisionError
  else
    let nb := N / m in
    if zlen w mod 2 =? 0 then Raise ValueError
    else
      h <- gb_place N M q w ;;
      if negb (nb * m =? N) then Raise ValueError
      else
        gam <- gb_dual N q m mb nb h ;;
        dgr <- mapM (gb_col x q m nb gam) (arange 0 M) ;;
        Ok (map (map (fun z => Cmod z ^ 2)%R) dgr, dgr, gam).
(** Lines 125-126.  np.linspace of one point is [-1]. *)
Definition gb_window (M : Z) : list R :=
  let v := map (fun t => exp (ln (5 / 1000) * t ^ 2))%R (linspace1 (-1) 1 (Zfloor (nearest_odd (IZR M)))) in
  let e := sqrt (rsum v (fun t => t ^ 2)%R) in map (fun t => t / e)%R v.
(** Lines 121-126; the defaults. *)
Definition gabor_args (x : list C) (M q : option Z) (w : option (list R)) : res (list (list R) * list (list C) * list R) :=
  M <- match M with Some v => Ok v | None => r <- divider (zlen x) ;; Ok (fst r) end ;;
  q <- match q with Some v => Ok v | None => r <- divider M ;; Ok (fst r) end ;;
  (* an empty signal: divider(0) is (0, 0), and the window has one point *)
  if M =? 0 then Raise ZeroDivisionError else
  gabor x M q (match w with Some v => v | None => gb_window M end).
