(** Model of what the functions do with arrays of more than one dimension:
    tftb/processing/base.py 31-32, affine.py 28-34, time_domain.py 21-31,
    freq_domain.py 23-27, 65-76, 106-110, ambiguity.py 24-27 and 113-130,
    tftb/generators/utils.py 20-21.  Arrays have at least one dimension; data
    are in row-major order. *)
From Coq Require Import Reals ZArith List Lia Lra Bool.
From Coquelicot Require Import Coquelicot.
From Verif Require Import Py Scalars CSum DFT M_base M_putils M_dom M_amb M_aff M_wb M_gen2.
Import ListNotations.
Local Open Scope Z_scope.

(** One dimension; two dimensions with the rows and the number of columns; more
    dimensions with the shape. *)
Inductive ndarr (T : Type) :=
| N1 (x : list T)
| N2 (c : Z) (rows : list (list T))
| NN (shape : list Z) (x : list T).
Arguments N1 {T} x.
Arguments N2 {T} c rows.
Arguments NN {T} shape x.

(** [a.ravel()]. *)
Definition ravel {T} (a : ndarr T) : list T :=
  match a with N1 x => x | N2 _ rows => concat rows | NN _ x => x end.
(** [1 in a.shape]. *)
Definition has1 {T} (a : ndarr T) : bool :=
  match a with N1 x => zlen x =? 1 | N2 c rows => (zlen rows =? 1) || (c =? 1) | NN s _ => existsb (Z.eqb 1) s end.
(** [a.ndim]. *)
Definition ndim {T} (a : ndarr T) : Z :=
  match a with N1 _ => 1 | N2 _ _ => 2 | NN s _ => zlen s end.

(** base.py 31-32 (every class of linear.py and cohen.py): flattened whatever the shape. *)
Definition base_nd {B} (init : list C -> res B) (a : ndarr C) : res B := init (ravel a).
(** affine.py 28-34: the test looks at the caller's array, the indexing at the flattened one. *)
Definition affine_nd {B} (init : list C -> res B) (a : ndarr C) : res B :=
  if ndim a =? 2 then Raise IndexError else init (ravel a).

(** freq_domain.py 23-27, 65-69, 71-76, 106-110. *)
Definition flat {T} (a : ndarr T) : res (list T) :=
  if ndim a =? 1 then Ok (ravel a) else if has1 a then Ok (ravel a) else Raise TypeError.
Definition locfreq_nd (a : ndarr C) : res (option (R * R)) := x <- flat a ;; locfreq x.
Definition inst_freq_nd (ang : Z -> C -> R) (a : ndarr C) (t : option (ndarr Z)) : res (list R * list Z) :=
  x <- flat a ;;
  t <- match t with Some t => l <- flat t ;; Ok (Some l) | None => Ok None end ;;
  inst_freq ang x t.
Definition group_delay_nd (a : ndarr C) (fnorm : option (list R)) : res (list (option R)) := x <- flat a ;; group_delay x fnorm.

(** ambiguity.py 24-27. *)
Definition wide_band_nd (a : ndarr C) (fmin fmax : option R) (N : option Z) : res (option (list (list C) * list Z * list R)) :=
  if has1 a then wide_band (ravel a) fmin fmax N
  else if ndim a =? 1 then wide_band (ravel a) fmin fmax N
  else Raise ValueError.

(** ambiguity.py 113-130 with the default lags and number of bins: the product
    of lag tau has n - 2|tau| rows and c columns and is assigned to a slice of
    shape (n - 2|tau|,), which numpy accepts only for one row and one column. *)
Definition narrow_band_2d (c : Z) (rows : list (list C)) : res (list (list C) * list Z * list R) :=
  let n := zlen rows in
  if forallb (fun tau => (n - 2 * Z.abs tau =? 1) && (c =? 1)) (nb_lags n)
  then narrow_band (concat rows) None None else Raise ValueError.

(** Broadcasting an array of shape (k,) with one of shape (r, c). *)
Definition bcast2 (op : R -> R -> R) (t : list R) (c : Z) (rows : list (list R)) : res (list (list R)) :=
  if c =? zlen t then Ok (map (zipw op t) rows)
  else if c =? 1 then Ok (map (fun row => map (fun a => op a (nth 0 row 0%R)) t) rows)
  else if zlen t =? 1 then Ok (map (map (op (nth 0 t 0%R))) rows)
  else Raise ValueError.
(** time_domain.py 27-31 on a two-dimensional array, which the test on line 21
    lets through: [len] is the number of rows. *)
Definition loctime_2d (c : Z) (rows : list (list C)) : res (option (R * R)) :=
  let p := map (map (fun z => Cmod (z * z)%C)) rows in
  let m := rmean (concat p) in
  let q := map (map (fun v => v / m)%R) p in
  let t := map IZR (arange 0 (zlen rows)) in
  tp <- bcast2 Rmult t c q ;;
  let tm := rmean (concat tp) in
  d <- bcast2 Rmult (map (fun v => (v - tm) ^ 2)%R t) c q ;;
  if Req_EM_T m 0 then Ok None
  else if zlen (concat tp) =? 0 then Ok None
  else Ok (Some (tm, (2 * sqrt (PI * rmean (concat d)))%R)).
(** time_domain.py 21-31. *)
Definition loctime_nd (a : ndarr C) : res (option (R * R)) :=
  match a with
  | N1 x => loctime x
  | N2 c rows => loctime_2d c rows
  | NN _ x => if has1 a then loctime x else Raise TypeError
  end.

(** generators/utils.py 20-21. *)
Definition sigmerge_nd (a b : ndarr C) (ratio : R) : res (option (list C)) :=
  if negb (ndim a =? 1) then Raise AssertionError
  else if negb (ndim b =? 1) then Raise AssertionError
  else sigmerge (ravel a) (ravel b) ratio.
