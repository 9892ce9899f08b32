(** Double precision in the dilation grid of the affine distributions,
    tftb/processing/affine.py lines 101-105 and the loops that read the grid.
    Simplified: only the three operations that decide the number of points are
    rounded (53 bits, no overflow or subnormals); the points themselves are exact. *)
From Coq Require Import Reals ZArith List Lia Lra Bool.
From Coquelicot Require Import Coquelicot.
From Flocq Require Import Core.
From Verif Require Import Py Scalars M_utils M_gen2 M_aff.
Import ListNotations.
Local Open Scope Z_scope.

(** Lines 101-103: umin = -umax, du, and int((umax - umin) / du). *)
Definition u_width (umax : R) : R := b64 (umax - - umax).
Definition u_step (umax : R) (m1 : Z) : R := b64 (Rabs (u_width umax) / IZR (2 * m1)).
Definition u_count (umax : R) (m1 : Z) : Z := Ztrunc (b64 (u_width umax / u_step umax m1)).
(** Lines 103-104: np.linspace refuses a negative number of points. *)
Definition u_grid (umax : R) (m1 : Z) : res (list R) :=
  if u_count umax m1 <? 0 then Raise ValueError
  else set (linspace1 (- umax) (umax - u_step umax m1) (u_count umax m1)) m1 0%R.
(** Lines 290, 369, 429-431: the indices n - 1 at which run reads the grid. *)
Definition u_reads (k : afk) (m1 : Z) : list Z :=
  match k with Bert => arange 0 m1 ++ arange (m1 + 1) (2 * m1) | _ => arange 0 (2 * m1) end.
Definition u_loop (k : afk) (umax : R) (m1 : Z) : res (list R) :=
  u <- u_grid umax m1 ;; mapM (get u) (u_reads k m1).
(** run with this grid, lines 284-340, 364-397, 424-470. *)
Definition aff_run64 (spl : list R -> list R -> list R -> list R) (form : bool) (o : aff) : res (option (list (list R)) * list Z * list R) :=
  if a_nv o =? 1 then Raise ZeroDivisionError
  else if a_nv o <=? 0 then Raise ValueError
  else _ <- u_loop (a_kind o) (a_umax o) (a_m1 o) ;; aff_run spl form o.

(** ** Sizes computed through a division of integers in double precision:
    int(a / float(b)) (linear.py lines 127-129) and int(np.ceil(a / b))
    (analytic_signals.py lines 29, 59, 87, 140); round(a / b) in the default n_comp. *)
Definition quot64 (a b : Z) : Z := Ztrunc (b64 (b64 (IZR a) / b64 (IZR b))).
Definition ceil64 (a b : Z) : Z := Zceil (b64 (b64 (IZR a) / b64 (IZR b))).
Definition near64 (a b : Z) : Z := ZnearestE (b64 (b64 (IZR a) / b64 (IZR b))).

(** ** Default band in double precision, affine.py lines 50-58, ambiguity.py lines 41-49:
    f = np.linspace(0, 0.5, m + 1); 0.05 * floor(f[k] / 0.05), 0.05 * ceil(f[k] / 0.05). *)
Definition d05 : R := b64 (5 / 100).
Definition freq64 (m k : Z) : R := b64 (IZR k * b64 (1 / 2 / IZR m)).
Definition cells64 (m k : Z) : R := b64 (freq64 m k / d05).
Definition fmin64 (m k : Z) : R := Rmax (b64 (1 / 100)) (b64 (d05 * IZR (Zfloor (cells64 m k)))).
Definition fmax64 (m k : Z) : R := b64 (d05 * IZR (Zceil (cells64 m k))).
