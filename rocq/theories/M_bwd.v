(** run of an affine distribution whatever the signs of umax and m1 (tftb/processing/affine.py,
    lines 84-107, 284-288, 364-368).  [aff_run] describes 0 < umax, 1 <= m1; both fail only when fmax < fmin. *)
From Coq Require Import Reals ZArith List Lia Lra Bool.
From Coquelicot Require Import Coquelicot.
From Flocq Require Import Core.
From Verif Require Import Py Scalars M_gen1 M_aff.
Import ListNotations.
Local Open Scope Z_scope.

(** Lines 101-103: int((umax - umin) / du) with umin = - umax, du = |umax - umin| / (2 m1), for m1 <> 0. *)
Definition aff_count (umax : R) (m1 : Z) : Z :=
  Ztrunc ((umax - - umax) / (Rabs (umax - - umax) / IZR (2 * m1)))%R.
(** The checks are made in this order: 1 / (n_voices - 1) (line 86); np.zeros or ifft of no points (lines 93, 99);
    m1 = 0: du is infinite, u is empty and u[0] raises (line 104); a negative count (line 103);
    u[m1] (line 104), where a negative m1 counts from the end; np.zeros with a negative dimension (lines 288, 368). *)
Definition aff_run_any (spl : list R -> list R -> list R -> list R) (form : bool) (o : aff) : res (option (list (list R)) * list Z * list R) :=
  let c := aff_count (a_umax o) (a_m1 o) in
  if a_nv o =? 1 then Raise ZeroDivisionError
  else if a_nv o <=? 0 then Raise ValueError
  else if a_m1 o =? 0 then Raise IndexError
  else if c <? 0 then Raise ValueError
  else if negb ((- c <=? a_m1 o) && (a_m1 o <? c)) then Raise IndexError
  else if a_m1 o <? 0 then Raise ValueError
  else aff_run spl form o.
