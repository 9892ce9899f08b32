(** Model of [morlet_scalogram], tftb/processing/reassigned.py lines 246-358, for
    tbp < 0 and n_fbins >= 2.  M (line 275) is 0 or negative, hstar may be empty,
    and the factor of lines 282 and 313 is np.sqrt of a negative number: NaN.
    An entry is [None] when it is NaN; a comparison with NaN (line 344) is false. *)
From Coq Require Import Reals ZArith List Lia Lra Bool.
From Coquelicot Require Import Coquelicot.
From Flocq Require Import Core.
From Verif Require Import Py Scalars CSum DFT M_base P_base M_reas M_mor.
Import ListNotations.
Local Open Scope Z_scope.

(** Lines 281-330 and 334: the sums of [mor_cell], multiplied by NaN. *)
Definition morn_cell (x : list C) (n : Z) (tbp : R) (ti j : Z) : res (option R) :=
  let M := mor_M n tbp in
  let h := mor_hstar n tbp in let g := map Cconj h in
  if (1 <=? j) && (j <? n / 2) then v <- mor_row x h g M j ti ;; Ok None
  else if (1 <=? n - j) && (n - j <? n / 2) then v <- mor_row x g h M (n - j) ti ;; Ok None
  else if j =? round_half n then v <- mor_mid x h g M j ti ;; Ok None
  else Ok (Some 0%R).
(** Lines 342-356: a cell above the threshold raises (C76), another is copied. *)
Definition morn_copy (thr : R) (v : option R) : res (option R) :=
  match v with Some r => if Rlt_dec thr r then Raise IndexError else Ok (Some r) | None => Ok None end.
(** Lines 260-271 and 331-358. *)
Definition morlet_neg (x : list C) (ts : option (list Z)) (n : option Z) (tbp : R) : res (list (list (option R)) * list (list (option R))) :=
  let ts := match ts with Some l => l | None => arange 0 (zlen x) end in
  let n := match n with Some n => n | None => zlen x end in
  dmin <- zmin (zdiffs ts) ;;
  dmax <- zmax (zdiffs ts) ;;
  if negb (dmin =? dmax) then Raise ValueError
  else
    tfr <- mapM (fun ti => mapM (morn_cell x n tbp ti) (arange 0 n)) ts ;;
    rtfr <- mapM (mapM (morn_copy (mean2 x * (1 / 1000000))%R)) tfr ;;
    Ok (tfr, rtfr).
