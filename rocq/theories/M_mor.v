(** Model of [morlet_scalogram], tftb/processing/reassigned.py lines 246-358.

    Integer timestamps, signals of length >= 1, n_fbins >= 2, tbp > 0.  The
    array tf2 is read only for cells above the threshold, where the call raises
    whatever it holds, and its computation uses the indices of tfr; so it is
    left out ([None] entries, inf, are what is returned). *)
From Coq Require Import Reals ZArith List Lia Lra Bool.
From Coquelicot Require Import Coquelicot.
From Flocq Require Import Core.
From Verif Require Import Py Scalars CSum DFT M_base P_base M_reas.
Import ListNotations.
Local Open Scope Z_scope.

(** Line 275: M. *)
Definition mor_M (n : Z) (tbp : R) : Z := Zceil (tbp * IZR n * sqrt (2 * ln (1 / (1 / 1000)))).
(** Lines 276-278: hstar. *)
Definition mor_hstar (n : Z) (tbp : R) : list C :=
  map (fun tau => RtoC (exp (- (IZR tau / (IZR n * tbp)) ^ 2 / 2)) * cis (- (2 * PI * IZR tau / IZR n)))%C
    (arange 0 (mor_M n tbp + round_half n + 1)).
(** np.dot of two gathered arrays. *)
Definition mor_dot (h x : list C) (fh fx : Z -> Z) (taus : list Z) : res C :=
  hs <- take h (map fh taus) ;; xs <- take x (map fx taus) ;; Ok (csum (zipw Cmult hs xs) (fun v => v)).
(** Lines 285-286, 316-317: tau_neg and tau_pos. *)
Definition mor_neg (M m ti : Z) : list Z := arange 1 (Z.min (Zceil (IZR M / IZR m)) (ti - 1) + 1).
Definition mor_pos (N M m ti : Z) : list Z := arange 0 (Z.min (Zceil (IZR M / IZR m)) (N - ti) + 1).
Definition mor_factor (n : Z) (tbp : R) (m : Z) : R := sqrt (IZR m / (tbp * IZR n)).
(** Lines 288-296 ([h] = hstar, [g] its conjugate) and 298-306 (exchanged). *)
Definition mor_row (x h g : list C) (M m ti : Z) : res C :=
  a <- mor_dot h x (fun t => m * t - 1) (fun t => ti + t - 1) (mor_pos (zlen x) M m ti) ;;
  b <- match mor_neg M m ti with [] => Ok (RtoC 0) | taus => mor_dot g x (fun t => t * m) (fun t => ti - t) taus end ;;
  Ok (a + b)%C.
(** Lines 312-328. *)
Definition mor_mid (x h g : list C) (M m ti : Z) : res C :=
  a <- mor_dot h x (fun t => m * t) (fun t => ti + t) (map (fun t => t - 1) (mor_pos (zlen x) M m ti)) ;;
  b <- match map (fun t => t - 1) (mor_neg M m ti) with [] => Ok (RtoC 0) | taus => mor_dot g x (fun t => t * m) (fun t => ti - t) taus end ;;
  Ok (a + b)%C.
(** Lines 281-330: an entry of tfr before line 334; the rows m, n - m and
    round(n/2) are distinct, the others stay 0. *)
Definition mor_cell (x : list C) (n : Z) (tbp : R) (ti j : Z) : res C :=
  let M := mor_M n tbp in
  let h := mor_hstar n tbp in let g := map Cconj h in
  if (1 <=? j) && (j <? n / 2) then v <- mor_row x h g M j ti ;; Ok (v * RtoC (mor_factor n tbp j))%C
  else if (1 <=? n - j) && (n - j <? n / 2) then v <- mor_row x g h M (n - j) ti ;; Ok (v * RtoC (mor_factor n tbp (n - j)))%C
  else if j =? round_half n then v <- mor_mid x h g M j ti ;; Ok (v * RtoC (mor_factor n tbp j))%C
  else Ok (RtoC 0).
(** Lines 260-271 and 331-358; the columns of tfr and of rtfr. *)
Definition morlet (x : list C) (ts : option (list Z)) (n : option Z) (tbp : R) : res (list (list R) * list (list R)) :=
  let ts := match ts with Some l => l | None => arange 0 (zlen x) end in
  let n := match n with Some n => n | None => zlen x end in
  dmin <- zmin (zdiffs ts) ;;
  dmax <- zmax (zdiffs ts) ;;
  if negb (dmin =? dmax) then Raise ValueError
  else
    cols <- mapM (fun ti => mapM (mor_cell x n tbp ti) (arange 0 n)) ts ;;
    let tfr := map (map (fun v => Cmod v ^ 2)%R) cols in
    rtfr <- rmorlet_loop tfr n (zlen ts) (mean2 x * (1 / 1000000))%R ;;
    Ok (tfr, rtfr).
