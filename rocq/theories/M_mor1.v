(** Model of [morlet_scalogram], tftb/processing/reassigned.py lines 246-358, for
    every number of bins and every Python number tbp >= 0 ([M_mor] has n_fbins >= 2
    and tbp > 0).  Lines 273-274: np.zeros rejects a negative shape.  Lines 282 and
    313: a quotient of Python numbers with divisor tbp * n_fbins = 0.  With one
    bin line 312 gives m = 0: M / 0 is inf for numpy, so that lines 316-317 stop at
    the ends of the signal, every index into hstar is 0 and line 328 multiplies by
    0; line 329 makes tf2 NaN, which is read nowhere. *)
From Coq Require Import Reals ZArith List Lia Lra Bool.
From Coquelicot Require Import Coquelicot.
From Flocq Require Import Core.
From Verif Require Import Py Scalars CSum DFT M_base P_base M_reas M_mor.
Import ListNotations.
Local Open Scope Z_scope.

(** Lines 314-328 with m = 0. *)
Definition mor_unit (x : list C) (tbp : R) (ti : Z) : res C :=
  let h := mor_hstar 1 tbp in
  a <- mor_dot h x (fun t => 0 * t) (fun t => ti + t) (map (fun t => t - 1) (arange 0 (zlen x - ti + 1))) ;;
  b <- match map (fun t => t - 1) (arange 1 (ti - 1 + 1)) with [] => Ok (RtoC 0) | taus => mor_dot (map Cconj h) x (fun t => t * 0) (fun t => ti - t) taus end ;;
  Ok ((a + b) * RtoC (mor_factor 1 tbp 0))%C.
(** Lines 260-274, 282, 313; [morlet] from two bins on. *)
Definition morlet_any (x : list C) (ts : option (list Z)) (n : option Z) (tbp : R) : res (list (list R) * list (list R)) :=
  let l := match ts with Some l => l | None => arange 0 (zlen x) end in
  let k := match n with Some n => n | None => zlen x end in
  dmin <- zmin (zdiffs l) ;;
  dmax <- zmax (zdiffs l) ;;
  if negb (dmin =? dmax) then Raise ValueError
  else if k <? 0 then Raise ValueError
  else if (k =? 0) || (if Req_EM_T tbp 0 then true else false) then Raise ZeroDivisionError
  else if k =? 1 then
    cols <- mapM (fun ti => v <- mor_unit x tbp ti ;; Ok [v]) l ;;
    let tfr := map (map (fun v => Cmod v ^ 2)%R) cols in
    rtfr <- rmorlet_loop tfr 1 (zlen l) (mean2 x * (1 / 1000000))%R ;;
    Ok (tfr, rtfr)
  else morlet x ts n tbp.
