(** Model of tftb/processing/utils.py: [integrate_2d] (lines 38-47),
    [derive_window] (lines 68-77) and [get_spectrum] (line 15). *)
From Coq Require Import Reals ZArith List Lia Lra Bool.
From Coquelicot Require Import Coquelicot.
From Verif Require Import Py Scalars CSum DFT M_base P_base.
Import ListNotations.
Local Open Scope Z_scope.

(** Python slices [l[1:]] and [l[:k]] for k >= 0. *)
Definition tl1 {A} (l : list A) : list A := match l with [] => [] | _ :: l => l end.

(** Lines 38-47. [mat] is a list of rows, all of length [n] = mat.shape[1]; at
    least one row. [None] axes are np.arange. *)
Definition integrate_2d (mat : list (list R)) (n : Z) (x y : option (list R)) : res R :=
  let m := zlen mat in
  let x := match x with Some x => x | None => map IZR (arange 0 n) end in
  let y := match y with Some y => y | None => map IZR (arange 0 m) end in
  c0 <- mapM (fun r => get r 0) mat ;;
  c1 <- mapM (fun r => get r (n - 1)) mat ;;
  x1 <- get x 1 ;;
  x0 <- get x 0 ;;
  let s := zipw (fun r ab => (rsum r (fun v => v) - fst ab / 2 - snd ab / 2) * (x1 - x0))%R mat (combine c0 c1) in
  dmat <- bcast Rplus (prefix s (m - 1)) (tl1 s) ;;
  d <- bcast Rminus (tl1 y) (prefix y (m - 1)) ;;
  p <- bcast Rmult dmat (map (fun v => v / 2)%R d) ;;
  Ok (rsum p (fun v => v)).

(** Lines 68-77. [None]: the result is all NaN (0/0 for a window of one sample);
    IndexError for an empty window. *)
Definition derive_window (w : list C) : res (option (list C)) :=
  let m := zlen w in
  w0 <- get w 0 ;;
  wl <- get w (-1) ;;
  let step := ((w0 + wl) / RtoC 2)%C in
  if m =? 1 then Ok None
  else
    let ramp := ((w0 - wl) / RtoC (IZR (m - 1)))%C in
    let grid := map (fun k => RtoC (IZR k - IZR (m - 1) / 2)%R) (arange 0 m) in
    let base := zipw (fun a t => a - step - ramp * t)%C w grid in
    let base := [RtoC 0] ++ base ++ [RtoC 0] in
    let dw := zipw (fun b a => (b - a) / RtoC 2 + ramp)%C (firstn (Z.to_nat m) (skipn 2 base)) (prefix base m) in
    d0 <- get dw 0 ;;
    dw <- set dw 0 (d0 + step)%C ;;
    dl <- get dw (-1) ;;
    dw <- set dw (-1) (dl - step)%C ;;
    Ok (Some dw).

(** Line 15: |fft|^2 with the bins moved so that frequency 0 is at index n//2
    (np.fft.fftshift rolls by n//2). *)
Definition fftshift {A} (l : list A) : list A :=
  let k := Z.to_nat ((zlen l + 1) / 2) in skipn k l ++ firstn k l.
Definition get_spectrum (x : list C) : list R := fftshift (map (fun z => Cmod z ^ 2)%R (fft x)).
