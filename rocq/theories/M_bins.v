(** Model of the number of frequency bins that is not positive, or not an
    integer: processing/base.py 22-50 and the FFTs that end the [run] methods of
    linear.py and cohen.py.  The models of M_stft and M_cohen are about
    n_fbins >= 1 (with 0 rows their FFT returns an empty column, numpy raises). *)
From Coq Require Import Reals ZArith List Lia Lra Bool.
From Coquelicot Require Import Coquelicot.
From Flocq Require Import Core.
From Verif Require Import Py Scalars CSum DFT M_base M_stft M_cohen.
Import ListNotations.
Local Open Scope Z_scope.

(** base.py 37-38. *)
Definition bins_of (x : list C) (n : option Z) : Z := match n with Some n => n | None => zlen x end.

(** base.py 50: [np.zeros((n, ..))] raises ValueError for a negative number of
    rows (so does [hamming] of the negative length of the default window, base.py
    71, cohen.py 79, 129); np.fft.fft over zero rows raises ValueError. *)
Definition with_bins {A} (n : Z) (r : res A) : res A :=
  if n <? 0 then Raise ValueError
  else a <- r ;; if n =? 0 then Raise ValueError else Ok a.

(** linear.py 52-75, cohen.py 18-34, 47-57, 83-91, 94-107, 132-143, 147-171, 190-213. *)
Definition stft_b x ts n w := with_bins (bins_of x n) (stft x ts n w).
Definition spectrogram_b x ts n w := with_bins (bins_of x n) (spectrogram x ts n w).
Definition wvd_b x ts n := with_bins (bins_of x n) (wvd x ts n).
Definition pwvd_b x ts n w := with_bins (bins_of x n) (pwvd x ts n w).
Definition mh_b x ts n := with_bins (bins_of x n) (mh x ts n).
Definition page_b x ts n := with_bins (bins_of x n) (page x ts n).
Definition pmh_b x ts n w := with_bins (bins_of x n) (pmh x ts n w).
Definition ppage_b x ts n w := with_bins (bins_of x n) (ppage x ts n w).

(** cohen.py 237-299: with zero rows the assignment to row 0 (line 271) raises
    IndexError in the first column, whether or not the value is NaN. *)
Definition spwv_b (x : list C) (ts : option (list Z)) (n : option Z) (tw fw : option (list C)) : res (list (option (list R))) :=
  let odd w := match w with Some w => negb (zlen (w : list C) mod 2 =? 0) | None => true end in
  if (bins_of x n =? 0) && odd fw && odd tw then
    match (match ts with Some t => t | None => arange 0 (zlen x) end) with
    | [] => Raise ValueError
    | _ => Raise IndexError
    end
  else with_bins (bins_of x n) (spwv x ts n tw fw).

(** A floating-point n_fbins, base.py 39-50: the default window has length
    n//4 made odd (a float), [hamming] refuses a negative length with ValueError and
    any other float length with TypeError; otherwise [np.zeros] raises TypeError. *)
Definition float_bins (n : R) (window_given : bool) : exn :=
  if window_given then TypeError
  else let h := Zfloor (n / 4) in
       if h + (1 - h mod 2) <? 0 then ValueError else TypeError.
