(** The programs of doc/misc_plots, for any numbers in place of their constants. *)
From Coq Require Import Reals ZArith List Lia Lra Bool.
From Coquelicot Require Import Coquelicot.
From Flocq Require Import Core.
From Verif Require Import Py Scalars DFT M_base M_stft M_utils M_gen2.
Import ListNotations.
Local Open Scope Z_scope.

(** touchtone.py 18-22, touchtone_mean_convolve.py 18-22, stationary_phase_plot.py 5-9:
    ts = np.linspace(0, 1, fs), y = (sin(2 pi f ts) + sin(2 pi g ts)) / 2, in real numbers. *)
Definition touch (fs : Z) (f g : R) : list R :=
  map (fun t => (sin (2 * PI * f * t) + sin (2 * PI * g * t)) / 2)%R (linspace1 0 1 fs).
(** touchtone_mean_convolve.py 24: np.fft.fft(y). *)
Definition touch_fft (fs : Z) (f g : R) : list C := fft (map RtoC (touch fs f g)).

(** uncertainty_stft.py 7-9, uncertainty_example_plot.py 6-8. *)
Definition two_sines (n fs : Z) (f g : R) : list C :=
  map (fun k => RtoC (sin (2 * PI * f * (IZR k / IZR fs)) + sin (2 * PI * g * (IZR k / IZR fs)))) (arange 0 n).
(** Lines 10-11 (9-10): int(t * f_sample) - 1, in double precision; signal[p] += v for an index in range. *)
Definition pulse64 (t : R) (fs : Z) : Z := Ztrunc (b64 (b64 t * IZR fs)) - 1.
Definition bump (x : list C) (p : Z) (v : C) : list C :=
  map (fun k => if k =? p then cnth x k + v else cnth x k)%C (arange 0 (zlen x)).
Definition add_at (x : list C) (p : Z) (v : C) : res (list C) :=
  if (- zlen x <=? p) && (p <? zlen x) then Ok (bump x (p mod zlen x) v) else Raise IndexError.
(** uncertainty_stft.py 14, 18: int((w * 0.001 * f_sample) + 1), in double precision. *)
Definition win64 (w fs : Z) : Z := Ztrunc (b64 (b64 (b64 (IZR w * b64 (1 / 1000)) * IZR fs) + 1)).
(** Lines 7-20, one window of w milliseconds. *)
Definition doc_uncertainty (n fs : Z) (f g t1 t2 : R) (w : Z) : res (rep C) :=
  x <- add_at (two_sines n fs f g) (pulse64 t1 fs) (RtoC 3) ;;
  x <- add_at x (pulse64 t2 fs) (RtoC 3) ;;
  stft x None None (Some (repeat (RtoC 1) (Z.to_nat (win64 w fs)))).
