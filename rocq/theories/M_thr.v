(** The thresholding done by hand in the programs of doc/_gallery before a matrix is drawn.
    A matrix is a list of rows; [None] never occurs (the entries are finite).
    Exact real arithmetic; the factor 0.05 of the programs is an argument. *)
From Coq Require Import Reals ZArith List Lia Lra Bool.
From Coquelicot Require Import Coquelicot.
From Verif Require Import Py Scalars M_post.
Import ListNotations.
Local Open Scope Z_scope.

(** tfr[mag(tfr) <= limit] = 0.0 *)
Definition thr_cut {A} (zero : A) (mag : A -> R) (limit : A -> R) (m : list (list A)) : list (list A) :=
  map (map (fun v => if Rle_dec (mag v) (limit v) then zero else v)) m.
(** plot_3_4_2_morlet_scalogram_dirac_impulse.py 31-32, plot_3_4_2_morlet_scalogram_complex_sinusoids.py
    32-33, noplot/noplot_4_3_5_page_margenau_hill.py 34-35: np.amax(tfr) * c, tfr <= threshold. *)
Definition thr_real (c : R) (m : list (list R)) : res (list (list R)) :=
  mx <- rmax_list (concat m) ;; Ok (thr_cut 0%R (fun v => v) (fun _ => mx * c)%R m).
(** plot_2_7_multicomp_nonstat_stft.py 36-37, noplot/noplot_4_3_5_morlet_scalogram_spectrogram.py 43-44:
    np.amax(np.abs(tfr)) * c, np.abs(tfr) <= threshold. *)
Definition thr_mod (c : R) (m : list (list C)) : res (list (list C)) :=
  mx <- rmax_list (map Cmod (concat m)) ;; Ok (thr_cut (RtoC 0) Cmod (fun _ => mx * c)%R m).
(** noplot/noplot_4_3_5_wv_smoothed_reassigned.py 42-43, 52-53, 62-63,
    noplot/noplot_4_3_5_morlet_scalogram_spectrogram.py 54-55, 65-66: the same with np.abs(tfr) ** 2. *)
Definition thr_sq (c : R) (m : list (list C)) : res (list (list C)) :=
  mx <- rmax_list (map (fun v => Cmod v ^ 2)%R (concat m)) ;; Ok (thr_cut (RtoC 0) (fun v => Cmod v ^ 2)%R (fun _ => mx * c)%R m).
(** noplot/noplot_4_1_2_sin_gauss_spwv.py 30-31: np.abs(tfr) * c, an array. *)
Definition thr_own (c : R) (m : list (list C)) : list (list C) := thr_cut (RtoC 0) Cmod (fun v => Cmod v * c)%R m.
(** noplot/noplot_4_3_5_page_margenau_hill.py 34, 46, 57, 68: np.abs(tfr) ** 2. *)
Definition energy (m : list (list C)) : list (list R) := map (map (fun v => Cmod v ^ 2)%R) m.
(** Lines 57-60 and 67-71: the third and the fourth picture; the fourth starts from the
    matrix of the third (the reassigned matrix is called rtfr and not used). *)
Definition third_picture (c : R) (m : list (list C)) : res (list (list R)) := thr_real c (energy m).
Definition fourth_picture (c : R) (m : list (list C)) : res (list (list R)) :=
  t <- third_picture c m ;; thr_real c (map (map (fun v => Rabs v ^ 2)%R) t).
