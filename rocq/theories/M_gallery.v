(** Programs of doc/_gallery: the calls they make to the library, one after the
    other.  Drawing is left out unless said otherwise; the sizes and frequencies
    the programs fix are parameters here. *)
From Coq Require Import Reals ZArith List Lia Lra Bool.
From Coquelicot Require Import Coquelicot.
From Flocq Require Import Core.
From Verif Require Import Py Scalars CSum DFT M_base M_stft M_cohen M_amb M_reas M_post M_dom M_gen1 M_gen2.
Import ListNotations.
Local Open Scope Z_scope.

(** plot_1_3_1_chirp_wv.py 22-27, plot_4_1_1_wv_wireframe.py. *)
Definition chirp_wv (n : Z) (f1 f2 : R) : res (rep C) :=
  '(x, _) <- fmlin n f1 f2 None ;; wvd x None None.

(** plot_1_3_1_noisy_chirp.py, plot_5_4_2_wv_noisy_chirp.py: fmlin, noisecg, sigmerge. *)
Definition noisy_chirp (rand : Z -> list R) (n : Z) (f1 f2 r : R) : res (option (list C)) :=
  '(x, _) <- fmlin n f1 f2 None ;;
  z <- noisecg rand n ;;
  match z with Row (Some z) => sigmerge x z r | _ => Ok None end.
(** plot_5_4_2_wv_simultaneous_chirp.py: two chirps merged. *)
Definition two_chirps (n : Z) (f1 f2 g1 g2 r : R) : res (option (list C)) :=
  '(x, _) <- fmlin n f1 f2 None ;;
  '(y, _) <- fmlin n g1 g2 None ;;
  sigmerge x y r.

(** The rows of tfr as real numbers (the imaginary parts are 0). *)
Definition image_of (o : rep C) (n : Z) : list (list R) :=
  map (fun f => map (fun t => Re (at2 (r_tfr o) f t)) (arange 0 n)) (arange 0 n).
(** plot_5_4_2_hough_noisy_chirp.py, plot_5_4_2_hough_simultaneous_chirp.py. *)
Definition hough_of (m n : Z) (x : list C) : res (list (list R) * list R * list R) :=
  o <- wvd x None None ;; hough (image_of o (zlen x)) (zlen x) (Some m) (Some n).

(** Product of a signal and an envelope, sample by sample. *)
Definition modulated (x : list C) (a : list (option R)) : option (list C) :=
  all_some (zipw (fun z g => option_map (fun g => z * RtoC g)%C g) x a).
(** plot_2_2_1_time_freq_localization.py, plot_2_4_grp_delay_inst_freq_comprison.py:
    fmlin(n, f1, f2)[0] * amgauss(n, t, s). *)
Definition gauss_chirp (n : Z) (f1 f2 : R) (t s : option R) : res (option (list C)) :=
  '(x, _) <- fmlin n f1 f2 None ;; a <- amgauss n t s ;; Ok (modulated x a).
