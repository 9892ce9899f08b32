(** More programs of doc/_gallery, as in M_gallery.v. *)
From Coq Require Import Reals ZArith List Lia Lra Bool.
From Coquelicot Require Import Coquelicot.
From Flocq Require Import Core.
From Verif Require Import Py Scalars CSum DFT M_base M_stft M_cohen M_amb M_reas M_post M_dom M_gen1 M_gen2 M_gen3 M_gabor M_aff M_wb M_gallery.
Import ListNotations.
Local Open Scope Z_scope.

(** plot_3_3_2_biorthonormal_window*.py: gabor(fmlin(n)[0], M, q, window). *)
Definition gabor_chirp (n M q : Z) (w : list R) :=
  '(x, _) <- fmlin n 0 (1 / 2) None ;; gabor x M q w.

(** plot_4_2_2_{bertrand,dflandrin,unterberger}_hyperbolic_gd.py: gdpower, the
    distribution between fmin and fmax, run.  [None]: the signal is NaN. *)
Definition affine_gd spl form k (n : Z) (degree fmin fmax : R) (nv : option Z) :=
  '(x, _, _) <- gdpower n degree 1 ;;
  match x with
  | None => Ok None
  | Some x => o <- aff_new k x None (Some fmin) (Some fmax) nv ;; r <- aff_run spl form o ;; Ok (Some r)
  end.

(** plot_4_2_3_wideband_ambiguity.py *)
Definition wide_altes (n : Z) (f1 f2 alpha fmin fmax : R) (N : Z) :=
  match altes n f1 f2 alpha with
  | None => Ok None
  | Some x => wide_band (map RtoC x) (Some fmin) (Some fmax) (Some N)
  end.

(** Sum of two signals of the same length. *)
Definition csum2 (x y : list C) : list C := zipw Cplus x y.

(** plot_4_3_2_reassigned_spectrogram.py: the two components and their laws. *)
Definition hybrid (n : Z) : res (option (list C * list (list (option R)))) :=
  o <- fmsin n (15 / 100) (45 / 100) (Some 100%R) (Some 1%R) (Some (4 / 10)%R) (-1)%R ;;
  '(y, l2) <- fmhyp n 1 (1 / 2) 32 (5 / 100) ;;
  Ok (match o with
      | None => None
      | Some (x, l1) => Some (csum2 x y, [map Some l1; map Some l2])
      end).

(** plot_4_3_6_friedman_instfreq_density.py: two parts of m samples with a gap of g
    zeros between them. *)
Definition three_parts (m g : Z) : res (option (list C)) :=
  o <- fmsin m (16 / 100) (35 / 100) (Some 50%R) (Some 1%R) (Some (35 / 100)%R) 1%R ;;
  '(y, _) <- fmlin m (3 / 10) (1 / 10) None ;;
  '(z, _) <- fmconst m (4 / 10) None ;;
  Ok (match o, all_some z with Some (x, _), Some z => Some (x ++ zeros g ++ csum2 y z) | _, _ => None end).

(** plot_1_3_3_transient*.py: a transient of m samples between a and b zeros, and
    noise. *)
Definition transient (rand : Z -> list R) (m a b : Z) (r : R) : res (option (list C)) :=
  e <- amexpos m None None false ;;
  '(y, _) <- fmconst m (1 / 4) None ;;
  z <- noisecg rand (a + m + b) ;;
  match all_some y, z with
  | Some y, Row (Some z) => match modulated y e with Some y => sigmerge (zeros a ++ y ++ zeros b) z r | None => Ok None end
  | _, _ => Ok None
  end.

(** plot_4_1_2_sin_gauss_{wv,pwv}.py: a tone and a Gaussian wave packet. *)
Definition tone_and_packet (n : Z) (f g : R) : res (option (list C)) :=
  '(y, _) <- fmconst n f None ;;
  a <- amgauss n None None ;;
  '(z, _) <- fmconst n g None ;;
  Ok (match all_some y, all_some z with
      | Some y, Some z => option_map (csum2 y) (modulated z a)
      | _, _ => None
      end).

(** plot_3_4_1_*.py, plot_2_7_*.py: fmlin(n, a, b)[0] + fmlin(n, c, d)[0]. *)
Definition chirp_sum (n : Z) (a b c d : R) : res (list C) :=
  '(x, _) <- fmlin n a b None ;; '(y, _) <- fmlin n c d None ;; Ok (csum2 x y).

(** plot_4_1_3_*.py: two chirps with Gaussian envelopes one after the other. *)
Definition packets (n : Z) (a b c d : R) : res (option (list C)) :=
  x <- gauss_chirp n a b None None ;;
  y <- gauss_chirp n c d None None ;;
  Ok (match x, y with Some x, Some y => Some (x ++ y) | _, _ => None end).

(** plot_4_1_1_doppler_wigner_ville.py, plot_2_6_monocomp_nonstat_doppler.py: am * fm. *)
Definition doppler_sound (n : Z) (sf f0 dist v c : R) : res (list C) :=
  '(fm, am, _) <- doppler n sf f0 dist v None c ;;
  Ok (match am with Some am => zipw (fun z a => z * RtoC a)%C fm am | None => map (fun z => RtoC 0) fm end).

(** The real part of the reassignment vectors of pseudo_wigner_ville
    (reassigned.py 82-92): the row, or infinity below the threshold. *)
Definition hat_real (vec : list (list (option Z))) : list (list ext) :=
  map (map (fun o => match o with Some r => Fin (IZR r) | None => PInf end)) vec.
(** plot_4_3_6_friedman_instfreq_density.py: pseudo_wigner_ville(sig, timestamps=t),
    friedman_density(tfr, hat, t). *)
Definition density_of (x : list C) (l : list Z) : res (option (list (list R))) :=
  o <- rpwv x (Some l) None None ;;
  Ok (match o with Some (tfr, _, vec) => friedman tfr (hat_real vec) (zlen x) | None => None end).
