(** Property theorems, restated from T_gallery.v (generated by tools/genprops.py).
    C131: the programs of the gallery. *)

From Coq Require Import Reals ZArith List Lia Lra Bool.
From Coquelicot Require Import Coquelicot.
From Flocq Require Import Core.
From Verif Require Import Py Scalars CSum DFT Spec M_base M_stft M_cohen M_amb M_reas M_post M_dom M_gen1 M_gen2 M_gallery M_plot
  P_base P_wvd T_wvd T_gen1 T_noise T_reas T_post T_plot T_dom T_ifm T_gallery.
Import ListNotations.
Local Open Scope Z_scope.

(** A chirp of n samples: the run raises for n = 5, 9, 13, ...; otherwise it
    returns and every kind of plot is drawn. *)
Theorem C131_chirp_wv : forall n f1 f2, 2 <= n -> (Rabs f1 <= 1 / 2)%R -> (Rabs f2 <= 1 / 2)%R ->
  (n mod 4 = 1 -> chirp_wv n f1 f2 = Raise IndexError) /\
  (n mod 4 <> 1 -> exists o, chirp_wv n f1 f2 = Ok o /\ forall k tf sq th, exists p, wvd_picture k tf sq th o = Ok p).
Proof. exact c131_chirp_wv. Qed.
Print Assumptions C131_chirp_wv.

(** The image given to the Hough transform: row f, column t is the real part of the entry (f, t) of the distribution. *)
Theorem C131_hough_image : forall x m n o, wvd x None None = Ok o ->
  exists image, hough_of m n x = hough image (zlen x) (Some m) (Some n) /\ zlen image = zlen x /\ rect image (zlen x) /\
  forall f t, 0 <= f < zlen x -> 0 <= t < zlen x -> pix image f t = Re (at2 (r_tfr o) f t).
Proof. exact c131_hough_image. Qed.
Print Assumptions C131_hough_image.

Theorem C131_noisy_chirp : forall rand p f1 f2 r, sampler rand -> 2 <= p -> rstd (rand (2 ^ p)) <> 0%R -> (Rabs f1 <= 1 / 2)%R -> (Rabs f2 <= 1 / 2)%R ->
  exists x, noisy_chirp rand (2 ^ p) f1 f2 r = Ok (Some x) /\ zlen x = 2 ^ p /\ shown x.
Proof. exact c131_noisy_chirp. Qed.
Print Assumptions C131_noisy_chirp.

(** With constant draws (the standard deviation divides) the noise is NaN. *)
Theorem C131_constant_draws : forall rand p f1 f2 r, sampler rand -> 2 <= p -> rstd (rand (2 ^ p)) = 0%R -> (Rabs f1 <= 1 / 2)%R -> (Rabs f2 <= 1 / 2)%R ->
  noisy_chirp rand (2 ^ p) f1 f2 r = Ok None.
Proof. exact c131_constant_draws. Qed.
Print Assumptions C131_constant_draws.

Theorem C131_two_chirps : forall n f1 f2 g1 g2 r, 2 <= n -> (Rabs f1 <= 1 / 2)%R -> (Rabs f2 <= 1 / 2)%R -> (Rabs g1 <= 1 / 2)%R -> (Rabs g2 <= 1 / 2)%R ->
  exists x, two_chirps n f1 f2 g1 g2 r = Ok (Some x) /\ zlen x = n /\ (n mod 4 <> 1 -> shown x).
Proof. exact c131_two_chirps. Qed.
Print Assumptions C131_two_chirps.

(** plot_5_4_2_hough_simultaneous_chirp.py and plot_5_4_2_hough_noisy_chirp.py as they stand. *)
Example C131_hough_example : (exists x ht rho theta, two_chirps 64 0 (4 / 10) (3 / 10) (1 / 2) 1 = Ok (Some x) /\ hough_of 64 64 x = Ok (ht, rho, theta) /\ shape ht 64 64) /\
  forall rand, sampler rand -> rstd (rand 64) <> 0%R ->
  exists x ht rho theta, noisy_chirp rand 64 0 (3 / 10) 1 = Ok (Some x) /\ hough_of 64 64 x = Ok (ht, rho, theta) /\ shape ht 64 64.
Proof. exact c131_hough_example. Qed.

Theorem C131_localization : forall n f1 f2 t s, 2 <= n -> (Rabs f1 <= 1 / 2)%R -> (Rabs f2 <= 1 / 2)%R -> (forall v, s = Some v -> (0 < v)%R) ->
  exists x, gauss_chirp n f1 f2 t s = Ok (Some x) /\
  (exists tm T, loctime x = Ok (Some (tm, T)) /\ (0 <= tm <= IZR (n - 1))%R /\ (0 < T)%R) /\
  (n mod 4 <> 1 -> exists fm B, locfreq x = Ok (Some (fm, B)) /\ (- (2 / 3) <= fm < 1 / 2)%R /\ (0 <= B)%R) /\
  (n mod 4 = 1 -> locfreq x = Raise ValueError) /\
  (forall ang, exists fs, inst_freq ang x None = Ok (fs, arange 2 n) /\ zlen fs = n - 2) /\
  (forall fs, exists v, group_delay x (Some fs) = Ok v /\ zlen v = zlen fs).
Proof. exact c131_localization. Qed.
Print Assumptions C131_localization.

(** inst_freq reads the law of the chirp off, one sample late, whatever the envelope
    (plot_2_3_instantaneous_frequency.py, plot_2_4_grp_delay_inst_freq_comprison.py). *)
Theorem C131_inst_freq : forall ang n f1 f2 t s, (forall k z, is_angle z (ang k z)) -> 3 <= n -> (0 <= f1 <= 1 / 2)%R -> (0 <= f2 <= 1 / 2)%R -> f1 <> f2 ->
  (forall v, s = Some v -> (0 < v)%R) ->
  exists x c l fs gs, gauss_chirp n f1 f2 t s = Ok (Some x) /\ fmlin n f1 f2 None = Ok (c, l) /\
  inst_freq ang x None = Ok (fs, arange 2 n) /\ inst_freq ang c None = Ok (gs, arange 2 n) /\
  forall k, 0 <= k < n - 2 -> rnth fs k = rnth l (k + 1) /\ rnth gs k = rnth l (k + 1).
Proof. exact c131_inst_freq. Qed.
Print Assumptions C131_inst_freq.
