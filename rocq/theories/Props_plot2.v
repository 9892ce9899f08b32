(** Property theorems, restated from T_plot2.v (generated by tools/genprops.py).
    C94: at which height of the picture a row is drawn.  C97: the spectrum
    drawn beside it. *)

From Coq Require Import Reals ZArith List Lia Lra Bool.
From Coquelicot Require Import Coquelicot.
From Verif Require Import Py Scalars CSum DFT Spec M_base P_base M_utils M_putils M_post M_stft M_cohen M_state M_gen1 M_gen2 M_aff M_plot T_gen1 T_putils T_state T_post T_plot T_plot2.
Import ListNotations.
Local Open Scope Z_scope.

(** STFT, image: row k holds frequency k/n and is drawn at
    k/n + (h - 1 - 2k)/(2nh), h = n//2: less than half a bin away. *)
Theorem C94_stft : forall tf th o n t, shaped (r_tfr o) n t -> r_n o = n -> ts_len (r_ts o) = t -> r_freqs o = base_freqs n -> 2 <= n -> 1 <= t -> 1 <= zlen (r_sig o) ->
  exists a rest, stft_picture Kcmap tf th o = Ok (a :: rest) /\
    forall k y, placed a k y <-> 0 <= k < n / 2 /\ y = (IZR k / IZR n + IZR (n / 2 - 1 - 2 * k) / (2 * IZR n * IZR (n / 2)))%R.
Proof. exact c94_stft. Qed.
Print Assumptions C94_stft.

(** Wigner-Ville, image: row k holds k/(2n), drawn less than half a bin away. *)
Theorem C94_wvd : forall tf sq th o n t, shaped (r_tfr o) n t -> ts_len (r_ts o) = t -> r_freqs o = wvd_freqs n -> 1 <= n -> 1 <= t -> 1 <= zlen (r_sig o) ->
  exists a rest, wvd_picture Kcmap tf sq th o = Ok (a :: rest) /\
    forall k y, placed a k y <-> 0 <= k < n /\ y = (IZR k / (2 * IZR n) + IZR (n - 1 - 2 * k) / (4 * IZR n * IZR n))%R.
Proof. exact c94_wvd. Qed.
Print Assumptions C94_wvd.

(** The pseudo Wigner-Ville class keeps the frequencies of base.py: the rows, of
    frequency k/(2n), are spread over [-1/2, 1/2] and every one is drawn too low. *)
Theorem C94_pseudo_refuted : forall tf sq th o n t, shaped (r_tfr o) n t -> ts_len (r_ts o) = t -> r_freqs o = base_freqs n -> 2 <= n -> 1 <= t -> 1 <= zlen (r_sig o) ->
  exists a rest, wvd_picture Kcmap tf sq th o = Ok (a :: rest) /\
    (forall k y, placed a k y <-> 0 <= k < n /\ y = (- IZR (n / 2) / IZR n + (IZR k + 1 / 2) * IZR (2 * (n / 2) - 1) / (IZR n * IZR n))%R) /\
    (forall k y, placed a k y -> (y < IZR k / (2 * IZR n))%R) /\
    (forall y, placed a 0 y -> (y < - (1 / 4))%R).
Proof. exact c94_pseudo_refuted. Qed.
Print Assumptions C94_pseudo_refuted.

(** Margenau-Hill, image: h = n//2 rows over [0, 1/2]. *)
Theorem C94_mh : forall tf th o n t, shaped (r_tfr o) n t -> ts_len (r_ts o) = t -> 2 <= n -> 1 <= t -> 1 <= zlen (r_sig o) ->
  exists a rest, mh_picture Kcmap tf th o = Ok (a :: rest) /\
    forall k y, placed a k y <-> 0 <= k < n / 2 /\ y = ((2 * IZR k + 1) / (4 * IZR (n / 2)))%R.
Proof. exact c94_mh. Qed.
Print Assumptions C94_mh.

Theorem C94_contour : forall tf th o n t p, shaped (r_tfr o) n t -> ts_len (r_ts o) = t -> 1 <= n -> 1 <= t ->
  ((exists sq, wvd_picture Kcontour tf sq th o = Ok p) ->
     exists a rest, p = a :: rest /\ 2 <= n /\ (tf = true -> n = zlen (r_sig o)) /\ forall k y, placed a k y <-> 0 <= k < n /\ y = (IZR k / (2 * IZR (n - 1)))%R) /\
  (r_n o = n -> stft_picture Kcontour tf th o = Ok p \/ mh_picture Kcontour tf th o = Ok p ->
     exists a rest, p = a :: rest /\ 2 <= n / 2 /\ (tf = true -> n / 2 = zlen (r_sig o)) /\ forall k y, placed a k y <-> 0 <= k < n / 2 /\ y = (IZR k / (2 * IZR (n / 2 - 1)))%R).
Proof. exact c94_contour. Qed.
Print Assumptions C94_contour.

(** What this means against the frequency of the row (k/n for the STFT, k/(2n)
    for Wigner-Ville): the images are right to within half a bin; contours are
    stretched, the top row, of frequency 1/2 - 1/(2n) or less, being drawn at 1/2. *)
Theorem C94_images : forall tf sq th o n t, shaped (r_tfr o) n t -> ts_len (r_ts o) = t -> 2 <= n -> 1 <= t -> 1 <= zlen (r_sig o) ->
  (r_n o = n -> r_freqs o = base_freqs n -> exists a rest, stft_picture Kcmap tf th o = Ok (a :: rest) /\ forall k y, placed a k y -> (Rabs (y - IZR k / IZR n) < 1 / (2 * IZR n))%R) /\
  (r_freqs o = wvd_freqs n -> exists a rest, wvd_picture Kcmap tf sq th o = Ok (a :: rest) /\ forall k y, placed a k y -> (Rabs (y - IZR k / (2 * IZR n)) < 1 / (4 * IZR n))%R).
Proof. exact c94_images. Qed.
Print Assumptions C94_images.

Theorem C94_stretched_refuted : forall tf th o n t p, shaped (r_tfr o) n t -> ts_len (r_ts o) = t -> 1 <= n -> 1 <= t ->
  ((exists sq, wvd_picture Kcontour tf sq th o = Ok p) ->
     exists a rest, p = a :: rest /\ placed a (n - 1) (1 / 2) /\ forall k y, placed a k y -> (y - IZR k / (2 * IZR n) = IZR k / (2 * IZR n * IZR (n - 1)))%R) /\
  (r_n o = n -> stft_picture Kcontour tf th o = Ok p ->
     exists a rest, p = a :: rest /\ placed a (n / 2 - 1) (1 / 2) /\ forall k y, placed a k y -> (y - IZR k / IZR n = IZR (k * (n - 2 * (n / 2) + 2)) / (2 * IZR n * IZR (n / 2 - 1)))%R).
Proof. exact c94_stretched_refuted. Qed.
Print Assumptions C94_stretched_refuted.

(** STFT, Spectrogram and Cohen class: sample i is the power at bin (N-1)//2 - i. *)
Theorem C97_spectrum : forall k th sq o p, 1 <= zlen (r_sig o) ->
  stft_picture k true th o = Ok p \/ spec_picture k true th o = Ok p \/ mh_picture k true th o = Ok p \/ wvd_picture k true sq th o = Ok p ->
  exists main xs ys, p = main ++ [Line (map IZR (arange 0 (zlen (r_sig o)))) (map Re (r_sig o)); Line xs ys] /\ side_line (r_sig o) xs ys.
Proof. exact c97_spectrum. Qed.
Print Assumptions C97_spectrum.

(** Its height grows with the frequency; bin 0 is in it (at the bottom) exactly
    when N is even. *)
Theorem C97_upright : forall x xs ys, 4 <= zlen x -> side_line x xs ys -> let N := zlen x in
  (forall f, 0 <= f < (N - 1) / 2 + 1 -> (f = 0 -> N mod 2 = 0) -> exists i, 0 <= i < N / 2 /\ rnth xs i = power x N f /\
     side_height false ys (rnth ys i) = (IZR (f - N mod 2) / IZR (N / 2 - 1))%R) /\
  (forall i, 0 <= i < N / 2 -> exists f, N mod 2 <= f <= (N - 1) / 2 /\ rnth xs i = power x N f).
Proof. exact c97_upright. Qed.
Print Assumptions C97_upright.

(** Two bins: the second row, of frequency 1/4, is drawn at 3/16 by the
    Wigner-Ville image, at 1/2 by the contours. *)
Example C94_example : let x := [RtoC 1; RtoC 2] in let o := mkrep x (TsI [0; 1]) 2 [] (wvd_freqs 2) [x; x] true in
  (exists a rest, wvd_picture Kcmap false false 0 o = Ok (a :: rest) /\ placed a 1 (3 / 16)) /\
  (exists a rest, wvd_picture Kcontour false false 0 o = Ok (a :: rest) /\ placed a 1 (1 / 2)).
Proof. exact c94_example. Qed.

(** Two samples: the side line is the single point |x0 + x1|^2; three samples: the
    mean value is left out. *)
Example C97_example : forall a b c : R, (forall xs ys, side_line [RtoC a; RtoC b] xs ys -> xs = [((a + b) ^ 2)%R] /\ ys = [0%R]) /\
  (forall xs ys, side_line [RtoC a; RtoC b; RtoC c] xs ys -> xs = [power [RtoC a; RtoC b; RtoC c] 3 1]).
Proof. exact c97_example. Qed.
