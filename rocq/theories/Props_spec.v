(** Property theorems, restated from T_spec.v (generated by tools/genprops.py).
    C17 - C20: the spectrogram. *)

From Coq Require Import Reals ZArith List Lia Lra Bool.
From Coquelicot Require Import Coquelicot.
From Verif Require Import Py Scalars CSum DFT Spec M_base M_stft M_cohen P_base P_stft P_spec T_stft T_spec.
Import ListNotations.
Local Open Scope Z_scope.

(** *** C17 *)
(** A column is NaN exactly when the window overlaps the signal but vanishes on
    the overlap; otherwise it has n non-negative entries. *)
Theorem C17_spectrogram_total : forall x l n w, 1 <= n ->
  exists m, spectrogram x (Some (TsI l)) (Some n) (Some w) = Ok m /\ zlen m = zlen l /\
  forall i ti, nth_error l i = Some ti ->
    ((exists k, 0 <= k < zlen x /\ - maxlag w n <= k - (ti - 1) <= maxlag w n) /\
     wenergy x (wincut (maxlag w n) w) (ti - 1) = 0%R /\ nth_error m i = Some None) \/
    (~ ((exists k, 0 <= k < zlen x /\ - maxlag w n <= k - (ti - 1) <= maxlag w n) /\
     wenergy x (wincut (maxlag w n) w) (ti - 1) = 0%R) /\
     exists col, nth_error m i = Some (Some col) /\ zlen col = n /\ forall v, In v col -> (0 <= v)%R).
Proof. exact c17_spectrogram_total. Qed.
Print Assumptions C17_spectrogram_total.

(** The default window never produces NaN. *)
Theorem C17_spectrogram_default_window : forall x l n, 1 <= n ->
  exists m, spectrogram x (Some (TsI l)) (Some n) None = Ok m /\ zlen m = zlen l /\
  forall c, In c m -> exists col, c = Some col /\ zlen col = n /\ forall v, In v col -> (0 <= v)%R.
Proof. exact c17_spectrogram_default_window. Qed.
Print Assumptions C17_spectrogram_default_window.

(** Floating-point timestamps are rejected. *)
Theorem C17_float_timestamps : forall x l n w, 0 <= (match n with Some n => n | None => zlen x end) -> l <> [] ->
  spectrogram x (Some (TsF l)) n w = Raise IndexError.
Proof. exact c17_float_timestamps. Qed.
Print Assumptions C17_float_timestamps.

(** A window of zeros gives a NaN column. *)
Theorem C17_nan_refuted : exists (x w : list C) m,
  spectrogram x None None (Some w) = Ok m /\ In None m.
Proof. exact c17_nan_refuted. Qed.
Print Assumptions C17_nan_refuted.

Example C17_example : exists m, spectrogram [RtoC 1; Ci; RtoC 2] None None None = Ok m /\ zlen m = 3.
Proof. exact c17_example. Qed.

(** *** C18 *)
(** Mean over frequency = |w|^2-weighted mean of |x|^2 around sample t-1. *)
Theorem C18_spectrogram_weighted_mean : forall x l n w m i ti col, 1 <= n ->
  spectrogram x (Some (TsI l)) (Some n) (Some w) = Ok m ->
  nth_error l i = Some ti -> nth_error m i = Some (Some col) ->
  (exists k, 0 <= k < zlen x /\ - maxlag w n <= k - (ti - 1) <= maxlag w n) ->
  (wenergy x (wincut (maxlag w n) w) (ti - 1) <> 0 /\
   rsum (arange 0 n) (rnth col) / IZR n =
   xwenergy x (wincut (maxlag w n) w) (ti - 1) / wenergy x (wincut (maxlag w n) w) (ti - 1))%R.
Proof. exact c18_spectrogram_weighted_mean. Qed.
Print Assumptions C18_spectrogram_weighted_mean.

(** Hence the mean lies between any bounds for |x|^2 on the window support. *)
Theorem C18_spectrogram_mean_bounds : forall x l n w m i ti col a b, 1 <= n ->
  spectrogram x (Some (TsI l)) (Some n) (Some w) = Ok m ->
  nth_error l i = Some ti -> nth_error m i = Some (Some col) ->
  (exists k, 0 <= k < zlen x /\ - maxlag w n <= k - (ti - 1) <= maxlag w n) ->
  (forall k, 0 <= k < zlen x -> - maxlag w n <= k - (ti - 1) <= maxlag w n ->
     (a <= Cmod (cnth x k) ^ 2 <= b)%R) ->
  (a <= rsum (arange 0 n) (rnth col) / IZR n <= b)%R.
Proof. exact c18_spectrogram_mean_bounds. Qed.
Print Assumptions C18_spectrogram_mean_bounds.

Theorem C18_spectrogram_unimodular : forall x l n w m i ti col, 1 <= n ->
  spectrogram x (Some (TsI l)) (Some n) (Some w) = Ok m ->
  nth_error l i = Some ti -> nth_error m i = Some (Some col) ->
  (exists k, 0 <= k < zlen x /\ - maxlag w n <= k - (ti - 1) <= maxlag w n) ->
  (forall k, 0 <= k < zlen x -> Cmod (cnth x k) = 1%R) ->
  (rsum (arange 0 n) (rnth col) / IZR n = 1)%R.
Proof. exact c18_spectrogram_unimodular. Qed.
Print Assumptions C18_spectrogram_unimodular.

(** The total over all default columns is not the signal energy: the last
    sample is never the centre of a column. *)
Theorem C18_energy_refuted : exists x m, energy x = 1%R /\
  spectrogram x None None (Some [RtoC 1]) = Ok m /\
  forall c, In c m -> exists col, c = Some col /\ rsum (arange 0 (zlen x)) (rnth col) = 0%R.
Proof. exact c18_energy_refuted. Qed.
Print Assumptions C18_energy_refuted.

Example C18_example : exists m col,
  spectrogram [RtoC 2; Ci; RtoC 3; RtoC 1] (Some (TsI [3])) (Some 4) (Some [RtoC 1]) = Ok m /\
  nth_error m 0 = Some (Some col) /\ (rsum (arange 0 4) (rnth col) / 4 = 9)%R.
Proof. exact c18_example. Qed.

(** Multiplying the signal by c multiplies every entry by |c|^2, NaN columns
    staying NaN. *)
Theorem C19_spectrogram_scale : forall x l n w c, 1 <= n ->
  exists m m', spectrogram x (Some (TsI l)) (Some n) (Some w) = Ok m /\
  spectrogram (scale c x) (Some (TsI l)) (Some n) (Some w) = Ok m' /\
  forall i, (nth_error m i = Some None <-> nth_error m' i = Some None) /\
  forall col col', nth_error m i = Some (Some col) -> nth_error m' i = Some (Some col') ->
  forall f, 0 <= f < n -> rnth col' f = (Cmod c ^ 2 * rnth col f)%R.
Proof. exact c19_spectrogram_scale. Qed.
Print Assumptions C19_spectrogram_scale.

Example C19_example : exists m m',
  spectrogram [RtoC 1; Ci; RtoC 2] None None None = Ok m /\
  spectrogram (scale (RtoC 3 * Ci)%C [RtoC 1; Ci; RtoC 2]) None None None = Ok m'.
Proof. exact c19_example. Qed.

(** *** C20 *)
Theorem C20_spectrogram_is_stft : forall x l n w, 1 <= n -> (zlen w - 1) / 2 <= round_half n - 1 ->
  exists o m, stft x (Some (TsI l)) (Some n) (Some w) = Ok o /\
  spectrogram x (Some (TsI l)) (Some n) (Some w) = Ok m /\
  forall c col f, nth_error l (Z.to_nat c) = Some c -> 0 <= c ->
    nth_error m (Z.to_nat c) = Some (Some col) -> 0 <= f < n ->
    (rnth col f * wenergy x (winf w) (c - 1) = Cmod (at2 (r_tfr o) f c) ^ 2)%R.
Proof. exact c20_spectrogram_is_stft. Qed.
Print Assumptions C20_spectrogram_is_stft.

Example C20_example : exists o m,
  stft [RtoC 1; Ci; RtoC 2; RtoC 1] None None (Some [RtoC 1; RtoC 2; RtoC 1]) = Ok o /\
  spectrogram [RtoC 1; Ci; RtoC 2; RtoC 1] None None (Some [RtoC 1; RtoC 2; RtoC 1]) = Ok m /\
  nth_error (arange 0 4) (Z.to_nat 2) = Some 2.
Proof. exact c20_example. Qed.
