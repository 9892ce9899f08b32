(** Property theorems, restated from T_state.v (generated by tools/genprops.py).
    C15, C16: calling run() again, and the effects of plot(). *)

From Coq Require Import Reals ZArith List Lia Lra Bool Psatz.
From Coquelicot Require Import Coquelicot.
From Verif Require Import Py Scalars CSum DFT Spec M_base M_stft M_cohen M_utils M_state T_state.
From Verif Require Import P_base P_stft P_wvd P_pwvd T_utils.
Import ListNotations.
Local Open Scope Z_scope.

(** A second [run] of a short-time Fourier transform always succeeds, and gives
    the same matrix exactly when the first result vanishes at every frequency
    bin that is not the residue of a lag of that column. *)
Theorem C15_stft_second_run : forall x ts n w, 1 <= n ->
  exists o1 o2, stft x (Some ts) (Some n) (Some w) = Ok o1 /\ stft_run o1 = Ok o2 /\
  (r_tfr o2 = r_tfr o1 <->
   forall c f, 0 <= c < ts_len ts -> 0 <= f < n ->
     (forall t, let m := Z.min (round_half n) ((zlen w - 1) / 2) in
        - Z.min m (c - 1) <= t <= Z.min m (zlen x - c) -> t mod n <> f) ->
     at2 (r_tfr o1) f c = RtoC 0).
Proof. exact c15_stft_second_run. Qed.
Print Assumptions C15_stft_second_run.

(** For a one-sample window this is never the case (signal not starting with 0). *)
Theorem C15_stft_refuted : forall x ts n, 2 <= n -> 2 <= ts_len ts -> 1 <= zlen x -> cnth x 0 <> RtoC 0 ->
  exists o1 o2, stft x (Some ts) (Some n) (Some [RtoC 1]) = Ok o1 /\ stft_run o1 = Ok o2 /\
  r_tfr o2 <> r_tfr o1.
Proof. exact c15_stft_refuted. Qed.
Print Assumptions C15_stft_refuted.

Theorem C15_wvd_refuted : forall x ts n o1, 2 <= n -> cnth x 0 <> RtoC 0 ->
  wvd x (Some ts) (Some n) = Ok o1 ->
  exists o2, wvd_run o1 = Ok o2 /\ r_tfr o2 <> r_tfr o1 /\
  (forall f, 0 <= f < n -> at2 (r_tfr o1) f 0 = RtoC (Cmod (cnth x 0) ^ 2)) /\
  at2 (r_tfr o2) 0 0 = RtoC (IZR n * Cmod (cnth x 0) ^ 2) /\
  (forall f, 1 <= f < n -> at2 (r_tfr o2) f 0 = RtoC 0).
Proof. exact c15_wvd_refuted. Qed.
Print Assumptions C15_wvd_refuted.

Theorem C15_pwvd_refuted : forall x ts n w o1 m1, 2 <= n -> 1 <= ts_len ts -> cnth x 0 <> RtoC 0 ->
  w <> [] -> Re (cnth w ((zlen w - 1) / 2)) <> 0%R ->
  pwvd x (Some ts) (Some n) (Some w) = Ok (o1, m1) ->
  exists o2 m2, pwvd_run o1 = Ok (o2, m2) /\ m2 <> m1.
Proof. exact c15_pwvd_refuted. Qed.
Print Assumptions C15_pwvd_refuted.

(** A concrete case of each hypothesis: x = [1, 1], two bins. *)
Example C15_example : exists o1, wvd [RtoC 1; RtoC 1] (Some (TsI [0; 1])) (Some 2) = Ok o1 /\
  cnth [RtoC 1; RtoC 1] 0 <> RtoC 0.
Proof. exact c15_example. Qed.

(** Plotting a Wigner-Ville distribution twice (default sqmod=False) displays the
    same data; the stored matrix has become the thresholded modulus. *)
Theorem C16_wvd_plot_idempotent : forall th o o1, (0 <= th)%R -> wvd_plot false th o = Ok o1 ->
  wvd_plot false th o1 = Ok o1 /\
  (forall c z, In c (r_tfr o1) -> In z c -> exists r, z = RtoC r /\ (0 <= r)%R).
Proof. exact c16_wvd_plot_idempotent. Qed.
Print Assumptions C16_wvd_plot_idempotent.

(** What is stored afterwards is not the distribution any more: signs are lost. *)
Theorem C16_wvd_plot_destroys_refuted : exists o o1 : rep C, wvd_plot false 0 o = Ok o1 /\ r_tfr o1 <> r_tfr o /\
  r_tfr o = [[RtoC (-1); RtoC 3]].
Proof. exact c16_wvd_plot_destroys_refuted. Qed.
Print Assumptions C16_wvd_plot_destroys_refuted.

Theorem C16_spectrogram_plot_twice : forall th o o1 a1, (0 <= th)%R -> nonneg_tfr (r_tfr o) ->
  spec_plot th o = Ok (o1, a1) -> exists a2, spec_plot th o1 = Ok (o1, a2).
Proof. exact c16_spectrogram_plot_twice. Qed.
Print Assumptions C16_spectrogram_plot_twice.

(** ... with the default threshold 0 the array returned by [run] is not changed ... *)
Theorem C16_spectrogram_default_keeps_array : forall o o1 a1, nonneg_tfr (r_tfr o) ->
  spec_plot 0 o = Ok (o1, a1) -> a1 = r_tfr o.
Proof. exact c16_spectrogram_default_keeps_array. Qed.
Print Assumptions C16_spectrogram_default_keeps_array.

(** ... but with a positive threshold plotting rewrites the caller's array. *)
Theorem C16_spectrogram_mutates_refuted : exists o o1 a1, nonneg_tfr (r_tfr o) /\
  spec_plot (/ 2) o = Ok (o1, a1) /\ a1 <> r_tfr o /\ zlen (nth 0 a1 []) = r_n o.
Proof. exact c16_spectrogram_mutates_refuted. Qed.
Print Assumptions C16_spectrogram_mutates_refuted.

(** STFT: after [plot] only half the rows are left and running again raises
    IndexError (windows of at least 3 samples). *)
Theorem C16_stft_plot_rows : forall th o o1, stft_plot th o = Ok o1 ->
  (forall c, In c (r_tfr o) -> zlen c = r_n o) -> 0 <= r_n o ->
  (forall c, In c (r_tfr o1) -> zlen c = r_n o / 2) /\ zlen (r_tfr o1) = zlen (r_tfr o) /\
  r_freqs o1 = firstn (Z.to_nat (r_n o / 2)) (r_freqs o) /\
  r_sig o1 = r_sig o /\ r_win o1 = r_win o /\ r_n o1 = r_n o /\ r_ts o1 = r_ts o.
Proof. exact c16_stft_plot_rows. Qed.
Print Assumptions C16_stft_plot_rows.

Theorem C16_stft_run_after_plot_refuted : forall th x ts n w o o1, 2 <= n -> 3 <= ts_len ts -> 1 <= zlen x -> 3 <= zlen w ->
  stft x (Some ts) (Some n) (Some w) = Ok o -> stft_plot th o = Ok o1 -> stft_run o1 = Raise IndexError.
Proof. exact c16_stft_run_after_plot_refuted. Qed.
Print Assumptions C16_stft_run_after_plot_refuted.

Theorem C16_stft_second_plot : forall o o1 o2, stft_plot 0 o = Ok o1 -> stft_plot 0 o1 = Ok o2 ->
  forall f c, at2 (r_tfr o2) f c = (at2 (r_tfr o1) f c * at2 (r_tfr o1) f c)%C.
Proof. exact c16_stft_second_plot. Qed.
Print Assumptions C16_stft_second_plot.

Theorem C16_mh_plot_history : forall th k o r, r_tfr o <> [] -> 0 <= r ->
  (forall c, In c (r_tfr o) -> zlen c = r) ->
  (1 <= r / 2 ^ Z.of_nat k -> exists o', mh_plots th k o = Ok o' /\ r_tfr o' <> [] /\
     forall c, In c (r_tfr o') -> zlen c = r / 2 ^ Z.of_nat k) /\
  (r / 2 ^ Z.of_nat k = 0 -> (0 < k)%nat -> mh_plots th k o = Raise ValueError).
Proof. exact c16_mh_plot_history. Qed.
Print Assumptions C16_mh_plot_history.

(** With 8 rows the fourth plot raises. *)
Example C16_mh_example : forall th, let o := mkrep [] (TsI [0]) 8 [] [] [repeat (RtoC 1) 8] true in
  (exists o', mh_plots th 3 o = Ok o') /\ mh_plots th 4 o = Raise ValueError.
Proof. exact c16_mh_example. Qed.

(** The Page representation cannot be plotted at all. *)
Theorem C16_page_plot_refuted : forall o, page_plot o = Raise TypeError.
Proof. exact c16_page_plot_refuted. Qed.
Print Assumptions C16_page_plot_refuted.

Theorem C16_wvd_displays : forall sq th o o1, wvd_plot sq th o = Ok o1 -> displays (fun z => if sq then Cmod z ^ 2 else Cmod z)%R th (fun c => c) (r_tfr o) (r_tfr o1).
Proof. exact c16_wvd_displays. Qed.
Print Assumptions C16_wvd_displays.

Theorem C16_stft_displays : forall th o o1, stft_plot th o = Ok o1 -> displays (fun z => Cmod z ^ 2)%R th (fun c => firstn (Z.to_nat (r_n o / 2)) c) (r_tfr o) (r_tfr o1).
Proof. exact c16_stft_displays. Qed.
Print Assumptions C16_stft_displays.

Theorem C16_mh_displays : forall th o o1 r, mh_plot th o = Ok o1 -> r_tfr o <> [] -> (forall c, In c (r_tfr o) -> zlen c = r) ->
  displays (fun z => Cmod z ^ 2)%R th (fun c => firstn (Z.to_nat (r / 2)) c) (r_tfr o) (r_tfr o1).
Proof. exact c16_mh_displays. Qed.
Print Assumptions C16_mh_displays.
