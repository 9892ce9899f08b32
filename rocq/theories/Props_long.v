(** Property theorems, restated from T_long.v (generated by tools/genprops.py).
    C11, C12, C14, C28: the short-time Fourier transform and the pseudo
    Wigner-Ville distribution with windows of any length.
    Where two lags of a column are congruent modulo n_fbins, the later one is kept. *)

From Coq Require Import Reals ZArith List Lia Lra Bool.
From Coquelicot Require Import Coquelicot.
From Verif Require Import Py Scalars CSum DFT Spec M_base M_stft M_cohen P_base P_stft P_wvd P_pwvd T_stft T_pwvd T_long.
Import ListNotations.
Local Open Scope Z_scope.

Theorem C11_any_window : forall x ts n w, 1 <= n -> exists o, stft x (Some ts) (Some n) (Some w) = Ok o /\
  forall f c, 0 <= f < n -> 0 <= c < ts_len ts -> at2 (r_tfr o) f c = STFTw x (longwin (zlen x) w n (c - 1)) n f (c - 1).
Proof. exact c11_any_window. Qed.
Print Assumptions C11_any_window.

(** With 2*lh < n_fbins nothing is lost, and this is the formula of C11. *)
Theorem C11_short_window : forall N w n c t, 1 <= n -> 2 * ((zlen w - 1) / 2) < n -> longwin N w n c t = winf w t.
Proof. exact c11_short_window. Qed.
Print Assumptions C11_short_window.

(** The plain formula fails for longer windows: the two ends of a window of n+1 samples share a bin. *)
Theorem C11_long_window_refuted : exists x n w f c o, 1 <= n /\ 0 <= f < n /\ 0 <= c < zlen x /\ stft x None (Some n) (Some w) = Ok o /\
  at2 (r_tfr o) f c = RtoC 2 /\ STFT x w n f (c - 1) = RtoC 3.
Proof. exact c11_long_window_refuted. Qed.
Print Assumptions C11_long_window_refuted.

(** Parseval in every column. *)
Theorem C12_parseval_any_window : forall x ts n w c, 1 <= n -> 0 <= c < ts_len ts -> exists o, stft x (Some ts) (Some n) (Some w) = Ok o /\
  rsum (arange 0 n) (fun f => Cmod (at2 (r_tfr o) f c) ^ 2)%R = (IZR n * xwenergy x (longwin (zlen x) w n (c - 1)) (c - 1))%R.
Proof. exact c12_parseval_any_window. Qed.
Print Assumptions C12_parseval_any_window.

(** A lag kept is recovered from the column. *)
Theorem C12_inversion_any_window : forall x ts n w c t, 1 <= n -> 0 <= c < ts_len ts -> 0 <= c - 1 + t < zlen x -> Z.abs t <= maxlag1 w n ->
  ~ (t + n <= maxlag1 w n /\ c - 1 + t + n < zlen x) ->
  exists o, stft x (Some ts) (Some n) (Some w) = Ok o /\
  csum (arange 0 n) (fun f => at2 (r_tfr o) f c * root n (f * t))%C = (RtoC (IZR n) * (cnth x (c - 1 + t) * Cconj (cnth w ((zlen w - 1) / 2 + t))))%C.
Proof. exact c12_inversion_any_window. Qed.
Print Assumptions C12_inversion_any_window.

Theorem C12_mean_any_window : forall x ts n w c, 1 <= n -> 1 <= zlen w -> 1 <= c < ts_len ts -> c <= zlen x ->
  exists o, stft x (Some ts) (Some n) (Some w) = Ok o /\
  csum (arange 0 n) (fun f => at2 (r_tfr o) f c) = (RtoC (IZR n) * (cnth x (c - 1) * Cconj (cnth w ((zlen w - 1) / 2))))%C.
Proof. exact c12_mean_any_window. Qed.
Print Assumptions C12_mean_any_window.

Theorem C12_injective_any_window : forall x y n w, 1 <= n -> 1 <= zlen w -> cnth w ((zlen w - 1) / 2) <> RtoC 0 -> zlen x = zlen y ->
  (exists ox oy, stft x None (Some n) (Some w) = Ok ox /\ stft y None (Some n) (Some w) = Ok oy /\ r_tfr ox = r_tfr oy) ->
  forall k, 0 <= k < zlen x - 1 -> cnth x k = cnth y k.
Proof. exact c12_injective_any_window. Qed.
Print Assumptions C12_injective_any_window.

(** Delays, for every window. *)
Theorem C14_any_window : forall x ts ts' n w s, 1 <= n -> 0 <= s ->
  exists ox oy, stft x (Some ts) (Some n) (Some w) = Ok ox /\ stft (delay s x) (Some ts') (Some n) (Some w) = Ok oy /\
  forall f c, 0 <= f < n -> 0 <= c < ts_len ts -> c + s < ts_len ts' -> at2 (r_tfr oy) f (c + s) = at2 (r_tfr ox) f c.
Proof. exact c14_any_window. Qed.
Print Assumptions C14_any_window.

Theorem C28_any_window : forall x ts n w o m f t, 1 <= n -> pwvd x (Some ts) (Some n) (Some w) = Ok (o, m) -> 0 <= f < n -> 0 <= t < ts_len ts ->
  at2 m f t = RtoC (Re (PWVw x (longlag (zlen x) w n t) n f t)).
Proof. exact c28_any_window. Qed.
Print Assumptions C28_any_window.

(** The plain formula fails with a longer window: the two extreme lags share bin n/2. *)
Theorem C28_long_window_refuted : exists x ts n w o m, 1 <= n /\ pwvd x (Some (TsI ts)) (Some n) (Some w) = Ok (o, m) /\ at2 m 0 1 = RtoC 2 /\ PWV x w n 0 1 = RtoC 3.
Proof. exact c28_long_window_refuted. Qed.
Print Assumptions C28_long_window_refuted.
