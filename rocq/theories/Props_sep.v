(** Property theorems, restated from T_sep.v (generated by tools/genprops.py).
    C106: components further apart than the window do not interfere. *)

From Coq Require Import Reals ZArith List Lia Lra Bool.
From Coquelicot Require Import Coquelicot.
From Flocq Require Import Core.
From Verif Require Import Py Scalars CSum DFT Spec M_base M_stft M_cohen P_base P_stft P_spec P_wvd P_pwvd T_stft T_spec T_wvd T_pwvd T_sep.
Import ListNotations.
Local Open Scope Z_scope.

(** Short-time Fourier transform: squared moduli add. *)
Theorem C106_stft : forall x y a b ts n w o o1 o2 f c, zlen x = zlen y -> 1 <= n -> 2 * ((zlen w - 1) / 2) < n -> apart (2 * ((zlen w - 1) / 2)) x y ->
  stft x (Some ts) (Some n) (Some w) = Ok o1 -> stft y (Some ts) (Some n) (Some w) = Ok o2 -> stft (lincomb a b x y) (Some ts) (Some n) (Some w) = Ok o -> 0 <= f < n -> 0 <= c < ts_len ts ->
  (Cmod (at2 (r_tfr o) f c) ^ 2 = Cmod a ^ 2 * Cmod (at2 (r_tfr o1) f c) ^ 2 + Cmod b ^ 2 * Cmod (at2 (r_tfr o2) f c) ^ 2)%R.
Proof. exact c106_stft. Qed.
Print Assumptions C106_stft.

(** Spectrogram: every call returns, NaN columns coincide, the entries add. *)
Theorem C106_spectrogram : forall x y a b l n w, zlen x = zlen y -> 1 <= n -> apart (2 * maxlag w n) x y ->
  exists m1 m2 m, spectrogram x (Some (TsI l)) (Some n) (Some w) = Ok m1 /\ spectrogram y (Some (TsI l)) (Some n) (Some w) = Ok m2 /\ spectrogram (lincomb a b x y) (Some (TsI l)) (Some n) (Some w) = Ok m /\
  forall i, (nth_error m i = Some None <-> nth_error m1 i = Some None) /\ (nth_error m i = Some None <-> nth_error m2 i = Some None) /\
  forall col1 col2 col, nth_error m1 i = Some (Some col1) -> nth_error m2 i = Some (Some col2) -> nth_error m i = Some (Some col) ->
  forall f, 0 <= f < n -> rnth col f = (Cmod a ^ 2 * rnth col1 f + Cmod b ^ 2 * rnth col2 f)%R.
Proof. exact c106_spectrogram. Qed.
Print Assumptions C106_spectrogram.

Theorem C106_pseudo : forall x y a b ts n w o m o1 m1 o2 m2 f t, zlen x = zlen y -> 1 <= n -> (zlen w - 1) / 2 < round_half n -> apart (2 * ((zlen w - 1) / 2)) x y ->
  pwvd x (Some ts) (Some n) (Some w) = Ok (o1, m1) -> pwvd y (Some ts) (Some n) (Some w) = Ok (o2, m2) -> pwvd (lincomb a b x y) (Some ts) (Some n) (Some w) = Ok (o, m) -> 0 <= f < n -> 0 <= t < ts_len ts ->
  at2 m f t = (RtoC (Cmod a ^ 2) * at2 m1 f t + RtoC (Cmod b ^ 2) * at2 m2 f t)%C.
Proof. exact c106_pseudo. Qed.
Print Assumptions C106_pseudo.

Theorem C106_wigner : forall n i d f o o1 o2, 0 <= i -> 1 <= d -> i + 2 * d < n -> 0 <= f < n ->
  wvd (impulse n i) None None = Ok o1 -> wvd (impulse n (i + 2 * d)) None None = Ok o2 -> wvd (lincomb (RtoC 1) (RtoC 1) (impulse n i) (impulse n (i + 2 * d))) None None = Ok o ->
  at2 (r_tfr o1) f (i + d) = RtoC 0 /\ at2 (r_tfr o2) f (i + d) = RtoC 0 /\ at2 (r_tfr o) f (i + d) = RtoC (2 * cos (2 * PI * IZR (f * d) / IZR n)).
Proof. exact c106_wigner. Qed.
Print Assumptions C106_wigner.

(** Impulses 4 apart, rectangular window of 3: at bin 0 half way, the Wigner-Ville
    distribution has 2, the pseudo Wigner-Ville distribution 0. *)
Example C106_example : exists o o' m, let z := lincomb (RtoC 1) (RtoC 1) (impulse 8 1) (impulse 8 5) in
  wvd z None None = Ok o /\ pwvd z (Some (TsI (arange 0 8))) (Some 8) (Some (repeat (RtoC 1) 3)) = Ok (o', m) /\ at2 (r_tfr o) 0 3 = RtoC 2 /\ at2 m 0 3 = RtoC 0.
Proof. exact c106_example. Qed.
