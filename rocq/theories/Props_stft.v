(** Property theorems, restated from T_stft.v (generated by tools/genprops.py).
    C07 - C14: construction and the short-time Fourier transform. *)

From Coq Require Import Reals ZArith List Lia Lra Bool.
From Coquelicot Require Import Coquelicot.
From Verif Require Import Py Scalars CSum DFT Spec M_base M_stft P_base P_stft T_stft.
Import ListNotations.
Local Open Scope Z_scope.

(** *** C07 *)
Theorem C07_freqs_even : forall x ts n w, 1 <= n -> n mod 2 = 0 ->
  exists o, stft x (Some ts) (Some n) (Some w) = Ok o /\
  zlen (r_freqs o) = n /\ (forall c, In c (r_tfr o) -> zlen c = zlen (r_freqs o)) /\
  (forall k, 0 <= k < n / 2 -> rnth (r_freqs o) k = (IZR k / IZR n)%R) /\
  (forall k, n / 2 <= k < n -> rnth (r_freqs o) k = (IZR (k - n) / IZR n)%R).
Proof. exact c07_freqs_even. Qed.
Print Assumptions C07_freqs_even.

Example C07_even_example : (1 <= 6) /\ 6 mod 2 = 0 /\ rnth (base_freqs 6) 4 = (IZR (-2) / IZR 6)%R.
Proof. exact c07_even_example. Qed.

(** Odd sizes: one label is missing and the negative half is displaced by 1/n. *)
Theorem C07_freqs_odd_short : forall x ts n w, 1 <= n -> n mod 2 = 1 ->
  exists o, stft x (Some ts) (Some n) (Some w) = Ok o /\
  zlen (r_freqs o) = n - 1 /\ (forall c, In c (r_tfr o) -> zlen c = n) /\
  (forall k, 0 <= k < n / 2 -> rnth (r_freqs o) k = (IZR k / IZR n)%R) /\
  (forall k, n / 2 <= k < n - 1 -> rnth (r_freqs o) k = (IZR (k - (n - 1)) / IZR n)%R).
Proof. exact c07_freqs_odd_short. Qed.
Print Assumptions C07_freqs_odd_short.

Theorem C07_refuted : exists x : list C, exists o,
  stft x None None None = Ok o /\ (exists c, In c (r_tfr o) /\ zlen c <> zlen (r_freqs o)).
Proof. exact c07_refuted. Qed.
Print Assumptions C07_refuted.

(** *** C08 *)
Theorem C08_default_window : forall n, 1 <= n ->
  let w := make_window n in
  Z.odd (zlen w) = true /\ n / 4 <= zlen w <= n / 4 + 1 /\
  (forall k, 0 <= k < zlen w -> (0.08 <= rnth w k <= 1)%R) /\
  (forall k, 0 <= k < zlen w -> rnth w k = rnth w (zlen w - 1 - k)) /\
  rnth w ((zlen w - 1) / 2) = 1%R.
Proof. exact c08_default_window. Qed.
Print Assumptions C08_default_window.

Example C08_example : zlen (make_window 128) = 33 /\ zlen (make_window 20) = 5.
Proof. exact c08_example. Qed.

Theorem C09_stft_total : forall x ts n w, 1 <= n ->
  exists o, stft x (Some ts) (Some n) (Some w) = Ok o /\
  r_ts o = ts /\ zlen (r_tfr o) = ts_len ts /\ (forall c, In c (r_tfr o) -> zlen c = n).
Proof. exact c09_stft_total. Qed.
Print Assumptions C09_stft_total.

Theorem C09_stft_total_default : forall x, x <> [] ->
  exists o, stft x None None None = Ok o /\
  zlen (r_tfr o) = zlen x /\ (forall c, In c (r_tfr o) -> zlen c = zlen x).
Proof. exact c09_stft_total_default. Qed.
Print Assumptions C09_stft_total_default.

(** *** C10 *)
Theorem C10_stft_linear : forall a b x y ts n w,
  1 <= n -> zlen x = zlen y ->
  exists ox oy oz,
    stft x (Some ts) (Some n) (Some w) = Ok ox /\ stft y (Some ts) (Some n) (Some w) = Ok oy /\
    stft (lincomb a b x y) (Some ts) (Some n) (Some w) = Ok oz /\
    forall f c, 0 <= f < n -> 0 <= c < ts_len ts ->
    at2 (r_tfr oz) f c = (a * at2 (r_tfr ox) f c + b * at2 (r_tfr oy) f c)%C.
Proof. exact c10_stft_linear. Qed.
Print Assumptions C10_stft_linear.

(** *** C11 *)
Theorem C11_stft_closed_form : forall x ts n w f c,
  1 <= n -> 2 * ((zlen w - 1) / 2) < n -> 0 <= f < n -> 0 <= c < ts_len ts ->
  exists o, stft x (Some ts) (Some n) (Some w) = Ok o /\
  at2 (r_tfr o) f c = STFT x w n f (c - 1).
Proof. exact c11_stft_closed_form. Qed.
Print Assumptions C11_stft_closed_form.

(** The time origin is one sample early: an impulse at sample 0 peaks in column 1. *)
Example C11_example : exists o,
  stft [RtoC 1; RtoC 0; RtoC 0; RtoC 0] None None (Some [RtoC 1]) = Ok o /\
  at2 (r_tfr o) 0 0 = RtoC 0 /\ at2 (r_tfr o) 0 1 = RtoC 1.
Proof. exact c11_example. Qed.

(** *** C12 *)
Theorem C12_stft_parseval : forall x ts n w c,
  1 <= n -> 2 * ((zlen w - 1) / 2) < n -> 0 <= c < ts_len ts ->
  exists o, stft x (Some ts) (Some n) (Some w) = Ok o /\
  rsum (arange 0 n) (fun f => Cmod (at2 (r_tfr o) f c) ^ 2)%R =
  (IZR n * rsum (arange 0 (zlen x)) (fun k => Cmod (cnth x k) ^ 2 * Cmod (winf w (k - (c - 1))) ^ 2))%R.
Proof. exact c12_stft_parseval. Qed.
Print Assumptions C12_stft_parseval.

Theorem C12_stft_inversion : forall x ts n w c t,
  1 <= n -> 2 * ((zlen w - 1) / 2) < n -> 0 <= c < ts_len ts ->
  - ((zlen w - 1) / 2) <= t <= (zlen w - 1) / 2 -> 0 <= c - 1 + t < zlen x ->
  exists o, stft x (Some ts) (Some n) (Some w) = Ok o /\
  csum (arange 0 n) (fun f => at2 (r_tfr o) f c * root n (f * t))%C
  = (RtoC (IZR n) * (cnth x (c - 1 + t) * Cconj (cnth w ((zlen w - 1) / 2 + t))))%C.
Proof. exact c12_stft_inversion. Qed.
Print Assumptions C12_stft_inversion.

Theorem C12_stft_mean : forall x ts n w,
  1 <= n -> 2 * ((zlen w - 1) / 2) < n -> 1 <= zlen w ->
  exists o, stft x (Some ts) (Some n) (Some w) = Ok o /\
  (forall c, 1 <= c < ts_len ts -> c <= zlen x ->
     csum (arange 0 n) (fun f => at2 (r_tfr o) f c)
     = (RtoC (IZR n) * (cnth x (c - 1) * Cconj (cnth w ((zlen w - 1) / 2))))%C) /\
  (0 < ts_len ts -> csum (arange 0 n) (fun f => at2 (r_tfr o) f 0) = RtoC 0).
Proof. exact c12_stft_mean. Qed.
Print Assumptions C12_stft_mean.

(** Two signals with the same default-timestamp STFT agree on all samples but the last. *)
Theorem C12_stft_injective : forall x y n w,
  1 <= n -> 2 * ((zlen w - 1) / 2) < n -> cnth w ((zlen w - 1) / 2) <> RtoC 0 -> 1 <= zlen w ->
  zlen x = zlen y ->
  (exists ox oy, stft x None (Some n) (Some w) = Ok ox /\ stft y None (Some n) (Some w) = Ok oy /\
   r_tfr ox = r_tfr oy) ->
  forall k, 0 <= k < zlen x - 1 -> cnth x k = cnth y k.
Proof. exact c12_stft_injective. Qed.
Print Assumptions C12_stft_injective.

(** *** C13 *)
Theorem C13_stft_modulation : forall x ts n w m,
  1 <= n ->
  exists ox oy, stft x (Some ts) (Some n) (Some w) = Ok ox /\
    stft (modulate n m x) (Some ts) (Some n) (Some w) = Ok oy /\
    forall f c, 0 <= f < n -> 0 <= c < ts_len ts ->
    at2 (r_tfr oy) f c = (root n (m * (c - 1)) * at2 (r_tfr ox) ((f - m) mod n) c)%C /\
    Cmod (at2 (r_tfr oy) f c) = Cmod (at2 (r_tfr ox) ((f - m) mod n) c).
Proof. exact c13_stft_modulation. Qed.
Print Assumptions C13_stft_modulation.

(** *** C14 *)
Theorem C14_stft_delay : forall x ts ts' n w s,
  1 <= n -> 2 * ((zlen w - 1) / 2) < n -> 0 <= s ->
  exists ox oy, stft x (Some ts) (Some n) (Some w) = Ok ox /\
    stft (delay s x) (Some ts') (Some n) (Some w) = Ok oy /\
    forall f c, 0 <= f < n -> 0 <= c < ts_len ts -> c + s < ts_len ts' ->
    at2 (r_tfr oy) f (c + s) = at2 (r_tfr ox) f c.
Proof. exact c14_stft_delay. Qed.
Print Assumptions C14_stft_delay.
