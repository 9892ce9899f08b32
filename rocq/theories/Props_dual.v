(** Property theorems, restated from T_dual.v (generated by tools/genprops.py).
    C110 - C112: what a Wigner-Ville distribution determines, its two-dimensional Fourier transform (the
    ambiguity function), and the pseudo Wigner-Ville distribution as a smoothing in frequency. *)

From Coq Require Import Reals ZArith List Lia Lra Bool.
From Coquelicot Require Import Coquelicot.
From Verif Require Import Py Scalars CSum DFT Spec M_base M_stft M_cohen M_amb P_base P_stft P_wvd P_pwvd T_wvd T_pwvd T_amb T_dual.
Import ListNotations.
Local Open Scope Z_scope.

(** *** C110 *)
(** Every product of two samples of equal parity can be read off the matrix. *)
Theorem C110_lag_products : forall x ts n o a b, 2 <= n -> wvd x (Some ts) (Some n) = Ok o ->
  0 <= a < zlen x -> 0 <= b < zlen x -> Z.even (a - b) = true ->
  (cnth x a * Cconj (cnth x b) = csum (arange 0 n) (fun f => at2 (r_tfr o) f ((a + b) / 2) * root n (f * ((a - b) / 2))) / RtoC (IZR n))%C.
Proof. exact c110_lag_products. Qed.
Print Assumptions C110_lag_products.

(** Two signals have the same Wigner-Ville distribution exactly when the even samples agree up to one phase
    and the odd samples up to another. *)
Theorem C110_same_distribution : forall x y tx ty n ox oy, 2 <= n -> zlen x = zlen y ->
  wvd x (Some tx) (Some n) = Ok ox -> wvd y (Some ty) (Some n) = Ok oy ->
  ((forall f t, 0 <= f < n -> 0 <= t < zlen x -> at2 (r_tfr ox) f t = at2 (r_tfr oy) f t) <->
   exists u v, Cmod u = 1%R /\ Cmod v = 1%R /\
   forall k, 0 <= k < zlen x -> cnth y k = ((if Z.even k then u else v) * cnth x k)%C).
Proof. exact c110_same_distribution. Qed.
Print Assumptions C110_same_distribution.

(** So a Wigner-Ville distribution does not determine the signal up to a phase: [1, 1] and [1, -1]. *)
Theorem C110_phase_refuted : exists x y ox oy, wvd x None None = Ok ox /\ wvd y None None = Ok oy /\
  (forall f t, 0 <= f < 2 -> 0 <= t < 2 -> at2 (r_tfr ox) f t = at2 (r_tfr oy) f t) /\ zlen x = 2 /\ zlen y = 2 /\
  ~ exists u, forall k, 0 <= k < 2 -> cnth y k = (u * cnth x k)%C.
Proof. exact c110_phase_refuted. Qed.
Print Assumptions C110_phase_refuted.

(** *** C111 *)
(** The ambiguity function is the two-dimensional Fourier transform of the Wigner-Ville distribution. *)
Theorem C111_fourier : forall x ts n o lag naf lag' xi r c, 2 <= n -> wvd x (Some ts) (Some n) = Ok o ->
  narrow_band x (Some lag) (Some n) = Ok (naf, lag', xi) -> 0 <= r < n -> 0 <= c < zlen lag ->
  let tau := nth (Z.to_nat c) lag 0 in 2 * Z.abs tau <= n ->
  (at2 naf r c = csum (arange 0 (zlen x)) (fun t => csum (arange 0 n) (fun f =>
     at2 (r_tfr o) f t * root n (f * tau - (r - n / 2) * t))) / RtoC (IZR n))%C.
Proof. exact c111_fourier. Qed.
Print Assumptions C111_fourier.

(** And back. *)
Theorem C111_inverse : forall x ts n o naf lag xi f t, 2 <= n -> wvd x (Some ts) (Some n) = Ok o -> zlen x <= n ->
  narrow_band x None (Some n) = Ok (naf, lag, xi) -> 0 <= f < n -> 0 <= t < zlen x ->
  (at2 (r_tfr o) f t = csum (arange 0 (zlen lag)) (fun c => csum (arange 0 n) (fun r =>
     at2 naf r c * root n ((r - n / 2) * t - f * nth (Z.to_nat c) lag 0))) / RtoC (IZR n))%C.
Proof. exact c111_inverse. Qed.
Print Assumptions C111_inverse.

Theorem C111_shifts : forall x lag n s m naf lag' xi, 1 <= n -> 0 <= s -> s + zlen x <= n ->
  narrow_band x (Some lag) (Some n) = Ok (naf, lag', xi) ->
  (exists naf1, narrow_band (delay s x) (Some lag) (Some n) = Ok (naf1, lag, xi) /\ forall r c, 0 <= r < n -> 0 <= c < zlen lag ->
     at2 naf1 r c = (root n (- ((r - n / 2) * s)) * at2 naf r c)%C) /\
  (exists naf2, narrow_band (modulate n m x) (Some lag) (Some n) = Ok (naf2, lag, xi) /\ forall r c, 0 <= r < n -> 0 <= c < zlen lag ->
     at2 naf2 r c = (root n (2 * m * nth (Z.to_nat c) lag 0) * at2 naf r c)%C).
Proof. exact c111_shifts. Qed.
Print Assumptions C111_shifts.

(** The Wigner-Ville distribution of a delayed signal is delayed. *)
Theorem C27_wvd_delay : forall x tx ty n s ox oy f t, 2 <= n -> 0 <= s ->
  wvd x (Some tx) (Some n) = Ok ox -> wvd (delay s x) (Some ty) (Some n) = Ok oy -> 0 <= f < n -> 0 <= t < zlen x ->
  at2 (r_tfr oy) f (t + s) = at2 (r_tfr ox) f t.
Proof. exact c27_wvd_delay. Qed.
Print Assumptions C27_wvd_delay.

Theorem C112_smoothing : forall x ts n w o m tx ow f t, 2 <= n -> w <> [] -> (zlen w - 1) / 2 < round_half n ->
  pwvd x (Some ts) (Some n) (Some w) = Ok (o, m) -> wvd x (Some tx) (Some n) = Ok ow -> 0 <= f < n -> 0 <= t < ts_len ts -> t < zlen x ->
  let smooth := (csum (arange 0 n) (fun g => at2 (r_tfr ow) g t * wtransform w n (f - g)) / RtoC (IZR n))%C in
  at2 m f t = RtoC (Re smooth) /\ ((forall k, winf w (- k) = Cconj (winf w k)) -> at2 m f t = smooth).
Proof. exact c112_smoothing. Qed.
Print Assumptions C112_smoothing.

(** Cases. *)
Example C110_example : exists o, wvd [RtoC 1; RtoC 0; Ci] None None = Ok o /\
  (csum (arange 0 3) (fun f => at2 (r_tfr o) f 1 * root 3 (f * 1)) / RtoC 3 = Ci)%C.
Proof. exact c110_example. Qed.

Example C111_example : exists o naf lag xi, wvd [RtoC 1; Ci] None None = Ok o /\ narrow_band [RtoC 1; Ci] None None = Ok (naf, lag, xi) /\ lag = [0] /\
  at2 naf 1 0 = RtoC 2 /\ (csum (arange 0 2) (fun t => csum (arange 0 2) (fun f => at2 (r_tfr o) f t)) = RtoC 4)%C.
Proof. exact c111_example. Qed.

Example C112_example : exists o m, pwvd [RtoC 1; Ci] None (Some 2) (Some [RtoC 1]) = Ok (o, m) /\ at2 m 0 1 = RtoC 1 /\ at2 m 1 1 = RtoC 1.
Proof. exact c112_example. Qed.
