(** Property theorems, restated from T_bound.v (generated by tools/genprops.py).
    C117, C118: energy bounds, stability under perturbation, and how few cells a
    representation can occupy. *)

From Coq Require Import Reals ZArith List Lia Lra Bool.
From Coquelicot Require Import Coquelicot.
From Verif Require Import Py Scalars CSum DFT Spec M_base M_stft M_cohen M_amb P_base P_stft P_wvd P_pwvd P_spec P_mh T_stft T_wvd T_pwvd T_spec T_mh T_amb T_again T_bound.
Import ListNotations.
Local Open Scope Z_scope.

Theorem C117_wvd : forall x ts n o f t, 2 <= n -> wvd x (Some ts) (Some n) = Ok o -> 0 <= f < n -> 0 <= t < zlen x ->
  (Cmod (at2 (r_tfr o) f t) <= energy x)%R.
Proof. exact c117_wvd. Qed.
Print Assumptions C117_wvd.

Theorem C117_wvd_stable : forall x y ts n ox oy f t, 2 <= n -> zlen x = zlen y -> wvd x (Some ts) (Some n) = Ok ox -> wvd y (Some ts) (Some n) = Ok oy ->
  0 <= f < n -> 0 <= t < zlen x -> (Cmod (at2 (r_tfr ox) f t - at2 (r_tfr oy) f t)%C <= l2 (diff x y) * (l2 x + l2 y))%R.
Proof. exact c117_wvd_stable. Qed.
Print Assumptions C117_wvd_stable.

Theorem C117_pwvd : forall x ts n w o m f t M, 1 <= n -> (zlen w - 1) / 2 < round_half n -> (0 <= M)%R -> (forall j, 0 <= j < zlen w -> (Cmod (cnth w j) <= M)%R) ->
  pwvd x (Some ts) (Some n) (Some w) = Ok (o, m) -> 0 <= f < n -> 0 <= t < ts_len ts -> (Cmod (at2 m f t) <= M * energy x)%R.
Proof. exact c117_pwvd. Qed.
Print Assumptions C117_pwvd.

Theorem C117_pwvd_stable : forall x y ts n w ox oy mx my f t M, 1 <= n -> (zlen w - 1) / 2 < round_half n -> (0 <= M)%R -> (forall j, 0 <= j < zlen w -> (Cmod (cnth w j) <= M)%R) ->
  zlen x = zlen y -> pwvd x (Some ts) (Some n) (Some w) = Ok (ox, mx) -> pwvd y (Some ts) (Some n) (Some w) = Ok (oy, my) -> 0 <= f < n -> 0 <= t < ts_len ts ->
  (Cmod (at2 mx f t - at2 my f t)%C <= M * (l2 (diff x y) * (l2 x + l2 y)))%R.
Proof. exact c117_pwvd_stable. Qed.
Print Assumptions C117_pwvd_stable.

(** Ambiguity function. *)
Theorem C117_ambiguity_stable : forall x y lag n nx ny lx ly xi xi' r c, 1 <= n -> zlen x = zlen y -> narrow_band x (Some lag) (Some n) = Ok (nx, lx, xi) -> narrow_band y (Some lag) (Some n) = Ok (ny, ly, xi') ->
  0 <= r < n -> 0 <= c < zlen lag -> (Cmod (at2 nx r c - at2 ny r c)%C <= l2 (diff x y) * (l2 x + l2 y))%R.
Proof. exact c117_ambiguity_stable. Qed.
Print Assumptions C117_ambiguity_stable.

Theorem C117_stft : forall x ts n w o f c, 1 <= n -> 2 * ((zlen w - 1) / 2) < n -> stft x (Some ts) (Some n) (Some w) = Ok o -> 0 <= f < n -> 0 <= c < ts_len ts ->
  (Cmod (at2 (r_tfr o) f c) <= l2 w * l2 x)%R.
Proof. exact c117_stft. Qed.
Print Assumptions C117_stft.

Theorem C117_stft_stable : forall x y ts n w ox oy f c, 1 <= n -> 2 * ((zlen w - 1) / 2) < n -> zlen x = zlen y -> stft x (Some ts) (Some n) (Some w) = Ok ox -> stft y (Some ts) (Some n) (Some w) = Ok oy ->
  0 <= f < n -> 0 <= c < ts_len ts -> (Cmod (at2 (r_tfr ox) f c - at2 (r_tfr oy) f c)%C <= l2 w * l2 (diff x y))%R.
Proof. exact c117_stft_stable. Qed.
Print Assumptions C117_stft_stable.

Theorem C117_spectrogram : forall x l n w m i ti col f, 1 <= n -> spectrogram x (Some (TsI l)) (Some n) (Some w) = Ok m -> nth_error l i = Some ti -> nth_error m i = Some (Some col) -> 0 <= f < n ->
  (0 <= rnth col f <= energy x)%R.
Proof. exact c117_spectrogram. Qed.
Print Assumptions C117_spectrogram.

Theorem C117_spectrogram_stable : forall x y l n w mx my i ti cx cy f, 1 <= n -> zlen x = zlen y -> spectrogram x (Some (TsI l)) (Some n) (Some w) = Ok mx -> spectrogram y (Some (TsI l)) (Some n) (Some w) = Ok my ->
  nth_error l i = Some ti -> nth_error mx i = Some (Some cx) -> nth_error my i = Some (Some cy) -> 0 <= f < n -> (wenergy x (wincut (maxlag w n) w) (ti - 1) <> 0)%R ->
  (Rabs (sqrt (rnth cx f) - sqrt (rnth cy f)) <= l2 (diff x y))%R.
Proof. exact c117_spectrogram_stable. Qed.
Print Assumptions C117_spectrogram_stable.

Theorem C117_mh : forall x l n o i ti f, 1 <= n -> mh x (Some (TsI l)) (Some n) = Ok o -> nth_error l (Z.to_nat i) = Some ti -> 0 <= ti -> 0 <= f < n ->
  (Cmod (at2 (r_tfr o) f i) <= Cmod (cnth x ti) * (sqrt (IZR (zlen x)) * l2 x))%R.
Proof. exact c117_mh. Qed.
Print Assumptions C117_mh.

Theorem C117_page : forall x l n o i ti f, 1 <= n -> page x (Some (TsI l)) (Some n) = Ok o -> nth_error l (Z.to_nat i) = Some ti -> 0 <= ti -> 0 <= f < n ->
  (Cmod (at2 (r_tfr o) f i) <= Cmod (cnth x ti) * (sqrt (IZR (zlen x)) * l2 x))%R.
Proof. exact c117_page. Qed.
Print Assumptions C117_page.

(** The bound is attained: an impulse. *)
Example C117_example : exists o, wvd [RtoC 0; RtoC 1; RtoC 0] None None = Ok o /\ at2 (r_tfr o) 2 1 = RtoC (energy [RtoC 0; RtoC 1; RtoC 0]) /\ energy [RtoC 0; RtoC 1; RtoC 0] = 1%R.
Proof. exact c117_example. Qed.
