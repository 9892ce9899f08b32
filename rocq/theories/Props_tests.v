(** Property theorems, restated from T_tests.v (generated by tools/genprops.py).
    C132: what the assertions of the library's own tests come to for all parameters
    (tftb/processing/tests, tftb/generators/tests). *)

From Coq Require Import Reals ZArith List Lia Lra Bool.
From Coquelicot Require Import Coquelicot.
From Verif Require Import Py Scalars CSum DFT Spec M_base M_utils M_putils M_stft M_cohen M_amb M_dom M_gen1 M_gen2
  P_base P_stft P_spec P_wvd T_wvd T_stft T_spec T_pwvd T_amb T_dom T_putils T_utils T_gen1 T_gen2 T_gallery M_gallery T_dual T_tests.
Import ListNotations.
Local Open Scope Z_scope.

Theorem C132_spectrogram_local : forall x y l l' n w m m' i j t u, 1 <= n ->
  spectrogram x (Some (TsI l)) (Some n) (Some w) = Ok m -> spectrogram y (Some (TsI l')) (Some n) (Some w) = Ok m' ->
  nth_error l i = Some t -> nth_error l' j = Some u -> let h := maxlag w n in
  h <= t - 1 -> t + h <= zlen x -> h <= u - 1 -> u + h <= zlen y -> (forall k, - h <= k <= h -> cnth x (t - 1 + k) = cnth y (u - 1 + k)) ->
  nth_error m i = nth_error m' j.
Proof. exact c132_spectrogram_local. Qed.
Print Assumptions C132_spectrogram_local.

(** The columns of the rolled signal are the rolled columns, wherever the window fits on both sides. *)
Theorem C132_spectrogram_roll : forall x n w s mx my t u, 1 <= n ->
  spectrogram x None (Some n) (Some w) = Ok mx -> spectrogram (roll s x) None (Some n) (Some w) = Ok my ->
  u = (t + s) mod zlen x -> let h := maxlag w n in
  h <= t - 1 -> t + h <= zlen x -> h <= u - 1 -> u + h <= zlen x -> 0 <= t < zlen x ->
  nth_error my (Z.to_nat u) = nth_error mx (Z.to_nat t).
Proof. exact c132_spectrogram_roll. Qed.
Print Assumptions C132_spectrogram_roll.

Theorem C132_spectrogram_energy : forall x n w m A, 1 <= n -> spectrogram x None (Some n) (Some w) = Ok m -> 1 <= maxlag w n ->
  (forall c, In c m -> c <> None) -> (forall k, 0 <= k < zlen x -> Cmod (cnth x k) = A) -> rsum m mass = (IZR n * energy x)%R.
Proof. exact c132_spectrogram_energy. Qed.
Print Assumptions C132_spectrogram_energy.
