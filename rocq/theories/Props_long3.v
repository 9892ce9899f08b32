(** Property theorems, restated from T_long3.v (generated by tools/genprops.py).
    C112 for windows of any length. *)

From Coq Require Import Reals ZArith List Lia Lra Bool.
From Coquelicot Require Import Coquelicot.
From Verif Require Import Py Scalars CSum DFT Spec M_base M_stft M_cohen M_amb P_base P_stft P_wvd P_pwvd P_spec T_stft T_wvd T_pwvd T_dual T_long T_long2 T_long3.
Import ListNotations.
Local Open Scope Z_scope.

(** Where the Wigner-Ville distribution with n bins exists, the pseudo Wigner-Ville
    distribution is its smoothing by the part of the window with lags below round(n/2). *)
Theorem C112_any_window : forall x ts n w o m tx ow f t, 2 <= n -> w <> [] ->
  pwvd x (Some ts) (Some n) (Some w) = Ok (o, m) -> wvd x (Some tx) (Some n) = Ok ow -> 0 <= f < n -> 0 <= t < ts_len ts -> t < zlen x ->
  let v := middle w (Z.min (round_half n - 1) ((zlen w - 1) / 2)) in
  let smooth := (csum (arange 0 n) (fun g => at2 (r_tfr ow) g t * wtransform v n (f - g)) / RtoC (IZR n))%C in
  at2 m f t = RtoC (Re smooth) /\ ((forall k, winf w (- k) = Cconj (winf w k)) -> at2 m f t = smooth).
Proof. exact c112_any_window. Qed.
Print Assumptions C112_any_window.
