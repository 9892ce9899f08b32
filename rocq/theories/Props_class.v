(** Property theorems, restated from T_class.v (generated by tools/genprops.py).
    C120: which representations are functions of the Wigner-Ville distribution. *)

From Coq Require Import Reals ZArith List Lia Lra Bool.
From Coquelicot Require Import Coquelicot.
From Verif Require Import Py Scalars CSum DFT Spec M_base M_stft M_cohen M_amb P_base P_stft P_wvd P_pwvd P_spec P_mh T_stft T_wvd T_pwvd T_spec T_mh T_amb T_again T_spwv T_dual T_bound T_class.
Import ListNotations.
Local Open Scope Z_scope.

Theorem C120_pwvd : forall x y n m ts w ox oy mx my f t, 2 <= n -> same_wvd x y n -> 1 <= m -> (zlen w - 1) / 2 < round_half m ->
  pwvd x (Some ts) (Some m) (Some w) = Ok (ox, mx) -> pwvd y (Some ts) (Some m) (Some w) = Ok (oy, my) -> 0 <= f < m -> 0 <= t < ts_len ts -> at2 mx f t = at2 my f t.
Proof. exact c120_pwvd. Qed.
Print Assumptions C120_pwvd.

Theorem C120_ambiguity : forall x y n m lag nx ny lx ly ax ay r c, 2 <= n -> same_wvd x y n -> 1 <= m ->
  narrow_band x (Some lag) (Some m) = Ok (nx, lx, ax) -> narrow_band y (Some lag) (Some m) = Ok (ny, ly, ay) -> 0 <= r < m -> 0 <= c < zlen lag -> at2 nx r c = at2 ny r c.
Proof. exact c120_ambiguity. Qed.
Print Assumptions C120_ambiguity.

Theorem C120_spwvd : forall x y n m l tw fw ox oy i ti cx cy f, 2 <= n -> same_wvd x y n -> 1 <= m -> zlen tw mod 2 = 1 -> zlen fw mod 2 = 1 ->
  spwv x (Some l) (Some m) (Some tw) (Some fw) = Ok ox -> spwv y (Some l) (Some m) (Some tw) (Some fw) = Ok oy ->
  nth_error l (Z.to_nat i) = Some ti -> nth_error ox (Z.to_nat i) = Some (Some cx) -> nth_error oy (Z.to_nat i) = Some (Some cy) -> 0 <= f < m -> rnth cx f = rnth cy f.
Proof. exact c120_spwvd. Qed.
Print Assumptions C120_spwvd.

Theorem C120_twins : same_wvd wa wb 3.
Proof. exact c120_twins. Qed.
Print Assumptions C120_twins.

Theorem C120_mh_refuted : exists x y n ox oy, 2 <= n /\ same_wvd x y n /\ mh x None None = Ok ox /\ mh y None None = Ok oy /\ at2 (r_tfr ox) 0 0 <> at2 (r_tfr oy) 0 0.
Proof. exact c120_mh_refuted. Qed.
Print Assumptions C120_mh_refuted.

Theorem C120_page_refuted : exists x y n ox oy, 2 <= n /\ same_wvd x y n /\ page x None None = Ok ox /\ page y None None = Ok oy /\ at2 (r_tfr ox) 0 0 <> at2 (r_tfr oy) 0 0.
Proof. exact c120_page_refuted. Qed.
Print Assumptions C120_page_refuted.

Theorem C120_spectrogram_refuted : exists x y n w mx my cx cy, 2 <= n /\ same_wvd x y n /\ spectrogram x None None (Some w) = Ok mx /\ spectrogram y None None (Some w) = Ok my /\
  nth_error mx 1 = Some (Some cx) /\ nth_error my 1 = Some (Some cy) /\ rnth cx 0 = 2%R /\ rnth cy 0 = 0%R.
Proof. exact c120_spectrogram_refuted. Qed.
Print Assumptions C120_spectrogram_refuted.
