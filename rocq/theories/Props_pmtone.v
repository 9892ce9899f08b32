(** Property theorems, restated from T_pmtone.v (generated by tools/genprops.py).
    C158: PseudoMargenauHillDistribution of a tone and of an impulse. *)

From Coq Require Import Reals ZArith List Lia Lra Bool.
From Coquelicot Require Import Coquelicot.
From Flocq Require Import Core.
From Verif Require Import Py Scalars CSum DFT Spec M_base M_stft M_cohen M_amb M_putils M_reas P_base P_stft P_wvd P_mh P_pwvd P_spec P_spwv T_mh T_spwv T_red T_key T_noise T_putils T_reas T_reas2 T_conc T_rtone T_sptone T_pmtone.
Import ListNotations.
Local Open Scope Z_scope.

(** A tone, columns whose window lies inside the signal. *)
Theorem C158_tone : forall x a nu ts n w o f c, is_tone x a nu -> 1 <= n -> pmh x (Some ts) (Some n) (Some w) = Ok o -> 0 <= f < n -> 0 <= c < ts_len ts ->
  (zlen w - 1) / 2 <= c - 1 -> c + (zlen w - 1) / 2 <= zlen x ->
  at2 (r_tfr o) f c = (RtoC (Cmod a ^ 2) * cis (2 * PI * nu) * win_ft w (nu - IZR f / IZR n))%C.
Proof. exact c158_tone. Qed.
Print Assumptions C158_tone.

(** Non-negative windows: the modulus is largest on the row of the tone, but the value there has the phase of the frequency. *)
Theorem C158_row : forall x a nu ts n w o f c q, is_tone x a nu -> 1 <= n -> pmh x (Some ts) (Some n) (Some w) = Ok o -> 0 <= f < n -> 0 <= c < ts_len ts ->
  (zlen w - 1) / 2 <= c - 1 -> c + (zlen w - 1) / 2 <= zlen x -> (nu = IZR f / IZR n + IZR q)%R ->
  at2 (r_tfr o) f c = (RtoC (Cmod a ^ 2) * cis (2 * PI * nu) * csum (win_lags w) (winf w))%C.
Proof. exact c158_row. Qed.
Print Assumptions C158_row.

Theorem C158_peak : forall x a nu ts n w o f c q, is_tone x a nu -> 1 <= n -> real_list w -> (forall t, (0 <= Re (winf w t))%R) -> pmh x (Some ts) (Some n) (Some w) = Ok o -> 0 <= f < n -> 0 <= c < ts_len ts ->
  (zlen w - 1) / 2 <= c - 1 -> c + (zlen w - 1) / 2 <= zlen x -> (nu = IZR f / IZR n + IZR q)%R ->
  (forall f', 0 <= f' < n -> (Cmod (at2 (r_tfr o) f' c) <= Cmod (at2 (r_tfr o) f c))%R) /\ at2 (r_tfr o) f c = (RtoC (Cmod a ^ 2 * rsum (win_lags w) (fun t => Re (winf w t))) * cis (2 * PI * nu))%C.
Proof. exact c158_peak. Qed.
Print Assumptions C158_peak.

(** At a quarter of the sampling frequency the real part of the peak is 0. *)
Theorem C158_quarter : forall x a ts n w o f c, is_tone x a (1 / 4) -> 1 <= n -> real_list w -> (forall t, (0 <= Re (winf w t))%R) -> pmh x (Some ts) (Some n) (Some w) = Ok o -> 0 <= c < ts_len ts ->
  (zlen w - 1) / 2 <= c - 1 -> c + (zlen w - 1) / 2 <= zlen x -> n = 4 * f -> Re (at2 (r_tfr o) f c) = 0%R.
Proof. exact c158_quarter. Qed.
Print Assumptions C158_quarter.

(** An impulse: the weight is that of lag -1, and the column of the impulse turns with the row. *)
Theorem C158_impulse : forall x k a ts n w o f c, only_at x k a -> 0 <= k < zlen x -> 1 <= n -> pmh x (Some ts) (Some n) (Some w) = Ok o -> 0 <= f < n -> 0 <= c < ts_len ts ->
  at2 (r_tfr o) f c = if c =? k then (RtoC (Cmod a ^ 2) * winf w (-1) * cis (2 * PI * IZR f / IZR n))%C else RtoC 0.
Proof. exact c158_impulse. Qed.
Print Assumptions C158_impulse.

(** The rows of the impulse add up to nothing, and a one-point window shows no impulse at all. *)
Theorem C158_lost : forall x k a ts n w o c, only_at x k a -> 0 <= k < zlen x -> 1 <= n -> pmh x (Some ts) (Some n) (Some w) = Ok o -> 0 <= c < ts_len ts ->
  (2 <= n -> csum (arange 0 n) (fun f => at2 (r_tfr o) f c) = RtoC 0) /\ (zlen w <= 2 -> forall f, 0 <= f < n -> at2 (r_tfr o) f c = RtoC 0).
Proof. exact c158_lost. Qed.
Print Assumptions C158_lost.

(** 1, i, -1, -i on 8 rows with [1, 1, 1]: 3i on the row of the tone; 0, 0, 2, 0: 4 on row 0, -4 on row 4. *)
Example C158_example : let x := [RtoC 1; Ci; RtoC (-1); (- Ci)%C] in let y := [RtoC 0; RtoC 0; RtoC 2; RtoC 0] in let w := [RtoC 1; RtoC 1; RtoC 1] in let ts := Some (TsI [0; 1; 2; 3]) in
  (exists o, pmh x ts (Some 8) (Some w) = Ok o /\ at2 (r_tfr o) 2 2 = (RtoC 3 * Ci)%C) /\
  (exists o, pmh y ts (Some 8) (Some w) = Ok o /\ at2 (r_tfr o) 0 2 = RtoC 4 /\ at2 (r_tfr o) 4 2 = RtoC (-4)).
Proof. exact c158_example. Qed.
