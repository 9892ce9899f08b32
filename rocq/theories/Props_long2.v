(** Property theorems, restated from T_long2.v (generated by tools/genprops.py).
    C20, C103, C106, C117 - C120, C122: windows of any length. *)

From Coq Require Import Reals ZArith List Lia Lra Bool.
From Coquelicot Require Import Coquelicot.
From Verif Require Import Py Scalars CSum DFT Spec M_base M_stft M_cohen M_amb M_dom M_gen1 P_base P_stft P_wvd P_pwvd P_spec P_mh T_stft T_wvd T_pwvd T_spec T_mh T_amb T_again T_gen1 T_tone T_bound T_cells T_par T_sep T_rev T_dual T_class T_long T_heap2 T_long2.
Import ListNotations.
Local Open Scope Z_scope.

(** *** C117 *)
Theorem C117_stft_any_window : forall x ts n w o f c, 1 <= n -> stft x (Some ts) (Some n) (Some w) = Ok o -> 0 <= f < n -> 0 <= c < ts_len ts ->
  (Cmod (at2 (r_tfr o) f c) <= l2 w * l2 x)%R.
Proof. exact c117_stft_any_window. Qed.
Print Assumptions C117_stft_any_window.

Theorem C117_stft_stable_any_window : forall x y ts n w ox oy f c, 1 <= n -> zlen x = zlen y -> stft x (Some ts) (Some n) (Some w) = Ok ox -> stft y (Some ts) (Some n) (Some w) = Ok oy ->
  0 <= f < n -> 0 <= c < ts_len ts -> (Cmod (at2 (r_tfr ox) f c - at2 (r_tfr oy) f c)%C <= l2 w * l2 (diff x y))%R.
Proof. exact c117_stft_stable_any_window. Qed.
Print Assumptions C117_stft_stable_any_window.

Theorem C117_pwvd_any_window : forall x ts n w o m f t M, 1 <= n -> (0 <= M)%R -> (forall j, 0 <= j < zlen w -> (Cmod (cnth w j) <= M)%R) ->
  pwvd x (Some ts) (Some n) (Some w) = Ok (o, m) -> 0 <= f < n -> 0 <= t < ts_len ts -> (Cmod (at2 m f t) <= M * energy x)%R.
Proof. exact c117_pwvd_any_window. Qed.
Print Assumptions C117_pwvd_any_window.

Theorem C117_pwvd_stable_any_window : forall x y ts n w ox oy mx my f t M, 1 <= n -> (0 <= M)%R -> (forall j, 0 <= j < zlen w -> (Cmod (cnth w j) <= M)%R) ->
  zlen x = zlen y -> pwvd x (Some ts) (Some n) (Some w) = Ok (ox, mx) -> pwvd y (Some ts) (Some n) (Some w) = Ok (oy, my) -> 0 <= f < n -> 0 <= t < ts_len ts ->
  (Cmod (at2 mx f t - at2 my f t)%C <= M * (l2 (diff x y) * (l2 x + l2 y)))%R.
Proof. exact c117_pwvd_stable_any_window. Qed.
Print Assumptions C117_pwvd_stable_any_window.

Theorem C118_stft_any_window : forall x ts n w o c, 1 <= n -> stft x (Some ts) (Some n) (Some w) = Ok o -> 0 <= c < ts_len ts ->
  (exists f, 0 <= f < n /\ at2 (r_tfr o) f c <> RtoC 0) ->
  n <= nonzero (arange 0 n) (fun f => at2 (r_tfr o) f c) * nonzero (arange 0 (zlen x)) (fun k => sigf x k * Cconj (winf w (k - (c - 1))))%C.
Proof. exact c118_stft_any_window. Qed.
Print Assumptions C118_stft_any_window.

(** *** C119 *)
Theorem C119_pwvd_any_window : forall x y ts n w ox oy op om mx my mp mm f t, 1 <= n -> zlen x = zlen y ->
  pwvd x (Some ts) (Some n) (Some w) = Ok (ox, mx) -> pwvd y (Some ts) (Some n) (Some w) = Ok (oy, my) -> pwvd (plus x y) (Some ts) (Some n) (Some w) = Ok (op, mp) -> pwvd (diff x y) (Some ts) (Some n) (Some w) = Ok (om, mm) ->
  0 <= f < n -> 0 <= t < ts_len ts -> (at2 mp f t + at2 mm f t = RtoC 2 * at2 mx f t + RtoC 2 * at2 my f t)%C.
Proof. exact c119_pwvd_any_window. Qed.
Print Assumptions C119_pwvd_any_window.

(** *** C106 *)
Theorem C106_stft_any_window : forall x y a b ts n w o o1 o2 f c, zlen x = zlen y -> 1 <= n -> apart (2 * ((zlen w - 1) / 2)) x y ->
  stft x (Some ts) (Some n) (Some w) = Ok o1 -> stft y (Some ts) (Some n) (Some w) = Ok o2 -> stft (lincomb a b x y) (Some ts) (Some n) (Some w) = Ok o -> 0 <= f < n -> 0 <= c < ts_len ts ->
  (Cmod (at2 (r_tfr o) f c) ^ 2 = Cmod a ^ 2 * Cmod (at2 (r_tfr o1) f c) ^ 2 + Cmod b ^ 2 * Cmod (at2 (r_tfr o2) f c) ^ 2)%R.
Proof. exact c106_stft_any_window. Qed.
Print Assumptions C106_stft_any_window.

Theorem C106_pseudo_any_window : forall x y a b ts n w o m o1 m1 o2 m2 f t, zlen x = zlen y -> 1 <= n -> apart (2 * ((zlen w - 1) / 2)) x y ->
  pwvd x (Some ts) (Some n) (Some w) = Ok (o1, m1) -> pwvd y (Some ts) (Some n) (Some w) = Ok (o2, m2) -> pwvd (lincomb a b x y) (Some ts) (Some n) (Some w) = Ok (o, m) -> 0 <= f < n -> 0 <= t < ts_len ts ->
  at2 m f t = (RtoC (Cmod a ^ 2) * at2 m1 f t + RtoC (Cmod b ^ 2) * at2 m2 f t)%C.
Proof. exact c106_pseudo_any_window. Qed.
Print Assumptions C106_pseudo_any_window.

(** *** C120 *)
Theorem C120_pwvd_any_window : forall x y n m ts w ox oy mx my f t, 2 <= n -> same_wvd x y n -> 1 <= m ->
  pwvd x (Some ts) (Some m) (Some w) = Ok (ox, mx) -> pwvd y (Some ts) (Some m) (Some w) = Ok (oy, my) -> 0 <= f < m -> 0 <= t < ts_len ts -> at2 mx f t = at2 my f t.
Proof. exact c120_pwvd_any_window. Qed.
Print Assumptions C120_pwvd_any_window.

Theorem C122_pwvd_real_window : forall x tx ty n w ox mx oy my oz mz f t, 1 <= n -> (forall k, Cconj (winf w k) = winf w k) ->
  pwvd x (Some tx) (Some n) (Some w) = Ok (ox, mx) -> pwvd (rev x) (Some ty) (Some n) (Some w) = Ok (oy, my) -> pwvd (cconj x) (Some tx) (Some n) (Some w) = Ok (oz, mz) ->
  0 <= f < n -> 0 <= t < ts_len tx -> 0 <= zlen x - 1 - t < ts_len ty ->
  at2 my ((- f) mod n) (zlen x - 1 - t) = at2 mx f t /\ at2 mz ((- f) mod n) t = at2 mx f t.
Proof. exact c122_pwvd_real_window. Qed.
Print Assumptions C122_pwvd_real_window.

Theorem C122_stft_conj_any_window : forall x ts n w f c, 1 <= n -> (forall k, Cconj (winf w k) = winf w k) -> 0 <= f < n -> 0 <= c < ts_len ts ->
  exists ox oy, stft x (Some ts) (Some n) (Some w) = Ok ox /\ stft (cconj x) (Some ts) (Some n) (Some w) = Ok oy /\
  at2 (r_tfr oy) ((- f) mod n) c = Cconj (at2 (r_tfr ox) f c).
Proof. exact c122_stft_conj_any_window. Qed.
Print Assumptions C122_stft_conj_any_window.

(** With a window longer than the bins the reversal of the short-time Fourier transform fails. *)
Theorem C122_stft_reversal_long_refuted : exists x n w f c ox oy, (forall k, winf w (- k) = winf w k) /\ 1 <= n /\ 0 <= f < n /\ 0 <= c < zlen x /\ 0 <= zlen x + 1 - c < zlen x /\
  stft x None (Some n) (Some w) = Ok ox /\ stft (rev x) None (Some n) (Some w) = Ok oy /\ at2 (r_tfr oy) ((- f) mod n) (zlen x + 1 - c) = RtoC 1 /\ at2 (r_tfr ox) f c = RtoC 0.
Proof. exact c122_stft_reversal_long_refuted. Qed.
Print Assumptions C122_stft_reversal_long_refuted.

(** *** C103 *)
Theorem C103_bound_any_window : forall N f0 c0 y law ts n w o f c, 0 <= c0 < N -> fmconst N f0 (Some (IZR c0)) = Ok (map Some y, law) -> 1 <= n ->
  stft y (Some ts) (Some n) (Some w) = Ok o -> 0 <= f < n -> 0 <= c < ts_len ts -> (Cmod (at2 (r_tfr o) f c) <= window_weight w N (c - 1))%R.
Proof. exact c103_bound_any_window. Qed.
Print Assumptions C103_bound_any_window.

Theorem C20_any_window : forall x l ts n w, 1 <= n -> let m := Z.min (round_half n - 1) ((zlen w - 1) / 2) in
  exists o mat, stft x (Some ts) (Some n) (Some (middle w m)) = Ok o /\ spectrogram x (Some (TsI l)) (Some n) (Some w) = Ok mat /\ zlen mat = zlen l /\
  forall i ti col f, nth_error l i = Some ti -> 0 <= ti < ts_len ts -> nth_error mat i = Some (Some col) -> 0 <= f < n ->
  (rnth col f * wenergy x (winf (middle w m)) (ti - 1) = Cmod (at2 (r_tfr o) f ti) ^ 2)%R.
Proof. exact c20_any_window. Qed.
Print Assumptions C20_any_window.

Theorem C20_long_window_refuted : exists x n w c o m col, 1 <= n /\ 0 <= c < zlen x /\ stft x None (Some n) (Some w) = Ok o /\ spectrogram x None (Some n) (Some w) = Ok m /\
  nth_error m (Z.to_nat c) = Some (Some col) /\ (rnth col 0 * wenergy x (winf w) (c - 1) = 3)%R /\ (Cmod (at2 (r_tfr o) 0 c) ^ 2 = 4)%R.
Proof. exact c20_long_window_refuted. Qed.
Print Assumptions C20_long_window_refuted.
