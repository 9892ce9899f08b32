(** Property theorems, restated from T_rev.v (generated by tools/genprops.py).
    C122: a signal played backwards, and its complex conjugate. *)

From Coq Require Import Reals ZArith List Lia Lra Bool.
From Coquelicot Require Import Coquelicot.
From Verif Require Import Py Scalars CSum DFT Spec M_base M_stft M_cohen M_amb P_base P_stft P_wvd P_pwvd P_spec P_mh T_stft T_wvd T_pwvd T_spec T_mh T_amb T_ex1 T_rev.
Import ListNotations.
Local Open Scope Z_scope.

(** Wigner-Ville: the reversed signal has the reversed distribution, frequency negated. *)
Theorem C122_wvd_reversal : forall x tx ty n ox oy f t, 2 <= n ->
  wvd x (Some tx) (Some n) = Ok ox -> wvd (rev x) (Some ty) (Some n) = Ok oy -> 0 <= f < n -> 0 <= t < zlen x ->
  at2 (r_tfr oy) ((- f) mod n) (zlen x - 1 - t) = at2 (r_tfr ox) f t.
Proof. exact c122_wvd_reversal. Qed.
Print Assumptions C122_wvd_reversal.

Theorem C122_wvd_conj : forall x tx ty n ox oy f t, 2 <= n ->
  wvd x (Some tx) (Some n) = Ok ox -> wvd (cconj x) (Some ty) (Some n) = Ok oy -> 0 <= f < n -> 0 <= t < zlen x ->
  at2 (r_tfr oy) ((- f) mod n) t = at2 (r_tfr ox) f t.
Proof. exact c122_wvd_conj. Qed.
Print Assumptions C122_wvd_conj.

(** Reversed and conjugated: the same picture read from right to left. *)
Theorem C122_wvd_mirror : forall x tx ty n ox oy f t, 2 <= n ->
  wvd x (Some tx) (Some n) = Ok ox -> wvd (cconj (rev x)) (Some ty) (Some n) = Ok oy -> 0 <= f < n -> 0 <= t < zlen x ->
  at2 (r_tfr oy) f (zlen x - 1 - t) = at2 (r_tfr ox) f t.
Proof. exact c122_wvd_mirror. Qed.
Print Assumptions C122_wvd_mirror.

(** Pseudo Wigner-Ville with a symmetric window. *)
Theorem C122_pwvd : forall x tx ty n w ox mx oy my oz mz f t, 1 <= n -> (zlen w - 1) / 2 < round_half n -> (forall k, winf w (- k) = winf w k) ->
  pwvd x (Some tx) (Some n) (Some w) = Ok (ox, mx) -> pwvd (rev x) (Some ty) (Some n) (Some w) = Ok (oy, my) -> pwvd (cconj x) (Some tx) (Some n) (Some w) = Ok (oz, mz) ->
  0 <= f < n -> 0 <= t < ts_len tx -> 0 <= zlen x - 1 - t < ts_len ty ->
  at2 my ((- f) mod n) (zlen x - 1 - t) = at2 mx f t /\ at2 mz ((- f) mod n) t = at2 mx f t.
Proof. exact c122_pwvd. Qed.
Print Assumptions C122_pwvd.

(** Short-time Fourier transform: the columns are labelled one late, so the reversal exchanges the columns c and N + 1 - c. *)
Theorem C122_stft_reversal : forall x tx ty n w f c, 1 <= n -> 2 * ((zlen w - 1) / 2) < n -> (forall k, winf w (- k) = winf w k) ->
  0 <= f < n -> 0 <= c < ts_len tx -> 0 <= zlen x + 1 - c < ts_len ty ->
  exists ox oy, stft x (Some tx) (Some n) (Some w) = Ok ox /\ stft (rev x) (Some ty) (Some n) (Some w) = Ok oy /\
  at2 (r_tfr oy) ((- f) mod n) (zlen x + 1 - c) = at2 (r_tfr ox) f c.
Proof. exact c122_stft_reversal. Qed.
Print Assumptions C122_stft_reversal.

Theorem C122_stft_conj : forall x ts n w f c, 1 <= n -> 2 * ((zlen w - 1) / 2) < n -> (forall k, Cconj (winf w k) = winf w k) ->
  0 <= f < n -> 0 <= c < ts_len ts ->
  exists ox oy, stft x (Some ts) (Some n) (Some w) = Ok ox /\ stft (cconj x) (Some ts) (Some n) (Some w) = Ok oy /\
  at2 (r_tfr oy) ((- f) mod n) c = Cconj (at2 (r_tfr ox) f c).
Proof. exact c122_stft_conj. Qed.
Print Assumptions C122_stft_conj.

(** Spectrogram at the timestamps N + 1 - t of the reversed signal: NaN in the same columns, the other columns with frequency negated. *)
Theorem C122_spectrogram_reversal : forall x l n w, 1 <= n -> (forall k, winf w (- k) = winf w k) ->
  exists m m', spectrogram x (Some (TsI l)) (Some n) (Some w) = Ok m /\
  spectrogram (rev x) (Some (TsI (map (fun t => zlen x + 1 - t) l))) (Some n) (Some w) = Ok m' /\ zlen m = zlen l /\ zlen m' = zlen l /\
  forall i, (nth_error m i = Some None <-> nth_error m' i = Some None) /\
  forall col col' f, nth_error m i = Some (Some col) -> nth_error m' i = Some (Some col') -> 0 <= f < n -> rnth col' ((- f) mod n) = rnth col f.
Proof. exact c122_spectrogram_reversal. Qed.
Print Assumptions C122_spectrogram_reversal.

(** Narrow-band ambiguity function of the reversed and of the conjugated signal. *)
Theorem C122_ambiguity : forall x lag n nx lx xx ny ly xy nz lz xz r r' c, 1 <= n ->
  narrow_band x (Some lag) (Some n) = Ok (nx, lx, xx) -> narrow_band (rev x) (Some lag) (Some n) = Ok (ny, ly, xy) -> narrow_band (cconj x) (Some lag) (Some n) = Ok (nz, lz, xz) ->
  0 <= r < n -> 0 <= r' < n -> r - n / 2 = - (r' - n / 2) -> 0 <= c < zlen lag ->
  at2 ny r c = (root n (- ((r - n / 2) * (zlen x - 1))) * Cconj (at2 nx r c))%C /\ Cmod (at2 ny r c) = Cmod (at2 nx r c) /\ at2 nz r' c = Cconj (at2 nx r c).
Proof. exact c122_ambiguity. Qed.
Print Assumptions C122_ambiguity.

(** Margenau-Hill: the code leaves out the sample 0 of the signal, so the reversal leaves out the other end. *)
Theorem C122_mh : forall x l l' n ox oy i i' t f, zlen x <= n -> 1 <= zlen x ->
  mh x (Some (TsI l)) (Some n) = Ok ox -> mh (rev x) (Some (TsI l')) (Some n) = Ok oy ->
  nth_error l (Z.to_nat i) = Some t -> nth_error l' (Z.to_nat i') = Some (zlen x - 1 - t) -> 0 <= t < zlen x -> 0 <= f < n ->
  (at2 (r_tfr oy) ((- f) mod n) i' - at2 (r_tfr ox) f i =
   RtoC (Re (cnth x t * Cconj (cnth x 0) * root n (- (f * t)))) - RtoC (Re (cnth x t * Cconj (cnth x (zlen x - 1)) * root n (- (f * (t - (zlen x - 1))))%Z)))%C.
Proof. exact c122_mh. Qed.
Print Assumptions C122_mh.

(** An impulse at sample 0 is invisible, the reversed signal, an impulse at the last sample, is not. *)
Theorem C122_mh_refuted : exists x ox oy, mh x None None = Ok ox /\ mh (rev x) None None = Ok oy /\
  at2 (r_tfr ox) 0 0 = RtoC 0 /\ at2 (r_tfr oy) 0 (zlen x - 1 - 0) = RtoC 1.
Proof. exact c122_mh_refuted. Qed.
Print Assumptions C122_mh_refuted.

(** Page: two equal samples are their own reversal, and row 1 at the start is not row 3 at the end. *)
Theorem C122_page_refuted : exists x o, rev x = x /\ page x None (Some 4) = Ok o /\
  at2 (r_tfr o) 1 0 = RtoC (-1) /\ at2 (r_tfr o) ((- (1)) mod 4) (zlen x - 1 - 0) = RtoC 1.
Proof. exact c122_page_refuted. Qed.
Print Assumptions C122_page_refuted.

(** [1, i, 2]: in the middle column, row 1 carries 1 + 2 Re(2 e^(-2i pi/3)), and so does row 2 of the reversed signal. *)
Example C122_example : exists ox oy, wvd [RtoC 1; Ci; RtoC 2] None None = Ok ox /\ wvd [RtoC 2; Ci; RtoC 1] None None = Ok oy /\
  at2 (r_tfr oy) 2 1 = at2 (r_tfr ox) 1 1 /\ at2 (r_tfr ox) 0 1 = RtoC 5.
Proof. exact c122_example. Qed.
