(** Property theorems, restated from T_sym.v (generated by tools/genprops.py).
    C113: representations of a real signal are symmetric in frequency. *)

From Coq Require Import Reals ZArith List Lia Lra Bool.
From Coquelicot Require Import Coquelicot.
From Verif Require Import Py Scalars CSum DFT Spec M_base M_stft M_cohen M_amb P_base P_stft P_wvd P_pwvd P_spec P_mh T_stft T_wvd T_pwvd T_spec T_mh T_amb T_again T_sym.
Import ListNotations.
Local Open Scope Z_scope.

(** Short-time Fourier transform: row n - f is the conjugate of row f. *)
Theorem C113_stft : forall x ts n w o f c, real_valued x -> real_valued w -> stft x (Some ts) (Some n) (Some w) = Ok o -> 1 <= f < n -> 0 <= c < ts_len ts ->
  at2 (r_tfr o) (n - f) c = Cconj (at2 (r_tfr o) f c).
Proof. exact c113_stft. Qed.
Print Assumptions C113_stft.

(** Spectrogram: the rows f and n - f are equal. *)
Theorem C113_spectrogram : forall x l n w m i col f, real_valued x -> real_valued w -> spectrogram x (Some (TsI l)) (Some n) (Some w) = Ok m ->
  nth_error m i = Some (Some col) -> 1 <= f < n -> rnth col (n - f) = rnth col f.
Proof. exact c113_spectrogram. Qed.
Print Assumptions C113_spectrogram.

(** Wigner-Ville, pseudo Wigner-Ville, Margenau-Hill, Page, pseudo Margenau-Hill. *)
Theorem C113_wvd : forall x ts n o f t, real_valued x -> 2 <= n -> wvd x (Some ts) (Some n) = Ok o -> 1 <= f < n -> 0 <= t < zlen x ->
  at2 (r_tfr o) (n - f) t = at2 (r_tfr o) f t.
Proof. exact c113_wvd. Qed.
Print Assumptions C113_wvd.

Theorem C113_pwvd : forall x ts n w o m f c, real_valued x -> real_valued w -> pwvd x (Some ts) (Some n) (Some w) = Ok (o, m) -> 1 <= f < n -> 0 <= c < ts_len ts ->
  at2 m (n - f) c = at2 m f c.
Proof. exact c113_pwvd. Qed.
Print Assumptions C113_pwvd.

Theorem C113_mh : forall x l n o f c, real_valued x -> mh x (Some (TsI l)) (Some n) = Ok o -> 1 <= f < n -> 0 <= c < zlen l ->
  at2 (r_tfr o) (n - f) c = at2 (r_tfr o) f c.
Proof. exact c113_mh. Qed.
Print Assumptions C113_mh.

Theorem C113_page : forall x l n o f c, real_valued x -> page x (Some (TsI l)) (Some n) = Ok o -> 1 <= f < n -> 0 <= c < zlen l ->
  at2 (r_tfr o) (n - f) c = at2 (r_tfr o) f c.
Proof. exact c113_page. Qed.
Print Assumptions C113_page.

Theorem C113_pmh : forall x ts n w o f c, real_valued x -> real_valued w -> pmh x (Some ts) (Some n) (Some w) = Ok o -> 1 <= f < n -> 0 <= c < ts_len ts ->
  at2 (r_tfr o) (n - f) c = Cconj (at2 (r_tfr o) f c).
Proof. exact c113_pmh. Qed.
Print Assumptions C113_pmh.

(** Ambiguity function: opposite Doppler shifts give conjugate values. *)
Theorem C113_ambiguity : forall x lag n naf lag' xi r r' c, real_valued x -> 1 <= n -> narrow_band x (Some lag) (Some n) = Ok (naf, lag', xi) ->
  0 <= r < n -> 0 <= r' < n -> r - n / 2 = - (r' - n / 2) -> 0 <= c < zlen lag -> at2 naf r' c = Cconj (at2 naf r c).
Proof. exact c113_ambiguity. Qed.
Print Assumptions C113_ambiguity.

Example C113_example : exists o, wvd (map RtoC [1; 2; 0; 3])%R None None = Ok o /\ at2 (r_tfr o) 3 1 = at2 (r_tfr o) 1 1 /\ at2 (r_tfr o) 1 1 = RtoC 4.
Proof. exact c113_example. Qed.
