(** Property theorems, restated from T_cov.v (generated by tools/genprops.py).
    C128: what modulating and delaying the signal does to the remaining representations. *)

From Coq Require Import Reals ZArith List Lia Lra Bool.
From Coquelicot Require Import Coquelicot.
From Verif Require Import Py Scalars CSum DFT Spec M_base M_stft M_cohen M_amb P_base P_stft P_wvd P_pwvd P_spec P_mh T_stft T_wvd T_pwvd T_spec T_mh T_dual T_long T_ts T_cov.
Import ListNotations.
Local Open Scope Z_scope.

(** *** Modulation *)
(** Spectrogram: the rows turn by m, and the same columns are NaN. *)
Theorem C128_spectrogram_modulation : forall x l n w m, 1 <= n -> exists mx my,
  spectrogram x (Some (TsI l)) (Some n) (Some w) = Ok mx /\ spectrogram (modulate n m x) (Some (TsI l)) (Some n) (Some w) = Ok my /\
  forall i, (nth_error mx i = Some None <-> nth_error my i = Some None) /\
  forall cx cy f, nth_error mx i = Some (Some cx) -> nth_error my i = Some (Some cy) -> 0 <= f < n -> rnth cy ((f + m) mod n) = rnth cx f.
Proof. exact c128_spectrogram_modulation. Qed.
Print Assumptions C128_spectrogram_modulation.

(** Pseudo Wigner-Ville: as for the Wigner-Ville distribution, for windows of any length. *)
Theorem C128_pwvd_modulation : forall x ts n w m ox oy mx my f t, 1 <= n ->
  pwvd x (Some ts) (Some n) (Some w) = Ok (ox, mx) -> pwvd (modulate (2 * n) m x) (Some ts) (Some n) (Some w) = Ok (oy, my) ->
  0 <= f < n -> 0 <= t < ts_len ts -> at2 my ((f + m) mod n) t = at2 mx f t.
Proof. exact c128_pwvd_modulation. Qed.
Print Assumptions C128_pwvd_modulation.

(** Margenau-Hill: the rows turn by m. *)
Theorem C128_mh_modulation : forall x l n m ox oy i ti f, 1 <= n ->
  mh x (Some (TsI l)) (Some n) = Ok ox -> mh (modulate n m x) (Some (TsI l)) (Some n) = Ok oy ->
  nth_error l (Z.to_nat i) = Some ti -> 0 <= ti < zlen x -> 0 <= f < n -> at2 (r_tfr oy) ((f + m) mod n) i = at2 (r_tfr ox) f i.
Proof. exact c128_mh_modulation. Qed.
Print Assumptions C128_mh_modulation.

(** Page and pseudo Margenau-Hill store each product one lag off: the modulated table is
    the turned one times a phase.  The pseudo Margenau-Hill table is complex and keeps its
    modulus; of Page's only the real part is kept, which the phase mixes. *)
Theorem C128_pmh_modulation : forall x ts n w m ox oy f c, 1 <= n ->
  pmh x (Some ts) (Some n) (Some w) = Ok ox -> pmh (modulate n m x) (Some ts) (Some n) (Some w) = Ok oy ->
  0 <= f < n -> 0 <= c < ts_len ts ->
  at2 (r_tfr oy) ((f + m) mod n) c = (root n m * at2 (r_tfr ox) f c)%C /\ Cmod (at2 (r_tfr oy) ((f + m) mod n) c) = Cmod (at2 (r_tfr ox) f c).
Proof. exact c128_pmh_modulation. Qed.
Print Assumptions C128_pmh_modulation.

Theorem C128_page_modulation : forall x l n m oy i ti f, 1 <= n ->
  page (modulate n m x) (Some (TsI l)) (Some n) = Ok oy -> nth_error l (Z.to_nat i) = Some ti -> 0 <= ti < zlen x -> 0 <= f < n ->
  at2 (r_tfr oy) ((f + m) mod n) i = RtoC (Re (root n m * csum (arange 0 (Z.min n (zlen x))) (fun k => cnth x ti * Cconj (cnth x k) * root n (- (f * (ti - 1 - k)))))%C).
Proof. exact c128_page_modulation. Qed.
Print Assumptions C128_page_modulation.

(** *** Delay *)
Theorem C128_pwvd_delay : forall x tx ty n w s ox oy mx my f t, 1 <= n -> (zlen w - 1) / 2 < round_half n -> 0 <= s ->
  pwvd x (Some tx) (Some n) (Some w) = Ok (ox, mx) -> pwvd (delay s x) (Some ty) (Some n) (Some w) = Ok (oy, my) ->
  0 <= f < n -> 0 <= t < ts_len tx -> t < zlen x -> t + s < ts_len ty -> at2 my f (t + s) = at2 mx f t.
Proof. exact c128_pwvd_delay. Qed.
Print Assumptions C128_pwvd_delay.

(** Page, with at least as many bins as delayed samples. *)
Theorem C128_page_delay : forall x lx ly n s ox oy i j ti f, 1 <= n -> 0 <= s -> s + zlen x <= n ->
  page x (Some (TsI lx)) (Some n) = Ok ox -> page (delay s x) (Some (TsI ly)) (Some n) = Ok oy ->
  nth_error lx (Z.to_nat i) = Some ti -> nth_error ly (Z.to_nat j) = Some (ti + s) -> 0 <= ti < zlen x -> 0 <= f < n ->
  at2 (r_tfr oy) f j = at2 (r_tfr ox) f i.
Proof. exact c128_page_delay. Qed.
Print Assumptions C128_page_delay.

(** Margenau-Hill never pairs with sample 0, so a delayed signal gains the pairs with its
    first sample. *)
Theorem C128_mh_delay : forall x lx ly n s ox oy i j ti f, 1 <= n -> 1 <= s -> s + zlen x <= n ->
  mh x (Some (TsI lx)) (Some n) = Ok ox -> mh (delay s x) (Some (TsI ly)) (Some n) = Ok oy ->
  nth_error lx (Z.to_nat i) = Some ti -> nth_error ly (Z.to_nat j) = Some (ti + s) -> 0 <= ti < zlen x -> 0 <= f < n ->
  at2 (r_tfr oy) f j = (at2 (r_tfr ox) f i + RtoC (Re (cnth x ti * Cconj (cnth x 0) * root n (- (f * ti)))))%C.
Proof. exact c128_mh_delay. Qed.
Print Assumptions C128_mh_delay.

Theorem C128_pmh_delay : forall x tx ty n w s ox oy f c, 1 <= n -> 0 <= s ->
  pmh x (Some tx) (Some n) (Some w) = Ok ox -> pmh (delay s x) (Some ty) (Some n) (Some w) = Ok oy ->
  0 <= f < n -> 0 <= c < ts_len tx -> c + s < ts_len ty -> at2 (r_tfr oy) f (c + s) = at2 (r_tfr ox) f c.
Proof. exact c128_pmh_delay. Qed.
Print Assumptions C128_pmh_delay.

Theorem C128_spectrogram_delay : forall x lx ly n w s mx my i j ti cx cy f, 1 <= n -> 0 <= s ->
  spectrogram x (Some (TsI lx)) (Some n) (Some w) = Ok mx -> spectrogram (delay s x) (Some (TsI ly)) (Some n) (Some w) = Ok my ->
  nth_error lx i = Some ti -> nth_error ly j = Some (ti + s) -> nth_error mx i = Some (Some cx) -> nth_error my j = Some (Some cy) -> 0 <= f < n ->
  let h := Z.min (round_half n - 1) ((zlen w - 1) / 2) in let E := wenergy x (wincut h w) (ti - 1) in
  (rnth cy f * (E + rsum (arange (- s) 0) (fun k => Cmod (wincut h w (k - (ti - 1))%Z) ^ 2)) = rnth cx f * E)%R /\ (h < ti -> rnth cy f = rnth cx f).
Proof. exact c128_spectrogram_delay. Qed.
Print Assumptions C128_spectrogram_delay.

(** One sample at the edge under the window 1, 1, 1: delayed by one, its column halves. *)
Theorem C128_spectrogram_edge_refuted : exists x w n s ti mx my cx cy, 0 <= s /\
  spectrogram x (Some (TsI [ti])) (Some n) (Some w) = Ok mx /\ spectrogram (delay s x) (Some (TsI [ti + s])) (Some n) (Some w) = Ok my /\
  nth_error mx 0 = Some (Some cx) /\ nth_error my 0 = Some (Some cy) /\ rnth cx 0 = 1%R /\ rnth cy 0 = (1 / 2)%R.
Proof. exact c128_spectrogram_edge_refuted. Qed.
Print Assumptions C128_spectrogram_edge_refuted.

(** One sample: Page's row 0 holds 1, and after a modulation by one bin row 1 holds 0. *)
Theorem C128_page_modulation_refuted : exists x l n m ox oy, page x (Some (TsI l)) (Some n) = Ok ox /\ page (modulate n m x) (Some (TsI l)) (Some n) = Ok oy /\
  at2 (r_tfr ox) 0 0 = RtoC 1 /\ at2 (r_tfr oy) m 0 = RtoC 0.
Proof. exact c128_page_modulation_refuted. Qed.
Print Assumptions C128_page_modulation_refuted.

(** One sample, two bins: Margenau-Hill is 0 everywhere; delayed by one sample it is 1. *)
Example C128_mh_delay_example : exists ox oy, mh [RtoC 1] (Some (TsI [0])) (Some 2) = Ok ox /\ mh (delay 1 [RtoC 1]) (Some (TsI [1])) (Some 2) = Ok oy /\
  at2 (r_tfr ox) 0 0 = RtoC 0 /\ at2 (r_tfr oy) 0 0 = RtoC 1.
Proof. exact c128_mh_delay_example. Qed.
