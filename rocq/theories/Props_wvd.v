(** Property theorems, restated from T_wvd.v (generated by tools/genprops.py).
    C21 - C27: the Wigner-Ville distribution. *)

From Coq Require Import Reals ZArith List Lia Lra Bool.
From Coquelicot Require Import Coquelicot.
From Verif Require Import Py Scalars CSum DFT Spec M_base M_stft M_cohen P_base P_stft P_wvd T_wvd.
Import ListNotations.
Local Open Scope Z_scope.

(** *** C21 *)
(** A fresh run either returns an n-by-N matrix with frequency labels k/(2n), or
    raises IndexError; it raises exactly when some column lies between
    round(n/2)+1 and N-round(n/2). *)
Theorem C21_wvd_outcome : forall x ts n, 1 <= n -> ts_len ts = zlen x ->
  ((exists c, 0 <= c < zlen x /\ round_half n + 1 <= c <= zlen x - round_half n) /\
   wvd x (Some ts) (Some n) = Raise IndexError) \/
  ((forall c, 0 <= c < zlen x -> ~ (round_half n + 1 <= c <= zlen x - round_half n)) /\
   exists o, wvd x (Some ts) (Some n) = Ok o /\ r_ts o = ts /\
     zlen (r_tfr o) = zlen x /\ (forall col, In col (r_tfr o) -> zlen col = n) /\
     zlen (r_freqs o) = n /\ forall k, 0 <= k < n -> rnth (r_freqs o) k = (IZR k / (2 * IZR n))%R).
Proof. exact c21_wvd_outcome. Qed.
Print Assumptions C21_wvd_outcome.

(** With the default number of bins (n = N): failure exactly for N = 5, 9, 13, ... *)
Theorem C21_wvd_default : forall x, x <> [] ->
  (wvd x None None = Raise IndexError <-> zlen x mod 4 = 1 /\ 5 <= zlen x) /\
  (~ (zlen x mod 4 = 1 /\ 5 <= zlen x) -> exists o, wvd x None None = Ok o).
Proof. exact c21_wvd_default. Qed.
Print Assumptions C21_wvd_default.

(** Every request for fewer than N-1 bins fails. *)
Theorem C21_wvd_few_bins : forall x n, 1 <= n <= zlen x - 2 ->
  wvd x None (Some n) = Raise IndexError.
Proof. exact c21_wvd_few_bins. Qed.
Print Assumptions C21_wvd_few_bins.

Theorem C21_wvd_timestamps : forall x ts n, ts_len ts <> zlen x ->
  wvd x (Some ts) (Some n) = Raise ValueError.
Proof. exact c21_wvd_timestamps. Qed.
Print Assumptions C21_wvd_timestamps.

Theorem C21_refuted : exists x : list C, wvd x None None = Raise IndexError.
Proof. exact c21_refuted. Qed.
Print Assumptions C21_refuted.

Example C21_example : exists o, wvd [RtoC 1; Ci; RtoC 2; RtoC 3] None None = Ok o.
Proof. exact c21_example. Qed.

(** *** C22 *)
(** The complex matrix before np.real is real. *)
Theorem C22_wvd_real : forall x n m f t, 1 <= n ->
  wvd_cplx false x (zlen x) n (zeros2 n (zlen x)) = Ok m ->
  0 <= f < n -> 0 <= t < zlen x -> Im (at2 m f t) = 0%R.
Proof. exact c22_wvd_real. Qed.
Print Assumptions C22_wvd_real.

(** What is returned is the full Wigner-Ville sum (no part of it is lost). *)
Theorem C22_wvd_closed_form : forall x ts n o f t, 2 <= n ->
  wvd x (Some ts) (Some n) = Ok o -> 0 <= f < n -> 0 <= t < zlen x ->
  at2 (r_tfr o) f t = WV x n f t /\ Im (WV x n f t) = 0%R.
Proof. exact c22_wvd_closed_form. Qed.
Print Assumptions C22_wvd_closed_form.

Example C22_example : exists o, wvd [RtoC 1; Ci] None None = Ok o /\ at2 (r_tfr o) 1 1 = RtoC 1.
Proof. exact c22_example. Qed.

(** *** C23 *)
Theorem C23_wvd_time_marginal : forall x ts n o t, 2 <= n ->
  wvd x (Some ts) (Some n) = Ok o -> 0 <= t < zlen x ->
  csum (arange 0 n) (fun f => at2 (r_tfr o) f t) = RtoC (IZR n * Cmod (cnth x t) ^ 2).
Proof. exact c23_wvd_time_marginal. Qed.
Print Assumptions C23_wvd_time_marginal.

Theorem C23_wvd_energy : forall x ts n o, 2 <= n ->
  wvd x (Some ts) (Some n) = Ok o ->
  csum (arange 0 (zlen x)) (fun t => csum (arange 0 n) (fun f => at2 (r_tfr o) f t))
  = RtoC (IZR n * energy x).
Proof. exact c23_wvd_energy. Qed.
Print Assumptions C23_wvd_energy.

(** One bin: the single sample is lost, so the marginal needs n >= 2. *)
Theorem C23_one_bin_refuted : exists o, wvd [RtoC 1] None None = Ok o /\
  csum (arange 0 1) (fun f => at2 (r_tfr o) f 0) = RtoC 0.
Proof. exact c23_one_bin_refuted. Qed.
Print Assumptions C23_one_bin_refuted.

Example C23_example : exists o, wvd [RtoC 3; RtoC 1; RtoC 0; RtoC 2] None None = Ok o /\
  csum (arange 0 4) (fun f => at2 (r_tfr o) f 0) = RtoC 36.
Proof. exact c23_example. Qed.

(** *** C24 *)
Theorem C24_wvd_freq_marginal : forall x ts n o k, 2 <= n ->
  wvd x (Some ts) (Some n) = Ok o -> 0 <= k < n ->
  csum (arange 0 (zlen x)) (fun t => at2 (r_tfr o) k t)
  = RtoC ((Cmod (DTFT x n k) ^ 2 + Cmod (DTFT x n (k + n)) ^ 2) / 2) /\
  rnth (r_freqs o) k = (IZR k / (2 * IZR n))%R.
Proof. exact c24_wvd_freq_marginal. Qed.
Print Assumptions C24_wvd_freq_marginal.

(** A unit impulse at sample 0 of 4: every row sums to 1. *)
Example C24_example : exists o, wvd [RtoC 1; RtoC 0; RtoC 0; RtoC 0] None None = Ok o /\
  csum (arange 0 4) (fun t => at2 (r_tfr o) 3 t) = RtoC 1.
Proof. exact c24_example. Qed.

(** *** C25 *)
Theorem C25_wvd_support : forall x ts n o f t a b, 2 <= n ->
  wvd x (Some ts) (Some n) = Ok o -> 0 <= f < n -> 0 <= t < zlen x ->
  (forall k, 0 <= k < zlen x -> k < a \/ b <= k -> cnth x k = RtoC 0) ->
  t < a \/ b <= t -> at2 (r_tfr o) f t = RtoC 0.
Proof. exact c25_wvd_support. Qed.
Print Assumptions C25_wvd_support.

Example C25_example : exists o, wvd [RtoC 0; RtoC 1; Ci; RtoC 0] None None = Ok o /\
  at2 (r_tfr o) 2 0 = RtoC 0 /\ at2 (r_tfr o) 2 3 = RtoC 0.
Proof. exact c25_example. Qed.

(** *** C26 *)
Theorem C26_wvd_moyal : forall x y tx ty n ox oy, 2 <= n -> zlen x = zlen y ->
  wvd x (Some tx) (Some n) = Ok ox -> wvd y (Some ty) (Some n) = Ok oy ->
  csum (arange 0 (zlen x)) (fun t => csum (arange 0 n) (fun f =>
     at2 (r_tfr ox) f t * Cconj (at2 (r_tfr oy) f t)))%C
  = RtoC (IZR n * (Cmod (inner_par true x y) ^ 2 + Cmod (inner_par false x y) ^ 2)).
Proof. exact c26_wvd_moyal. Qed.
Print Assumptions C26_wvd_moyal.

Example C26_example : exists ox oy,
  wvd [RtoC 1; RtoC 1] None None = Ok ox /\ wvd [RtoC 2; RtoC 3] None None = Ok oy /\
  csum (arange 0 2) (fun t => csum (arange 0 2) (fun f =>
     at2 (r_tfr ox) f t * Cconj (at2 (r_tfr oy) f t)))%C = RtoC 26.
Proof. exact c26_example. Qed.

(** *** C27 *)
(** Multiplication by exp(i pi m k / n) shifts the rows cyclically by m. *)
Theorem C27_wvd_modulation : forall x ts n m ox oy f t, 2 <= n ->
  wvd x (Some ts) (Some n) = Ok ox -> wvd (modulate (2 * n) m x) (Some ts) (Some n) = Ok oy ->
  0 <= f < n -> 0 <= t < zlen x ->
  at2 (r_tfr oy) ((f + m) mod n) t = at2 (r_tfr ox) f t.
Proof. exact c27_wvd_modulation. Qed.
Print Assumptions C27_wvd_modulation.

Theorem C27_wvd_scale : forall x ts n c ox oy f t, 2 <= n ->
  wvd x (Some ts) (Some n) = Ok ox -> wvd (scale c x) (Some ts) (Some n) = Ok oy ->
  0 <= f < n -> 0 <= t < zlen x ->
  at2 (r_tfr oy) f t = (RtoC (Cmod c ^ 2) * at2 (r_tfr ox) f t)%C.
Proof. exact c27_wvd_scale. Qed.
Print Assumptions C27_wvd_scale.

Theorem C27_wvd_parallelogram : forall x y ts n ox oy op om f t, 2 <= n -> zlen x = zlen y ->
  wvd x (Some ts) (Some n) = Ok ox -> wvd y (Some ts) (Some n) = Ok oy ->
  wvd (lincomb (RtoC 1) (RtoC 1) x y) (Some ts) (Some n) = Ok op ->
  wvd (lincomb (RtoC 1) (RtoC (-1)) x y) (Some ts) (Some n) = Ok om ->
  0 <= f < n -> 0 <= t < zlen x ->
  (at2 (r_tfr op) f t + at2 (r_tfr om) f t =
   RtoC 2 * at2 (r_tfr ox) f t + RtoC 2 * at2 (r_tfr oy) f t)%C.
Proof. exact c27_wvd_parallelogram. Qed.
Print Assumptions C27_wvd_parallelogram.

(** Whether a run returns does not depend on the sample values, so the
    hypotheses above are met together. *)
Theorem C27_wvd_returns_by_shape : forall x y ts n ox, 1 <= n -> zlen x = zlen y ->
  wvd x (Some ts) (Some n) = Ok ox -> exists oy, wvd y (Some ts) (Some n) = Ok oy.
Proof. exact c27_wvd_returns_by_shape. Qed.
Print Assumptions C27_wvd_returns_by_shape.

Example C27_example : exists ox oy,
  wvd [RtoC 1; Ci; RtoC 2; RtoC 3] None None = Ok ox /\
  wvd (modulate 8 3 [RtoC 1; Ci; RtoC 2; RtoC 3]) None None = Ok oy /\
  at2 (r_tfr oy) 1 2 = at2 (r_tfr ox) 2 2.
Proof. exact c27_example. Qed.
