(** Property theorems, restated from T_chirp.v (generated by tools/genprops.py).
    C100: the Wigner-Ville distribution of a linear chirp. *)

From Coq Require Import Reals ZArith List Lia Lra Bool.
From Coquelicot Require Import Coquelicot.
From Flocq Require Import Core.
From Verif Require Import Py Scalars CSum DFT Spec M_base M_stft M_cohen M_dom M_gen1 P_base P_stft P_wvd T_dom T_gen1 T_wvd Dirichlet T_chirp.
Import ListNotations.
Local Open Scope Z_scope.

(** Entry (f, t) of the distribution of a linear chirp of n samples is the
    Dirichlet kernel of the available lags, centred at twice the instantaneous
    frequency. *)
Theorem C100_entry : forall n fi ff t0 y law o f t, fmlin n fi ff t0 = Ok (y, law) -> wvd y None None = Ok o -> 0 <= f < n -> 0 <= t < n ->
  at2 (r_tfr o) f t = RtoC (dirichlet (reach n t) (2 * rnth law t - IZR f / IZR n)).
Proof. exact c100_entry. Qed.
Print Assumptions C100_entry.

(** Row f holds the largest absolute value of column t iff no row is nearer to
    twice the instantaneous frequency (modulo 1). *)
Theorem C100_ridge : forall n fi ff t0 y law o f t, fmlin n fi ff t0 = Ok (y, law) -> wvd y None None = Ok o -> 0 <= f < n -> 1 <= t <= n - 2 ->
  ((forall g, 0 <= g < n -> (Cmod (at2 (r_tfr o) g t) <= Cmod (at2 (r_tfr o) f t))%R) <->
   (forall g, 0 <= g < n -> (dist_int (2 * rnth law t - IZR f / IZR n) <= dist_int (2 * rnth law t - IZR g / IZR n))%R)).
Proof. exact c100_ridge. Qed.
Print Assumptions C100_ridge.

(** The label of such a row is within 1/(4n) of the instantaneous frequency,
    modulo 1/2. *)
Theorem C100_label : forall n fi ff t0 y law o f t, fmlin n fi ff t0 = Ok (y, law) -> wvd y None None = Ok o -> 0 <= f < n -> 1 <= t <= n - 2 ->
  (forall g, 0 <= g < n -> (Cmod (at2 (r_tfr o) g t) <= Cmod (at2 (r_tfr o) f t))%R) ->
  exists q, (Rabs (rnth law t - (rnth (r_freqs o) f + IZR q / 2)) <= 1 / (4 * IZR n))%R.
Proof. exact c100_label. Qed.
Print Assumptions C100_label.

(** The value on the ridge: 2 min(t, n-1-t) + 1 is the largest value an entry of
    column t can take, and it is taken exactly where the row is on the law. *)
Theorem C100_peak : forall n fi ff t0 y law o f t, fmlin n fi ff t0 = Ok (y, law) -> wvd y None None = Ok o -> 0 <= f < n -> 0 <= t < n ->
  (Cmod (at2 (r_tfr o) f t) <= IZR (2 * reach n t + 1))%R /\
  (1 <= t <= n - 2 -> (Cmod (at2 (r_tfr o) f t) = IZR (2 * reach n t + 1) <-> exists q, (2 * rnth law t = IZR f / IZR n + IZR q)%R)).
Proof. exact c100_peak. Qed.
Print Assumptions C100_peak.

(** The first and last columns are constant. *)
Theorem C100_ends : forall n fi ff t0 y law o f t, fmlin n fi ff t0 = Ok (y, law) -> wvd y None None = Ok o -> 0 <= f < n -> t = 0 \/ t = n - 1 -> at2 (r_tfr o) f t = RtoC 1.
Proof. exact c100_ends. Qed.
Print Assumptions C100_ends.

(** Four samples from frequency 0 to 1/2: at sample 1 (frequency 1/6) row 1
    (frequency 1/8) is a maximum; all rows below are smaller. *)
Example C100_example : exists y law o, fmlin 4 0 (1 / 2) None = Ok (y, law) /\ wvd y None None = Ok o /\ rnth law 1 = (1 / 6)%R /\
  forall g, 0 <= g < 4 -> (Cmod (at2 (r_tfr o) g 1) <= Cmod (at2 (r_tfr o) 1 1))%R.
Proof. exact c100_example. Qed.

(** A combination of two chirps with the same sweep: the distribution is the
    weighted sum of the two distributions and of an oscillating term on the mean of the two laws. *)
Theorem C101_interference : forall n ca cb a1 b1 t1 x1 l1 o1 a2 b2 t2 x2 l2 o2 o f t,
  fmlin n a1 b1 t1 = Ok (x1, l1) -> fmlin n a2 b2 t2 = Ok (x2, l2) -> (b1 - a1 = b2 - a2)%R ->
  wvd x1 None None = Ok o1 -> wvd x2 None None = Ok o2 -> wvd (lincomb ca cb x1 x2) None None = Ok o -> 0 <= f < n -> 0 <= t < n ->
  at2 (r_tfr o) f t = (RtoC (Cmod ca ^ 2) * at2 (r_tfr o1) f t + RtoC (Cmod cb ^ 2) * at2 (r_tfr o2) f t +
    RtoC (2 * Re (ca * Cconj cb * (cnth x1 t * Cconj (cnth x2 t))) * dirichlet (reach n t) (rnth l1 t + rnth l2 t - IZR f / IZR n)))%C.
Proof. exact c101_interference. Qed.
Print Assumptions C101_interference.

(** The factor of the interference oscillates at the difference of the frequencies. *)
Theorem C101_oscillation : forall n a1 b1 t1 x1 l1 a2 b2 t2 x2 l2 t, fmlin n a1 b1 t1 = Ok (x1, l1) -> fmlin n a2 b2 t2 = Ok (x2, l2) -> (b1 - a1 = b2 - a2)%R -> 0 <= t < n ->
  (cnth x1 t * Cconj (cnth x2 t) = cnth x1 0 * Cconj (cnth x2 0) * cis (2 * PI * ((a1 - a2) * IZR t)))%C /\ Cmod (cnth x1 0 * Cconj (cnth x2 0))%C = 1%R.
Proof. exact c101_oscillation. Qed.
Print Assumptions C101_oscillation.

(** Equal weights, a row on the mean of the two laws: the interference term is twice
    the largest value of either chirp, times the oscillating factor. *)
Theorem C101_size : forall n a1 b1 t1 x1 l1 a2 b2 t2 x2 l2 o1 o2 o f t q, fmlin n a1 b1 t1 = Ok (x1, l1) -> fmlin n a2 b2 t2 = Ok (x2, l2) -> (b1 - a1 = b2 - a2)%R ->
  wvd x1 None None = Ok o1 -> wvd x2 None None = Ok o2 -> wvd (lincomb (RtoC 1) (RtoC 1) x1 x2) None None = Ok o -> 0 <= f < n -> 0 <= t < n -> (rnth l1 t + rnth l2 t = IZR f / IZR n + IZR q)%R ->
  (at2 (r_tfr o) f t - at2 (r_tfr o1) f t - at2 (r_tfr o2) f t = RtoC (2 * Re (cnth x1 t * Cconj (cnth x2 t)) * IZR (2 * reach n t + 1)))%C.
Proof. exact c101_size. Qed.
Print Assumptions C101_size.

(** Tones at 0 and 1/4: at frequency 1/8, where neither has energy of its own, the
    distribution reaches 8; each tone alone gives 1 there. *)
Example C101_example : exists x1 l1 x2 l2 o1 o2 o, fmlin 4 0 0 None = Ok (x1, l1) /\ fmlin 4 (1 / 4) (1 / 4) None = Ok (x2, l2) /\
  wvd x1 None None = Ok o1 /\ wvd x2 None None = Ok o2 /\ wvd (lincomb (RtoC 1) (RtoC 1) x1 x2) None None = Ok o /\
  at2 (r_tfr o1) 1 1 = RtoC 1 /\ at2 (r_tfr o2) 1 1 = RtoC 1 /\ at2 (r_tfr o) 1 1 = RtoC 8.
Proof. exact c101_example. Qed.
