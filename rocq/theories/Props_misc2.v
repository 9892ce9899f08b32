(** Property theorems, restated from T_misc2.v (generated by tools/genprops.py).
    C64, C66, C78, C79: klauder, altes, gdpower. *)

From Coq Require Import Reals ZArith List Lia Lra Bool Permutation.
From Coquelicot Require Import Coquelicot.
From Flocq Require Import Core.
From Verif Require Import Py Scalars CSum DFT Spec M_base M_utils M_putils M_dom M_gen1 M_gen2 M_gen3 P_base T_utils T_putils T_dom T_gen1 T_gen2 T_hil T_key T_noise T_misc T_misc2.
Import ListNotations.
Local Open Scope Z_scope.

Theorem C64_klauder : forall n att f0, 2 <= n -> (0 < f0 < 1 / 2)%R ->
  let m := n / 2 in
  exists x, klauder n att f0 = Ok (Some x) /\ zlen x = 2 * m /\ rsum x (fun v => v ^ 2)%R = 1%R /\
  (exists E, (0 < E)%R /\ forall k, 0 <= k < 2 * m -> rnth x k = (ktime m (klauder_spec m att f0) ((k + m) mod (2 * m)) / E)%R) /\
  (forall k, 0 <= k < m -> rnth x (m + k) = rnth x (m - k)) /\
  (0 < rnth x m)%R /\ (forall k, 0 <= k < 2 * m -> (Rabs (rnth x k) <= rnth x m)%R).
Proof. exact c64_klauder. Qed.
Print Assumptions C64_klauder.

Theorem C64_klauder_raises : forall n att f0,
  (n <= 0 -> klauder n att f0 = Raise AssertionError) /\
  (0 < n -> (f0 <= 0 \/ 1 / 2 <= f0)%R -> klauder n att f0 = Raise AssertionError) /\
  (n = 1 -> (0 < f0 < 1 / 2)%R -> klauder n att f0 = Raise ValueError).
Proof. exact c64_klauder_raises. Qed.
Print Assumptions C64_klauder_raises.

Theorem C64_klauder_odd_refuted : forall n att f0, 3 <= n -> Z.odd n = true -> (0 < f0 < 1 / 2)%R -> exists x, klauder n att f0 = Ok (Some x) /\ zlen x = n - 1.
Proof. exact c64_klauder_odd_refuted. Qed.
Print Assumptions C64_klauder_odd_refuted.

Example C64_klauder_example : exists x, klauder 2 10 (1 / 5) = Ok (Some x) /\ zlen x = 2 /\ rnth x 1 = sqrt (1 / 2) /\ rnth x 0 = (- sqrt (1 / 2))%R.
Proof. exact c64_klauder_example. Qed.

Theorem C64_altes : forall n fmin fmax alpha, 1 <= n -> (0 < fmin < fmax)%R -> (0 < alpha)%R -> alpha <> 1%R ->
  let raw k := (altes_env n fmin fmax alpha (IZR k) * cos (altes_phase n fmin fmax alpha (IZR k)))%R in
  let E := rsum (arange 0 n) (fun k => raw k ^ 2)%R in
  (E = 0%R -> altes n fmin fmax alpha = None) /\
  (E <> 0%R -> exists x, altes n fmin fmax alpha = Some x /\ zlen x = n /\ rsum x (fun v => v ^ 2)%R = 1%R /\
    forall k, 0 <= k < n -> rnth x k = (raw k / sqrt E)%R).
Proof. exact c64_altes. Qed.
Print Assumptions C64_altes.

Theorem C64_altes_envelope : forall n fmin fmax alpha, 1 <= n -> (0 < fmin < fmax)%R -> (1 < alpha)%R ->
  altes_env n fmin fmax alpha 0 = (/ alpha)%R /\ altes_env n fmin fmax alpha (IZR n) = (/ alpha)%R /\
  (forall k, (0 < altes_env n fmin fmax alpha k <= 1)%R).
Proof. exact c64_altes_envelope. Qed.
Print Assumptions C64_altes_envelope.

(** *** C79: the frequency sweeps [g fmin, g fmax] with g > 1. *)
Theorem C79_sweep : forall n fmin fmax alpha, 1 <= n -> (0 < fmin < fmax)%R -> (1 < alpha)%R ->
  let g := altes_g fmin fmax alpha in
  (1 < g)%R /\
  (forall k, (0 <= k)%R -> is_derive (altes_phase n fmin fmax alpha) k (2 * PI * (g * (IZR n * fmin * fmax / (fmax - fmin)) / altes_t n fmin fmax k))%R) /\
  is_derive (altes_phase n fmin fmax alpha) 0%R (2 * PI * (g * fmax))%R /\
  is_derive (altes_phase n fmin fmax alpha) (IZR n) (2 * PI * (g * fmin))%R.
Proof. exact c79_sweep. Qed.
Print Assumptions C79_sweep.

(** With the default band 0.05 .. 0.5 the first instantaneous frequency is
    beyond 1/2. *)
Theorem C79_default_refuted : forall n, 1 <= n -> exists d : R, is_derive (altes_phase n (5 / 100) (1 / 2) 300) 0%R (2 * PI * d)%R /\ (1 / 2 < d)%R.
Proof. exact c79_default_refuted. Qed.
Print Assumptions C79_default_refuted.

Theorem C66_gdpower : forall n degree rate, 3 <= n -> rate <> 0%R -> degree <> 1%R ->
  let m := cdiv n 2 in
  exists x gpd nu, gdpower n degree rate = Ok (Some x, gpd, nu) /\
    zlen x = n /\ energy x = 1%R /\ csum x (fun z => z) = RtoC 0 /\
    zlen nu = m /\ zlen gpd = m /\ (forall j, 0 <= j < m -> rnth nu j = gd_freq n j) /\
    exists E, (0 < E)%R /\ (IZR n * E ^ 2 = rsum (arange 1 m) (fun f => gd_amp degree (gd_freq n f) ^ 2))%R /\
      forall f, 0 <= f < n -> cnth (fft x) f =
        if (0 <? f) && (f <? m) then (cis (- (2 * PI * gd_phase n degree rate (gd_freq n f))) * RtoC (gd_amp degree (gd_freq n f) / E))%C else RtoC 0.
Proof. exact c66_gdpower. Qed.
Print Assumptions C66_gdpower.

(** One or two points: the only bin is removed with the mean, 0/0. *)
Theorem C66_short_refuted : forall n degree rate, 1 <= n <= 2 -> rate <> 0%R -> degree <> 1%R -> exists gpd nu, gdpower n degree rate = Ok (None, gpd, nu).
Proof. exact c66_short_refuted. Qed.
Print Assumptions C66_short_refuted.

(** The outcome of every call with an integer number of points. *)
Theorem C66_outcome : forall n degree rate,
  (1 <= n -> (rate = 0%R \/ degree = 1%R -> gdpower n degree rate = Raise TypeError) /\
             (rate <> 0%R -> degree <> 1%R -> exists x gpd nu, gdpower n degree rate = Ok (x, gpd, nu))) /\
  (n < -3 -> gdpower n degree rate = Raise ValueError) /\
  (-3 <= n <= 0 -> rate = 0%R -> gdpower n degree rate = Raise TypeError) /\
  (-3 <= n < 0 -> rate <> 0%R -> gdpower n degree rate = Raise ValueError) /\
  (n = 0 -> rate <> 0%R -> gdpower n degree rate = Raise (if Rlt_dec degree 1 then if Rlt_dec (degree * rate) 0 then ZeroDivisionError else ValueError else ValueError)).
Proof. exact c66_outcome. Qed.
Print Assumptions C66_outcome.

Theorem C66_raises : forall n degree rate,
  (-3 <= n /\ rate = 0%R \/ 1 <= n /\ degree = 1%R) <-> gdpower n degree rate = Raise TypeError.
Proof. exact c66_raises. Qed.
Print Assumptions C66_raises.

Theorem C66_delay : forall n degree rate x gpd nu, 1 <= n -> gdpower n degree rate = Ok (x, gpd, nu) ->
  (forall j, 0 <= j < cdiv n 2 -> rnth gpd j = (gd_law n degree rate (gd_freq n j) + (if Rlt_dec rate 0 then IZR n + 1 else 0))%R) /\
  (forall v, (0 < v)%R -> is_derive (gd_phase n degree rate) v (gd_law n degree rate v)).
Proof. exact c66_delay. Qed.
Print Assumptions C66_delay.

Example C66_example : exists x gpd nu, gdpower 3 2 1 = Ok (Some x, gpd, nu) /\ zlen x = 3 /\ energy x = 1%R /\ nu = [1 / 4; 1 / 2]%R /\ gpd = [3 / 2; 3]%R /\
  cnth (fft x) 0 = RtoC 0 /\ Cmod (cnth (fft x) 1) = sqrt 3 /\ cnth (fft x) 2 = RtoC 0.
Proof. exact c66_example. Qed.

(** C78: linear in the rate for degree 0 or above 1; for the other degrees
    the delay is a power of n whose exponent holds the rate. *)
Theorem C78_linear : forall n degree rate a v, degree = 0%R \/ (1 < degree)%R ->
  (gd_law n degree (a * rate) v - gd_law n degree 0 v = a * (gd_law n degree rate v - gd_law n degree 0 v))%R.
Proof. exact c78_linear. Qed.
Print Assumptions C78_linear.

Theorem C78_power : forall n degree rate v, (degree < 1)%R -> degree <> 0%R ->
  (gd_law n degree rate v = IZR n / 10 + Rpower (IZR n) (degree * rate) * Rpower v (degree - 1))%R /\ (IZR n / 10 < gd_law n degree rate v)%R.
Proof. exact c78_power. Qed.
Print Assumptions C78_power.

(** Opposite rates: the delays are on the same side. *)
Theorem C78_refuted : forall n v, 3 <= n -> (0 < v)%R -> exists degree rate,
  (degree < 1)%R /\ degree <> 0%R /\ (0 < gd_law n degree rate v - IZR n / 10)%R /\ (0 < gd_law n degree (- rate) v - IZR n / 10)%R.
Proof. exact c78_refuted. Qed.
Print Assumptions C78_refuted.

Example C78_example : gd_law 4 2 3 (1 / 4) = 6%R /\ gd_law 4 (1 / 2) 4 (1 / 4) = (4 / 10 + 32)%R.
Proof. exact c78_example. Qed.

(** The two bounds may be given in either order. *)
Theorem C64_altes_swap : forall n fmin fmax alpha, (0 < fmin)%R -> (0 < fmax)%R -> altes n fmin fmax alpha = altes n fmax fmin alpha.
Proof. exact c64_altes_swap. Qed.
Print Assumptions C64_altes_swap.

(** With an attenuation below 1 the envelope is largest at the edges. *)
Theorem C64_altes_inverted : forall n fmin fmax alpha, 1 <= n -> (0 < fmin < fmax)%R -> (0 < alpha < 1)%R ->
  altes_env n fmin fmax alpha 0 = (/ alpha)%R /\ altes_env n fmin fmax alpha (IZR n) = (/ alpha)%R /\
  (forall k, (1 <= altes_env n fmin fmax alpha k)%R).
Proof. exact c64_altes_inverted. Qed.
Print Assumptions C64_altes_inverted.
