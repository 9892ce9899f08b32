(** Property theorems, restated from T_noise.v (generated by tools/genprops.py).
    C60-C62: noise generators, sigmerge, scale. *)

From Coq Require Import Reals ZArith List Lia Lra Bool.
From Coquelicot Require Import Coquelicot.
From Flocq Require Import Core.
From Verif Require Import Py Scalars CSum DFT Spec M_base M_utils M_dom M_gen1 M_gen2 P_base T_utils T_putils T_dom T_gen1 T_gen2 T_hil T_key T_noise.
Import ListNotations.
Local Open Scope Z_scope.

Theorem C60_noisecg : forall rand n, sampler rand ->
  (n <= 0 -> noisecg rand n = Raise AssertionError) /\
  (1 <= n <= 2 -> noisecg rand n = Raise TypeError) /\
  (3 <= n -> exists N, pow2_above n N /\
     (rstd (rand N) = 0%R -> noisecg rand n = Ok (Row None)) /\
     (rstd (rand N) <> 0%R -> exists z, noisecg rand n = Ok (Row (Some z)) /\ noise_spec n (rand N) z)).
Proof. exact c60_noisecg. Qed.
Print Assumptions C60_noisecg.

Theorem C60_noisecu : forall rand r1 r2 n, sampler rand -> zlen r1 = n -> zlen r2 = n \/ n < 0 ->
  (n < 0 -> noisecu rand r1 r2 n = Raise ValueError) /\
  (0 <= n <= 2 -> exists z, noisecu rand r1 r2 n = Ok (Column z) /\ zlen z = n /\
     forall k, 0 <= k < n -> cnth z k = ((rnth r1 k - 1 / 2) * sqrt 6, (rnth r2 k - 1 / 2) * sqrt 6)%R) /\
  (3 <= n -> exists N, let x := map (fun v => v - 1 / 2)%R (rand N) in pow2_above n N /\
     (rstd x = 0%R -> noisecu rand r1 r2 n = Ok (Row None)) /\
     (rstd x <> 0%R -> exists z, noisecu rand r1 r2 n = Ok (Row (Some z)) /\ noise_spec n x z)).
Proof. exact c60_noisecu. Qed.
Print Assumptions C60_noisecu.

Theorem C60_unit_variance : forall x z, rstd x <> 0%R -> noise_spec (zlen x) x z -> rstd (map Re z) = (1 / sqrt 2)%R.
Proof. exact c60_unit_variance. Qed.
Print Assumptions C60_unit_variance.

Theorem C60_short_refuted : forall rand r1 r2 n, 1 <= n <= 2 -> zlen r1 = n -> zlen r2 = n ->
  noisecg rand n = Raise TypeError /\ exists z, noisecu rand r1 r2 n = Ok (Column z).
Proof. exact c60_short_refuted. Qed.
Print Assumptions C60_short_refuted.

Theorem C60_dopnoise : forall rand n sf ft dist v tc c, sampler rand -> 2 <= n -> sf <> 0%R -> dist <> 0%R -> c <> 0%R ->
  let f := dop_freq n sf tc dist v ft c in
  exists r law y a, dopnoise rand n sf ft dist v (Some tc) c = Ok (r, law) /\
  zlen law = n - 1 /\ (forall k, 0 <= k < n - 1 -> rnth law k = f (n + 1 + k)) /\
  filtered (rand (2 * n)) y f /\ analytic_of (map (fun k => rnth y (n + 1 + k)) (arange 0 (n - 1))) a /\ zlen a = n - 1 /\
  let w := map (fun k => cnth a k / RtoC (sqrt (dop_dist n sf tc dist v (n + 1 + k))))%C (arange 0 (n - 1)) in
  match r with
  | None => energy w = 0%R
  | Some z => zlen z = n - 1 /\ energy z = 1%R /\ forall k, 0 <= k < n - 1 -> cnth z k = (cnth w k / RtoC (sqrt (energy w)))%C
  end.
Proof. exact c60_dopnoise. Qed.
Print Assumptions C60_dopnoise.

Theorem C60_dopnoise_raises : forall rand n sf ft dist v tc c, sampler rand -> n <= 1 -> dopnoise rand n sf ft dist v tc c = Raise ValueError.
Proof. exact c60_dopnoise_raises. Qed.
Print Assumptions C60_dopnoise_raises.

Theorem C60_dopnoise_default : forall rand n sf ft dist v c, dopnoise rand n sf ft dist v None c = dopnoise rand n sf ft dist v (Some (IZR (n / 2))) c.
Proof. exact c60_dopnoise_default. Qed.
Print Assumptions C60_dopnoise_default.

Theorem C60_dopnoise_length_refuted : forall rand sf ft dist v tc c, sampler rand -> sf <> 0%R -> dist <> 0%R -> c <> 0%R ->
  exists n r law, dopnoise rand n sf ft dist v (Some tc) c = Ok (r, law) /\ zlen law <> n.
Proof. exact c60_dopnoise_length_refuted. Qed.
Print Assumptions C60_dopnoise_length_refuted.

(** *** C61 *)
Theorem C61_ratio : forall x1 x2 ratio s, zlen x1 = zlen x2 -> sigmerge x1 x2 ratio = Ok (Some s) ->
  zlen s = zlen x1 /\
  exists h, (0 <= h)%R /\ (forall k, 0 <= k < zlen x1 -> cnth s k = (cnth x1 k + RtoC h * cnth x2 k)%C) /\
  mean_energy x1 = (Rpower 10 (ratio / 10) * mean_energy (map (fun z => RtoC h * z)%C x2))%R.
Proof. exact c61_ratio. Qed.
Print Assumptions C61_ratio.

(** In decibels. *)
Theorem C61_decibels : forall x1 x2 ratio s, zlen x1 = zlen x2 -> (0 < mean_energy x1)%R -> sigmerge x1 x2 ratio = Ok (Some s) ->
  let added := map (fun k => cnth s k - cnth x1 k)%C (arange 0 (zlen x1)) in
  (10 * (ln (mean_energy x1 / mean_energy added) / ln 10) = ratio)%R.
Proof. exact c61_decibels. Qed.
Print Assumptions C61_decibels.

Theorem C61_outcome : forall x1 x2 ratio,
  (zlen x1 = zlen x2 -> mean_energy x2 <> 0%R -> exists s, sigmerge x1 x2 ratio = Ok (Some s)) /\
  (zlen x1 = zlen x2 -> mean_energy x2 = 0%R -> sigmerge x1 x2 ratio = Ok None) /\
  (zlen x1 <> zlen x2 -> zlen x1 <> 1 -> zlen x2 <> 1 -> sigmerge x1 x2 ratio = Raise ValueError).
Proof. exact c61_outcome. Qed.
Print Assumptions C61_outcome.

(** Broadcasting: a component of one sample is added to every sample, and conversely; the mean
    energies are those of the arrays passed. *)
Theorem C61_broadcast : forall z x ratio, (zlen x <> 1 -> mean_energy x <> 0%R -> exists h, (0 <= h)%R /\
    sigmerge [z] x ratio = Ok (Some (map (fun v => z + RtoC h * v)%C x)) /\ (h ^ 2 * mean_energy x * Rpower 10 (ratio / 10) = Cmod z ^ 2)%R) /\
  (zlen x <> 1 -> z <> RtoC 0 -> exists h, (0 <= h)%R /\
    sigmerge x [z] ratio = Ok (Some (map (fun v => v + RtoC h * z)%C x)) /\ (h ^ 2 * Cmod z ^ 2 * Rpower 10 (ratio / 10) = mean_energy x)%R) /\
  (zlen x <> 1 -> mean_energy x = 0%R -> sigmerge [z] x ratio = Ok None) /\ (sigmerge x [RtoC 0] ratio = Ok None).
Proof. exact c61_broadcast. Qed.
Print Assumptions C61_broadcast.

Example C61_example : sigmerge [RtoC 2; RtoC 0] [RtoC 0; RtoC 1] 0 = Ok (Some [RtoC 2; RtoC 2]).
Proof. exact c61_example. Qed.

(** *** C62 *)
Theorem C62_refuted : forall T N fmin fmax, exists e, scale_outcome T N fmin fmax = Raise e.
Proof. exact c62_refuted. Qed.
Print Assumptions C62_refuted.

(** The furthest that any call gets: 128 samples and 128 voices. *)
(** Which exception: an empty signal cannot be made analytic; the frequencies are divided by fmin and
    rooted by N - 1; every other signal must have 128 samples and 128 bins, and then the dimension
    2 Mmax of the result is a float. *)
Theorem C62_outcome : forall T N fmin fmax, 0 <= T ->
  let r := scale_outcome T N fmin fmax in
  (T = 0 -> r = Raise ValueError) /\
  (0 < T -> fmin = 0%R \/ N = 1 \/ (fmax = 0%R /\ N < 1) -> r = Raise ZeroDivisionError) /\
  (0 < T -> fmin <> 0%R -> N <> 1 -> ~ (fmax = 0%R /\ N < 1) -> r = Raise (if (T =? 128) && (N =? 128) then TypeError else ValueError)).
Proof. exact c62_outcome. Qed.
Print Assumptions C62_outcome.

Example C62_example : scale_outcome 128 128 (1 / 10) (1 / 2) = Raise TypeError.
Proof. exact c62_example. Qed.

(** Four Gaussian draws give four samples. *)
Example C60_example : exists z, noisecg two_draws 4 = Ok (Row (Some z)) /\ zlen z = 4.
Proof. exact c60_example. Qed.
