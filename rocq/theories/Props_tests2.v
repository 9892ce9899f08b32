(** Property theorems, restated from T_tests2.v (generated by tools/genprops.py).
    C132, continued: the volume of the narrow-band ambiguity function, the
    derivative of a window, the energy of the pseudo Wigner-Ville distribution
    and the mean time of a Gaussian. *)

From Coq Require Import Reals ZArith List Lia Lra Bool.
From Coquelicot Require Import Coquelicot.
From Verif Require Import Py Scalars CSum DFT Spec M_base M_utils M_putils M_stft M_cohen M_amb M_dom M_gen1
  P_base P_stft P_wvd T_wvd T_stft T_pwvd T_amb T_dom T_putils T_gen1 M_gallery T_tests2.
Import ListNotations.
Local Open Scope Z_scope.

(** The squared modulus at the origin equals the volume divided by half the number of bins
    (what the test asserts) exactly when the even and the odd samples hold the same energy. *)
Theorem C132_volume : forall x nf naf lag xi c, 1 <= nf -> narrow_band x None (Some nf) = Ok (naf, lag, xi) ->
  0 <= c < zlen lag -> nth (Z.to_nat c) lag 0 = 0 ->
  let volume := rsum (arange 0 (zlen lag)) (fun c => rsum (arange 0 nf) (fun r => Cmod (at2 naf r c) ^ 2))%R in
  (Cmod (at2 naf (nf / 2) c) ^ 2 <= volume / (IZR nf / 2))%R /\
  (Cmod (at2 naf (nf / 2) c) ^ 2 = volume / (IZR nf / 2) <-> parity_energy false x = parity_energy true x)%R.
Proof. exact c132_volume. Qed.
Print Assumptions C132_volume.

(** It does not hold for every signal: a single sample. *)
Theorem C132_volume_refuted : exists x naf lag xi c, narrow_band x None (Some 2) = Ok (naf, lag, xi) /\ nth (Z.to_nat c) lag 0 = 0 /\ 0 <= c < zlen lag /\
  (Cmod (at2 naf (2 / 2) c) ^ 2 < rsum (arange 0 (zlen lag)) (fun c => rsum (arange 0 2) (fun r => Cmod (at2 naf r c) ^ 2)) / (IZR 2 / 2))%R.
Proof. exact c132_volume_refuted. Qed.
Print Assumptions C132_volume_refuted.

(** *** test_utils.py, test_derive_window *)
(** [derive_window] of a real window which is symmetric, does not decrease up to its
    centre and is not negative: not negative before the centre, zero there, not positive after. *)
Theorem C132_derive : forall (w : list R) dw, 3 <= zlen w -> Z.odd (zlen w) = true -> derive_window (map RtoC w) = Ok (Some dw) ->
  (forall k, 0 <= k < zlen w -> rnth w k = rnth w (zlen w - 1 - k)) -> (0 <= rnth w 0)%R ->
  (forall k, 0 <= k -> k + 1 <= (zlen w - 1) / 2 -> (rnth w k <= rnth w (k + 1))%R) ->
  let c := (zlen w - 1) / 2 in
  (forall k, 0 <= k < zlen w -> Im (cnth dw k) = 0%R) /\
  (forall k, 0 <= k < c -> (0 <= Re (cnth dw k))%R) /\ cnth dw c = RtoC 0 /\ (forall k, c < k < zlen w -> (Re (cnth dw k) <= 0)%R).
Proof. exact c132_derive. Qed.
Print Assumptions C132_derive.

(** *** test_cohen.py, test_pseudo_wv_energy *)
Theorem C132_pwvd_energy : forall x n w o m, 1 <= n -> w <> [] ->
  pwvd x (Some (TsI (arange 0 (zlen x)))) (Some n) (Some w) = Ok (o, m) ->
  csum (arange 0 (zlen x)) (fun t => csum (arange 0 n) (fun f => at2 m f t)) = RtoC (IZR n * Re (cnth w ((zlen w - 1) / 2)) * energy x).
Proof. exact c132_pwvd_energy. Qed.
Print Assumptions C132_pwvd_energy.

Theorem C132_loctime : forall n t s, 1 <= t -> 2 * t - 1 <= n -> (0 < s)%R -> exists y tm T,
  amgauss n (Some (IZR t)) (Some s) = Ok (map Some y) /\ loctime (map RtoC y) = Ok (Some (tm, T)) /\
  (n = 2 * t - 1 -> tm = IZR (t - 1)) /\ (2 * t - 1 < n -> (IZR (t - 1) < tm)%R).
Proof. exact c132_loctime. Qed.
Print Assumptions C132_loctime.
