(** Property theorems, restated from T_nmom.v (generated by tools/genprops.py).
    C143: means and variances of the noise generators. *)

From Coq Require Import Reals ZArith List Lia Lra Bool.
From Coquelicot Require Import Coquelicot.
From Flocq Require Import Core.
From Verif Require Import Py Scalars CSum DFT Spec M_base M_utils M_dom M_gen1 M_gen2 P_base T_utils T_putils T_dom T_gen1 T_gen2 T_hil T_key T_noise T_cells T_nmom.
Import ListNotations.
Local Open Scope Z_scope.

Theorem C143_hilbert : forall x a, hilbert x = Ok a ->
  map Re a = x /\ rmean (map Im a) = 0%R /\
  rmean (map (fun v => Re v * Im v)%R a) = 0%R /\
  rmean (map (fun v => Im v ^ 2)%R a) = (rmean (map (fun v => v ^ 2)%R x) - rmean x ^ 2 - (if Z.even (zlen x) then alt_mean x ^ 2 else 0))%R.
Proof. exact c143_hilbert. Qed.
Print Assumptions C143_hilbert.

Theorem C143_noisecg : forall rand p, sampler rand -> 2 <= p -> rstd (rand (2 ^ p)) <> 0%R ->
  exists z, noisecg rand (2 ^ p) = Ok (Row (Some z)) /\ zlen z = 2 ^ p /\ noise_moments (rand (2 ^ p)) z.
Proof. exact c143_noisecg. Qed.
Print Assumptions C143_noisecg.

Theorem C143_noisecu : forall rand r1 r2 p, sampler rand -> zlen r1 = 2 ^ p -> zlen r2 = 2 ^ p -> 2 <= p ->
  let x := map (fun v => v - 1 / 2)%R (rand (2 ^ p)) in rstd x <> 0%R ->
  exists z, noisecu rand r1 r2 (2 ^ p) = Ok (Row (Some z)) /\ zlen z = 2 ^ p /\ noise_moments x z.
Proof. exact c143_noisecu. Qed.
Print Assumptions C143_noisecu.

(** The figures printed by the docstrings are 1 and 0 exactly when the draws have no
    mean and no alternating mean. *)
Theorem C143_exact : forall x z, rstd x <> 0%R -> noise_moments x z ->
  (cvar z = 1%R <-> alt_mean x = 0%R) /\ (cmean z = RtoC 0 <-> rmean x = 0%R) /\
  (cmean (map (fun v => v * v)%C z) = RtoC 0 <-> rmean x = 0%R /\ alt_mean x = 0%R).
Proof. exact c143_exact. Qed.
Print Assumptions C143_exact.

Theorem C143_variance_refuted : exists rand n z, sampler rand /\ 3 <= n /\ noisecg rand n = Ok (Row (Some z)) /\ zlen z = n /\
  cvar z = (1 / 2)%R /\ cmean (map (fun v => v * v)%C z) = RtoC (1 / 2).
Proof. exact c143_variance_refuted. Qed.
Print Assumptions C143_variance_refuted.

Example C143_example : exists a, hilbert [1; -1; 1; -1]%R = Ok a /\ map Re a = [1; -1; 1; -1]%R /\ rmean (map (fun v => Im v ^ 2)%R a) = 0%R.
Proof. exact c143_example. Qed.
