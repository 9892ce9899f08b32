(** Property theorems, restated from T_pmcov.v (generated by tools/genprops.py).
    C160: how PseudoMargenauHillDistribution follows the signal. *)

From Coq Require Import Reals ZArith List Lia Lra Bool.
From Coquelicot Require Import Coquelicot.
From Flocq Require Import Core.
From Verif Require Import Py Scalars CSum DFT Spec M_base M_stft M_cohen M_amb M_putils M_reas P_base P_stft P_wvd P_mh P_pwvd P_spec P_spwv T_mh T_spwv T_red T_key T_noise T_putils T_reas T_reas2 T_conc T_rtone T_sptone T_pmtone T_pmcov.
Import ListNotations.
Local Open Scope Z_scope.

(** Whether it returns depends on the lengths only. *)
Theorem C160_length : forall x y ts n w ox, 1 <= n -> zlen x = zlen y -> pmh x (Some ts) (Some n) (Some w) = Ok ox -> exists oy, pmh y (Some ts) (Some n) (Some w) = Ok oy.
Proof. exact c160_length. Qed.
Print Assumptions C160_length.

Theorem C160_scale : forall x z ts n w ox oy f c, 1 <= n -> pmh x (Some ts) (Some n) (Some w) = Ok ox -> pmh (scale z x) (Some ts) (Some n) (Some w) = Ok oy -> 0 <= f < n -> 0 <= c < ts_len ts ->
  at2 (r_tfr oy) f c = (RtoC (Cmod z ^ 2) * at2 (r_tfr ox) f c)%C.
Proof. exact c160_scale. Qed.
Print Assumptions C160_scale.

Theorem C160_parallelogram : forall x y ts n w ox oy op om f c, 1 <= n -> zlen x = zlen y -> pmh x (Some ts) (Some n) (Some w) = Ok ox -> pmh y (Some ts) (Some n) (Some w) = Ok oy ->
  pmh (lincomb (RtoC 1) (RtoC 1) x y) (Some ts) (Some n) (Some w) = Ok op -> pmh (lincomb (RtoC 1) (RtoC (-1)) x y) (Some ts) (Some n) (Some w) = Ok om -> 0 <= f < n -> 0 <= c < ts_len ts ->
  (at2 (r_tfr op) f c + at2 (r_tfr om) f c = RtoC 2 * at2 (r_tfr ox) f c + RtoC 2 * at2 (r_tfr oy) f c)%C.
Proof. exact c160_parallelogram. Qed.
Print Assumptions C160_parallelogram.

(** An entry sees sample c and the samples under the window around c - 1. *)
Theorem C160_local : forall x y ts n w ox oy f c, 1 <= n -> zlen x = zlen y -> pmh x (Some ts) (Some n) (Some w) = Ok ox -> pmh y (Some ts) (Some n) (Some w) = Ok oy -> 0 <= f < n -> 0 <= c < ts_len ts ->
  cnth x c = cnth y c -> (forall k, 0 <= k < zlen x -> Z.abs (c - 1 - k) <= (zlen w - 1) / 2 -> cnth x k = cnth y k) -> at2 (r_tfr ox) f c = at2 (r_tfr oy) f c.
Proof. exact c160_local. Qed.
Print Assumptions C160_local.

Theorem C160_bound : forall x ts n w o f c (M : R), 1 <= n -> pmh x (Some ts) (Some n) (Some w) = Ok o -> 0 <= f < n -> 0 <= c < ts_len ts -> (0 <= M)%R -> (forall k, 0 <= k < zlen x -> (Cmod (cnth x k) <= M)%R) ->
  (Cmod (at2 (r_tfr o) f c) <= Cmod (cnth x c) * M * rsum (arange 0 (zlen x)) (fun k => Cmod (winf w (c - 1 - k))))%R.
Proof. exact c160_bound. Qed.
Print Assumptions C160_bound.

(** The rows of column c add up to n w[0] x[c] conj(x[c-1]), not to n w[0] |x[c]|^2. *)
Theorem C160_marginal : forall x ts n w o c, 1 <= n -> pmh x (Some ts) (Some n) (Some w) = Ok o -> 0 <= c < ts_len ts ->
  csum (arange 0 n) (fun f => at2 (r_tfr o) f c) = if 1 <=? c then (RtoC (IZR n) * winf w 0 * cnth x c * Cconj (cnth x (c - 1)))%C else RtoC 0.
Proof. exact c160_marginal. Qed.
Print Assumptions C160_marginal.

(** 1, 2i, 0, 1 on 8 rows with [1, 1, 1]: column 1 adds up to 16i; doubled, to 64i. *)
Example C160_example : let x := [RtoC 1; (0, 2)%R; RtoC 0; RtoC 1] in let w := [RtoC 1; RtoC 1; RtoC 1] in let ts := Some (TsI [0; 1; 2; 3]) in
  exists o o2, pmh x ts (Some 8) (Some w) = Ok o /\ pmh (scale (RtoC 2) x) ts (Some 8) (Some w) = Ok o2 /\ csum (arange 0 8) (fun f => at2 (r_tfr o) f 1) = (0, 16)%R /\ csum (arange 0 8) (fun f => at2 (r_tfr o2) f 1) = (0, 64)%R.
Proof. exact c160_example. Qed.
