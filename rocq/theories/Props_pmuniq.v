(** Property theorems, restated from T_pmuniq.v (generated by tools/genprops.py).
    C166: what PseudoMargenauHillDistribution keeps of the signal. *)

From Coq Require Import Reals ZArith List Lia Lra Bool.
From Coquelicot Require Import Coquelicot.
From Flocq Require Import Core.
From Verif Require Import Py Scalars CSum DFT Spec M_base M_stft M_cohen M_amb M_putils M_reas P_base P_stft P_wvd P_mh P_pwvd P_spec P_spwv T_mh T_spwv T_red T_key T_noise T_putils T_reas T_reas2 T_conc T_rtone T_sptone T_pmtone T_pmcov T_pmuniq.
Import ListNotations.
Local Open Scope Z_scope.

(** The products under the window can be read off column c. *)
Theorem C166_products : forall x ts n w o c k, 1 <= n -> pmh x (Some ts) (Some n) (Some w) = Ok o -> 0 <= c < ts_len ts -> 0 <= k < zlen x -> Z.abs (c - 1 - k) <= (zlen w - 1) / 2 ->
  csum (arange 0 n) (fun f => at2 (r_tfr o) f c * root n (f * (c - 1 - k)))%C = (RtoC (IZR n) * (winf w (c - 1 - k) * cnth x c * Cconj (cnth x k)))%C.
Proof. exact c166_products. Qed.
Print Assumptions C166_products.

(** A signal without zeros, a window that does not vanish at lags -1 and 0. *)
Theorem C166_unique : forall x y ts n w ox oy, 1 <= n -> zlen x = zlen y -> ts_len ts = zlen x -> pmh x (Some ts) (Some n) (Some w) = Ok ox -> pmh y (Some ts) (Some n) (Some w) = Ok oy -> winf w 0 <> RtoC 0 -> winf w (-1) <> RtoC 0 -> (forall k, 0 <= k < zlen x -> cnth x k <> RtoC 0) ->
  (forall f c, 0 <= f < n -> 0 <= c < zlen x -> at2 (r_tfr ox) f c = at2 (r_tfr oy) f c) -> exists u, Cmod u = 1%R /\ forall k, 0 <= k < zlen x -> cnth y k = (u * cnth x k)%C.
Proof. exact c166_unique. Qed.
Print Assumptions C166_unique.

(** Any signal, a window that covers all lags. *)
Theorem C166_covered : forall x y ts n w ox oy, 1 <= n -> zlen x = zlen y -> ts_len ts = zlen x -> pmh x (Some ts) (Some n) (Some w) = Ok ox -> pmh y (Some ts) (Some n) (Some w) = Ok oy -> (forall t, - zlen x <= t <= zlen x - 2 -> winf w t <> RtoC 0) ->
  (forall f c, 0 <= f < n -> 0 <= c < zlen x -> at2 (r_tfr ox) f c = at2 (r_tfr oy) f c) -> exists u, Cmod u = 1%R /\ forall k, 0 <= k < zlen x -> cnth y k = (u * cnth x k)%C.
Proof. exact c166_covered. Qed.
Print Assumptions C166_covered.

Theorem C166_default : forall x y ox oy, 8 <= zlen x -> zlen x = zlen y -> pmh x None None None = Ok ox -> pmh y None None None = Ok oy -> (forall k, 0 <= k < zlen x -> cnth x k <> RtoC 0) ->
  (forall f c, 0 <= f < zlen x -> 0 <= c < zlen x -> at2 (r_tfr ox) f c = at2 (r_tfr oy) f c) -> exists u, Cmod u = 1%R /\ forall k, 0 <= k < zlen x -> cnth y k = (u * cnth x k)%C.
Proof. exact c166_default. Qed.
Print Assumptions C166_default.

(** The other way round: signals that are close have distributions that are close. *)
Theorem C166_stable : forall x y ts n w ox oy f c (D M : R), 1 <= n -> zlen x = zlen y -> pmh x (Some ts) (Some n) (Some w) = Ok ox -> pmh y (Some ts) (Some n) (Some w) = Ok oy -> 0 <= f < n -> 0 <= c < ts_len ts ->
  (forall k, 0 <= k < zlen x -> (Cmod (cnth x k - cnth y k)%C <= D)%R) -> (forall k, 0 <= k < zlen x -> (Cmod (cnth x k) <= M)%R /\ (Cmod (cnth y k) <= M)%R) ->
  (Cmod (at2 (r_tfr ox) f c - at2 (r_tfr oy) f c)%C <= 2 * M * D * rsum (arange 0 (zlen x)) (fun k => Cmod (winf w (c - 1 - k))))%R.
Proof. exact c166_stable. Qed.
Print Assumptions C166_stable.

(** A gap as wide as the window hides the relative sign: 1, 0, 0, 1 and 1, 0, 0, -1 on 8 rows with [1, 1, 1]. *)
Theorem C166_refuted : let x := [RtoC 1; RtoC 0; RtoC 0; RtoC 1] in let y := [RtoC 1; RtoC 0; RtoC 0; RtoC (-1)] in let w := [RtoC 1; RtoC 1; RtoC 1] in let ts := TsI [0; 1; 2; 3] in
  exists ox oy, pmh x (Some ts) (Some 8) (Some w) = Ok ox /\ pmh y (Some ts) (Some 8) (Some w) = Ok oy /\ (forall f c, 0 <= f < 8 -> 0 <= c < 4 -> at2 (r_tfr ox) f c = at2 (r_tfr oy) f c) /\ ~ exists u, forall k, 0 <= k < 4 -> cnth y k = (u * cnth x k)%C.
Proof. exact c166_refuted. Qed.
Print Assumptions C166_refuted.

(** 2, i with [1, 1, 1] on 8 rows: column 1 gives back i * conj(2). *)
Example C166_example : exists o, pmh [RtoC 2; Ci] (Some (TsI [0; 1])) (Some 8) (Some [RtoC 1; RtoC 1; RtoC 1]) = Ok o /\ csum (arange 0 8) (fun f => at2 (r_tfr o) f 1 * root 8 (f * 0))%C = (0, 16)%R.
Proof. exact c166_example. Qed.
