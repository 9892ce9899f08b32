(** Property theorems, restated from T_pwuniq.v (generated by tools/genprops.py).
    C167: what PseudoWignerVilleDistribution keeps of the signal. *)

From Coq Require Import Reals ZArith List Lia Lra Bool.
From Coquelicot Require Import Coquelicot.
From Flocq Require Import Core.
From Verif Require Import Py Scalars CSum DFT Spec M_base M_stft M_cohen M_amb P_base P_stft P_wvd P_pwvd T_stft T_wvd T_pwvd T_amb T_dual T_pwuniq.
Import ListNotations.
Local Open Scope Z_scope.

(** The products under the window can be read off column t. *)
Theorem C167_products : forall x ts n w o m t tau, 1 <= n -> (zlen w - 1) / 2 < round_half n -> (forall k, winf w (- k) = Cconj (winf w k)) -> pwvd x (Some ts) (Some n) (Some w) = Ok (o, m) -> 0 <= t < ts_len ts -> Z.abs tau <= (zlen w - 1) / 2 -> 0 <= t + tau < zlen x -> 0 <= t - tau < zlen x ->
  csum (arange 0 n) (fun f => at2 m f t * root n (f * tau))%C = (RtoC (IZR n) * (winf w tau * (cnth x (t + tau) * Cconj (cnth x (t - tau)))))%C.
Proof. exact c167_products. Qed.
Print Assumptions C167_products.

(** Any signal, a window that vanishes at no lag that fits: one phase for the even samples, one for the odd. *)
Theorem C167_covered : forall x y ts n w ox oy mx my, 1 <= n -> zlen x = zlen y -> (zlen w - 1) / 2 < round_half n -> (forall k, winf w (- k) = Cconj (winf w k)) -> ts_len ts = zlen x -> pwvd x (Some ts) (Some n) (Some w) = Ok (ox, mx) -> pwvd y (Some ts) (Some n) (Some w) = Ok (oy, my) ->
  (forall k, 2 * Z.abs k < zlen x -> winf w k <> RtoC 0) -> (forall f t, 0 <= f < n -> 0 <= t < zlen x -> at2 mx f t = at2 my f t) ->
  exists u v, Cmod u = 1%R /\ Cmod v = 1%R /\ forall k, 0 <= k < zlen x -> cnth y k = ((if Z.even k then u else v) * cnth x k)%C.
Proof. exact c167_covered. Qed.
Print Assumptions C167_covered.

(** No zero samples, lags 0 and 1 under the window. *)
Theorem C167_unique : forall x y ts n w ox oy mx my, 1 <= n -> zlen x = zlen y -> (zlen w - 1) / 2 < round_half n -> (forall k, winf w (- k) = Cconj (winf w k)) -> ts_len ts = zlen x -> pwvd x (Some ts) (Some n) (Some w) = Ok (ox, mx) -> pwvd y (Some ts) (Some n) (Some w) = Ok (oy, my) ->
  winf w 0 <> RtoC 0 -> winf w 1 <> RtoC 0 -> (forall k, 0 <= k < zlen x -> cnth x k <> RtoC 0) -> (forall f t, 0 <= f < n -> 0 <= t < zlen x -> at2 mx f t = at2 my f t) ->
  exists u v, Cmod u = 1%R /\ Cmod v = 1%R /\ forall k, 0 <= k < zlen x -> cnth y k = ((if Z.even k then u else v) * cnth x k)%C.
Proof. exact c167_unique. Qed.
Print Assumptions C167_unique.

(** And two phases are never seen. *)
Theorem C167_converse : forall x y ts n w ox oy mx my u v f t, 1 <= n -> zlen x = zlen y -> (zlen w - 1) / 2 < round_half n -> pwvd x (Some ts) (Some n) (Some w) = Ok (ox, mx) -> pwvd y (Some ts) (Some n) (Some w) = Ok (oy, my) -> Cmod u = 1%R -> Cmod v = 1%R -> (forall k, 0 <= k < zlen x -> cnth y k = ((if Z.even k then u else v) * cnth x k)%C) -> 0 <= f < n -> 0 <= t < ts_len ts -> at2 mx f t = at2 my f t.
Proof. exact c167_converse. Qed.
Print Assumptions C167_converse.

Theorem C167_default : forall x y ox oy mx my, 8 <= zlen x -> zlen x = zlen y -> pwvd x None None None = Ok (ox, mx) -> pwvd y None None None = Ok (oy, my) -> (forall k, 0 <= k < zlen x -> cnth x k <> RtoC 0) -> (forall f t, 0 <= f < zlen x -> 0 <= t < zlen x -> at2 mx f t = at2 my f t) ->
  exists u v, Cmod u = 1%R /\ Cmod v = 1%R /\ forall k, 0 <= k < zlen x -> cnth y k = ((if Z.even k then u else v) * cnth x k)%C.
Proof. exact c167_default. Qed.
Print Assumptions C167_default.

(** Signals that are close have distributions that are close. *)
Theorem C167_stable : forall x y ts n w ox oy mx my f t (D M : R), 1 <= n -> zlen x = zlen y -> (zlen w - 1) / 2 < round_half n -> pwvd x (Some ts) (Some n) (Some w) = Ok (ox, mx) -> pwvd y (Some ts) (Some n) (Some w) = Ok (oy, my) -> 0 <= f < n -> 0 <= t < ts_len ts ->
  (0 <= D)%R -> (0 <= M)%R -> (forall k, 0 <= k < zlen x -> (Cmod (cnth x k - cnth y k)%C <= D)%R) -> (forall k, 0 <= k < zlen x -> (Cmod (cnth x k) <= M)%R /\ (Cmod (cnth y k) <= M)%R) ->
  (Cmod (at2 mx f t - at2 my f t)%C <= 2 * M * D * rsum (arange (- zlen x) (zlen x + 1)) (fun k => Cmod (winf w k)))%R.
Proof. exact c167_stable. Qed.
Print Assumptions C167_stable.

(** [1, 1] and [1, -1] share every entry, though no one phase turns one into the other. *)
Example C167_example : exists ox mx oy my, pwvd [RtoC 1; RtoC 1] (Some (TsI [0; 1])) (Some 4) (Some [RtoC 1; RtoC 1; RtoC 1]) = Ok (ox, mx) /\ pwvd [RtoC 1; RtoC (-1)] (Some (TsI [0; 1])) (Some 4) (Some [RtoC 1; RtoC 1; RtoC 1]) = Ok (oy, my) /\ (forall f t, 0 <= f < 4 -> 0 <= t < 2 -> at2 mx f t = at2 my f t) /\ ~ exists u, forall k, 0 <= k < 2 -> cnth [RtoC 1; RtoC (-1)] k = (u * cnth [RtoC 1; RtoC 1] k)%C.
Proof. exact c167_example. Qed.
