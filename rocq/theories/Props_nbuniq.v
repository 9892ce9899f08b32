(** Property theorems, restated from T_nbuniq.v (generated by tools/genprops.py).
    C169: what narrow_band keeps of the signal. *)

From Coq Require Import Reals ZArith List Lia Lra Bool.
From Coquelicot Require Import Coquelicot.
From Verif Require Import Py Scalars CSum DFT Spec M_base M_stft M_cohen M_amb P_base P_stft P_wvd P_pwvd T_wvd T_pwvd T_amb T_dual T_nbuniq.
Import ListNotations.
Local Open Scope Z_scope.

(** The inverse transform of the column of lag tau gives the products at that lag, whatever the number of bins with which the call returns. *)
Theorem C169_products : forall x lag n naf lag' xi c tau t, 1 <= n -> narrow_band x (Some lag) (Some n) = Ok (naf, lag', xi) -> 0 <= c < zlen lag -> nth (Z.to_nat c) lag 0 = tau -> Z.abs tau <= t < zlen x - Z.abs tau ->
  csum (arange 0 n) (fun r => at2 naf r c * root n ((r - n / 2) * t))%C = (RtoC (IZR n) * (cnth x (t + tau) * Cconj (cnth x (t - tau))))%C.
Proof. exact c169_products. Qed.
Print Assumptions C169_products.

(** Every lag that fits, any signal. *)
Theorem C169_unique : forall x y lag n nx ny lx ly xi xi', 1 <= n -> zlen x = zlen y -> narrow_band x (Some lag) (Some n) = Ok (nx, lx, xi) -> narrow_band y (Some lag) (Some n) = Ok (ny, ly, xi') -> (forall tau, 2 * Z.abs tau < zlen x -> In tau lag) -> (forall r c, 0 <= r < n -> 0 <= c < zlen lag -> at2 nx r c = at2 ny r c) ->
  exists u v, Cmod u = 1%R /\ Cmod v = 1%R /\ forall k, 0 <= k < zlen x -> cnth y k = ((if Z.even k then u else v) * cnth x k)%C.
Proof. exact c169_unique. Qed.
Print Assumptions C169_unique.

(** Lag and number of bins left out. *)
Theorem C169_default : forall x y nx ny lx ly xi xi', 1 <= zlen x -> zlen x = zlen y -> narrow_band x None None = Ok (nx, lx, xi) -> narrow_band y None None = Ok (ny, ly, xi') -> (forall r c, 0 <= r < zlen x -> 0 <= c < zlen lx -> at2 nx r c = at2 ny r c) ->
  exists u v, Cmod u = 1%R /\ Cmod v = 1%R /\ forall k, 0 <= k < zlen x -> cnth y k = ((if Z.even k then u else v) * cnth x k)%C.
Proof. exact c169_default. Qed.
Print Assumptions C169_default.

(** Lags 0 and 1 alone, no zero samples. *)
Theorem C169_two_lags : forall x y lag n nx ny lx ly xi xi', 1 <= n -> zlen x = zlen y -> narrow_band x (Some lag) (Some n) = Ok (nx, lx, xi) -> narrow_band y (Some lag) (Some n) = Ok (ny, ly, xi') -> In 0 lag -> In 1 lag -> (forall k, 0 <= k < zlen x -> cnth x k <> RtoC 0) -> (forall r c, 0 <= r < n -> 0 <= c < zlen lag -> at2 nx r c = at2 ny r c) ->
  exists u v, Cmod u = 1%R /\ Cmod v = 1%R /\ forall k, 0 <= k < zlen x -> cnth y k = ((if Z.even k then u else v) * cnth x k)%C.
Proof. exact c169_two_lags. Qed.
Print Assumptions C169_two_lags.

(** And two phases are never seen. *)
Theorem C169_converse : forall x y lag n nx ny lx ly xi xi' u v r c, 1 <= n -> zlen x = zlen y -> narrow_band x (Some lag) (Some n) = Ok (nx, lx, xi) -> narrow_band y (Some lag) (Some n) = Ok (ny, ly, xi') -> Cmod u = 1%R -> Cmod v = 1%R -> (forall k, 0 <= k < zlen x -> cnth y k = ((if Z.even k then u else v) * cnth x k)%C) -> 0 <= r < n -> 0 <= c < zlen lag -> at2 nx r c = at2 ny r c.
Proof. exact c169_converse. Qed.
Print Assumptions C169_converse.

(** [1, 1, 1] and [1, -1, 1] have the same ambiguity function. *)
Example C169_example : exists nx ny l xi, narrow_band [RtoC 1; RtoC 1; RtoC 1] (Some [-1; 0; 1]) (Some 3) = Ok (nx, l, xi) /\ narrow_band [RtoC 1; RtoC (-1); RtoC 1] (Some [-1; 0; 1]) (Some 3) = Ok (ny, l, xi) /\ forall r c, 0 <= r < 3 -> 0 <= c < 3 -> at2 nx r c = at2 ny r c.
Proof. exact c169_example. Qed.
