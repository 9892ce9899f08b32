(** Property theorems, restated from T_amb.v (generated by tools/genprops.py).
    C33-C35: the narrow-band ambiguity function. *)

From Coq Require Import Reals ZArith List Lia Lra Bool Psatz.
From Coquelicot Require Import Coquelicot.
From Verif Require Import Py Scalars CSum DFT Spec M_base M_amb P_base P_stft T_amb.
Import ListNotations.
Local Open Scope Z_scope.

(** Outcome of every call: IndexError exactly when a lag leaves more samples
    than there are bins; otherwise one column per lag, [nf] rows, and the entry in
    row r, column c is the ambiguity function at the r-th Doppler value and c-th lag. *)
Theorem C33_outcome : forall x lag nf, 1 <= nf ->
  ((exists tau, In tau lag /\ 2 * Z.abs tau < zlen x /\ nf < zlen x - Z.abs tau) /\
   narrow_band x (Some lag) (Some nf) = Raise IndexError) \/
  ((forall tau, In tau lag -> ~ (2 * Z.abs tau < zlen x /\ nf < zlen x - Z.abs tau)) /\
   exists naf xi, narrow_band x (Some lag) (Some nf) = Ok (naf, lag, xi) /\
   zlen naf = zlen lag /\ (forall c, In c naf -> zlen c = nf) /\ zlen xi = nf /\
   (forall r, 0 <= r < nf -> rnth xi r = (IZR (r - nf / 2) / IZR nf)%R) /\
   forall r c, 0 <= r < nf -> 0 <= c < zlen lag ->
     at2 naf r c = AF x nf (r - nf / 2) (nth (Z.to_nat c) lag 0)).
Proof. exact c33_outcome. Qed.
Print Assumptions C33_outcome.

(** Without a bin every call raises. *)
Theorem C33_no_bins : forall (x : list C) lag nf, nf <= 0 -> exists e, narrow_band x (Some lag) (Some nf) = Raise e /\ (nf < 0 -> e = ValueError).
Proof. exact c33_no_bins. Qed.
Print Assumptions C33_no_bins.

(** With at least as many bins as samples nothing raises, whatever the lags; the
    defaults are of that kind. *)
Theorem C33_total : forall (x : list C) lag nf, 1 <= nf -> zlen x <= nf -> exists r, narrow_band x (Some lag) (Some nf) = Ok r.
Proof. exact c33_total. Qed.
Print Assumptions C33_total.

Theorem C33_default : forall (x : list C), narrow_band x None None = narrow_band x (Some (nb_lags (zlen x))) (Some (zlen x)) /\
  forall tau, In tau (nb_lags (zlen x)) <-> (2 * Z.abs tau < zlen x).
Proof. exact c33_default. Qed.
Print Assumptions C33_default.

Theorem C33_origin_and_maximum : forall x lag nf naf lag' xi, 1 <= nf ->
  narrow_band x (Some lag) (Some nf) = Ok (naf, lag', xi) ->
  (forall c, 0 <= c < zlen lag -> nth (Z.to_nat c) lag 0 = 0 -> at2 naf (nf / 2) c = RtoC (energy x)) /\
  (forall r c, 0 <= r < nf -> 0 <= c < zlen lag -> (Cmod (at2 naf r c) <= energy x)%R).
Proof. exact c33_origin_and_maximum. Qed.
Print Assumptions C33_origin_and_maximum.

Theorem C34_hermitian : forall x lag nf naf lag' xi r c r' c', 1 <= nf ->
  narrow_band x (Some lag) (Some nf) = Ok (naf, lag', xi) ->
  0 <= r < nf -> 0 <= r' < nf -> 0 <= c < zlen lag -> 0 <= c' < zlen lag ->
  (* opposite Doppler (modulo the sampling) and opposite lag *)
  ((r - nf / 2) + (r' - nf / 2)) mod nf = 0 -> nth (Z.to_nat c') lag 0 = - nth (Z.to_nat c) lag 0 ->
  at2 naf r' c' = Cconj (at2 naf r c).
Proof. exact c34_hermitian. Qed.
Print Assumptions C34_hermitian.

Theorem C35_volume : forall x nf naf lag xi, 1 <= nf ->
  narrow_band x None (Some nf) = Ok (naf, lag, xi) ->
  rsum (arange 0 (zlen lag)) (fun c => rsum (arange 0 nf) (fun r => Cmod (at2 naf r c) ^ 2))%R =
  (IZR nf * (parity_energy false x ^ 2 + parity_energy true x ^ 2))%R.
Proof. exact c35_volume. Qed.
Print Assumptions C35_volume.

(** Concrete case: x = [1, i, 2], three bins: the value at the origin is 6, the
    volume 3 (5^2 + 1^2). *)
Example C35_example : let x := [RtoC 1; Ci; RtoC 2] in energy x = 6%R /\
  (IZR 3 * (parity_energy false x ^ 2 + parity_energy true x ^ 2))%R = 78%R /\
  exists naf xi, narrow_band x None (Some 3) = Ok (naf, [-1; 0; 1], xi).
Proof. exact c35_example. Qed.
