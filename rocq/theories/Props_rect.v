(** Property theorems, restated from T_rect.v (generated by tools/genprops.py).
    C146: supports and interference of the Margenau-Hill and Page representations. *)

From Coq Require Import Reals ZArith List Lia Lra Bool.
From Coquelicot Require Import Coquelicot.
From Verif Require Import Py Scalars CSum DFT Spec M_base M_stft M_cohen P_base P_stft P_wvd P_spec P_mh T_mh T_ts T_par T_rect.
Import ListNotations.
Local Open Scope Z_scope.

(** Cell (f, t) is the real part of the sample times the conjugate spectrum. *)
Theorem C146_mh : forall x l n o i t f, 1 <= n -> mh x (Some (TsI l)) (Some n) = Ok o -> nth_error l (Z.to_nat i) = Some t -> 0 <= f < n ->
  at2 (r_tfr o) f i = RtoC (Re (cnth x (t mod zlen x) * Cconj (spectrum_from 1 n x f) * root n (- (f * t)))%C).
Proof. exact c146_mh. Qed.
Print Assumptions C146_mh.

Theorem C146_page : forall x l n o i t f, 1 <= n -> page x (Some (TsI l)) (Some n) = Ok o -> nth_error l (Z.to_nat i) = Some t -> 0 <= f < n ->
  at2 (r_tfr o) f i = RtoC (Re (cnth x (t mod zlen x) * Cconj (spectrum_from 0 n x f) * root n (- (f * (t - 1))))%C).
Proof. exact c146_page. Qed.
Print Assumptions C146_page.

(** Strong supports: nothing at instants where the signal is 0, nothing in bins where its
    spectrum is 0. *)
Theorem C146_supports : forall x l n, 1 <= n -> 
  (forall o i t f, mh x (Some (TsI l)) (Some n) = Ok o -> nth_error l (Z.to_nat i) = Some t -> 0 <= f < n ->
    cnth x (t mod zlen x) = RtoC 0 \/ spectrum_from 1 n x f = RtoC 0 -> at2 (r_tfr o) f i = RtoC 0) /\
  (forall o i t f, page x (Some (TsI l)) (Some n) = Ok o -> nth_error l (Z.to_nat i) = Some t -> 0 <= f < n ->
    cnth x (t mod zlen x) = RtoC 0 \/ spectrum_from 0 n x f = RtoC 0 -> at2 (r_tfr o) f i = RtoC 0).
Proof. exact c146_supports. Qed.
Print Assumptions C146_supports.

Theorem C146_interference : forall x y l n, 1 <= n -> zlen x = zlen y ->
  (forall ox oy op i t f, mh x (Some (TsI l)) (Some n) = Ok ox -> mh y (Some (TsI l)) (Some n) = Ok oy -> mh (plus x y) (Some (TsI l)) (Some n) = Ok op -> nth_error l (Z.to_nat i) = Some t -> 0 <= f < n ->
    at2 (r_tfr op) f i = (at2 (r_tfr ox) f i + at2 (r_tfr oy) f i + RtoC (corner 1 n t x y t f + corner 1 n t y x t f))%C) /\
  (forall ox oy op i t f, page x (Some (TsI l)) (Some n) = Ok ox -> page y (Some (TsI l)) (Some n) = Ok oy -> page (plus x y) (Some (TsI l)) (Some n) = Ok op -> nth_error l (Z.to_nat i) = Some t -> 0 <= f < n ->
    at2 (r_tfr op) f i = (at2 (r_tfr ox) f i + at2 (r_tfr oy) f i + RtoC (corner 0 n (t - 1) x y t f + corner 0 n (t - 1) y x t f))%C).
Proof. exact c146_interference. Qed.
Print Assumptions C146_interference.

(** The corners: interference only at an instant of one signal and a bin of the other. *)
Theorem C146_corners : forall x y l n ox oy op i t f, 1 <= n -> zlen x = zlen y ->
  mh x (Some (TsI l)) (Some n) = Ok ox -> mh y (Some (TsI l)) (Some n) = Ok oy -> mh (plus x y) (Some (TsI l)) (Some n) = Ok op -> nth_error l (Z.to_nat i) = Some t -> 0 <= f < n ->
  ((cnth x (t mod zlen x) = RtoC 0 \/ spectrum_from 1 n y f = RtoC 0) -> (cnth y (t mod zlen x) = RtoC 0 \/ spectrum_from 1 n x f = RtoC 0) ->
    at2 (r_tfr op) f i = (at2 (r_tfr ox) f i + at2 (r_tfr oy) f i)%C) /\
  (cnth y (t mod zlen x) = RtoC 0 -> spectrum_from 1 n x f = RtoC 0 ->
    at2 (r_tfr ox) f i = RtoC 0 /\ at2 (r_tfr oy) f i = RtoC 0 /\ at2 (r_tfr op) f i = RtoC (corner 1 n t x y t f)).
Proof. exact c146_corners. Qed.
Print Assumptions C146_corners.

Theorem C146_strength : forall x y l n ox oy op i t, 1 <= n -> zlen x = zlen y ->
  mh x (Some (TsI l)) (Some n) = Ok ox -> mh y (Some (TsI l)) (Some n) = Ok oy -> mh (plus x y) (Some (TsI l)) (Some n) = Ok op -> nth_error l (Z.to_nat i) = Some t ->
  cnth y (t mod zlen x) = RtoC 0 ->
  (forall k k', 1 <= k < Z.min n (zlen x) -> 1 <= k' < Z.min n (zlen x) -> (2 * t - k - k') mod n = 0 -> cnth y k = RtoC 0 \/ cnth y k' = RtoC 0) ->
  rsum (arange 0 n) (fun f => Cmod (at2 (r_tfr op) f i - at2 (r_tfr ox) f i - at2 (r_tfr oy) f i)%C ^ 2)%R =
  (IZR n / 2 * Cmod (cnth x (t mod zlen x)) ^ 2 * rsum (arange 1 (Z.min n (zlen x))) (fun k => Cmod (cnth y k) ^ 2))%R.
Proof. exact c146_strength. Qed.
Print Assumptions C146_strength.

(** Samples 1 and 3 of value 1 (nothing in bin 1) and sample 2 of value i: at instant 1 and bin 1 both
    representations are 0, that of the sum is 1. *)
Example C146_example : exists ox oy op, mh [RtoC 0; RtoC 1; RtoC 0; RtoC 1] None None = Ok ox /\ mh [RtoC 0; RtoC 0; Ci; RtoC 0] None None = Ok oy /\
  mh [RtoC 0; RtoC 1; Ci; RtoC 1] None None = Ok op /\ at2 (r_tfr ox) 1 1 = RtoC 0 /\ at2 (r_tfr oy) 1 1 = RtoC 0 /\ at2 (r_tfr op) 1 1 = RtoC 1.
Proof. exact c146_example. Qed.
