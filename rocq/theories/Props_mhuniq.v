(** Property theorems, restated from T_mhuniq.v (generated by tools/genprops.py).
    C168: when MargenauHillDistribution and PageRepresentation determine the signal. *)

From Coq Require Import Reals ZArith List Lia Lra Bool.
From Coquelicot Require Import Coquelicot.
From Verif Require Import Py Scalars CSum DFT Spec M_base M_stft M_cohen P_base P_stft P_mh T_mh T_mhuniq.
Import ListNotations.
Local Open Scope Z_scope.

(** Margenau-Hill: the column of the last sample gives its products with samples 1 .. N-2. *)
Theorem C168_mh_last : forall x l n o i k, 2 * zlen x - 1 <= n -> mh x (Some (TsI l)) (Some n) = Ok o -> nth_error l (Z.to_nat i) = Some (zlen x - 1) -> 1 <= k < zlen x - 1 ->
  (RtoC 2 * csum (arange 0 n) (fun f => at2 (r_tfr o) f i * root n (f * (zlen x - 1 - k))) = RtoC (IZR n) * (cnth x (zlen x - 1) * Cconj (cnth x k)))%C.
Proof. exact c168_mh_last. Qed.
Print Assumptions C168_mh_last.

(** The column of sample 0 gives its products with all others. *)
Theorem C168_mh_first : forall x l n o i k, 2 * zlen x - 1 <= n -> mh x (Some (TsI l)) (Some n) = Ok o -> nth_error l (Z.to_nat i) = Some 0 -> 1 <= k < zlen x ->
  (RtoC 2 * csum (arange 0 n) (fun f => at2 (r_tfr o) f i * root n (f * (0 - k))) = RtoC (IZR n) * (cnth x 0 * Cconj (cnth x k)))%C.
Proof. exact c168_mh_first. Qed.
Print Assumptions C168_mh_first.

(** Page: the column of sample 0 gives its products with every sample, itself included. *)
Theorem C168_page_first : forall x l n o i k, 2 * zlen x + 1 <= n -> page x (Some (TsI l)) (Some n) = Ok o -> nth_error l (Z.to_nat i) = Some 0 -> 0 <= k < zlen x ->
  (RtoC 2 * csum (arange 0 n) (fun f => at2 (r_tfr o) f i * root n (f * (0 - 1 - k))) = RtoC (IZR n) * (cnth x 0 * Cconj (cnth x k)))%C.
Proof. exact c168_page_first. Qed.
Print Assumptions C168_page_first.

(** Twice as many rows as samples less one, the last sample not zero: the columns of the first and the last sample are enough. *)
Theorem C168_mh_unique : forall x y l n ox oy i j, 2 <= zlen x -> zlen x = zlen y -> 2 * zlen x - 1 <= n -> mh x (Some (TsI l)) (Some n) = Ok ox -> mh y (Some (TsI l)) (Some n) = Ok oy -> nth_error l (Z.to_nat i) = Some 0 -> nth_error l (Z.to_nat j) = Some (zlen x - 1) -> cnth x (zlen x - 1) <> RtoC 0 ->
  (forall f, 0 <= f < n -> at2 (r_tfr ox) f i = at2 (r_tfr oy) f i /\ at2 (r_tfr ox) f j = at2 (r_tfr oy) f j) -> exists u, Cmod u = 1%R /\ forall k, 0 <= k < zlen x -> cnth y k = (u * cnth x k)%C.
Proof. exact c168_mh_unique. Qed.
Print Assumptions C168_mh_unique.

(** Page, the first sample not zero: its column alone is enough. *)
Theorem C168_page_unique : forall x y l n ox oy i, 1 <= zlen x -> zlen x = zlen y -> 2 * zlen x + 1 <= n -> page x (Some (TsI l)) (Some n) = Ok ox -> page y (Some (TsI l)) (Some n) = Ok oy -> nth_error l (Z.to_nat i) = Some 0 -> cnth x 0 <> RtoC 0 ->
  (forall f, 0 <= f < n -> at2 (r_tfr ox) f i = at2 (r_tfr oy) f i) -> exists u, Cmod u = 1%R /\ forall k, 0 <= k < zlen x -> cnth y k = (u * cnth x k)%C.
Proof. exact c168_page_unique. Qed.
Print Assumptions C168_page_unique.

(** On the default number of rows that is false: [1, i] and [2, i]. *)
Theorem C168_refuted : exists ox oy, mh [RtoC 1; Ci] None None = Ok ox /\ mh [RtoC 2; Ci] None None = Ok oy /\ (forall f t, 0 <= f < 2 -> 0 <= t < 2 -> at2 (r_tfr ox) f t = at2 (r_tfr oy) f t) /\ ~ exists u, Cmod u = 1%R /\ forall k, 0 <= k < 2 -> cnth [RtoC 2; Ci] k = (u * cnth [RtoC 1; Ci] k)%C.
Proof. exact c168_refuted. Qed.
Print Assumptions C168_refuted.

(** 2, i on three rows: the column of sample 0 gives back 2 conj(i). *)
Example C168_example : exists o, mh [RtoC 2; Ci] (Some (TsI [0; 1])) (Some 3) = Ok o /\ (RtoC 2 * csum (arange 0 3) (fun f => at2 (r_tfr o) f 0 * root 3 (f * (0 - 1))))%C = (0, -6)%R.
Proof. exact c168_example. Qed.
