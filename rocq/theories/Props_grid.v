(** Property theorems, restated from T_grid.v (generated by tools/genprops.py).
    C138: how many frequencies np.arange(start, stop, step) holds in double precision. *)

From Coq Require Import Reals ZArith List Lia Lra Psatz Bool.
From Coquelicot Require Import Coquelicot.
From Flocq Require Import Core Relative.
From Verif Require Import Py Scalars CSum DFT Spec M_utils M_gen2 M_dom M_fp P_base T_utils T_fp T_fp2 M_grid T_grid.
Import ListNotations.
Local Open Scope Z_scope.

(** The number of entries is the exact one up to the rounding of the quotient. *)
Theorem C138_count : forall a b s, (a <= b)%R -> (0 < s)%R -> let q := ((b - a) / s)%R in
  Zceil (q * (1 - 2 * bpow radix2 (-53))) <= arange64_len a b s <= Zceil (q * (1 + 3 * bpow radix2 (-53))).
Proof. exact c138_count. Qed.
Print Assumptions C138_count.

(** A step that is a power of two: no rounding at all. *)
Theorem C138_dyadic : forall j k, 0 <= k < 2 ^ 53 -> arange64 0 (IZR k * bpow radix2 j) (bpow radix2 j) = map (fun i => IZR i * bpow radix2 j)%R (arange 0 k).
Proof. exact c138_dyadic. Qed.
Print Assumptions C138_dyadic.

(** The documented grid: 8 frequencies, the last one the stop itself (exact arithmetic: 7 below it). *)
Theorem C138_doc : zlen doc_fnorm = 8 /\ rnth doc_fnorm 7 = b64 (38 / 100) /\ Zceil ((38 / 100 - 1 / 10) / (4 / 100)) = 7.
Proof. exact c138_doc. Qed.
Print Assumptions C138_doc.

(** numpy's own description of arange, the half-open interval, fails. *)
Theorem C138_half_open_refuted : exists a b s, is_double a /\ is_double b /\ is_double s /\ (a < b)%R /\ (0 < s)%R /\ In b (arange64 a b s).
Proof. exact c138_half_open_refuted. Qed.
Print Assumptions C138_half_open_refuted.

(** The gallery grid: 51 frequencies, number k within 10^-16 of k/100. *)
Theorem C138_gallery : zlen gallery_fn = 51 /\ forall k, 0 <= k < 51 -> (Rabs (rnth gallery_fn k - IZR k / 100) <= 2 / 10 ^ 16)%R.
Proof. exact c138_gallery. Qed.
Print Assumptions C138_gallery.

(** The two programs give one delay per frequency. *)
Theorem C138_programs : forall x, (exists v, doc_group_delay x = Ok v /\ zlen v = 8) /\ (exists v, gallery_group_delay x = Ok v /\ zlen v = 51).
Proof. exact c138_programs. Qed.
Print Assumptions C138_programs.

(** Quarters from 0 to 1: four of them. *)
Example C138_example : arange64 0 1 (1 / 4) = [0; 1 / 4; 1 / 2; 3 / 4]%R.
Proof. exact c138_example. Qed.
