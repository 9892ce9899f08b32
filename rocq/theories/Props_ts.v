(** Property theorems, restated from T_ts.v (generated by tools/genprops.py).
    C30, C31 for every timestamp the code accepts: negative ones, which index the
    signal from its end, and ones that are not below the number of bins. *)

From Coq Require Import Reals ZArith List Lia Lra Bool.
From Coquelicot Require Import Coquelicot.
From Verif Require Import Py Scalars CSum DFT Spec M_base M_stft M_cohen P_base P_stft P_wvd P_spec P_mh T_mh T_ts.
Import ListNotations.
Local Open Scope Z_scope.

Theorem C30_any_timestamp : forall x l n o i ti f, 1 <= n ->
  mh x (Some (TsI l)) (Some n) = Ok o -> nth_error l (Z.to_nat i) = Some ti -> 0 <= f < n ->
  at2 (r_tfr o) f i =
  RtoC (Re (csum (arange 1 (Z.min n (zlen x)))
     (fun k => cnth x (ti mod zlen x) * Cconj (cnth x k) * root n (- (f * (ti - k)))))%C).
Proof. exact c30_any_timestamp. Qed.
Print Assumptions C30_any_timestamp.

(** The sum over frequency of every column. *)
Theorem C30_any_marginal : forall x l n o i ti, 1 <= n ->
  mh x (Some (TsI l)) (Some n) = Ok o -> nth_error l (Z.to_nat i) = Some ti ->
  (1 <= ti mod n < zlen x -> csum (arange 0 n) (fun f => at2 (r_tfr o) f i) = RtoC (IZR n * Re (cnth x (ti mod zlen x) * Cconj (cnth x (ti mod n)))%C)) /\
  (~ 1 <= ti mod n < zlen x -> csum (arange 0 n) (fun f => at2 (r_tfr o) f i) = RtoC 0).
Proof. exact c30_any_marginal. Qed.
Print Assumptions C30_any_marginal.

Theorem C31_any_timestamp : forall x l n o i ti f, 1 <= n ->
  page x (Some (TsI l)) (Some n) = Ok o -> nth_error l (Z.to_nat i) = Some ti -> 0 <= f < n ->
  at2 (r_tfr o) f i =
  RtoC (Re (csum (arange 0 (Z.min n (zlen x)))
     (fun k => cnth x (ti mod zlen x) * Cconj (cnth x k) * root n (- (f * (ti - 1 - k)))))%C).
Proof. exact c31_any_timestamp. Qed.
Print Assumptions C31_any_timestamp.

Theorem C31_any_marginal : forall x l n o i ti, 1 <= n ->
  page x (Some (TsI l)) (Some n) = Ok o -> nth_error l (Z.to_nat i) = Some ti ->
  ((ti - 1) mod n < zlen x -> csum (arange 0 n) (fun f => at2 (r_tfr o) f i) = RtoC (IZR n * Re (cnth x (ti mod zlen x) * Cconj (cnth x ((ti - 1) mod n)))%C)) /\
  (zlen x <= (ti - 1) mod n -> csum (arange 0 n) (fun f => at2 (r_tfr o) f i) = RtoC 0).
Proof. exact c31_any_marginal. Qed.
Print Assumptions C31_any_marginal.

(** The energy marginal fails for Margenau-Hill as soon as a timestamp is not below
    the number of bins, although the call returns. *)
Theorem C30_few_bins_refuted : exists x l n o i ti, 1 <= n /\ mh x (Some (TsI l)) (Some n) = Ok o /\ nth_error l (Z.to_nat i) = Some ti /\
  1 <= ti < zlen x /\ csum (arange 0 n) (fun f => at2 (r_tfr o) f i) <> RtoC (IZR n * Cmod (cnth x ti) ^ 2).
Proof. exact c30_few_bins_refuted. Qed.
Print Assumptions C30_few_bins_refuted.

(** Timestamps -1 and 2 of three samples: the same sample, different lags. *)
Example C30_timestamps_example : exists o, mh [RtoC 1; Ci; RtoC 2] (Some (TsI [-1; 2])) (Some 4) = Ok o /\
  csum (arange 0 4) (fun f => at2 (r_tfr o) f 0) = RtoC 0 /\ csum (arange 0 4) (fun f => at2 (r_tfr o) f 1) = RtoC 16.
Proof. exact c30_timestamps_example. Qed.

(** Entries of the Page representation of [1, i, 2]: at time 1, x[1] = i is paired
    with x[0] = 1 at lag 0, itself at lag -1 and x[2] = 2 at lag -2. *)
Example C31_values_example : exists o, page [RtoC 1; Ci; RtoC 2] None None = Ok o /\
  at2 (r_tfr o) 0 1 = RtoC 1 /\ at2 (r_tfr o) 0 2 = RtoC 6 /\ csum (arange 0 3) (fun f => at2 (r_tfr o) f 0) = RtoC 6.
Proof. exact c31_values_example. Qed.
