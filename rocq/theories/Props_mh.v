(** Property theorems, restated from T_mh.v (generated by tools/genprops.py).
    C30 - C32: Margenau-Hill, Page and their pseudo variants. *)

From Coq Require Import Reals ZArith List Lia Lra Bool.
From Coquelicot Require Import Coquelicot.
From Verif Require Import Py Scalars CSum DFT Spec M_base M_stft M_cohen P_base P_stft P_wvd P_spec P_mh T_mh.
Import ListNotations.
Local Open Scope Z_scope.

(** *** C30 *)
(** The run returns exactly when every timestamp is a valid Python index. *)
Theorem C30_mh_outcome : forall x l n, 1 <= n ->
  ((forall ti, In ti l -> - zlen x <= ti < zlen x) /\
   exists o, mh x (Some (TsI l)) (Some n) = Ok o /\ zlen (r_tfr o) = zlen l /\
     forall c, In c (r_tfr o) -> zlen c = n) \/
  ((exists ti, In ti l /\ ~ (- zlen x <= ti < zlen x)) /\
   mh x (Some (TsI l)) (Some n) = Raise IndexError).
Proof. exact c30_mh_outcome. Qed.
Print Assumptions C30_mh_outcome.

(** Timestamps of floating-point type cannot index the signal. *)
Theorem C30_float_timestamps : forall x l n, 1 <= n -> l <> [] -> mh x (Some (TsF l)) (Some n) = Raise IndexError.
Proof. exact c30_float_timestamps. Qed.
Print Assumptions C30_float_timestamps.

(** Closed form: x[t] is correlated with samples 1 .. min(n,N)-1 (never sample 0). *)
Theorem C30_mh_closed_form : forall x l n o i ti f, 1 <= n ->
  mh x (Some (TsI l)) (Some n) = Ok o -> nth_error l (Z.to_nat i) = Some ti -> 0 <= ti ->
  0 <= f < n ->
  at2 (r_tfr o) f i =
  RtoC (Re (csum (arange 1 (Z.min n (zlen x)))
     (fun k => cnth x ti * Cconj (cnth x k) * root n (- (f * (ti - k)))))%C).
Proof. exact c30_mh_closed_form. Qed.
Print Assumptions C30_mh_closed_form.

Theorem C30_mh_marginal : forall x l n o i ti, 1 <= n ->
  mh x (Some (TsI l)) (Some n) = Ok o -> nth_error l (Z.to_nat i) = Some ti ->
  1 <= ti < zlen x -> ti < n ->
  csum (arange 0 n) (fun f => at2 (r_tfr o) f i) = RtoC (IZR n * Cmod (cnth x ti) ^ 2).
Proof. exact c30_mh_marginal. Qed.
Print Assumptions C30_mh_marginal.

(** At time 0 the column always sums to zero. *)
Theorem C30_mh_time0 : forall x l n o i, 1 <= n ->
  mh x (Some (TsI l)) (Some n) = Ok o -> nth_error l (Z.to_nat i) = Some 0 ->
  csum (arange 0 n) (fun f => at2 (r_tfr o) f i) = RtoC 0.
Proof. exact c30_mh_time0. Qed.
Print Assumptions C30_mh_time0.

(** Frequency marginal for default arguments: the spectrum times the conjugate
    spectrum of the signal without its first sample. *)
Theorem C30_mh_freq_marginal : forall x o f, x <> [] -> mh x None None = Ok o -> 0 <= f < zlen x ->
  csum (arange 0 (zlen x)) (fun t => at2 (r_tfr o) f t) =
  RtoC (Re (csum (arange 0 (zlen x)) (fun t => cnth x t * root (zlen x) (- (f * t))) *
            Cconj (csum (arange 1 (zlen x)) (fun k => cnth x k * root (zlen x) (- (f * k)))))%C).
Proof. exact c30_mh_freq_marginal. Qed.
Print Assumptions C30_mh_freq_marginal.

Theorem C30_refuted : exists x o, mh x None None = Ok o /\
  csum (arange 0 (zlen x)) (fun f => at2 (r_tfr o) f 0) <> RtoC (IZR (zlen x) * Cmod (cnth x 0) ^ 2).
Proof. exact c30_refuted. Qed.
Print Assumptions C30_refuted.

Example C30_example : exists o, mh [RtoC 1; Ci; RtoC 2] None None = Ok o /\
  csum (arange 0 3) (fun f => at2 (r_tfr o) f 2) = RtoC 12.
Proof. exact c30_example. Qed.

(** *** C31 *)
Theorem C31_page_outcome : forall x l n, 1 <= n ->
  ((forall ti, In ti l -> - zlen x <= ti < zlen x) /\
   exists o, page x (Some (TsI l)) (Some n) = Ok o /\ zlen (r_tfr o) = zlen l /\
     forall c, In c (r_tfr o) -> zlen c = n) \/
  ((exists ti, In ti l /\ ~ (- zlen x <= ti < zlen x)) /\
   page x (Some (TsI l)) (Some n) = Raise IndexError).
Proof. exact c31_page_outcome. Qed.
Print Assumptions C31_page_outcome.

Theorem C31_float_timestamps : forall x l n, 1 <= n -> l <> [] -> page x (Some (TsF l)) (Some n) = Raise IndexError.
Proof. exact c31_float_timestamps. Qed.
Print Assumptions C31_float_timestamps.

(** Closed form: x[t] is correlated with every sample 0 .. min(n,N)-1, past or
    future, at lags offset by one. *)
Theorem C31_page_closed_form : forall x l n o i ti f, 1 <= n ->
  page x (Some (TsI l)) (Some n) = Ok o -> nth_error l (Z.to_nat i) = Some ti -> 0 <= ti ->
  0 <= f < n ->
  at2 (r_tfr o) f i =
  RtoC (Re (csum (arange 0 (Z.min n (zlen x)))
     (fun k => cnth x ti * Cconj (cnth x k) * root n (- (f * (ti - 1 - k)))))%C).
Proof. exact c31_page_closed_form. Qed.
Print Assumptions C31_page_closed_form.

(** Column sum: the lag-one product instead of the energy. *)
Theorem C31_page_marginal : forall x l n o i ti, 1 <= n ->
  page x (Some (TsI l)) (Some n) = Ok o -> nth_error l (Z.to_nat i) = Some ti ->
  1 <= ti < zlen x -> ti <= n ->
  csum (arange 0 n) (fun f => at2 (r_tfr o) f i) =
  RtoC (IZR n * Re (cnth x ti * Cconj (cnth x (ti - 1)%Z))%C).
Proof. exact c31_page_marginal. Qed.
Print Assumptions C31_page_marginal.

(** The column sum is not n |x[t]|^2. *)
Theorem C31_marginal_refuted : exists x o, page x None None = Ok o /\
  csum (arange 0 (zlen x)) (fun f => at2 (r_tfr o) f 1) <> RtoC (IZR (zlen x) * Cmod (cnth x 1) ^ 2).
Proof. exact c31_marginal_refuted. Qed.
Print Assumptions C31_marginal_refuted.

(** The representation is not causal: two signals equal up to time 0 have
    different values at time 0. *)
Theorem C31_causal_refuted : exists x y ox oy,
  cnth x 0 = cnth y 0 /\ zlen x = zlen y /\
  page x None None = Ok ox /\ page y None None = Ok oy /\
  at2 (r_tfr ox) 0 0 <> at2 (r_tfr oy) 0 0.
Proof. exact c31_causal_refuted. Qed.
Print Assumptions C31_causal_refuted.

Example C31_example : exists o, page [RtoC 1; Ci; RtoC 2] None None = Ok o.
Proof. exact c31_example. Qed.

(** *** C32 *)
(** PseudoMargenauHill returns exactly when there are no more timestamps than
    samples and round(n/2)-1 exceeds the window half-length or the signal length. *)
Theorem C32_pmh_outcome : forall x ts n w, 1 <= n ->
  let returns := ts_len ts = 0 \/
    (ts_len ts <= zlen x /\ ((zlen w - 1) / 2 < round_half n - 1 \/ zlen x < round_half n - 1)) in
  (returns /\ exists o, pmh x (Some ts) (Some n) (Some w) = Ok o) \/
  (~ returns /\ pmh x (Some ts) (Some n) (Some w) = Raise IndexError).
Proof. exact c32_pmh_outcome. Qed.
Print Assumptions C32_pmh_outcome.

(** Closed form whenever it returns. *)
Theorem C32_pmh_closed_form : forall x ts n w o f c, 1 <= n ->
  pmh x (Some ts) (Some n) (Some w) = Ok o -> 0 <= f < n -> 0 <= c < ts_len ts ->
  at2 (r_tfr o) f c =
  csum (arange 0 (zlen x)) (fun k =>
    winf w (c - 1 - k) * cnth x c * Cconj (cnth x k) * root n (- (f * (c - 1 - k))))%C.
Proof. exact c32_pmh_closed_form. Qed.
Print Assumptions C32_pmh_closed_form.

(** PseudoPage raises on every input with at least one timestamp. *)
Theorem C32_pseudo_page_always_raises : forall x ts n w,
  0 <= (match n with Some n => n | None => zlen x end) ->
  (match ts with Some t => 0 < ts_len t | None => 0 < zlen x end) ->
  ppage x ts n w = Raise IndexError.
Proof. exact c32_pseudo_page_always_raises. Qed.
Print Assumptions C32_pseudo_page_always_raises.

(** Without timestamps there is nothing to index: an empty real matrix comes back. *)
Theorem C32_pseudo_page_empty : forall x n w, 1 <= n ->
  exists o, ppage x (Some (TsI [])) (Some n) (Some w) = Ok o /\ r_tfr o = [] /\ r_real o = true.
Proof. exact c32_pseudo_page_empty. Qed.
Print Assumptions C32_pseudo_page_empty.

Example C32_example_ok : exists o,
  pmh (repeat (RtoC 1) 16) None None (Some (repeat (RtoC 1) 3)) = Ok o.
Proof. exact c32_example_ok. Qed.

Example C32_example_raise :
  pmh (repeat (RtoC 1) 16) None None (Some (repeat (RtoC 1) 15)) = Raise IndexError.
Proof. exact c32_example_raise. Qed.
