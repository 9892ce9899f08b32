(** Property theorems, restated from T_again.v (generated by tools/genprops.py).
    C15: calling run() again, for the Margenau-Hill, pseudo Margenau-Hill and Page classes. *)

From Coq Require Import Reals ZArith List Lia Lra Bool Psatz.
From Coquelicot Require Import Coquelicot.
From Verif Require Import Py Scalars CSum DFT Spec M_base M_stft M_cohen M_utils M_state T_again.
From Verif Require Import P_base P_stft P_wvd P_pwvd P_mh T_utils T_state T_mh.
Import ListNotations.
Local Open Scope Z_scope.

(** Pseudo Margenau-Hill: the second run succeeds when the first did, and gives the same matrix exactly
    when the first result is 0 at every bin that is not the residue of a lag of its column. *)
Theorem C15_pmh_second_run : forall x ts n w o1, 1 <= n -> pmh x (Some ts) (Some n) (Some w) = Ok o1 ->
  exists o2, pmh_run o1 = Ok o2 /\
  (r_tfr o2 = r_tfr o1 <->
   forall c f, 0 <= c < ts_len ts -> 0 <= f < n ->
     (forall t, let m := (zlen w - 1) / 2 in
        - Z.min m (zlen x - c) <= t <= Z.min m (c - 1) -> t mod n <> f) ->
     at2 (r_tfr o1) f c = RtoC 0).
Proof. exact c15_pmh_second_run. Qed.
Print Assumptions C15_pmh_second_run.

(** With a one-sample window: column c goes from the constant w x[c] conj(x[c-1]) to n times it at bin 0. *)
Theorem C15_pmh_refuted : forall x ts n w0 o1, 1 <= n -> pmh x (Some ts) (Some n) (Some [w0]) = Ok o1 ->
  exists o2, pmh_run o1 = Ok o2 /\
  (forall c f, 1 <= c < ts_len ts -> 0 <= f < n -> let v := (w0 * cnth x c * Cconj (cnth x (c - 1)))%C in
   at2 (r_tfr o1) f c = v /\ at2 (r_tfr o2) f c = if f =? 0 then (RtoC (IZR n) * v)%C else RtoC 0).
Proof. exact c15_pmh_refuted. Qed.
Print Assumptions C15_pmh_refuted.

Theorem C15_mh_refuted : forall a b l n o1, 2 <= n -> mh [a; b] (Some (TsI l)) (Some n) = Ok o1 ->
  exists o2, mh_run o1 = Ok o2 /\
  (forall c f, nth_error l (Z.to_nat c) = Some 1 -> 0 <= f < n ->
   at2 (r_tfr o1) f c = RtoC (Cmod b ^ 2) /\ at2 (r_tfr o2) f c = if f =? 0 then RtoC (IZR n * Cmod b ^ 2) else RtoC 0).
Proof. exact c15_mh_refuted. Qed.
Print Assumptions C15_mh_refuted.

Theorem C15_page_refuted : forall a o1, page [a] (Some (TsI [0])) (Some 2) = Ok o1 ->
  exists o2, page_run o1 = Ok o2 /\
  at2 (r_tfr o1) 0 0 = RtoC (Cmod a ^ 2) /\ at2 (r_tfr o1) 1 0 = RtoC (- Cmod a ^ 2) /\
  at2 (r_tfr o2) 0 0 = RtoC (2 * Cmod a ^ 2) /\ at2 (r_tfr o2) 1 0 = RtoC 0.
Proof. exact c15_page_refuted. Qed.
Print Assumptions C15_page_refuted.

(** A case: one sample in the window, four bins, two samples. *)
Example C15_pmh_example : exists o1 o2, pmh [RtoC 1; Ci] (Some (TsI [0; 1])) (Some 4) (Some [RtoC 1]) = Ok o1 /\ pmh_run o1 = Ok o2 /\
  at2 (r_tfr o1) 1 1 = Ci /\ at2 (r_tfr o2) 1 1 = RtoC 0.
Proof. exact c15_pmh_example. Qed.
