(** Property theorems, restated from T_post2.v (generated by tools/genprops.py).
    C42-C46: Renyi information, ideal representation, Friedman density, ridges. *)

From Coq Require Import Reals ZArith List Lia Lra Bool Sorted Permutation.
From Coquelicot Require Import Coquelicot.
From Flocq Require Import Core.
From Verif Require Import Py Scalars CSum DFT Spec M_base M_putils M_reas M_post P_base T_putils T_reas T_post T_post2.
Import ListNotations.
Local Open Scope Z_scope.

(** Scale invariance, effects on the arguments included. *)
Theorem C42_scale : forall c tfr n ts freq alpha, (0 < c)%R -> renyi (scale_mat c tfr) n ts freq alpha = renyi tfr n ts freq alpha.
Proof. exact c42_scale. Qed.
Print Assumptions C42_scale.

(** For an order other than 1 the sign is irrelevant too. *)
Theorem C42_scale_neg : forall c tfr n ts freq alpha, c <> 0%R -> alpha <> 1%R -> renyi (scale_mat c tfr) n ts freq alpha = renyi tfr n ts freq alpha.
Proof. exact c42_scale_neg. Qed.
Print Assumptions C42_scale_neg.

Theorem C42_flat : forall v m n ts freq A k, v <> 0%R -> A <> 0%R -> 2 <= k ->
  integrate_2d (repeat (repeat 1%R n) m) (Z.of_nat n) (Some ts) (Some freq) = Ok A -> (0 < A)%R ->
  renyi_value (repeat (repeat v n) m) (Z.of_nat n) ts freq (IZR k) =
  Ok (Some (ln (/ A ^ Z.to_nat (k - 1) + spacing1) / ln 2 / (1 - IZR k))%R).
Proof. exact c42_flat. Qed.
Print Assumptions C42_flat.

(** A 2x2 flat distribution over [0,2]x[0,1], order 3. *)
Example C42_example : renyi_value [[5; 5]; [5; 5]]%R 2 [0; 2]%R [0; 1]%R (IZR 3) = Ok (Some (ln (/ 2 ^ 2 + spacing1) / ln 2 / (1 - IZR 3))%R).
Proof. exact c42_example. Qed.

(** *** C43 *)
Theorem C43_effects : forall tfr n t f alpha, (alpha <> 1%R \/ (concat tfr <> [] /\ forall v, In v (concat tfr) -> (0 <= v)%R)) ->
  let '(_, ts', freq') := renyi tfr n (Some t) (Some f) alpha in
  (allclose t n = Ok true -> ts' = Some (map (fun v => v + 1)%R t) /\ freq' = Some (rsort f)) /\
  (allclose t n = Ok false -> ts' = Some t /\ freq' = Some (rsort f)).
Proof. exact c43_effects. Qed.
Print Assumptions C43_effects.

(** The frequency axis comes back sorted: unchanged exactly if it was sorted; the
    time axis comes back incremented exactly if it was (nearly) 0, 1, ..., n-1. *)
Theorem C43_unchanged_iff : forall tfr n t f alpha r t' f', 1 <= n -> alpha <> 1%R -> zlen t = n ->
  renyi tfr n (Some t) (Some f) alpha = (r, Some t', Some f') ->
  (f' = f <-> Sorted Rle f) /\ Permutation f f' /\ Sorted Rle f' /\
  (t' = t <-> ~ forall k, 0 <= k < n -> (Rabs (rnth t k - IZR k) <= 1 / 10 ^ 8 + 1 / 10 ^ 5 * IZR k)%R).
Proof. exact c43_unchanged_iff. Qed.
Print Assumptions C43_unchanged_iff.

(** Calling again with the same (now modified) arrays gives the same result and
    modifies nothing further. *)
Theorem C43_second_call : forall tfr n t f alpha v t' f', 1 <= n -> zlen t = n ->
  renyi tfr n (Some t) (Some f) alpha = (Ok v, Some t', Some f') ->
  renyi tfr n (Some t') (Some f') alpha = (Ok v, Some t', Some f').
Proof. exact c43_second_call. Qed.
Print Assumptions C43_second_call.

Theorem C43_object : forall sig n win mat alpha, 1 <= zlen sig -> alpha <> 1%R ->
  let o := base_init sig None n win in
  let '(_, ts', freq') := renyi mat (zlen sig) (Some (ts_reals (r_ts o))) (Some (r_freqs o)) alpha in
  ts' = Some (map IZR (arange 1 (zlen sig + 1))) /\ freq' = Some (rsort (r_freqs o)).
Proof. exact c43_object. Qed.
Print Assumptions C43_object.

(** Both arguments changed by one call: a 2x2 distribution, timestamps 0, 1 and
    an unsorted frequency axis. *)
Theorem C43_refuted : exists tfr n t f alpha r t' f', renyi tfr n (Some t) (Some f) alpha = (Ok (Some r), Some t', Some f') /\ t' <> t /\ f' <> f.
Proof. exact c43_refuted. Qed.
Print Assumptions C43_refuted.
