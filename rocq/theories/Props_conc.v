(** Property theorems, restated from T_conc.v (generated by tools/genprops.py).
    C107: the reassigned spectrogram of an impulse. *)

From Coq Require Import Reals ZArith List Lia Lra Bool.
From Coquelicot Require Import Coquelicot.
From Flocq Require Import Core.
From Verif Require Import Py Scalars CSum DFT Spec M_base M_stft M_cohen M_putils M_reas P_base P_stft P_spec T_putils T_reas T_reas2 T_conc.
Import ListNotations.
Local Open Scope Z_scope.

(** The cells before reassignment: the window's profile, the same in every row. *)
Theorem C107_cells : forall x n w tfr rtfr vec k a j i, rspec x None n w = Ok (Some (tfr, rtfr, vec)) ->
  only_at x k a -> 0 <= k < zlen x - 1 -> let w := rs_w x w in let n := rs_n x n in 0 <= j < n -> 0 <= i < zlen x ->
  rent tfr j i = if Z.abs (k + 1 - i) <=? reach w n then (Cmod a ^ 2 * Cmod (cnth w ((zlen w - 1) / 2 + (k + 1 - i))%Z) ^ 2 / rs_nrm x w n i ^ 2)%R else 0%R.
Proof. exact c107_cells. Qed.
Print Assumptions C107_cells.

(** Every cell above the threshold is sent to the column of the impulse, every
    other cell stays. *)
Theorem C107_vectors : forall x n w tfr rtfr vec k a j i, rspec x None n w = Ok (Some (tfr, rtfr, vec)) ->
  only_at x k a -> 0 <= k < zlen x - 1 -> 3 <= zlen (rs_w x w) -> real_list (rs_w x w) -> 0 <= j < rs_n x n -> 0 <= i < zlen x ->
  dest vec j i = if Rlt_dec (Cmod a ^ 2 / (1000000 * IZR (zlen x))) (rent tfr j i) then ((j - 1) mod rs_n x n, k) else (j, i).
Proof. exact c107_vectors. Qed.
Print Assumptions C107_vectors.

(** So outside the column of the impulse at most the threshold is left in a cell,
    and the column of the impulse holds the rest. *)
Theorem C107_impulse : forall x n w tfr rtfr vec k a, rspec x None n w = Ok (Some (tfr, rtfr, vec)) ->
  only_at x k a -> 0 <= k < zlen x - 1 -> 3 <= zlen (rs_w x w) -> real_list (rs_w x w) ->
  let thr := (Cmod a ^ 2 / (1000000 * IZR (zlen x)))%R in
  (forall r c, 0 <= r < rs_n x n -> 0 <= c < zlen x -> c <> k -> rent rtfr r c = if Rlt_dec thr (rent tfr r c) then 0%R else rent tfr r c) /\
  (forall r c, 0 <= r < rs_n x n -> 0 <= c < zlen x -> c <> k -> (0 <= rent rtfr r c <= thr)%R) /\
  (forall r, 0 <= r < rs_n x n -> rent rtfr r k = rsum (arange 0 (zlen x)) (fun i => if Rlt_dec thr (rent tfr r i) then rent tfr r i else if i =? k then rent tfr r i else 0%R)).
Proof. exact c107_impulse. Qed.
Print Assumptions C107_impulse.

Theorem C107_last : forall x n w tfr rtfr vec a j i r c, rspec x None n w = Ok (Some (tfr, rtfr, vec)) ->
  only_at x (zlen x - 1) a -> 3 <= zlen (rs_w x w) -> a <> RtoC 0 -> 0 <= j < rs_n x n -> 0 <= i <= reach (rs_w x w) (rs_n x n) -> i + reach (rs_w x w) (rs_n x n) < zlen x ->
  cnth (rs_w x w) ((zlen (rs_w x w) - 1) / 2 - i) <> RtoC 0 -> vent vec j i = Some (r, c) -> snd (dest vec j i) = 0.
Proof. exact c107_last. Qed.
Print Assumptions C107_last.

(** An impulse at sample 1: spread over three columns before, in column 1 after. *)
Example C107_example : exists tfr rtfr vec, rspec [RtoC 0; RtoC 1; RtoC 0; RtoC 0] None None (Some ones3) = Ok (Some (tfr, rtfr, vec)) /\
  forall r, 0 <= r < 4 -> map (rent tfr r) [0; 1; 2; 3] = [0; 1 / 3; 1 / 3; 1 / 3]%R /\ map (rent rtfr r) [0; 1; 2; 3] = [0; 1; 0; 0]%R.
Proof. exact c107_example. Qed.

(** An impulse at the last sample appears in column 0. *)
Theorem C107_last_refuted : exists x tfr rtfr vec, rspec x None None (Some ones3) = Ok (Some (tfr, rtfr, vec)) /\ only_at x 3 (RtoC 1) /\ zlen x = 4 /\ exists r, 0 <= r < 4 /\ (1 / 3 <= rent rtfr r 0)%R.
Proof. exact c107_last_refuted. Qed.
Print Assumptions C107_last_refuted.
