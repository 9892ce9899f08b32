(** Property theorems, restated from T_rpimp.v (generated by tools/genprops.py).
    C151: the reassigned pseudo Wigner-Ville distribution of an impulse. *)

From Coq Require Import Reals ZArith List Lia Lra Bool.
From Coquelicot Require Import Coquelicot.
From Flocq Require Import Core.
From Verif Require Import Py Scalars CSum DFT Spec M_base M_stft M_cohen M_putils M_reas P_base P_stft P_spec T_key T_noise T_putils T_reas T_reas2 T_rpwv T_conc T_rpimp.
Import ListNotations.
Local Open Scope Z_scope.

(** Before reassignment: the squared modulus of the impulse, in every row of the columns for the instant k + 1. *)
Theorem C151_cells : forall x ts n w tfr rtfr vec k a, rpwv x ts n w = Ok (Some (tfr, rtfr, vec)) -> only_at x k a -> 0 <= k < zlen x ->
  forall j i, 0 <= j < rp_n x n -> 0 <= i < zlen (rp_ts x ts) -> rent tfr j i = if nth (Z.to_nat i) (rp_ts x ts) 0 =? k + 1 then (Cmod a ^ 2)%R else 0%R.
Proof. exact c151_cells. Qed.
Print Assumptions C151_cells.

(** A cell of those columns that moves goes to the row before it, circularly. *)
Theorem C151_rows : forall x ts n w tfr rtfr vec k a, rpwv x ts n w = Ok (Some (tfr, rtfr, vec)) -> only_at x k a -> 0 <= k < zlen x -> real_list (rp_w x n w) ->
  forall j i, 0 <= j < rp_n x n -> 0 <= i < zlen (rp_ts x ts) -> vent vec j i <> None -> rdest vec j i = (j - 1) mod (rp_n x n).
Proof. exact c151_rows. Qed.
Print Assumptions C151_rows.

(** The reassigned distribution is the distribution. *)
Theorem C151_same : forall x ts n w tfr rtfr vec k a, rpwv x ts n w = Ok (Some (tfr, rtfr, vec)) -> only_at x k a -> 0 <= k < zlen x -> real_list (rp_w x n w) ->
  forall j i, 0 <= j < rp_n x n -> 0 <= i < zlen (rp_ts x ts) -> rent rtfr j i = rent tfr j i.
Proof. exact c151_same. Qed.
Print Assumptions C151_same.

(** With the default instants the impulse is in column k + 1, every cell of it moves, and at the last sample it is
    nowhere. *)
Theorem C151_default : forall x n w tfr rtfr vec k a, rpwv x None n w = Ok (Some (tfr, rtfr, vec)) -> only_at x k a -> 0 <= k < zlen x -> real_list (rp_w x n w) ->
  forall j i, 0 <= j < rp_n x n -> 0 <= i < zlen x ->
  rent tfr j i = (if i =? k + 1 then (Cmod a ^ 2)%R else 0%R) /\ rent rtfr j i = rent tfr j i /\ (a <> RtoC 0 -> (vent vec j i <> None <-> i = k + 1)).
Proof. exact c151_default. Qed.
Print Assumptions C151_default.

(** The value 2 at sample 1 of four, eight bins, window 1, 1, 1: column 2 holds 4 in both outputs, column 1 holds 0. *)
Example C151_example : exists tfr rtfr vec, rpwv [RtoC 0; RtoC 2; RtoC 0; RtoC 0] None (Some 8) (Some [RtoC 1; RtoC 1; RtoC 1]) = Ok (Some (tfr, rtfr, vec)) /\
  rent tfr 5 2 = 4%R /\ rent rtfr 5 2 = 4%R /\ rent tfr 5 1 = 0%R /\ rdest vec 5 2 = 4 /\ rdest vec 0 2 = 7.
Proof. exact c151_example. Qed.
