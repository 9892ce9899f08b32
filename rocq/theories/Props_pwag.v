(** Property theorems, restated from T_pwag.v (generated by tools/genprops.py).
    C150: the two pseudo Wigner-Ville distributions of the library. *)

From Coq Require Import Reals ZArith List Lia Lra Bool.
From Coquelicot Require Import Coquelicot.
From Flocq Require Import Core.
From Verif Require Import Py Scalars CSum DFT Spec M_base M_stft M_cohen M_putils M_reas P_base P_stft P_wvd P_pwvd T_wvd T_pwvd T_putils T_reas T_reas2 T_pwag.
Import ListNotations.
Local Open Scope Z_scope.

(** With one window, whose centre is real, the column of the reassigned module for the instant ti is the column ti - 1 of the class
    divided by the centre of the window. *)
Theorem C150_agree : forall x ts n w tfr rtfr vec tc o m j i, 1 <= n -> (zlen w - 1) / 2 < round_half n -> rpwv x ts (Some n) (Some w) = Ok (Some (tfr, rtfr, vec)) -> pwvd x (Some tc) (Some n) (Some w) = Ok (o, m) ->
  Im (cnth w ((zlen w - 1) / 2)) = 0%R -> cnth w ((zlen w - 1) / 2) <> RtoC 0 -> 0 <= j < n -> 0 <= i < zlen (rp_ts x ts) ->
  let ti := nth (Z.to_nat i) (rp_ts x ts) 0 in 1 <= ti <= zlen x -> ti <= ts_len tc -> at2 m j (ti - 1) = RtoC (Re (cnth w ((zlen w - 1) / 2)) * rent tfr j i).
Proof. exact c150_agree. Qed.
Print Assumptions C150_agree.

(** With the default instants 0, 1, .., N-1 the reassigned module is one column late: its first column is zero and the
    column of the last sample is missing. *)
Theorem C150_default : forall x n w tfr rtfr vec o m, 1 <= n -> (zlen w - 1) / 2 < round_half n -> rpwv x None (Some n) (Some w) = Ok (Some (tfr, rtfr, vec)) -> pwvd x None (Some n) (Some w) = Ok (o, m) ->
  cnth w ((zlen w - 1) / 2) = RtoC 1 -> forall j i, 0 <= j < n -> 0 <= i < zlen x -> rent tfr j i = if i =? 0 then 0%R else Re (at2 m j (i - 1)).
Proof. exact c150_default. Qed.
Print Assumptions C150_default.

(** Both return when the half-length of the window is below n/2 - 1; at n/2 - 1 the class still returns, while the
    reassigned module raises at every instant far enough from the ends. *)
Theorem C150_both : forall x n w, x <> [] -> 1 <= n -> zlen w mod 2 = 1 -> 3 <= zlen w -> cnth w ((zlen w - 1) / 2) <> RtoC 0 -> (zlen w - 1) / 2 < round_half n - 1 ->
  (exists tfr rtfr vec, rpwv x None (Some n) (Some w) = Ok (Some (tfr, rtfr, vec))) /\ exists o m, pwvd x None (Some n) (Some w) = Ok (o, m).
Proof. exact c150_both. Qed.
Print Assumptions C150_both.

Theorem C150_only_class : forall x n w c, 1 <= n -> zlen w mod 2 = 1 -> (zlen w - 1) / 2 = round_half n - 1 -> round_half n < c -> c < zlen x - round_half n + 1 ->
  rpwv x None (Some n) (Some w) = Raise IndexError /\ exists o m, pwvd x None (Some n) (Some w) = Ok (o, m).
Proof. exact c150_only_class. Qed.
Print Assumptions C150_only_class.

(** Samples 3, 1, 2, 2, eight bins, window 1, 1, 1: the value 1 + 6 + 6 at frequency 0 around sample 1 is in column 1 of
    the class and in column 2 of the reassigned module, of which column 0 is zero. *)
Example C150_example : exists tfr rtfr vec o m, let x := [RtoC 3; RtoC 1; RtoC 2; RtoC 2] in let w := Some [RtoC 1; RtoC 1; RtoC 1] in
  rpwv x None (Some 8) w = Ok (Some (tfr, rtfr, vec)) /\ pwvd x None (Some 8) w = Ok (o, m) /\ at2 m 0 1 = RtoC 13 /\ rent tfr 0 2 = 13%R /\ rent tfr 0 0 = 0%R.
Proof. exact c150_example. Qed.
