(** Property theorems, restated from T_mor1.v (generated by tools/genprops.py).
    C164: morlet_scalogram with one frequency bin, with none, or with a time-bandwidth product of 0. *)

From Coq Require Import Reals ZArith List Lia Lra Bool.
From Coquelicot Require Import Coquelicot.
From Flocq Require Import Core.
From Verif Require Import Py Scalars CSum DFT Spec M_base P_base M_reas M_mor M_mor1 T_utils T_reas T_reas2 T_mor T_mor1.
Import ListNotations.
Local Open Scope Z_scope.

(** From two bins on it is the function of C92; irregular timestamps are rejected first. *)
Theorem C164_agrees : forall x l n tbp, 2 <= n -> (0 < tbp)%R -> morlet_any x l (Some n) tbp = morlet x l (Some n) tbp.
Proof. exact c164_agrees. Qed.
Print Assumptions C164_agrees.

Theorem C164_irregular : forall x l n tbp, (forall a d T, 2 <= T -> l <> steps a d T) -> morlet_any x (Some l) n tbp = Raise ValueError.
Proof. exact c164_irregular. Qed.
Print Assumptions C164_irregular.

Theorem C164_negative : forall x a d T n tbp, 2 <= T -> n < 0 -> morlet_any x (Some (steps a d T)) (Some n) tbp = Raise ValueError.
Proof. exact c164_negative. Qed.
Print Assumptions C164_negative.

(** No bins, or tbp = 0: the factor of line 313 (282) divides by zero, whatever the signal. *)
Theorem C164_zero : forall x a d T n tbp, 2 <= T -> 0 <= n -> n = 0 \/ tbp = 0%R -> morlet_any x (Some (steps a d T)) (Some n) tbp = Raise ZeroDivisionError.
Proof. exact c164_zero. Qed.
Print Assumptions C164_zero.

(** One bin: zeros, whatever the signal, at the timestamps of C92; IndexError otherwise. *)
Theorem C164_one : forall x a d T tbp, 1 <= zlen x -> 2 <= T -> (0 < tbp)%R ->
  ((forall i, 0 <= i < T -> 1 - zlen x <= a + d * i /\ (a + d * i < 2 \/ a + d * i < zlen x)) ->
   exists tfr rtfr, morlet_any x (Some (steps a d T)) (Some 1) tbp = Ok (tfr, rtfr) /\ shape tfr 1 T /\ shape rtfr 1 T /\ (forall c, 0 <= c < T -> rent tfr 0 c = 0%R /\ rent rtfr 0 c = 0%R)) /\
  (~ (forall i, 0 <= i < T -> 1 - zlen x <= a + d * i /\ (a + d * i < 2 \/ a + d * i < zlen x)) -> morlet_any x (Some (steps a d T)) (Some 1) tbp = Raise IndexError).
Proof. exact c164_one. Qed.
Print Assumptions C164_one.

(** 5, 5, 5: one bin gives zeros at 0, 1, 2 and IndexError at 1, 2, 3; no bins, or tbp = 0, ZeroDivisionError. *)
Example C164_example : let x := [RtoC 5; RtoC 5; RtoC 5] in
  (exists tfr rtfr, morlet_any x None (Some 1) (1 / 4)%R = Ok (tfr, rtfr) /\ forall c, 0 <= c < 3 -> rent tfr 0 c = 0%R) /\
  morlet_any x (Some [1; 2; 3]) (Some 1) (1 / 4)%R = Raise IndexError /\ morlet_any x None (Some 0) (1 / 4)%R = Raise ZeroDivisionError /\ morlet_any x None None 0%R = Raise ZeroDivisionError.
Proof. exact c164_example. Qed.
