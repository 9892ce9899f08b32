(** Property theorems, restated from T_more.v (generated by tools/genprops.py).
    C40, exactly: which exception the broken reassigned functions raise. *)

From Coq Require Import Reals ZArith List Lia Lra Bool.
From Coquelicot Require Import Coquelicot.
From Verif Require Import Py Scalars M_base P_base M_reas T_reas T_more.
Import ListNotations.
Local Open Scope Z_scope.

(** No window: TypeError (the default Hamming window gets a float length); an even window:
    ValueError; an odd one: IndexError (its centre is a float). *)
Theorem C40_pmh_outcome : forall B (rest : list C -> res B) x n w,
  rpmh rest x n w = Raise (match w with None => TypeError | Some w => if Z.eq_dec (zlen w mod 2) 0 then ValueError else IndexError end).
Proof. exact c40_pmh_outcome. Qed.
Print Assumptions C40_pmh_outcome.

Theorem C40_page_outcome : forall B (rest : list C -> res B) x n w,
  rppage rest x n w = Raise (match w with None => TypeError | Some w => if Z.eq_dec (zlen w mod 2) 0 then ValueError else IndexError end).
Proof. exact c40_page_outcome. Qed.
Print Assumptions C40_page_outcome.

(** Smoothed pseudo Wigner-Ville: TypeError unless both windows are given, ValueError for an even
    one (the frequency window is looked at first), and with everything right IndexError. *)
Theorem C40_spwv_no_window : forall B (rest : list C -> res B) x ts n tw w, zlen w mod 2 <> 0 ->
  rspwv rest x ts n tw None = Raise TypeError /\ rspwv rest x ts n None (Some w) = Raise TypeError.
Proof. exact c40_spwv_no_window. Qed.
Print Assumptions C40_spwv_no_window.

Theorem C40_spwv_even : forall B (rest : list C -> res B) x ts n tw fw, 
  (zlen fw mod 2 = 0 -> rspwv rest x ts n tw (Some fw) = Raise ValueError) /\
  (zlen fw mod 2 <> 0 -> forall w, tw = Some w -> zlen w mod 2 = 0 -> rspwv rest x ts n tw (Some fw) = Raise ValueError).
Proof. exact c40_spwv_even. Qed.
Print Assumptions C40_spwv_even.

Theorem C40_spwv_outcome : forall B (rest : list C -> res B) (x : list C) n tw fw, 2 <= zlen x -> match n with Some n => 0 <= n | None => True end ->
  zlen tw mod 2 <> 0 -> zlen fw mod 2 <> 0 -> rspwv rest x None n (Some tw) (Some fw) = Raise IndexError.
Proof. exact c40_spwv_outcome. Qed.
Print Assumptions C40_spwv_outcome.

Example C40_outcome_example : rpmh (fun _ => Ok tt) [RtoC 1] None (Some [RtoC 1; RtoC 2; RtoC 1]) = Raise IndexError /\
  rspwv (fun _ => Ok tt) [RtoC 1; RtoC 2] None None (Some [RtoC 1]) (Some [RtoC 1; RtoC 2; RtoC 1]) = Raise IndexError.
Proof. exact c40_outcome_example. Qed.
