(** Property theorems, restated from T_sprev.v (generated by tools/genprops.py).
    C161: smoothed_pseudo_wigner_ville of a signal played backwards or conjugated. *)

From Coq Require Import Reals ZArith List Lia Lra Bool.
From Coquelicot Require Import Coquelicot.
From Flocq Require Import Core.
From Verif Require Import Py Scalars CSum DFT Spec M_base M_stft M_cohen M_amb M_putils M_reas P_base P_stft P_wvd P_pwvd P_spec P_spwv T_rev T_spwv T_red T_key T_noise T_putils T_reas T_reas2 T_conc T_rtone T_sptone T_spimp T_spcov T_sprev.
Import ListNotations.
Local Open Scope Z_scope.

Theorem C161_conj : forall x l n tw fw ox oy i ti cx cy f, 1 <= n -> zlen tw mod 2 = 1 -> zlen fw mod 2 = 1 -> real_list tw -> real_list fw -> spwv x (Some l) (Some n) (Some tw) (Some fw) = Ok ox -> spwv (map Cconj x) (Some l) (Some n) (Some tw) (Some fw) = Ok oy ->
  nth_error l (Z.to_nat i) = Some ti -> nth_error ox (Z.to_nat i) = Some (Some cx) -> nth_error oy (Z.to_nat i) = Some (Some cy) -> 0 <= f < n -> rnth cy ((- f) mod n) = rnth cx f.
Proof. exact c161_conj. Qed.
Print Assumptions C161_conj.

(** Played backwards, with a time window that is symmetric too: instants t and N + 1 - t exchanged, frequencies negated. *)
Theorem C161_reversal : forall x l l' n tw fw ox oy i j ti cx cy f, 1 <= n -> zlen tw mod 2 = 1 -> zlen fw mod 2 = 1 -> real_list tw -> real_list fw -> (forall t, winf tw (- t) = winf tw t) -> spwv x (Some l) (Some n) (Some tw) (Some fw) = Ok ox -> spwv (rev x) (Some l') (Some n) (Some tw) (Some fw) = Ok oy ->
  nth_error l (Z.to_nat i) = Some ti -> nth_error l' (Z.to_nat j) = Some (zlen x + 1 - ti) -> nth_error ox (Z.to_nat i) = Some (Some cx) -> nth_error oy (Z.to_nat j) = Some (Some cy) -> 0 <= f < n -> rnth cy ((- f) mod n) = rnth cx f.
Proof. exact c161_reversal. Qed.
Print Assumptions C161_reversal.

(** Both together: the same picture read from right to left. *)
Theorem C161_mirror : forall x l l' n tw fw ox oy i j ti cx cy f, 1 <= n -> zlen tw mod 2 = 1 -> zlen fw mod 2 = 1 -> (forall t, winf tw (- t) = winf tw t) -> spwv x (Some l) (Some n) (Some tw) (Some fw) = Ok ox -> spwv (rev (map Cconj x)) (Some l') (Some n) (Some tw) (Some fw) = Ok oy ->
  nth_error l (Z.to_nat i) = Some ti -> nth_error l' (Z.to_nat j) = Some (zlen x + 1 - ti) -> nth_error ox (Z.to_nat i) = Some (Some cx) -> nth_error oy (Z.to_nat j) = Some (Some cy) -> 0 <= f < n -> rnth cy f = rnth cx f.
Proof. exact c161_mirror. Qed.
Print Assumptions C161_mirror.

(** 0, 2, 0, 0 is 0, 0, 2, 0 backwards: at instant 2, 12 on row 0 and -4 on row 2 again. *)
Example C161_example : exists col, spwv (rev [RtoC 0; RtoC 0; RtoC 2; RtoC 0]) (Some [2]) (Some 4) (Some [RtoC 1]) (Some [RtoC 1; RtoC 1; RtoC 1]) = Ok [Some col] /\ rnth col 0 = 12%R /\ rnth col 2 = (-4)%R.
Proof. exact c161_example. Qed.
