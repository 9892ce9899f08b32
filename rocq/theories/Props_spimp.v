(** Property theorems, restated from T_spimp.v (generated by tools/genprops.py).
    C157: smoothed_pseudo_wigner_ville of an impulse. *)

From Coq Require Import Reals ZArith List Lia Lra Bool.
From Coquelicot Require Import Coquelicot.
From Flocq Require Import Core.
From Verif Require Import Py Scalars CSum DFT Spec M_base M_stft M_cohen M_amb M_putils M_reas P_base P_stft P_wvd P_pwvd P_spec P_spwv T_spwv T_red T_key T_noise T_putils T_reas T_reas2 T_conc T_rtone T_sptone T_spimp.
Import ListNotations.
Local Open Scope Z_scope.

(** The column is the share of the impulse times 1 + 2 w[1] cos(2 pi f / n), not times 1. *)
Theorem C157_impulse : forall x k a l n tw fw out i ti col f, only_at x k a -> 0 <= k < zlen x -> 1 <= n -> zlen tw mod 2 = 1 -> zlen fw mod 2 = 1 ->
  spwv x (Some l) (Some n) (Some tw) (Some fw) = Ok out -> nth_error l (Z.to_nat i) = Some ti -> nth_error out (Z.to_nat i) = Some (Some col) -> 0 <= f < n ->
  rnth col f = (Cmod a ^ 2 * Re (share x tw (ti - 1) k * (RtoC 1 + (if (1 <=? lags_used x tw fw n ti)%Z then RtoC (2 * cos (2 * PI * IZR f / IZR n)) * winf fw 1 else RtoC 0)))%C)%R.
Proof. exact c157_impulse. Qed.
Print Assumptions C157_impulse.

(** Columns further from the impulse than the time window reaches are empty. *)
Theorem C157_support : forall x k a l n tw fw out i ti col f, only_at x k a -> 0 <= k < zlen x -> 1 <= n -> zlen tw mod 2 = 1 -> zlen fw mod 2 = 1 ->
  spwv x (Some l) (Some n) (Some tw) (Some fw) = Ok out -> nth_error l (Z.to_nat i) = Some ti -> nth_error out (Z.to_nat i) = Some (Some col) -> 0 <= f < n ->
  (zlen tw - 1) / 2 < Z.abs (ti - 1 - k) -> rnth col f = 0%R.
Proof. exact c157_support. Qed.
Print Assumptions C157_support.

(** Real windows with w[1] > 1/2: the column of an impulse is negative on rows about n/2. *)
Theorem C157_negative : forall x k a l n tw fw out i ti col f (g w : R), only_at x k a -> 0 <= k < zlen x -> a <> RtoC 0 -> 1 <= n -> zlen tw mod 2 = 1 -> zlen fw mod 2 = 1 ->
  spwv x (Some l) (Some n) (Some tw) (Some fw) = Ok out -> nth_error l (Z.to_nat i) = Some ti -> nth_error out (Z.to_nat i) = Some (Some col) -> 0 <= f < n -> 1 <= lags_used x tw fw n ti ->
  share x tw (ti - 1) k = RtoC g -> (0 < g)%R -> winf fw 1 = RtoC w -> (1 / 2 < w)%R -> 2 * f = n -> (rnth col f < 0)%R.
Proof. exact c157_negative. Qed.
Print Assumptions C157_negative.

(** 0, 0, 2, 0 with the time window [1] and the frequency window [1, 1, 1]: 12 on row 0, -4 on row 2. *)
Example C157_example : exists col, spwv [RtoC 0; RtoC 0; RtoC 2; RtoC 0] (Some [3]) (Some 4) (Some [RtoC 1]) (Some [RtoC 1; RtoC 1; RtoC 1]) = Ok [Some col] /\ rnth col 0 = 12%R /\ rnth col 2 = (-4)%R.
Proof. exact c157_example. Qed.
