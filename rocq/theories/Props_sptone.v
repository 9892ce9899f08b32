(** Property theorems, restated from T_sptone.v (generated by tools/genprops.py).
    C156: smoothed_pseudo_wigner_ville of a tone. *)

From Coq Require Import Reals ZArith List Lia Lra Bool.
From Coquelicot Require Import Coquelicot.
From Flocq Require Import Core.
From Verif Require Import Py Scalars CSum DFT Spec M_base M_stft M_cohen M_amb M_putils M_reas P_base P_stft P_wvd P_pwvd P_spec P_spwv T_spwv T_red T_key T_noise T_putils T_reas T_reas2 T_conc T_rtone T_sptone.
Import ListNotations.
Local Open Scope Z_scope.

(** Every entry of every column that is not NaN. *)
Theorem C156_tone : forall x a nu l n tw fw out i ti col f, is_tone x a nu -> 1 <= n <= zlen x -> zlen tw mod 2 = 1 -> zlen fw mod 2 = 1 -> real_list fw ->
  spwv x (Some l) (Some n) (Some tw) (Some fw) = Ok out -> nth_error l (Z.to_nat i) = Some ti -> nth_error out (Z.to_nat i) = Some (Some col) -> 1 <= ti <= zlen x -> 0 <= f < n ->
  rnth col f = (Cmod a ^ 2 * (1 + rsum (arange 1 (lags_used x tw fw n ti + 1)) (fun t => weight fw t * cos (2 * PI * (IZR t * (2 * nu - IZR f / IZR n) - 2 * nu)))))%R.
Proof. exact c156_tone. Qed.
Print Assumptions C156_tone.

(** On the row of the tone, cos(4 pi nu) takes the place of 1. *)
Theorem C156_row : forall x a nu l n tw fw out i ti col f q, is_tone x a nu -> 1 <= n <= zlen x -> zlen tw mod 2 = 1 -> zlen fw mod 2 = 1 -> real_list fw ->
  spwv x (Some l) (Some n) (Some tw) (Some fw) = Ok out -> nth_error l (Z.to_nat i) = Some ti -> nth_error out (Z.to_nat i) = Some (Some col) -> 1 <= ti <= zlen x -> 0 <= f < n ->
  (2 * nu = IZR f / IZR n + IZR q)%R -> rnth col f = (Cmod a ^ 2 * (1 + cos (4 * PI * nu) * rsum (arange 1 (lags_used x tw fw n ti + 1)) (weight fw)))%R.
Proof. exact c156_row. Qed.
Print Assumptions C156_row.

(** At a quarter of the sampling frequency that is the smallest entry of the column, at 0 and at a half the largest. *)
Theorem C156_trough : forall x a nu l n tw fw out i ti col f q, is_tone x a nu -> 1 <= n <= zlen x -> zlen tw mod 2 = 1 -> zlen fw mod 2 = 1 -> real_list fw -> (forall t, (0 <= Re (winf fw t))%R) ->
  spwv x (Some l) (Some n) (Some tw) (Some fw) = Ok out -> nth_error l (Z.to_nat i) = Some ti -> nth_error out (Z.to_nat i) = Some (Some col) -> 1 <= ti <= zlen x -> 0 <= f < n ->
  (2 * nu = IZR f / IZR n + IZR q)%R -> (cos (4 * PI * nu) = -1 -> forall f', (0 <= f' < n)%Z -> rnth col f <= rnth col f')%R /\ (cos (4 * PI * nu) = 1 -> forall f', (0 <= f' < n)%Z -> rnth col f' <= rnth col f)%R.
Proof. exact c156_trough. Qed.
Print Assumptions C156_trough.

(** 1, i, -1, -i: the row of the tone holds -1, row 0 holds 3. *)
Example C156_example : exists col, spwv [RtoC 1; Ci; RtoC (-1); (- Ci)%C] (Some [2]) (Some 4) (Some [RtoC 1]) (Some [RtoC 1; RtoC 1; RtoC 1]) = Ok [Some col] /\ rnth col 2 = (-1)%R /\ rnth col 0 = 3%R.
Proof. exact c156_example. Qed.
