(** Property theorems, restated from T_spcov.v (generated by tools/genprops.py).
    C159: how smoothed_pseudo_wigner_ville follows the signal. *)

From Coq Require Import Reals ZArith List Lia Lra Bool.
From Coquelicot Require Import Coquelicot.
From Flocq Require Import Core.
From Verif Require Import Py Scalars CSum DFT Spec M_base M_stft M_cohen M_amb M_putils M_reas P_base P_stft P_wvd P_pwvd P_spec P_spwv T_spwv T_red T_key T_noise T_putils T_reas T_reas2 T_conc T_rtone T_sptone T_spimp T_spcov.
Import ListNotations.
Local Open Scope Z_scope.

(** Whether it returns, and which columns are NaN, depends on the length of the signal only. *)
Theorem C159_length : forall x y l n tw fw ox, 1 <= n -> zlen tw mod 2 = 1 -> zlen fw mod 2 = 1 -> zlen x = zlen y -> spwv x (Some l) (Some n) (Some tw) (Some fw) = Ok ox ->
  exists oy, spwv y (Some l) (Some n) (Some tw) (Some fw) = Ok oy /\ forall i ti cx, nth_error l (Z.to_nat i) = Some ti -> nth_error ox (Z.to_nat i) = Some (Some cx) -> exists cy, nth_error oy (Z.to_nat i) = Some (Some cy).
Proof. exact c159_length. Qed.
Print Assumptions C159_length.

Theorem C159_scale : forall x c l n tw fw ox oy i ti cx cy f, 1 <= n -> zlen tw mod 2 = 1 -> zlen fw mod 2 = 1 -> spwv x (Some l) (Some n) (Some tw) (Some fw) = Ok ox -> spwv (scale c x) (Some l) (Some n) (Some tw) (Some fw) = Ok oy ->
  nth_error l (Z.to_nat i) = Some ti -> nth_error ox (Z.to_nat i) = Some (Some cx) -> nth_error oy (Z.to_nat i) = Some (Some cy) -> 0 <= f < n -> rnth cy f = (Cmod c ^ 2 * rnth cx f)%R.
Proof. exact c159_scale. Qed.
Print Assumptions C159_scale.

(** The parallelogram law. *)
Theorem C159_parallelogram : forall x y l n tw fw ox oy op om i ti cx cy cp cm f, 1 <= n -> zlen tw mod 2 = 1 -> zlen fw mod 2 = 1 -> zlen x = zlen y ->
  spwv x (Some l) (Some n) (Some tw) (Some fw) = Ok ox -> spwv y (Some l) (Some n) (Some tw) (Some fw) = Ok oy -> spwv (lincomb (RtoC 1) (RtoC 1) x y) (Some l) (Some n) (Some tw) (Some fw) = Ok op -> spwv (lincomb (RtoC 1) (RtoC (-1)) x y) (Some l) (Some n) (Some tw) (Some fw) = Ok om ->
  nth_error l (Z.to_nat i) = Some ti -> nth_error ox (Z.to_nat i) = Some (Some cx) -> nth_error oy (Z.to_nat i) = Some (Some cy) -> nth_error op (Z.to_nat i) = Some (Some cp) -> nth_error om (Z.to_nat i) = Some (Some cm) -> 0 <= f < n ->
  (rnth cp f + rnth cm f = 2 * rnth cx f + 2 * rnth cy f)%R.
Proof. exact c159_parallelogram. Qed.
Print Assumptions C159_parallelogram.

Theorem C159_real : forall x l n tw fw out i ti col f, 1 <= n -> zlen tw mod 2 = 1 -> zlen fw mod 2 = 1 -> real_list x -> real_list tw -> real_list fw -> spwv x (Some l) (Some n) (Some tw) (Some fw) = Ok out ->
  nth_error l (Z.to_nat i) = Some ti -> nth_error out (Z.to_nat i) = Some (Some col) -> 1 <= f < n -> rnth col (n - f) = rnth col f.
Proof. exact c159_real. Qed.
Print Assumptions C159_real.

Theorem C159_bound : forall x l n tw fw out i ti col f (M : R), 1 <= n -> zlen tw mod 2 = 1 -> zlen fw mod 2 = 1 -> real_list tw -> (forall t, (0 <= Re (winf tw t))%R) -> (forall k, 0 <= k < zlen x -> (Cmod (cnth x k) <= M)%R) -> spwv x (Some l) (Some n) (Some tw) (Some fw) = Ok out ->
  nth_error l (Z.to_nat i) = Some ti -> nth_error out (Z.to_nat i) = Some (Some col) -> 0 <= f < n -> (Rabs (rnth col f) <= M ^ 2 * (1 + rsum (arange 1 (lags_used x tw fw n ti + 1)) (fun t => Cmod (winf fw t) + Cmod (winf fw (2 - t)))))%R.
Proof. exact c159_bound. Qed.
Print Assumptions C159_bound.

Theorem C159_delay : forall x s l l' n tw fw ox oy i j ti cx cy f, 1 <= n -> 0 <= s -> zlen tw mod 2 = 1 -> zlen fw mod 2 = 1 -> spwv x (Some l) (Some n) (Some tw) (Some fw) = Ok ox -> spwv (delay s x) (Some l') (Some n) (Some tw) (Some fw) = Ok oy ->
  nth_error l (Z.to_nat i) = Some ti -> nth_error l' (Z.to_nat j) = Some (ti + s) -> nth_error ox (Z.to_nat i) = Some (Some cx) -> nth_error oy (Z.to_nat j) = Some (Some cy) ->
  (zlen tw - 1) / 2 + lags_used x tw fw n ti <= ti -> (zlen tw - 1) / 2 < ti -> 2 * lags_used x tw fw n ti <= zlen x -> Z.min (round_half n - 1) ((zlen fw - 1) / 2) < ti + (zlen tw - 1) / 2 -> 0 <= f < n -> rnth cy f = rnth cx f.
Proof. exact c159_delay. Qed.
Print Assumptions C159_delay.

(** Modulating by exp(i pi m k / n) turns the rows by m and the lag terms by one bin more or less: not a rotation of the rows. *)
Theorem C159_modulation : forall x y d l n tw fw ox oy i ti cx cy f, 1 <= n -> zlen tw mod 2 = 1 -> zlen fw mod 2 = 1 -> zlen x = zlen y -> (forall k, 0 <= k < zlen x -> cnth y k = (cnth x k * cis (PI * IZR (d * k) / IZR n))%C) ->
  spwv x (Some l) (Some n) (Some tw) (Some fw) = Ok ox -> spwv y (Some l) (Some n) (Some tw) (Some fw) = Ok oy -> nth_error l (Z.to_nat i) = Some ti -> nth_error ox (Z.to_nat i) = Some (Some cx) -> nth_error oy (Z.to_nat i) = Some (Some cy) -> 0 <= f < n ->
  rnth cy f = Re (lagavg x (winf tw) (ti - 1) 0 + csum (arange 1 (lags_used x tw fw n ti + 1)) (fun t => root n (- d) * (winf fw t * lagavg x (winf tw) (ti - 1) (t - 1) * root n (- ((f - d) * t))) + root n d * (winf fw (2 - t) * lagavg x (winf tw) (ti - 1) (1 - t) * root n ((f - d) * t))))%C.
Proof. exact c159_modulation. Qed.
Print Assumptions C159_modulation.

(** 0, 0, 2, 0 times 2i: 48 and -16 where C157 has 12 and -4, equal rows 1 and 3; one sample later: 12 and -4 one column later. *)
Example C159_example : let x := [RtoC 0; RtoC 0; RtoC 2; RtoC 0] in let sp x l := spwv x (Some l) (Some 4) (Some [RtoC 1]) (Some [RtoC 1; RtoC 1; RtoC 1]) in
  (exists col, sp (scale (0, 2)%R x) [3] = Ok [Some col] /\ rnth col 0 = 48%R /\ rnth col 2 = (-16)%R) /\ (exists col, sp x [3] = Ok [Some col] /\ rnth col 3 = rnth col 1 /\ (Rabs (rnth col 1) <= 2 ^ 2 * 3)%R) /\
  (exists col, sp (delay 1 x) [4] = Ok [Some col] /\ rnth col 0 = 12%R /\ rnth col 2 = (-4)%R).
Proof. exact c159_example. Qed.
