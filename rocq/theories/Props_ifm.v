(** Property theorems, restated from T_ifm.v (generated by tools/genprops.py).
    C130: the circular mean frequency of a Wigner-Ville column is the
    instantaneous frequency. *)

From Coq Require Import Reals ZArith List Lia Lra Bool.
From Coquelicot Require Import Coquelicot.
From Verif Require Import Py Scalars CSum DFT Spec M_base M_stft M_cohen M_amb M_dom P_base P_stft P_wvd P_pwvd T_wvd T_pwvd T_amb T_dual T_dom T_ifm.
Import ListNotations.
Local Open Scope Z_scope.

(** The first circular moment of column t over the rows of the Wigner-Ville
    distribution, each row at the frequency the object reports for it. *)
Theorem C130_wvd : forall ang x ts n o fs is t, (forall k z, is_angle z (ang k z)) -> 2 <= n ->
  wvd x (Some ts) (Some n) = Ok o -> inst_freq ang x None = Ok (fs, is) -> 1 <= t < zlen x - 1 ->
  csum (arange 0 n) (fun j => at2 (r_tfr o) j t * cis (4 * PI * rnth (r_freqs o) j))%C
  = (RtoC (IZR n * (Cmod (cnth x (t + 1)) * Cmod (cnth x (t - 1)))) * cis (4 * PI * rnth fs (t - 1)))%C.
Proof. exact c130_wvd. Qed.
Print Assumptions C130_wvd.

(** Hence the frequency reported by inst_freq is determined by the column, whenever the two samples do not vanish. *)
Theorem C130_determined : forall ang x y ts ts' n o o' fs is gs js t, (forall k z, is_angle z (ang k z)) -> 2 <= n ->
  wvd x (Some ts) (Some n) = Ok o -> wvd y (Some ts') (Some n) = Ok o' -> zlen x = zlen y ->
  inst_freq ang x None = Ok (fs, is) -> inst_freq ang y None = Ok (gs, js) -> 1 <= t < zlen x - 1 ->
  cnth x (t + 1) <> RtoC 0 -> cnth x (t - 1) <> RtoC 0 ->
  (forall j, 0 <= j < n -> at2 (r_tfr o') j t = at2 (r_tfr o) j t) ->
  (0 < rnth fs (t - 1) < 1 / 2)%R -> rnth gs (t - 1) = rnth fs (t - 1).
Proof. exact c130_determined. Qed.
Print Assumptions C130_determined.

(** The pseudo distribution: the same direction, weighted by the window at lag one. *)
Theorem C130_pwvd : forall ang x ts n w o m fs is t, (forall k z, is_angle z (ang k z)) -> 2 <= n -> (zlen w - 1) / 2 < round_half n ->
  (forall k, winf w (- k) = Cconj (winf w k)) ->
  pwvd x (Some ts) (Some n) (Some w) = Ok (o, m) -> inst_freq ang x None = Ok (fs, is) -> 1 <= t < zlen x - 1 -> t < ts_len ts ->
  csum (arange 0 n) (fun j => at2 m j t * cis (2 * PI * IZR j / IZR n))%C
  = (winf w 1 * (RtoC (IZR n * (Cmod (cnth x (t + 1)) * Cmod (cnth x (t - 1)))) * cis (4 * PI * rnth fs (t - 1))))%C.
Proof. exact c130_pwvd. Qed.
Print Assumptions C130_pwvd.

Example C130_example : exists o, wvd [RtoC 1; Ci; RtoC (-1)] None None = Ok o /\
  inst_freq (fun _ => Carg) [RtoC 1; Ci; RtoC (-1)] None = Ok ([1 / 4]%R, [2]) /\
  csum (arange 0 3) (fun j => at2 (r_tfr o) j 1 * cis (4 * PI * rnth (r_freqs o) j))%C = RtoC (-3).
Proof. exact c130_example. Qed.
