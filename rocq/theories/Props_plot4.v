(** Property theorems, restated from T_plot4.v (generated by tools/genprops.py).
    C99: WignerVilleDistribution.plot with scale="log". *)

From Coq Require Import Reals ZArith List Lia Lra Bool.
From Coquelicot Require Import Coquelicot.
From Verif Require Import Py Scalars CSum DFT Spec M_base P_base M_utils M_putils M_post M_stft M_cohen M_state M_gen1 M_gen2 M_aff M_plot T_gen1 T_putils T_state T_wvd T_aff T_plot T_plot2 T_plot3 T_plot4.
Import ListNotations.
Local Open Scope Z_scope.

Theorem C99_ignored : forall k tf sq th o n t, shaped (r_tfr o) n t -> 1 <= n -> 1 <= t -> tf = false \/ k <> Kcontour ->
  wvd_picture_log k tf sq th o = wvd_picture k tf sq th o.
Proof. exact c99_ignored. Qed.
Print Assumptions C99_ignored.

Theorem C99_outcome : forall k tf sq th o n t lo hi, shaped (r_tfr o) n t -> ts_len (r_ts o) = t -> 1 <= n -> 1 <= t -> 1 <= zlen (r_sig o) -> r_freqs o <> [] ->
  extremes (r_tfr o) n t lo hi -> (0 < hi)%R -> (0 < th)%R ->
  outcome (wvd_picture_log k tf sq th o) (log_refusal k tf n t (zlen (r_sig o)) lo hi th).
Proof. exact c99_outcome. Qed.
Print Assumptions C99_outcome.

(** The 65 levels are geometric, from the larger of the minimum and the threshold up to the maximum. *)
Theorem C99_levels : forall sq th o n t lo hi p, shaped (r_tfr o) n t -> 1 <= n -> 1 <= t -> extremes (r_tfr o) n t lo hi -> (0 < hi)%R -> (0 < th)%R ->
  wvd_picture_log Kcontour true sq th o = Ok p ->
  exists x y m ls rest, p = Contour x y m (Some ls) :: rest /\ zlen ls = 65 /\
    let a := Rmax lo (hi * th) in (a < hi)%R /\ forall i, 0 <= i < 65 -> rnth ls i = (a * Rpower (hi / a) (IZR i / 64))%R.
Proof. exact c99_levels. Qed.
Print Assumptions C99_levels.

(** So a default object is always drawn, with either scale. *)
Theorem C99_wvd_default : forall x o k tf sq th, 3 <= zlen x -> (exists i, 0 <= i < zlen x /\ cnth x i <> RtoC 0) -> wvd x None None = Ok o -> (0 < th < 1)%R ->
  exists p, wvd_picture_log k tf sq th o = Ok p.
Proof. exact c99_wvd_default. Qed.
Print Assumptions C99_wvd_default.

(** Two equal samples have a flat distribution: the levels do not increase. *)
Theorem C99_flat : forall x o sq th, zlen x = 2 -> Cmod (cnth x 0) = Cmod (cnth x 1) -> cnth x 0 <> RtoC 0 -> (0 < th < 1)%R -> wvd x None None = Ok o ->
  wvd_picture_log Kcontour true sq th o = Raise ValueError /\ exists p, wvd_picture Kcontour true sq th o = Ok p.
Proof. exact c99_flat. Qed.
Print Assumptions C99_flat.

Example C99_example : exists o, wvd [RtoC 1; RtoC 2; RtoC 3; RtoC 4] None None = Ok o /\ (exists p, wvd_picture_log Kcontour true false (5 / 100) o = Ok p) /\
  wvd_picture_log Kcontour false false (5 / 100) o = wvd_picture Kcontour false false (5 / 100) o.
Proof. exact c99_example. Qed.
