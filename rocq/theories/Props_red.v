(** Property theorems, restated from T_red.v (generated by tools/genprops.py).
    C73, C74: exact relations between the pseudo Wigner-Ville distributions. *)

From Coq Require Import Reals ZArith List Lia Lra Bool.
From Coquelicot Require Import Coquelicot.
From Verif Require Import Py Scalars CSum DFT Spec M_base M_stft M_cohen M_amb P_base P_stft P_wvd P_pwvd P_spec T_stft T_wvd T_pwvd P_spwv T_spwv T_dual T_red.
Import ListNotations.
Local Open Scope Z_scope.

(** What the smoothed transform computes with a one-sample time window: every lag of the
    signal product is stored one lag further out, the mirrored lag is weighted by the
    window at 2 - t, and the lag zero product is counted again at lags 1 and -1. *)
Theorem C74_one_sample_window : forall x l n v fw out i ti col f, 1 <= n -> v <> RtoC 0 -> zlen fw mod 2 = 1 ->
  spwv x (Some l) (Some n) (Some [v]) (Some fw) = Ok out ->
  nth_error l (Z.to_nat i) = Some ti -> nth_error out (Z.to_nat i) = Some (Some col) -> 1 <= ti <= zlen x -> 0 <= f < n ->
  let m := Z.min (Z.min (ti - 1) (zlen x - ti)) (Z.min (round_half n - 1) ((zlen fw - 1) / 2)) in
  let lag := fun k : Z => (cnth x (ti - 1 + k) * Cconj (cnth x (ti - 1 - k)))%C in
  rnth col f = Re (lag 0%Z + csum (arange 1 (m + 1)) (fun t => winf fw t * lag (t - 1)%Z * root n (- (f * t)) + winf fw (2 - t) * lag (1 - t)%Z * root n (f * t)))%C.
Proof. exact c74_one_sample_window. Qed.
Print Assumptions C74_one_sample_window.

(** Which columns are NaN: those where some lag that is used has points under the time
    window and the weights of these points cancel. *)
Theorem C29_nan_iff : forall x l n tw fw out i ti, 1 <= n -> zlen tw mod 2 = 1 -> zlen fw mod 2 = 1 ->
  spwv x (Some l) (Some n) (Some tw) (Some fw) = Ok out -> nth_error l (Z.to_nat i) = Some ti ->
  let lg := (zlen tw - 1) / 2 in let lh := (zlen fw - 1) / 2 in
  let m := Z.min (Z.min (ti + lg - 1) (zlen x - ti + lg)) (Z.min (round_half n - 1) lh) in
  nth_error out (Z.to_nat i) = Some None <->
  exists tau, 0 <= tau < Z.max 1 m /\ (exists s, tau <= s < zlen x - tau /\ Z.abs (ti - 1 - s) <= lg) /\ lagmass x (winf tw) (ti - 1) tau = RtoC 0.
Proof. exact c29_nan_iff. Qed.
Print Assumptions C29_nan_iff.

(** Three samples under the window 1, -2, 1: the column at the middle is NaN, the one at
    the first sample (weights -2 and 1) is not. *)
Example C29_nan_example : exists col, spwv [RtoC 1; RtoC 1; RtoC 1] (Some [2; 1]) (Some 3) (Some [RtoC 1; RtoC (-2); RtoC 1]) (Some [RtoC 1]) = Ok [None; Some col].
Proof. exact c29_nan_example. Qed.

(** Four samples: row 1 is the same in both representations and labelled 1/8 in one, 1/4
    in the other. *)
Example C73_labels_example : exists o o' m, wvd [RtoC 1; Ci; RtoC 2; RtoC 3] None None = Ok o /\
  pwvd [RtoC 1; Ci; RtoC 2; RtoC 3] None None (Some [RtoC 1; RtoC 1; RtoC 1]) = Ok (o', m) /\
  at2 m 1 0 = at2 (r_tfr o) 1 0 /\ at2 m 1 0 = RtoC 1 /\ rnth (r_freqs o) 1 = (1 / 8)%R /\ rnth (r_freqs o') 1 = (1 / 4)%R.
Proof. exact c73_labels_example. Qed.
