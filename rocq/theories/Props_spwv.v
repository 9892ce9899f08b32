(** Property theorems, restated from T_spwv.v (generated by tools/genprops.py).
    C29, C74: the smoothed pseudo Wigner-Ville distribution. *)

From Coq Require Import Reals ZArith List Lia Lra Bool.
From Coquelicot Require Import Coquelicot.
From Verif Require Import Py Scalars CSum DFT Spec M_base M_stft M_cohen P_base P_stft P_wvd P_spec P_mh P_spwv T_spwv.
Import ListNotations.
Local Open Scope Z_scope.

(** Integer timestamps: the call returns unless some timestamp lies strictly
    inside the signal by more than round(n/2) samples on both sides while the
    frequency window reaches round(n/2). *)
Theorem C29_spwv_outcome : forall x l n tw fw, 1 <= n -> zlen tw mod 2 = 1 -> zlen fw mod 2 = 1 ->
  let bad ti := round_half n + 1 <= ti <= zlen x - round_half n /\ round_half n <= (zlen fw - 1) / 2 in
  ((forall ti, In ti l -> ~ bad ti) /\
   exists m, spwv x (Some l) (Some n) (Some tw) (Some fw) = Ok m /\ zlen m = zlen l /\
     forall col, In (Some col) m -> zlen col = n) \/
  ((exists ti, In ti l /\ bad ti) /\
   spwv x (Some l) (Some n) (Some tw) (Some fw) = Raise IndexError).
Proof. exact c29_spwv_outcome. Qed.
Print Assumptions C29_spwv_outcome.

Theorem C29_even_window : forall x ts n tw fw,
  (forall tw', zlen fw mod 2 = 0 -> spwv x ts n tw' (Some fw) = Raise ValueError) /\
  (zlen tw mod 2 = 0 -> zlen fw mod 2 = 1 -> spwv x ts n (Some tw) (Some fw) = Raise ValueError).
Proof. exact c29_even_window. Qed.
Print Assumptions C29_even_window.

(** Entry (f, i): the lag-0 average, plus for every lag t = 1..m the average of
    lag t-1 (not t) weighted by the window at t and 2-t (not t and -t). *)
Theorem C29_spwv_closed_form : forall x l n tw fw out i ti col f, 1 <= n ->
  zlen tw mod 2 = 1 -> zlen fw mod 2 = 1 ->
  spwv x (Some l) (Some n) (Some tw) (Some fw) = Ok out ->
  nth_error l (Z.to_nat i) = Some ti -> nth_error out (Z.to_nat i) = Some (Some col) ->
  0 <= f < n ->
  let lg := (zlen tw - 1) / 2 in let lh := (zlen fw - 1) / 2 in
  let m := Z.min (Z.min (ti + lg - 1) (zlen x - ti + lg)) (Z.min (round_half n - 1) lh) in
  rnth col f =
  Re (lagavg x (winf tw) (ti - 1) 0
      + csum (arange 1 (m + 1)) (fun t =>
          winf fw t * lagavg x (winf tw) (ti - 1) (t - 1) * root n (- (f * t))
        + winf fw (2 - t) * lagavg x (winf tw) (ti - 1) (1 - t) * root n (f * t)))%C.
Proof. exact c29_spwv_closed_form. Qed.
Print Assumptions C29_spwv_closed_form.

(** Mean over frequency: the normalised weighted average of |x|^2 around t-1. *)
Theorem C29_spwv_marginal : forall x l n tw fw out i ti col, 1 <= n ->
  zlen tw mod 2 = 1 -> zlen fw mod 2 = 1 ->
  spwv x (Some l) (Some n) (Some tw) (Some fw) = Ok out ->
  nth_error l (Z.to_nat i) = Some ti -> nth_error out (Z.to_nat i) = Some (Some col) ->
  rsum (arange 0 n) (rnth col) =
  (IZR n * Re (csum (arange 0 (zlen x)) (fun s => winf tw (ti - 1 - s)%Z * RtoC (Cmod (cnth x s) ^ 2))
               / csum (arange 0 (zlen x)) (fun s => winf tw (ti - 1 - s)%Z))%C)%R.
Proof. exact c29_spwv_marginal. Qed.
Print Assumptions C29_spwv_marginal.

(** For a real window the average is real. *)
Theorem C29_spwv_marginal_real : forall x l n g fw out i ti col, 1 <= n ->
  zlen g mod 2 = 1 -> zlen fw mod 2 = 1 ->
  spwv x (Some l) (Some n) (Some (map RtoC g)) (Some fw) = Ok out ->
  nth_error l (Z.to_nat i) = Some ti -> nth_error out (Z.to_nat i) = Some (Some col) ->
  let v s := Re (winf (map RtoC g) (ti - 1 - s)) in
  (rsum (arange 0 n) (rnth col) * rsum (arange 0 (zlen x)) v =
   IZR n * rsum (arange 0 (zlen x)) (fun s => v s * Cmod (cnth x s) ^ 2))%R \/
  rsum (arange 0 (zlen x)) v = 0%R.
Proof. exact c29_spwv_marginal_real. Qed.
Print Assumptions C29_spwv_marginal_real.

(** Positive time windows never produce NaN. *)
Theorem C29_positive_window_no_nan : forall x l n g fw out, 1 <= n ->
  zlen g mod 2 = 1 -> zlen fw mod 2 = 1 -> (forall v, In v g -> (0 < v)%R) ->
  spwv x (Some l) (Some n) (Some (map RtoC g)) (Some fw) = Ok out ->
  ~ In None out.
Proof. exact c29_positive_window_no_nan. Qed.
Print Assumptions C29_positive_window_no_nan.

(** A time window that sums to zero yields NaN. *)
Theorem C29_nan_refuted : exists x tw fw : list C,
  spwv x (Some [2]) None (Some tw) (Some fw) = Ok [None].
Proof. exact c29_nan_refuted. Qed.
Print Assumptions C29_nan_refuted.

(** With a one-sample time window the distribution should be the pseudo
    Wigner-Ville distribution around sample t-1; it is not, because lag tau is
    stored at lag tau+1. *)
Theorem C74_refuted : exists (x fw : list C) out col,
  spwv x (Some [2]) (Some 4) (Some [RtoC 1]) (Some fw) = Ok out /\
  nth_error out 0 = Some (Some col) /\
  rnth col 0 = 3%R /\ PWV x fw 4 0 1 = RtoC 1.
Proof. exact c74_refuted. Qed.
Print Assumptions C74_refuted.

Example C29_example : exists out col,
  spwv [RtoC 1; RtoC 2; RtoC 0; Ci] (Some [2]) None (Some (map RtoC [1%R; 2%R; 1%R])) (Some [RtoC 1]) = Ok out /\
  nth_error out 0 = Some (Some col) /\ rsum (arange 0 4) (rnth col) = 9%R.
Proof. exact c29_example. Qed.
