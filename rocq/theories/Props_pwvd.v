(** Property theorems, restated from T_pwvd.v (generated by tools/genprops.py).
    C28, C73: the pseudo Wigner-Ville distribution. *)

From Coq Require Import Reals ZArith List Lia Lra Bool.
From Coquelicot Require Import Coquelicot.
From Verif Require Import Py Scalars CSum DFT Spec M_base M_stft M_cohen P_base P_stft P_wvd P_pwvd T_wvd T_pwvd.
Import ListNotations.
Local Open Scope Z_scope.

(** *** C28 *)
(** Exact outcome: IndexError as soon as the half-length of the window reaches
    round(n/2) and some column lies between round(n/2)+1 and N-round(n/2). *)
Theorem C28_pwvd_outcome : forall x ts n w, 1 <= n ->
  ((exists c, 0 <= c < ts_len ts /\ round_half n + 1 <= c <= zlen x - round_half n) /\
   round_half n <= (zlen w - 1) / 2 /\
   pwvd x (Some ts) (Some n) (Some w) = Raise IndexError) \/
  (~ ((exists c, 0 <= c < ts_len ts /\ round_half n + 1 <= c <= zlen x - round_half n) /\
      round_half n <= (zlen w - 1) / 2) /\
   exists o m, pwvd x (Some ts) (Some n) (Some w) = Ok (o, m) /\ r_ts o = ts /\
     zlen m = ts_len ts /\ (forall col, In col m -> zlen col = n)).
Proof. exact c28_pwvd_outcome. Qed.
Print Assumptions C28_pwvd_outcome.

Theorem C28_pwvd_short_window_total : forall x ts n w, 1 <= n -> (zlen w - 1) / 2 < round_half n ->
  exists o m, pwvd x (Some ts) (Some n) (Some w) = Ok (o, m).
Proof. exact c28_pwvd_short_window_total. Qed.
Print Assumptions C28_pwvd_short_window_total.

(** Time marginal for every window for which the run returns. *)
Theorem C28_pwvd_marginal : forall x ts n w o m t, 1 <= n -> w <> [] ->
  pwvd x (Some ts) (Some n) (Some w) = Ok (o, m) -> 0 <= t < ts_len ts -> t < zlen x ->
  csum (arange 0 n) (fun f => at2 m f t)
  = RtoC (IZR n * (Re (cnth w ((zlen w - 1) / 2)) * Cmod (cnth x t) ^ 2)).
Proof. exact c28_pwvd_marginal. Qed.
Print Assumptions C28_pwvd_marginal.

(** Closed form; with a Hermitian (in particular real symmetric) window no
    imaginary part is discarded. *)
Theorem C28_pwvd_closed_form : forall x ts n w o m f t, 1 <= n -> (zlen w - 1) / 2 < round_half n ->
  pwvd x (Some ts) (Some n) (Some w) = Ok (o, m) -> 0 <= f < n -> 0 <= t < ts_len ts ->
  at2 m f t = RtoC (Re (PWV x w n f t)) /\
  ((forall k, winf w (- k) = Cconj (winf w k)) -> at2 m f t = PWV x w n f t).
Proof. exact c28_pwvd_closed_form. Qed.
Print Assumptions C28_pwvd_closed_form.

Example C28_example : exists o m,
  pwvd [RtoC 1; Ci; RtoC 2; RtoC 3; RtoC 4] None None (Some [RtoC 1; RtoC 1; RtoC 1]) = Ok (o, m) /\
  csum (arange 0 5) (fun f => at2 m f 2) = RtoC 20.
Proof. exact c28_example. Qed.

Example C28_example_raise : exists x w : list C, pwvd x None None (Some w) = Raise IndexError.
Proof. exact c28_example_raise. Qed.

(** With a rectangular window covering all lags the two distributions have the
    same values, yet row k < n/2 is labelled k/(2n) by one and k/n by the other. *)
Theorem C73_pwvd_labels : forall x, x <> [] -> zlen x mod 2 = 0 ->
  let n := zlen x in
  exists o o' m, wvd x None None = Ok o /\
  pwvd x None None (Some (repeat (RtoC 1) (Z.to_nat (n - 1)))) = Ok (o', m) /\
  (forall f t, 0 <= f < n -> 0 <= t < n -> at2 m f t = at2 (r_tfr o) f t) /\
  (forall k, 0 <= k < n / 2 -> rnth (r_freqs o) k = (IZR k / (2 * IZR n))%R /\
                               rnth (r_freqs o') k = (IZR k / IZR n)%R).
Proof. exact c73_pwvd_labels. Qed.
Print Assumptions C73_pwvd_labels.

Example C73_example : [RtoC 1; Ci; RtoC 2; RtoC 3] <> [] /\ zlen [RtoC 1; Ci; RtoC 2; RtoC 3] mod 2 = 0.
Proof. exact c73_example. Qed.
