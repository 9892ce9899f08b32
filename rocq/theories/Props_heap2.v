(** Property theorems, restated from T_heap2.v (generated by tools/genprops.py).
    C121, continued: calls that raise, [plot] against its value model, and the spectrogram run again
    after [plot], through the view. *)

From Coq Require Import Reals ZArith List Lia Lra Bool.
From Coquelicot Require Import Coquelicot.
From Verif Require Import Py Scalars CSum DFT Spec M_base M_stft M_cohen M_state M_heap M_utils T_heap2.
From Verif Require Import P_base P_stft P_wvd P_pwvd T_utils P_spec T_state T_mh T_plot T_heap.
Import ListNotations.
Local Open Scope Z_scope.

(** The Wigner-Ville distribution with few bins raises at column round(n/2)+1.  The object's matrix
    then holds the lag products of the columns up to that one and zeros after it; nothing has been
    transformed. *)
Theorem C121_wvd_failed_run : forall x ts n, 1 <= n -> ts_len ts = zlen x -> 2 * round_half n + 1 <= zlen x -> round_half n + 1 < zlen x ->
  exists s, run_step KWvd (create x (Some ts) (Some n) None) = Some (s, Raise IndexError) /\
  forall c, 0 <= c < zlen x ->
  let m := Z.min (Z.min c (zlen x - c - 1)) (round_half n - 1) in
  (c <= round_half n + 1 ->
    (forall t, - m <= t <= m -> (forall t', t < t' <= m -> t' mod n <> t mod n) -> at2 (view s) (t mod n) c = (cnth x (c + t) * Cconj (cnth x (c - t)))%C) /\
    (forall f, 0 <= f < n -> (forall t, - m <= t <= m -> t mod n <> f) -> at2 (view s) f c = RtoC 0)) /\
  (round_half n + 1 < c -> forall f, 0 <= f < n -> at2 (view s) f c = RtoC 0).
Proof. exact c121_wvd_failed_run. Qed.
Print Assumptions C121_wvd_failed_run.

(** The pseudo Wigner-Ville distribution, when the window reaches round(n/2). *)
Theorem C121_pwvd_failed_run : forall x ts n w, 1 <= n -> 2 * round_half n + 1 <= zlen x -> round_half n + 1 < ts_len ts -> round_half n <= (zlen w - 1) / 2 ->
  exists s, run_step KPwvd (create x (Some ts) (Some n) (Some w)) = Some (s, Raise IndexError) /\
  forall c, 0 <= c < ts_len ts ->
  let lh := (zlen w - 1) / 2 in
  let m := Z.min (Z.min c (zlen x - c - 1)) (round_half n) in
  (c <= round_half n + 1 ->
    (forall t, - m <= t <= m -> (forall t', t < t' <= m -> t' mod n <> t mod n) -> at2 (view s) (t mod n) c = (cnth w (lh + t) * cnth x (c + t) * Cconj (cnth x (c - t)))%C) /\
    (forall f, 0 <= f < n -> (forall t, - m <= t <= m -> t mod n <> f) -> at2 (view s) f c = RtoC 0)) /\
  (round_half n + 1 < c -> forall f, 0 <= f < n -> at2 (view s) f c = RtoC 0).
Proof. exact c121_pwvd_failed_run. Qed.
Print Assumptions C121_pwvd_failed_run.

Theorem C121_plot_model : forall k s th, reachable k s -> (k = KSpec -> s_real s = true) ->
  match value_plot k th (obj s) with
  | Ok o => exists s', step k (Plot th) s = Some (s', Ok 0%nat) /\ obj s' = o
  | Raise e => exists s', step k (Plot th) s = Some (s', Raise e)
  end.
Proof. exact c121_plot_model. Qed.
Print Assumptions C121_plot_model.

(** For a spectrogram [plot] allocates nothing: it writes into the array last handed out, which is
    afterwards what the value model says. *)
Theorem C121_spectrogram_plot : forall s th o arr, reachable KSpec s -> s_rows s = None -> spec_plot th (obj s) = Ok (o, arr) ->
  exists s', step KSpec (Plot th) s = Some (s', Ok 0%nat) /\ s_at s' = s_at s /\ cell s' (s_at s) = arr /\ view s' = r_tfr o.
Proof. exact c121_spectrogram_plot. Qed.
Print Assumptions C121_spectrogram_plot.

(** The caller of the pseudo Wigner-Ville class sees the real parts. *)
Theorem C121_pwvd_view : forall s a f c, at2 (seen KPwvd s a) f c = RtoC (Re (at2 (cell s a) f c)).
Proof. exact c121_pwvd_view. Qed.
Print Assumptions C121_pwvd_view.

(** After [plot] the object works on the first n/2 rows of the matrix last returned.  Another [run]
    raises IndexError at the first timestamp with a lag whose row n + t mod n lies beyond them, and
    otherwise returns a matrix of n/2 rows.  Either way it writes windowed samples into the matrix
    already returned, for the timestamps before the failing one, and leaves its other entries. *)
Theorem C121_spectrogram_run_after_plot : forall x l n w th, 2 <= n -> l <> [] -> (forall v, In v w -> v <> RtoC 0) ->
  let h := n / 2 in
  let lh := (zlen w - 1) / 2 in
  let m := Z.min (round_half n - 1) lh in
  let lags ti := arange (- Z.min m (ti - 1)) (Z.min m (zlen x - ti) + 1) in
  let norm ti := sqrt (rsum (lags ti) (fun t => Cmod (cnth w (lh + t)) ^ 2))%R in
  let bad ti := exists t, In t (lags ti) /\ h <= t mod n in
  exists s1 a s2 s3 r, run_step KSpec (create x (Some (TsI l)) (Some n) (Some w)) = Some (s1, Ok a) /\ step KSpec (Plot th) s1 = Some (s2, Ok 0%nat) /\ run_step KSpec s2 = Some (s3, r) /\
  ((forall ti, In ti l -> ~ bad ti) -> exists b, r = Ok b /\ a <> b /\ forall c, In c (seen KSpec s3 b) -> zlen c = h) /\
  ((exists ti, In ti l /\ bad ti) -> r = Raise IndexError) /\
  forall i ti, 0 <= i -> nth_error l (Z.to_nat i) = Some ti ->
  let before := forall j tj, 0 <= j <= i -> nth_error l (Z.to_nat j) = Some tj -> ~ bad tj in
  (before -> forall t, In t (lags ti) -> at2 (seen KSpec s3 a) (t mod n) i = RtoC (Re (cnth x (ti + t - 1) * Cconj (cnth w (lh + t)) / RtoC (norm ti))%C)) /\
  (forall f, 0 <= f < n -> (before -> forall t, In t (lags ti) -> t mod n <> f) -> at2 (seen KSpec s3 a) f i = at2 (seen KSpec s2 a) f i).
Proof. exact c121_spectrogram_run_after_plot. Qed.
Print Assumptions C121_spectrogram_run_after_plot.

Example C121_run_after_plot_example : forall th,
  (exists s1 a s2 s3, run_step KSpec (create [RtoC 1; RtoC 2; RtoC 1] (Some (TsI [2])) (Some 4) (Some [RtoC 1; RtoC 1; RtoC 1])) = Some (s1, Ok a) /\ step KSpec (Plot th) s1 = Some (s2, Ok 0%nat) /\ run_step KSpec s2 = Some (s3, Raise IndexError)) /\
  (exists s1 a s2 s3 b, run_step KSpec (create [RtoC 3] (Some (TsI [1])) (Some 2) (Some [RtoC 1])) = Some (s1, Ok a) /\ step KSpec (Plot th) s1 = Some (s2, Ok 0%nat) /\ run_step KSpec s2 = Some (s3, Ok b) /\ at2 (seen KSpec s3 a) 0 0 = RtoC 3).
Proof. exact c121_run_after_plot_example. Qed.
