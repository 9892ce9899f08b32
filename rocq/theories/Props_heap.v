(** Property theorems, restated from T_heap.v (generated by tools/genprops.py).
    C121: results that [run] has handed out. *)

From Coq Require Import Reals ZArith List Lia Lra Bool.
From Coquelicot Require Import Coquelicot.
From Verif Require Import Py Scalars CSum DFT Spec M_base M_stft M_cohen M_state M_heap M_utils T_heap.
From Verif Require Import P_base P_stft P_wvd P_pwvd T_utils P_spec T_state T_mh T_plot.
Import ListNotations.
Local Open Scope Z_scope.

(** On every reachable state the memory model of [run] and the value model of [run] agree: same
    exception, or the new array holds the new matrix, which is also what the object's [tfr] is. *)
Theorem C121_model : forall k s, reachable k s -> k <> KSpec ->
  exists v, value_run k (obj s) = Some v /\
  match v with
  | Ok o => exists s' a, run_step k s = Some (s', Ok a) /\ obj s' = o /\ cell s' a = r_tfr o /\ a = s_at s'
  | Raise e => exists s', run_step k s = Some (s', Raise e)
  end.
Proof. exact c121_model. Qed.
Print Assumptions C121_model.

Theorem C121_inputs : forall k ps s s', history k ps s = Some s' -> s_sig s' = s_sig s /\ s_ts s' = s_ts s /\ s_n s' = s_n s /\ s_win s' = s_win s.
Proof. exact c121_inputs. Qed.
Print Assumptions C121_inputs.

(** Whatever is called, in whatever order and with whatever outcome: an array that is not the
    object's own is never changed. *)
Theorem C121_others : forall k s ps s' a, history k ps s = Some s' -> (a < length (s_mem s))%nat -> a <> s_at s -> cell s' a = cell s a.
Proof. exact c121_others. Qed.
Print Assumptions C121_others.

(** So a result is final once a later [run] has returned: only the most recent result can still
    change. *)
Theorem C121_earlier_results : forall k s s1 a ps s2 s3 b ps' s4,
  run_step k s = Some (s1, Ok a) -> history k ps s1 = Some s2 -> run_step k s2 = Some (s3, Ok b) -> history k ps' s3 = Some s4 ->
  a <> b /\ cell s4 a = cell s3 a /\ seen k s4 a = seen k s3 a.
Proof. exact c121_earlier_results. Qed.
Print Assumptions C121_earlier_results.

(** Plotting between two runs protects the result, for every class but Spectrogram (which writes
    through, C16) and Page (where [plot] raises and does nothing). *)
Theorem C121_after_plot : forall k s s1 a th s2 r ps s3, k <> KSpec -> k <> KPage ->
  run_step k s = Some (s1, Ok a) -> step k (Plot th) s1 = Some (s2, r) -> history k ps s2 = Some s3 ->
  cell s3 a = cell s1 a /\ seen k s3 a = seen k s1 a.
Proof. exact c121_after_plot. Qed.
Print Assumptions C121_after_plot.

Theorem C121_page_plot : forall th s, step KPage (Plot th) s = Some (s, Raise TypeError).
Proof. exact c121_page_plot. Qed.
Print Assumptions C121_page_plot.

(** The short-time Fourier transform.  After [run, run] the array returned by the first call holds,
    in column c, the windowed samples in the rows of the lags (the last lag of each residue), and
    what it held before in the other rows. *)
Theorem C121_stft_second_run : forall x ts n w, 1 <= n ->
  exists s1 a s2 b, run_step KStft (create x (Some ts) (Some n) (Some w)) = Some (s1, Ok a) /\ run_step KStft s1 = Some (s2, Ok b) /\
  (exists o, stft x (Some ts) (Some n) (Some w) = Ok o /\ seen KStft s1 a = r_tfr o) /\
  forall c, 0 <= c < ts_len ts ->
  let m := Z.min (round_half n) ((zlen w - 1) / 2) in
  let lag t := - Z.min m (c - 1) <= t <= Z.min m (zlen x - c) in
  (forall t, lag t -> (forall t', lag t' -> t < t' -> t' mod n <> t mod n) ->
     at2 (seen KStft s2 a) (t mod n) c = (cnth x (c + t - 1) * Cconj (cnth w ((zlen w - 1) / 2 + t)))%C) /\
  (forall f, 0 <= f < n -> (forall t, lag t -> t mod n <> f) -> at2 (seen KStft s2 a) f c = at2 (seen KStft s1 a) f c).
Proof. exact c121_stft_second_run. Qed.
Print Assumptions C121_stft_second_run.

(** The Wigner-Ville distribution: the first result loses its central rows to the real parts of the
    lag products. *)
Theorem C121_wvd_second_run : forall x ts n o, 1 <= n -> wvd x (Some ts) (Some n) = Ok o ->
  exists s1 a s2 b, run_step KWvd (create x (Some ts) (Some n) None) = Some (s1, Ok a) /\ run_step KWvd s1 = Some (s2, Ok b) /\ seen KWvd s1 a = r_tfr o /\
  forall c, 0 <= c < zlen x ->
  let m := Z.min (Z.min c (zlen x - c - 1)) (round_half n - 1) in
  (forall t, - m <= t <= m -> at2 (seen KWvd s2 a) (t mod n) c = RtoC (Re (cnth x (c + t) * Cconj (cnth x (c - t)))%C)) /\
  (forall f, 0 <= f < n -> (forall t, - m <= t <= m -> t mod n <> f) -> at2 (seen KWvd s2 a) f c = at2 (r_tfr o) f c).
Proof. exact c121_wvd_second_run. Qed.
Print Assumptions C121_wvd_second_run.

Theorem C121_spectrogram_second_run : forall x l n w, 1 <= n -> (forall v, In v w -> v <> RtoC 0) ->
  exists s1 a s2 b, run_step KSpec (create x (Some (TsI l)) (Some n) (Some w)) = Some (s1, Ok a) /\ run_step KSpec s1 = Some (s2, Ok b) /\
  spectrogram x (Some (TsI l)) (Some n) (Some w) = Ok (map (fun c => Some (map Re c)) (seen KSpec s1 a)) /\
  forall i ti, 0 <= i -> nth_error l (Z.to_nat i) = Some ti ->
  let lh := (zlen w - 1) / 2 in
  let m := Z.min (round_half n - 1) lh in
  let lags := arange (- Z.min m (ti - 1)) (Z.min m (zlen x - ti) + 1) in
  let norm := sqrt (rsum lags (fun t => Cmod (cnth w (lh + t)) ^ 2))%R in
  (forall t, In t lags -> at2 (seen KSpec s2 a) (t mod n) i = RtoC (Re (cnth x (ti + t - 1) * Cconj (cnth w (lh + t)) / RtoC norm)%C)) /\
  (forall f, 0 <= f < n -> (forall t, In t lags -> t mod n <> f) -> at2 (seen KSpec s2 a) f i = at2 (seen KSpec s1 a) f i).
Proof. exact c121_spectrogram_second_run. Qed.
Print Assumptions C121_spectrogram_second_run.

(** So handing the result on and running again is not safe: the distribution of three ones is 3 in
    the middle of row 0; after a second call the same array says 1. *)
Theorem C121_refuted : exists s1 a s2 b, run_step KWvd (create [RtoC 1; RtoC 1; RtoC 1] (Some (TsI [0; 1; 2])) (Some 3) None) = Some (s1, Ok a) /\ run_step KWvd s1 = Some (s2, Ok b) /\
  at2 (seen KWvd s1 a) 0 1 = RtoC 3 /\ at2 (seen KWvd s2 a) 0 1 = RtoC 1.
Proof. exact c121_refuted. Qed.
Print Assumptions C121_refuted.
