(** Property theorems, restated from T_plot.v (generated by tools/genprops.py).
    C93 (which pictures are drawn), C94 (their frequency axis), C97 (the
    spectrum beside them): STFT and Cohen class. *)

From Coq Require Import Reals ZArith List Lia Lra Bool.
From Coquelicot Require Import Coquelicot.
From Verif Require Import Py Scalars CSum DFT Spec M_base P_base M_utils M_putils M_post M_stft M_cohen M_state M_gen1 M_gen2 M_aff M_plot T_gen1 T_putils T_state T_plot.
Import ListNotations.
Local Open Scope Z_scope.

(** C93.  The objects are as [run] leaves them: r_n rows, one column per instant. *)
Theorem C93_wvd : forall k tf sq th o n t, shaped (r_tfr o) n t -> ts_len (r_ts o) = t -> 1 <= n -> 1 <= t -> 1 <= zlen (r_sig o) -> r_freqs o <> [] ->
  outcome (wvd_picture k tf sq th o) (refusal k tf n t (zlen (r_sig o))).
Proof. exact c93_wvd. Qed.
Print Assumptions C93_wvd.

Theorem C93_shapes : forall x ts n w o, 1 <= n ->
  (stft x (Some ts) (Some n) (Some w) = Ok o \/ wvd x (Some ts) (Some n) = Ok o \/ mh x (Some ts) (Some n) = Ok o \/ pmh x (Some ts) (Some n) (Some w) = Ok o \/ (exists m, pwvd x (Some ts) (Some n) (Some w) = Ok (o, m))) ->
  shaped (r_tfr o) n (ts_len ts) /\ r_n o = n /\ r_ts o = ts /\ r_sig o = x.
Proof. exact c93_shapes. Qed.
Print Assumptions C93_shapes.

Theorem C93_stft : forall k tf th o n t, shaped (r_tfr o) n t -> r_n o = n -> ts_len (r_ts o) = t -> r_freqs o = base_freqs n -> 1 <= n -> 1 <= t -> 1 <= zlen (r_sig o) ->
  outcome (stft_picture k tf th o) (if n =? 1 then Some ValueError else refusal k tf (n / 2) t (zlen (r_sig o))).
Proof. exact c93_stft. Qed.
Print Assumptions C93_stft.

Theorem C93_spectrogram : forall k tf th o n t, shaped (r_tfr o) n t -> r_n o = n -> ts_len (r_ts o) = t -> r_freqs o = base_freqs n -> 1 <= n -> 1 <= t -> 1 <= zlen (r_sig o) ->
  outcome (spec_picture k tf th o) (if n =? 1 then Some ValueError else refusal k tf (n / 2) t (zlen (r_sig o))).
Proof. exact c93_spectrogram. Qed.
Print Assumptions C93_spectrogram.

Theorem C93_mh : forall k tf th o n t, shaped (r_tfr o) n t -> ts_len (r_ts o) = t -> 1 <= n -> 1 <= t -> 1 <= zlen (r_sig o) ->
  outcome (mh_picture k tf th o) (if n =? 1 then Some ValueError else refusal k tf (n / 2) t (zlen (r_sig o))).
Proof. exact c93_mh. Qed.
Print Assumptions C93_mh.

(** With the default number of bins the halved matrix no longer fits the axes. *)
Theorem C93_half_refuted : forall x w th o, 4 <= zlen x ->
  (stft x None None (Some w) = Ok o -> stft_picture Kcontour true th o = Raise TypeError /\ stft_picture Ksurf false th o = Raise ValueError /\ stft_picture Kwire false th o = Raise ValueError) /\
  (mh x None None = Ok o -> mh_picture Kcontour true th o = Raise TypeError /\ mh_picture Ksurf false th o = Raise ValueError /\ mh_picture Kwire false th o = Raise ValueError).
Proof. exact c93_half_refuted. Qed.
Print Assumptions C93_half_refuted.

(** The Wigner-Ville picture of a default object is drawn, whatever the kind. *)
Theorem C93_wvd_default : forall x o k tf sq th, 2 <= zlen x -> wvd x None None = Ok o -> exists p, wvd_picture k tf sq th o = Ok p.
Proof. exact c93_wvd_default. Qed.
Print Assumptions C93_wvd_default.

(** A short-time Fourier transform of 4 bins at 4 instants. *)
Example C93_example : let x := [RtoC 1; RtoC 2; RtoC 3; RtoC 4] in
  let o := mkrep x (TsI [0; 1; 2; 3]) 4 [RtoC 1] (base_freqs 4) [x; x; x; x] false in
  (exists p, stft_picture Kcmap true (1 / 20) o = Ok p) /\ stft_picture Kcontour true (1 / 20) o = Raise TypeError /\
  (exists p, stft_picture Kcontour false (1 / 20) o = Ok p) /\ stft_picture Ksurf false (1 / 20) o = Raise ValueError /\ (exists p, wvd_picture Ksurf false true (1 / 20) o = Ok p).
Proof. exact c93_example. Qed.
