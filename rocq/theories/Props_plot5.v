(** Property theorems, restated from T_plot5.v (generated by tools/genprops.py).
    C126: the [sqmod] keyword of [plot]. *)

From Coq Require Import Reals ZArith List Lia Lra Bool.
From Coquelicot Require Import Coquelicot.
From Verif Require Import Py Scalars CSum DFT Spec M_base M_stft M_cohen M_state M_utils M_plot M_heap M_plot2 T_plot5.
From Verif Require Import P_base P_stft P_wvd P_pwvd T_utils P_spec T_state T_mh T_tone T_plot T_draw T_heap T_heap2.
Import ListNotations.
Local Open Scope Z_scope.

(** C126.  [plot(sqmod=False, threshold=th)] right after [run], for the short-time Fourier transform,
    the Margenau-Hill and the pseudo Margenau-Hill class: the array that [run] handed out is
    thresholded in place.  M is that array before; (fm, cm) is the entry np.amax finds. *)
Theorem C126_in_place : forall k x ts n w s1 a th d, k = KStft \/ k = KMh \/ k = KPmh -> 2 <= n -> 1 <= ts_len ts ->
  run_step k (create x (Some ts) (Some n) w) = Some (s1, Ok a) ->
  let M := at2 (seen k s1 a) in
  let after a b := (Re b < Re a)%R \/ (Re a = Re b /\ (Im b < Im a)%R) in
  exists s2 q fm cm, plot_call k false th d s1 = (s2, q) /\ 0 <= fm < n / 2 /\ 0 <= cm < ts_len ts /\
  (forall f c, 0 <= f < n / 2 -> 0 <= c < ts_len ts -> ~ after (M f c) (M fm cm)) /\
  (forall f c, 0 <= f < n -> 0 <= c < ts_len ts ->
    (f < n / 2 -> ~ after (M f c) (M fm cm * RtoC th)%C -> at2 (seen k s2 a) f c = RtoC 0) /\
    (n / 2 <= f \/ after (M f c) (M fm cm * RtoC th)%C -> at2 (seen k s2 a) f c = M f c) /\
    (f < n / 2 -> at2 (r_tfr (obj s2)) f c = at2 (seen k s2 a) f c)) /\
  (zlen (r_tfr (obj s2)) = ts_len ts /\ forall c, In c (r_tfr (obj s2)) -> zlen c = n / 2) /\
  (k <> KMh -> d = Dcmap -> q = Some (Raise TypeError)) /\
  (d = Dmesh -> exists m, q = Some (Ok m) /\ forall f c, 0 <= f < n / 2 -> 0 <= c < ts_len ts -> nth (Z.to_nat f) (nth (Z.to_nat c) m []) 0%R = Cmod (at2 (seen k s2 a) f c)) /\
  (k = KMh -> d <> Dmesh -> exists m, q = Some (Ok m) /\ forall f c, 0 <= f < n / 2 -> 0 <= c < ts_len ts -> nth (Z.to_nat f) (nth (Z.to_nat c) m []) 0%R = Re (at2 (seen k s2 a) f c)).
Proof. exact c126_in_place. Qed.
Print Assumptions C126_in_place.

(** What that order erases: every entry with a negative real part once the largest has a
    non-negative one, and the whole first half when all real parts are negative. *)
Theorem C126_negative : forall k x ts n w s1 a th d, k = KStft \/ k = KMh \/ k = KPmh -> 2 <= n -> (0 <= th)%R ->
  run_step k (create x (Some ts) (Some n) w) = Some (s1, Ok a) ->
  forall f c, 0 <= f < n / 2 -> 0 <= c < ts_len ts -> (Re (at2 (seen k s1 a) f c) < 0)%R -> (th < 1)%R ->
  at2 (seen k (fst (plot_call k false th d s1)) a) f c = RtoC 0.
Proof. exact c126_negative. Qed.
Print Assumptions C126_negative.

(** An empty first half, or no columns: np.amax raises, and [self.tfr] is already cut. *)
Theorem C126_empty : forall k x ts n w s1 a th d, k = KStft \/ k = KMh \/ k = KPmh -> 1 <= n -> n = 1 \/ ts_len ts = 0 ->
  run_step k (create x (Some ts) (Some n) w) = Some (s1, Ok a) ->
  exists s2, plot_call k false th d s1 = (s2, Some (Raise ValueError)) /\ (forall b, seen k s2 b = seen k s1 b) /\
  zlen (r_tfr (obj s2)) = ts_len ts /\ forall c, In c (r_tfr (obj s2)) -> zlen c = n / 2.
Proof. exact c126_empty. Qed.
Print Assumptions C126_empty.

(** The other classes.  Spectrogram and Page: TypeError, nothing changed.  Wigner-Ville and pseudo
    Wigner-Ville: sqmod=False is the default; sqmod=True squares. *)
Theorem C126_others : forall sq th d s,
  plot_call KSpec sq th d s = (s, Some (Raise TypeError)) /\ plot_call KPage sq th d s = (s, Some (Raise TypeError)) /\
  (forall k, k = KWvd \/ k = KPwvd -> step k (Plot th) s = Some (plot_sq k false th s)) /\
  (forall k, k = KStft \/ k = KMh \/ k = KPmh -> step k (Plot th) s = Some (plot_sq k true th s)) /\
  (forall k, k = KWvd \/ k = KPwvd ->
    match wvd_plot sq th (obj s) with
    | Ok o => exists s', plot_sq k sq th s = (s', Ok 0%nat) /\ obj s' = o /\ forall b, (b < length (s_mem s))%nat -> cell s' b = cell s b
    | Raise e => exists s', plot_sq k sq th s = (s', Raise e)
    end).
Proof. exact c126_others. Qed.
Print Assumptions C126_others.

(** One bin window: the row 0 of the transform of [1, -5, 0] is 0, 1, -5.  With the default
    threshold the -5 is erased and the 1 is kept. *)
Example C126_example : exists s1 a s2, run_step KStft (create [RtoC 1; RtoC (-5); RtoC 0] (Some (TsI [0; 1; 2])) (Some 2) (Some [RtoC 1])) = Some (s1, Ok a) /\
  plot_call KStft false (1 / 20) Dcmap s1 = (s2, Some (Raise TypeError)) /\
  at2 (seen KStft s1 a) 0 1 = RtoC 1 /\ at2 (seen KStft s1 a) 0 2 = RtoC (-5) /\ at2 (seen KStft s2 a) 0 1 = RtoC 1 /\ at2 (seen KStft s2 a) 0 2 = RtoC 0 /\ at2 (seen KStft s2 a) 1 2 = RtoC (-5).
Proof. exact c126_example. Qed.

(** What else plot(sqmod=False) changes of the object: STFT.plot cuts the frequencies to
    the rows kept, the Margenau-Hill classes leave them as they are (twice as many as
    rows); signal, timestamps, window and number of bins stay. *)
Theorem C126_frequencies : forall k th s, k = KStft \/ k = KMh \/ k = KPmh ->
  let o := obj s in let o2 := obj (fst (plot_sq k false th s)) in
  r_freqs o2 = (match k with KStft => firstn (Z.to_nat (r_n o / 2)) (r_freqs o) | _ => r_freqs o end) /\
  r_sig o2 = r_sig o /\ r_ts o2 = r_ts o /\ r_n o2 = r_n o /\ r_win o2 = r_win o.
Proof. exact c126_frequencies. Qed.
Print Assumptions C126_frequencies.
