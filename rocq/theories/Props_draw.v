(** Property theorems, restated from T_draw.v (generated by tools/genprops.py).
    C108: the values drawn by the plots of the STFT and the Cohen class. *)

From Coq Require Import Reals ZArith List Lia Lra Bool.
From Coquelicot Require Import Coquelicot.
From Verif Require Import Py Scalars CSum DFT Spec M_base P_base M_utils M_putils M_post M_stft M_cohen M_state M_gen1 M_gen2 M_aff M_plot T_gen1 T_putils T_state T_plot T_reas T_draw.
Import ListNotations.
Local Open Scope Z_scope.

(** Short-time Fourier transform, Margenau-Hill (and pseudo): the squared modulus of
    the first n//2 rows. *)
Theorem C108_stft : forall k tf th o n t p a m, shaped (r_tfr o) n t -> r_n o = n -> 1 <= n -> 1 <= t ->
  stft_picture k tf th o = Ok p \/ mh_picture k tf th o = Ok p -> In a p -> pixels a = Some m ->
  shows m (fun f c => Cmod (at2 (r_tfr o) f c) ^ 2)%R (n / 2) t th.
Proof. exact c108_stft. Qed.
Print Assumptions C108_stft.

(** Wigner-Ville (and pseudo): modulus or squared modulus of every row. *)
Theorem C108_wvd : forall k tf sq th o n t p a m, shaped (r_tfr o) n t -> 1 <= n -> 1 <= t ->
  wvd_picture k tf sq th o = Ok p -> In a p -> pixels a = Some m ->
  shows m (fun f c => if sq then Cmod (at2 (r_tfr o) f c) ^ 2 else Cmod (at2 (r_tfr o) f c))%R n t th.
Proof. exact c108_wvd. Qed.
Print Assumptions C108_wvd.

(** Spectrogram (non-negative entries): the first n//2 rows as they are. *)
Theorem C108_spectrogram : forall k tf th o n t p a m, shaped (r_tfr o) n t -> r_n o = n -> 1 <= n -> 1 <= t ->
  (forall f c, 0 <= f < n -> 0 <= c < t -> (0 <= Re (at2 (r_tfr o) f c))%R) ->
  spec_picture k tf th o = Ok p -> In a p -> pixels a = Some m -> shows m (fun f c => Re (at2 (r_tfr o) f c)) (n / 2) t th.
Proof. exact c108_spectrogram. Qed.
Print Assumptions C108_spectrogram.

(** Modulus 1, 3, 4, 0 with threshold 1/2: 1 is dropped. *)
Example C108_example : let o := mkrep [RtoC 1] (TsI [0; 1]) 2 [] [0; 1 / 2]%R [[RtoC 1; (Ci * RtoC 3)%C]; [RtoC (-4); RtoC 0]] false in
  wvd_picture Kcmap false false (1 / 2) o = Ok [Image 0 1 0 (1 / 2) [[0; 4]; [3; 0]]%R].
Proof. exact c108_example. Qed.
