(** Property theorems, restated from T_cells.v (generated by tools/genprops.py).
    C118: how few cells a representation can occupy. *)

From Coq Require Import Reals ZArith List Lia Lra Bool.
From Coquelicot Require Import Coquelicot.
From Verif Require Import Py Scalars CSum DFT Spec M_base M_stft M_cohen M_putils P_base P_stft P_wvd T_stft T_wvd T_putils T_gen1 T_bound T_cells.
Import ListNotations.
Local Open Scope Z_scope.

Theorem C118_wvd : forall x ts n o, 2 <= n -> wvd x (Some ts) (Some n) = Ok o -> energy x <> 0%R ->
  n <= 2 * nonzero (list_prod (arange 0 (zlen x)) (arange 0 n)) (fun p => at2 (r_tfr o) (snd p) (fst p)).
Proof. exact c118_wvd. Qed.
Print Assumptions C118_wvd.

(** One column of the short-time Fourier transform: the number of non-zero rows times the number of
    non-zero samples under the window is at least n. *)
Theorem C118_stft : forall x ts n w o c, 1 <= n -> 2 * ((zlen w - 1) / 2) < n -> stft x (Some ts) (Some n) (Some w) = Ok o -> 0 <= c < ts_len ts ->
  (exists f, 0 <= f < n /\ at2 (r_tfr o) f c <> RtoC 0) ->
  n <= nonzero (arange 0 n) (fun f => at2 (r_tfr o) f c) * nonzero (arange 0 (zlen x)) (fun k => sigf x k * Cconj (winf w (k - (c - 1))))%C.
Proof. exact c118_stft. Qed.
Print Assumptions C118_stft.

(** The power spectrum: non-zero samples times non-zero bins is at least the length. *)
Theorem C118_spectrum : forall x, energy x <> 0%R ->
  zlen x <= nonzero (arange 0 (zlen x)) (cnth x) * nonzero (arange 0 (zlen x)) (fun k => RtoC (rnth (get_spectrum x) k)).
Proof. exact c118_spectrum. Qed.
Print Assumptions C118_spectrum.

Example C118_example : let x := [RtoC 1; RtoC 0; RtoC 1; RtoC 0] in nonzero (arange 0 (zlen x)) (cnth x) = 2 /\ 2 <= nonzero (arange 0 (zlen x)) (fun k => RtoC (rnth (get_spectrum x) k)).
Proof. exact c118_example. Qed.
