(** Property theorems, restated from T_ex1.v (generated by tools/genprops.py).
    Worked cases beside the theorems on the short-time Fourier transform
    (C09 - C14), the ambiguity function (C33, C34), the power spectrum (C75)
    and the sweep of altes (C79). *)

From Coq Require Import Reals ZArith List Lia Lra Bool.
From Coquelicot Require Import Coquelicot.
From Verif Require Import Py Scalars CSum DFT Spec M_base M_stft P_base P_stft T_stft M_amb T_amb M_putils T_putils T_ex1.
Import ListNotations.
Local Open Scope Z_scope.

(** The whole 4 x 4 transform of [1, i, 2, -1] with the window [1, 1, 1]. *)
Example C09_example : exists o, stft ex_x None None (Some ex_w) = Ok o /\ r_tfr o = map (map gi) ex_table.
Proof. exact c09_example. Qed.

(** 2 x + i y with y an impulse at sample 2: the entry in row 1, column 2 is 2*0 + i*(-i). *)
Example C10_example : exists ox oy oz, let y := [RtoC 0; RtoC 0; RtoC 1; RtoC 0] in
  stft ex_x (Some (TsI (arange 0 4))) (Some 4) (Some ex_w) = Ok ox /\ stft y (Some (TsI (arange 0 4))) (Some 4) (Some ex_w) = Ok oy /\
  stft (lincomb (RtoC 2) Ci ex_x y) (Some (TsI (arange 0 4))) (Some 4) (Some ex_w) = Ok oz /\
  at2 (r_tfr ox) 1 2 = RtoC 0 /\ at2 (r_tfr oy) 1 2 = (- Ci)%C /\ at2 (r_tfr oz) 1 2 = RtoC 1.
Proof. exact c10_example. Qed.

(** Column 2 sees the samples 1, i, 2: energy 6, and the squared moduli of the column sum to 4*6;
    its mean is the middle sample, i. *)
Example C12_example : exists o, stft ex_x (Some (TsI (arange 0 4))) (Some 4) (Some ex_w) = Ok o /\
  rsum (arange 0 4) (fun f => Cmod (at2 (r_tfr o) f 2) ^ 2)%R = 24%R /\
  csum (arange 0 4) (fun f => at2 (r_tfr o) f 2) = (RtoC 4 * Ci)%C.
Proof. exact c12_example. Qed.

(** Modulating by one bin moves row 0 to row 1 with the phase of column 2: i * (3 + i). *)
Example C13_example : exists oy, stft (modulate 4 1 ex_x) (Some (TsI (arange 0 4))) (Some 4) (Some ex_w) = Ok oy /\ at2 (r_tfr oy) 1 2 = gi (-1, 3).
Proof. exact c13_example. Qed.

(** Delaying by one sample moves column 2 to column 3. *)
Example C14_example : exists oy, stft (delay 1 ex_x) (Some (TsI (arange 0 5))) (Some 4) (Some ex_w) = Ok oy /\ at2 (r_tfr oy) 0 3 = gi (3, 1).
Proof. exact c14_example. Qed.

(** Ambiguity function of [1, i, 2, -1] at four Doppler bins: the energy 7 at the origin,
    and opposite values at opposite lags and Dopplers. *)
Example C33_example : exists naf lag xi, narrow_band ex_x None None = Ok (naf, lag, xi) /\ lag = [-1; 0; 1] /\
  at2 naf 2 1 = RtoC 7 /\ at2 naf 2 2 = gi (2, 1) /\ at2 naf 3 2 = gi (0, -3).
Proof. exact c33_example. Qed.

Example C34_example : exists naf lag xi, narrow_band ex_x None None = Ok (naf, lag, xi) /\ at2 naf 3 2 = gi (0, -3) /\ at2 naf 1 0 = gi (0, 3).
Proof. exact c34_example. Qed.

(** Power spectrum of [1, i, 2, -1], zero frequency in the middle: total 28 = 4 * 7. *)
Example C75_example : map (rnth (get_spectrum ex_x)) [0; 1; 2; 3] = [17%R; 5%R; 5%R; 1%R].
Proof. exact c75_example. Qed.
