(** Property theorems, restated from T_tone.v (generated by tools/genprops.py).
    C103: the short-time Fourier transform of a tone; time and frequency resolution. *)

From Coq Require Import Reals ZArith List Lia Lra Bool.
From Coquelicot Require Import Coquelicot.
From Flocq Require Import Core.
From Verif Require Import Py Scalars CSum DFT Spec M_base M_stft M_cohen M_dom M_gen1 P_base P_stft P_wvd T_stft T_dom T_gen1 Dirichlet Kernel T_tone.
Import ListNotations.
Local Open Scope Z_scope.

(** No entry exceeds the weight of the window; with a non-negative window it is
    reached in the row of the tone's frequency. *)
Theorem C103_bound : forall N f0 c0 y law ts n w o f c, 0 <= c0 < N -> fmconst N f0 (Some (IZR c0)) = Ok (map Some y, law) -> 1 <= n -> 2 * ((zlen w - 1) / 2) < n ->
  stft y (Some ts) (Some n) (Some w) = Ok o -> 0 <= f < n -> 0 <= c < ts_len ts ->
  (Cmod (at2 (r_tfr o) f c) <= window_weight w N (c - 1))%R /\
  ((forall t, winf w t = RtoC (Cmod (winf w t))) -> (exists q, f0 = IZR f / IZR n + IZR q)%R -> Cmod (at2 (r_tfr o) f c) = window_weight w N (c - 1)).
Proof. exact c103_bound. Qed.
Print Assumptions C103_bound.

(** Rectangular window: the modulus is that of a geometric sum over the overlap. *)
Theorem C103_rectangle : forall N f0 c0 y law ts n h o f c, 0 <= c0 < N -> fmconst N f0 (Some (IZR c0)) = Ok (map Some y, law) -> 0 <= h -> 2 * h + 1 <= n ->
  stft y (Some ts) (Some n) (Some (repeat (RtoC 1) (Z.to_nat (2 * h + 1)))) = Ok o -> 0 <= f < n -> 0 <= c < ts_len ts -> 0 <= overlap N (c - 1) h ->
  Cmod (at2 (r_tfr o) f c) = Cmod (tone_sum (overlap N (c - 1) h) (f0 - IZR f / IZR n)).
Proof. exact c103_rectangle. Qed.
Print Assumptions C103_rectangle.

(** So, with two or more samples under the window, the largest rows of a column are
    exactly those nearest to the frequency of the tone; they are within half a bin. *)
Theorem C103_nearest : forall N f0 c0 y law ts n h o f c, 0 <= c0 < N -> fmconst N f0 (Some (IZR c0)) = Ok (map Some y, law) -> 0 <= h -> 2 * h + 1 <= n ->
  stft y (Some ts) (Some n) (Some (repeat (RtoC 1) (Z.to_nat (2 * h + 1)))) = Ok o -> 0 <= f < n -> 0 <= c < ts_len ts -> 2 <= overlap N (c - 1) h ->
  ((forall g, 0 <= g < n -> (Cmod (at2 (r_tfr o) g c) <= Cmod (at2 (r_tfr o) f c))%R) <->
   (forall g, 0 <= g < n -> (dist_int (f0 - IZR f / IZR n) <= dist_int (f0 - IZR g / IZR n))%R)) /\
  ((forall g, 0 <= g < n -> (Cmod (at2 (r_tfr o) g c) <= Cmod (at2 (r_tfr o) f c))%R) -> exists q, (Rabs (f0 - (IZR f / IZR n + IZR q)) <= 1 / (2 * IZR n))%R).
Proof. exact c103_nearest. Qed.
Print Assumptions C103_nearest.

(** Window [1]: column c shows |x[c-1]| in every row, whatever the signal. *)
Theorem C103_instant : forall x ts n o f c, 1 <= n -> stft x (Some ts) (Some n) (Some [RtoC 1]) = Ok o -> 0 <= f < n -> 0 <= c < ts_len ts ->
  Cmod (at2 (r_tfr o) f c) = Cmod (sigf x (c - 1)).
Proof. exact c103_instant. Qed.
Print Assumptions C103_instant.

(** Tone at 3/8, four samples, rectangular window of three, four bins: in column 2
    rows 1 (1/4) and 2 (1/2) are equally near; both are largest. *)
Example C103_example : exists y law o, fmconst 4 (3 / 8) (Some 0%R) = Ok (map Some y, law) /\ stft y None None (Some [RtoC 1; RtoC 1; RtoC 1]) = Ok o /\
  forall g, 0 <= g < 4 -> (Cmod (at2 (r_tfr o) g 2) <= Cmod (at2 (r_tfr o) 1 2))%R.
Proof. exact c103_example. Qed.
