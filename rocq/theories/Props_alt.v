(** Property theorems, restated from T_alt.v (generated by tools/genprops.py).
    C64: altes for all Python numbers. *)

From Coq Require Import Reals ZArith List Lia Lra Bool.
From Coquelicot Require Import Coquelicot.
From Flocq Require Import Core.
From Verif Require Import Py Scalars CSum DFT M_base M_utils M_putils M_dom M_gen1 M_gen2 M_gen3 M_over M_ext M_alt P_base T_utils T_putils T_dom T_gen1 T_gen2 T_misc2 T_alt.
Import ListNotations.
Local Open Scope Z_scope.

Theorem C64_altes_all : forall n fmin fmax alpha,
  (fmin = 0%R -> altes_x n fmin fmax alpha = Raise ZeroDivisionError) /\
  (fmin <> 0%R -> n < -1 -> altes_x n fmin fmax alpha = Raise ValueError) /\
  (fmin <> 0%R -> -1 <= n <= 0 -> altes_x n fmin fmax alpha = Ok []) /\
  (fmin <> 0%R -> 1 <= n -> (fmax / fmin <= 0 \/ fmax = fmin \/ alpha <= 0 \/ alpha = 1)%R ->
    altes_x n fmin fmax alpha = Ok (repeat NaN (Z.to_nat n))) /\
  (fmin <> 0%R -> 1 <= n -> (0 < fmax / fmin)%R -> fmax <> fmin -> (0 < alpha)%R -> alpha <> 1%R ->
    altes_x n fmin fmax alpha = Ok (match altes n (Rabs fmin) (Rabs fmax) alpha with Some x => map Fin x | None => repeat NaN (Z.to_nat n) end)).
Proof. exact c64_altes_all. Qed.
Print Assumptions C64_altes_all.

(** Negative bounds give the waveform of their opposites: unit energy, real numbers. *)
Theorem C64_altes_negative : forall n fmin fmax alpha, 1 <= n -> (0 < fmin)%R -> (0 < fmax)%R -> fmin <> fmax -> (0 < alpha)%R -> alpha <> 1%R ->
  altes_x n (- fmin) (- fmax) alpha = altes_x n fmin fmax alpha.
Proof. exact c64_altes_negative. Qed.
Print Assumptions C64_altes_negative.

Example C64_altes_nan_example : altes_x 2 (1 / 10) (1 / 10) 300 = Ok [NaN; NaN] /\ altes_x 2 (1 / 10) 0 300 = Ok [NaN; NaN] /\
  altes_x 3 0 (1 / 10) 300 = Raise ZeroDivisionError /\ altes_x 1 (1 / 10) (2 / 5) 1 = Ok [NaN] /\ altes_x 0 (1 / 10) (2 / 5) 1 = Ok [].
Proof. exact c64_altes_nan_example. Qed.
