(** Property theorems, restated from T_fp4.v (generated by tools/genprops.py).
    C114, continued: the values read from the dilation grid. *)

From Coq Require Import Reals ZArith List Lia Lra Bool.
From Coquelicot Require Import Coquelicot.
From Flocq Require Import Core Relative.
From Verif Require Import Py Scalars CSum DFT Spec M_base M_utils M_gen1 M_gen2 M_aff M_fp P_base P_mh T_utils T_aff T_aff2 T_aff3 T_fp T_fp4.
Import ListNotations.
Local Open Scope Z_scope.

(** When the grid has all its points, entry i lies within a rounding of umax (i - m1) / m1, entry 0 is -umax and entry m1 is 0. *)
Theorem C114_values : forall k umax m1, (0 < umax)%R -> is_double umax -> 1 <= m1 <= 2 ^ 50 -> u_count umax m1 = 2 * m1 ->
  exists g, u_loop k umax m1 = Ok (map g (u_reads k m1)) /\ g 0 = (- umax)%R /\ g m1 = 0%R /\
  forall i, 0 <= i < 2 * m1 -> (Rabs (g i - umax * IZR (i - m1) / IZR m1) <= bpow radix2 (-53) * umax / IZR m1)%R.
Proof. exact c114_values. Qed.
Print Assumptions C114_values.

(** umax = 2, m1 = 1: the grid is (-2, 0). *)
Example C114_values_example : u_loop Dfl 2 1 = Ok [(-2)%R; 0%R].
Proof. exact c114_values_example. Qed.
