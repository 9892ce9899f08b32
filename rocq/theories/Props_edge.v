(** Property theorems, restated from T_edge.v (generated by tools/genprops.py).
    C67, C77: defaults and degenerate arguments of atoms and anasing. *)

From Coq Require Import Reals ZArith List Lia Lra Bool.
From Coquelicot Require Import Coquelicot.
From Verif Require Import Py Scalars CSum DFT Spec M_base P_base M_gen1 M_gen2 M_gen3 T_hil T_edge.
Import ListNotations.
Local Open Scope Z_scope.

(** One-dimensional coordinates. *)
Theorem C67_one_row : forall n l, 
  (n < 0 -> atoms_1d n l = Raise ValueError) /\ (0 <= n -> atoms_1d n [] = Ok (repeat (Some (RtoC 0)) (Z.to_nat n))) /\ (0 <= n -> atoms n [] = Ok (repeat (Some (RtoC 0)) (Z.to_nat n))).
Proof. exact c67_one_row. Qed.
Print Assumptions C67_one_row.

(** The default time of the singularity is n/2. *)
Theorem C77_default : forall count n h, anasing count n None h = anasing count n (Some (IZR n / 2)%R) h.
Proof. exact c77_default. Qed.
Print Assumptions C77_default.

(** With h > 0 and the default time the real part is symmetric about n/2 and largest there. *)
Theorem C77_default_cusp : forall count m h y, 1 <= m -> (0 < h)%R -> anasing count (2 * m) None h = Ok (Some y) ->
  (forall k, 1 <= k < m -> rnth (map Re y) (m - k) = rnth (map Re y) (m + k)) /\
  (forall k, 0 <= k < 2 * m -> (rnth (map Re y) k <= rnth (map Re y) m)%R).
Proof. exact c77_default_cusp. Qed.
Print Assumptions C77_default_cusp.

Example C77_default_example : exists y, anasing sing_count 8 None 1 = Ok (Some y) /\ rnth (map Re y) 3 = rnth (map Re y) 5.
Proof. exact c77_default_example. Qed.
