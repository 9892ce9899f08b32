(** Property theorems, restated from T_angle.v (generated by tools/genprops.py).
    C51, continued: the angle of zero. *)

From Coq Require Import Reals ZArith List Lia Lra Bool.
From Coquelicot Require Import Coquelicot.
From Verif Require Import Py Scalars CSum DFT Spec M_base M_putils M_dom P_base T_dom T_angle.
Import ListNotations.
Local Open Scope Z_scope.

(** Where either of the two samples is zero the value is 0, 1/4 or 1/2, depending on the signs of the zeros; each of the three occurs. *)
Theorem C51_silence : (forall ang x fs k, (forall k z, is_angle z (ang k z)) -> inst_freq ang x None = Ok (fs, arange 2 (zlen x)) -> 0 <= k < zlen x - 2 ->
    cnth x k = RtoC 0 \/ cnth x (k + 2) = RtoC 0 -> rnth fs k = 0%R \/ rnth fs k = (1 / 4)%R \/ rnth fs k = (1 / 2)%R) /\
  forall v, (v = 0 \/ v = 1 / 4 \/ v = 1 / 2)%R -> exists ang, (forall k z, is_angle z (ang k z)) /\
    inst_freq ang [RtoC 0; RtoC 0; RtoC 0] None = Ok ([v], [2]).
Proof. exact c51_silence. Qed.
Print Assumptions C51_silence.
