(** Property theorems, restated from T_fp.v (generated by tools/genprops.py).
    C114: the dilation grid in double precision. *)

From Coq Require Import Reals ZArith List Lia Lra Bool.
From Coquelicot Require Import Coquelicot.
From Flocq Require Import Core Relative.
From Verif Require Import Py Scalars CSum DFT Spec M_base M_utils M_gen1 M_gen2 M_aff M_fp P_base P_mh T_utils T_aff T_aff2 T_aff3 T_fp.
Import ListNotations.
Local Open Scope Z_scope.

(** The count is 2 m1 or one less, never anything else. *)
Theorem C114_count : forall umax m1, (0 < umax)%R -> is_double umax -> 1 <= m1 <= 2 ^ 50 ->
  u_count umax m1 = 2 * m1 \/ u_count umax m1 = 2 * m1 - 1.
Proof. exact c114_count. Qed.
Print Assumptions C114_count.

(** It is 2 m1 exactly when the quotient is not below 2 m1 by more than half the distance to
    the next smaller double. *)
Theorem C114_criterion : forall umax m1 e, (0 < umax)%R -> is_double umax -> 1 <= m1 <= 2 ^ 50 -> 2 ^ (e - 1) < 2 * m1 <= 2 ^ e -> 1 <= e ->
  (u_count umax m1 = 2 * m1 <-> (IZR (2 * m1) - bpow radix2 (e - 54) <= 2 * umax / b64 (umax / IZR m1))%R).
Proof. exact c114_criterion. Qed.
Print Assumptions C114_criterion.

(** If the division by 2 m1 is exact or rounded down nothing is lost. *)
Theorem C114_down : forall umax m1, (0 < umax)%R -> is_double umax -> 1 <= m1 <= 2 ^ 50 -> (b64 (umax / IZR m1) <= umax / IZR m1)%R -> u_count umax m1 = 2 * m1.
Proof. exact c114_down. Qed.
Print Assumptions C114_down.

Theorem C114_power_of_two : forall umax j, (0 < umax)%R -> is_double umax -> 0 <= j <= 50 -> u_count umax (2 ^ j) = 2 * 2 ^ j.
Proof. exact c114_power_of_two. Qed.
Print Assumptions C114_power_of_two.

(** The loops of the three classes: all points or an IndexError. *)
Theorem C114_loop : forall k umax m1, (0 < umax)%R -> is_double umax -> 1 <= m1 <= 2 ^ 50 ->
  if u_count umax m1 =? 2 * m1 then exists v, u_loop k umax m1 = Ok v else u_loop k umax m1 = Raise IndexError.
Proof. exact c114_loop. Qed.
Print Assumptions C114_loop.

Theorem C114_run : forall spl form o, (0 < a_umax o)%R -> is_double (a_umax o) -> 1 <= a_m1 o <= 2 ^ 50 -> 2 <= a_nv o ->
  aff_run64 spl form o = if u_count (a_umax o) (a_m1 o) =? 2 * a_m1 o then aff_run spl form o else Raise IndexError.
Proof. exact c114_run. Qed.
Print Assumptions C114_run.

(** A D-Flandrin distribution of 102 samples on the band [1/20, 9/20]: umax = 2, m1 = 93; the
    formula has a value, the program stops with an IndexError. *)
Theorem C114_refuted : forall spl (x : list C), (forall u v w, zlen (spl u v w) = zlen w) -> zlen x = 102 ->
  exists o, aff_new Dfl x None (Some (1 / 20)%R) (Some (45 / 100)%R) (Some 16) = Ok o /\ a_umax o = 2%R /\ a_m1 o = 93 /\
    (exists tfr, aff_run spl true o = Ok (tfr, a_ts o, geo_grid (1 / 20) (45 / 100) 16)) /\ aff_run64 spl true o = Raise IndexError.
Proof. exact c114_refuted. Qed.
Print Assumptions C114_refuted.

Example C114_example : u_count 2 93 = 185 /\ u_count 2 64 = 128.
Proof. exact c114_example. Qed.
