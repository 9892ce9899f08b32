(** Property theorems, restated from T_fp2.v (generated by tools/genprops.py).
    C115, C116: integer divisions and the default band in double precision. *)

From Coq Require Import Reals ZArith List Lia Lra Bool.
From Coquelicot Require Import Coquelicot.
From Flocq Require Import Core Relative.
From Verif Require Import Py Scalars M_utils M_gen1 M_gen2 M_aff M_fp T_utils T_fp T_plot T_fp2.
Import ListNotations.
Local Open Scope Z_scope.

(** int(a / float(b)) is the integer quotient. *)
Theorem C115_int : forall a b, 0 <= a < 2 ^ 53 -> 0 < b < 2 ^ 53 -> quot64 a b = a / b.
Proof. exact c115_int. Qed.
Print Assumptions C115_int.

(** int(np.ceil(a / b)) is the quotient rounded up. *)
Theorem C115_ceil : forall a b, 0 <= a < 2 ^ 53 -> 0 < b < 2 ^ 53 -> ceil64 a b = - (- a / b).
Proof. exact c115_ceil. Qed.
Print Assumptions C115_ceil.

(** round(a / 2.0) and round(a / 5.0), the default lengths of a symbol. *)
Theorem C115_half : forall a, 0 <= a < 2 ^ 53 -> near64 a 2 = ZnearestE (IZR a / 2).
Proof. exact c115_half. Qed.
Print Assumptions C115_half.

Theorem C115_fifth : forall a, 0 <= a < 2 ^ 52 -> near64 a 5 = ZnearestE (IZR a / 5).
Proof. exact c115_fifth. Qed.
Print Assumptions C115_fifth.

(** Beyond 2^53 the operands themselves are rounded. *)
Theorem C115_refuted : exists a b, 0 < b < 2 ^ 53 /\ quot64 a b <> a / b.
Proof. exact c115_refuted. Qed.
Print Assumptions C115_refuted.

Example C115_example : quot64 1000 3 = 333 /\ ceil64 1000 3 = 334 /\ near64 12 5 = 2.
Proof. exact c115_example. Qed.

(** When 10 k / m is not an integer the band is that of exact arithmetic. *)
Theorem C116_interior : forall m k, 1 <= m <= 2 ^ 40 -> 0 <= k < m -> (10 * k) mod m <> 0 ->
  Zfloor (cells64 m k) = Zfloor (10 * IZR k / IZR m) /\ Zceil (cells64 m k) = Zceil (10 * IZR k / IZR m).
Proof. exact c116_interior. Qed.
Print Assumptions C116_interior.

(** When it is, the lower end may fall one cell and the upper end rise one cell, never more and
    never the other way. *)
Theorem C116_multiple : forall m k q, 1 <= m -> 0 <= k < m -> 10 * k = q * m ->
  (Zfloor (cells64 m k) = q \/ Zfloor (cells64 m k) = q - 1) /\ (Zceil (cells64 m k) = q \/ Zceil (cells64 m k) = q + 1).
Proof. exact c116_multiple. Qed.
Print Assumptions C116_multiple.

(** Up to the rounding of 0.05 itself the band contains the one of exact arithmetic. *)
Theorem C116_covers : forall m k, 1 <= m <= 2 ^ 40 -> 0 <= k < m ->
  Zfloor (cells64 m k) <= Zfloor (10 * IZR k / IZR m) /\ Zceil (10 * IZR k / IZR m) <= Zceil (cells64 m k).
Proof. exact c116_covers. Qed.
Print Assumptions C116_covers.

(** The band of the class itself: away from multiples of 0.05 the rounded computation differs from
    the exact one only in the last places. *)
Theorem C116_band : forall nstf sp l i j a b, loud sp = Ok l -> zmin_list l = Ok i -> zmax_list l = Ok j -> 0 <= i < half_round nstf -> 0 <= j < half_round nstf -> half_round nstf <= 2 ^ 40 ->
  (10 * i) mod half_round nstf <> 0 -> (10 * j) mod half_round nstf <> 0 -> default_fmin nstf sp = Ok a -> default_fmax nstf sp = Ok b ->
  (Rabs (fmin64 (half_round nstf) i - a) <= / 1125899906842624)%R /\ (Rabs (fmax64 (half_round nstf) j - b) <= / 1125899906842624)%R.
Proof. exact c116_band. Qed.
Print Assumptions C116_band.

Theorem C116_upper_refuted : exists m k, 1 <= m /\ 0 <= k < m /\ (5 / 100 * IZR (Zceil (10 * IZR k / IZR m)) = 15 / 100)%R /\ (fmax64 m k > 19 / 100)%R.
Proof. exact c116_upper_refuted. Qed.
Print Assumptions C116_upper_refuted.

Theorem C116_lower_refuted : exists m k, 1 <= m /\ 0 <= k < m /\ (5 / 100 * IZR (Zfloor (10 * IZR k / IZR m)) = 25 / 100)%R /\ (fmin64 m k < 21 / 100)%R /\ (fmax64 m k > 24 / 100)%R.
Proof. exact c116_lower_refuted. Qed.
Print Assumptions C116_lower_refuted.

(** A power of two of bins: the quarter-rate tone does get the band of width zero. *)
Theorem C116_quarter : forall j, 1 <= j <= 40 -> cells64 (2 ^ j) (2 ^ (j - 1)) = 5%R.
Proof. exact c116_quarter. Qed.
Print Assumptions C116_quarter.

Example C116_example : Zceil (cells64 10 3) = 4 /\ Zfloor (cells64 98 49) = 4.
Proof. exact c116_example. Qed.
