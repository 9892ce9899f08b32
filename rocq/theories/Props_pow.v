(** Property theorems, restated from T_pow.v (generated by tools/genprops.py).
    C02: nextpow2 of an integer in double precision (math.log2 correctly rounded). *)

From Coq Require Import Reals ZArith List Lia Lra Bool.
From Coquelicot Require Import Coquelicot.
From Flocq Require Import Core.
From Verif Require Import Py M_utils T_utils T_pow.
Import ListNotations.
Local Open Scope Z_scope.

(** Exact up to 2^49 ... *)
Theorem C02_float_exact : forall n, 1 <= n <= 2 ^ 49 -> exists k, nextpow2_f64 n = Ok k /\ 0 <= k /\ n <= 2 ^ k /\ forall j, 0 <= j -> n <= 2 ^ j -> k <= j.
Proof. exact c02_float_exact. Qed.
Print Assumptions C02_float_exact.

(** ... and 2^49 + 1 is the first integer that goes wrong. *)
Theorem C02_float_first : nextpow2_f64 (2 ^ 49 + 1) = Ok 49.
Proof. exact c02_float_first. Qed.
Print Assumptions C02_float_first.

Theorem C58_rounded : forall N u, 1 <= N <= 2 ^ 53 -> is_double u -> (0 <= u < 1)%R -> 0 <= Zfloor (b64 (IZR N * u)) < N.
Proof. exact c58_rounded. Qed.
Print Assumptions C58_rounded.

(** The largest value np.random.rand returns. *)
Example C58_rounded_example : is_double (1 - bpow radix2 (-53)) /\ Zfloor (b64 (5 * (1 - bpow radix2 (-53)))) = 4.
Proof. exact c58_rounded_example. Qed.
