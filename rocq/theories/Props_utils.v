(** Property theorems, restated from T_utils.v (generated by tools/genprops.py).
    C01 - C06: tftb/utils.py. *)

From Coq Require Import Reals ZArith List Lia Lra Bool Psatz.
From Coquelicot Require Import Coquelicot.
From Flocq Require Import Core.
From Verif Require Import Py Scalars CSum DFT Spec M_base P_base M_utils T_utils.
Import ListNotations.
Local Open Scope Z_scope.

Theorem C01_divider_balanced : forall N, 1 <= N -> exists a b,
  divider N = Ok (a, b) /\ 0 < a /\ 0 < b /\ a * b = N /\
  forall c d, 0 < c -> 0 < d -> c * d = N -> Z.abs (a - b) <= Z.abs (c - d).
Proof. exact c01_divider_balanced. Qed.
Print Assumptions C01_divider_balanced.

(** In double precision the result is still right up to 2^52 ... *)
Theorem C01_divider_float_exact_range : forall N, 1 <= N <= 2 ^ 52 -> exists a b,
  divider_f64 N = Ok (a, b) /\ 0 < a /\ 0 < b /\ a * b = N /\
  forall c d, 0 < c -> 0 < d -> c * d = N -> Z.abs (a - b) <= Z.abs (c - d).
Proof. exact c01_divider_float_exact_range. Qed.
Print Assumptions C01_divider_float_exact_range.

(** ... but not beyond: the very next integer is the first counterexample of
    the form a^2+1. *)
Theorem C01_divider_float_refuted : exists N a b, 1 <= N /\
  divider_f64 N = Ok (a, b) /\ a * b <> N.
Proof. exact c01_divider_float_refuted. Qed.
Print Assumptions C01_divider_float_refuted.

Example C01_example : divider 12 = Ok (4, 3).
Proof. exact c01_example. Qed.

Theorem C02_nextpow2_least : forall x, (0 < x)%R -> exists k,
  nextpow2 x = Ok k /\ (x <= powerRZ 2 k)%R /\ forall j, (x <= powerRZ 2 j)%R -> k <= j.
Proof. exact c02_nextpow2_least. Qed.
Print Assumptions C02_nextpow2_least.

Theorem C02_nextpow2_nonpositive : forall x, (x <= 0)%R -> nextpow2 x = Raise ValueError.
Proof. exact c02_nextpow2_nonpositive. Qed.
Print Assumptions C02_nextpow2_nonpositive.

(** The documented array form raises. *)
Theorem C02_array_refuted : exists l, l <> [] /\ (forall x, In x l -> (0 < x)%R) /\
  nextpow2_arr l = Raise TypeError.
Proof. exact c02_array_refuted. Qed.
Print Assumptions C02_array_refuted.

(** In double precision large integers are rounded before the logarithm. *)
Theorem C02_float_refuted : exists n k, nextpow2_f64 n = Ok k /\ 2 ^ k < n.
Proof. exact c02_float_refuted. Qed.
Print Assumptions C02_float_refuted.

Example C02_example : nextpow2 5 = Ok 3.
Proof. exact c02_example. Qed.

Theorem C03_nearest_odd : forall x, exists r, nearest_odd x = IZR r /\ Z.odd r = true /\
  (Rabs (IZR r - x) <= 1)%R /\
  forall r', Z.odd r' = true -> (Rabs (IZR r - x) <= Rabs (IZR r' - x))%R.
Proof. exact c03_nearest_odd. Qed.
Print Assumptions C03_nearest_odd.

Theorem C03_array_agrees : forall l, map IZR (nearest_odd_arr l) = map nearest_odd l.
Proof. exact c03_array_agrees. Qed.
Print Assumptions C03_array_agrees.

(** The docstring's example [nearest_odd(range(1, 11))] raises. *)
Theorem C03_range_refuted : nearest_odd_range = Raise TypeError.
Proof. exact c03_range_refuted. Qed.
Print Assumptions C03_range_refuted.

Example C03_example : nearest_odd (5/2) = 3%R.
Proof. exact c03_example. Qed.

(** *** C04 modulo *)
Theorem C04_modulo_residue : forall x N, 1 <= N -> zlen (modulo x N) = zlen x /\
  forall k v, nth_error x k = Some v -> exists r, nth_error (modulo x N) k = Some r /\
    1 <= r <= N /\ (N | r - v) /\ forall r', 1 <= r' <= N -> (N | r' - v) -> r' = r.
Proof. exact c04_modulo_residue. Qed.
Print Assumptions C04_modulo_residue.

(** On complex arrays: TypeError if any entry is real, otherwise residues in
    0..N-1 (not 1..N) of both parts. *)
Theorem C04_complex : forall x N, 1 <= N ->
  ((exists z, In z x /\ snd z = 0) -> modulo_cplx x N = Raise TypeError) /\
  ((forall z, In z x -> snd z <> 0) -> exists y, modulo_cplx x N = Ok y /\
     forall z, In z y -> 0 <= fst z < N /\ 0 <= snd z < N).
Proof. exact c04_complex. Qed.
Print Assumptions C04_complex.

Example C04_example : modulo [-1; 0; 1; 4; 5; 8] 4 = [3; 4; 1; 4; 1; 4].
Proof. exact c04_example. Qed.

Theorem C05_progression : forall (a s : R) n d, 2 <= n ->
  is_linear (map (fun k => a + IZR k * s)%R (arange 0 n)) d = true.
Proof. exact c05_progression. Qed.
Print Assumptions C05_progression.

Theorem C05_accepts_bound : forall x d, is_linear x d = true -> exists s, forall k a b,
  nth_error x k = Some a -> nth_error x (S k) = Some b -> (Rabs ((b - a) - s) <= / 2 / p10 d)%R.
Proof. exact c05_accepts_bound. Qed.
Print Assumptions C05_accepts_bound.

(** Any two consecutive differences are within 10^-d. *)
Theorem C05_accepts_close : forall x d, is_linear x d = true -> forall k j a b a' b',
  nth_error x k = Some a -> nth_error x (S k) = Some b ->
  nth_error x j = Some a' -> nth_error x (S j) = Some b' ->
  (Rabs ((b - a) - (b' - a')) <= / p10 d)%R.
Proof. exact c05_accepts_close. Qed.
Print Assumptions C05_accepts_close.

Theorem C05_short : forall x d, zlen x < 2 -> is_linear x d = false.
Proof. exact c05_short. Qed.
Print Assumptions C05_short.

(** Accepting does not mean linear: the error accumulates. *)
Theorem C05_example_accepts : is_linear [0%R; 1%R; 2%R] 5 = true.
Proof. exact c05_example_accepts. Qed.
Print Assumptions C05_example_accepts.

Example C05_example_rejects : is_linear [0%R; 1%R; 3%R] 5 = false.
Proof. exact c05_example_rejects. Qed.

Theorem C06_izak_zak : forall nb m x, 1 <= nb -> 1 <= m -> zlen x = nb * m ->
  izak m (zak nb m x) = Ok x.
Proof. exact c06_izak_zak. Qed.
Print Assumptions C06_izak_zak.

Theorem C06_izak_energy : forall n cols, 1 <= n -> (forall c, In c cols -> zlen c = n) ->
  exists sig, izak n cols = Ok sig /\ zlen sig = n * zlen cols /\ energy sig = rsum cols energy.
Proof. exact c06_izak_energy. Qed.
Print Assumptions C06_izak_energy.

(** The branch written for 1-d input always raises. *)
Theorem C06_1d_refuted : forall x, izak_1d x = Raise IndexError.
Proof. exact c06_1d_refuted. Qed.
Print Assumptions C06_1d_refuted.

Example C06_example : izak 2 (zak 3 2 [RtoC 1; Ci; RtoC 2; RtoC 0; RtoC 5; RtoC 7])
  = Ok [RtoC 1; Ci; RtoC 2; RtoC 0; RtoC 5; RtoC 7].
Proof. exact c06_example. Qed.
