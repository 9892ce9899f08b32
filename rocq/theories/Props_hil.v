(** Property theorems, restated from T_hil.v (generated by tools/genprops.py).
    The analytic signal computed by scipy.signal.hilbert, the analytic impulse,
    step and singularity (C59, C77). *)

From Coq Require Import Reals ZArith List Lia Lra Bool.
From Coquelicot Require Import Coquelicot.
From Flocq Require Import Core.
From Verif Require Import Py Scalars CSum DFT M_base Spec P_base M_utils T_utils M_dom T_dom M_gen1 M_gen2 T_gen1 T_hil.
Import ListNotations.
Local Open Scope Z_scope.

Theorem C59_hilbert : forall x y, hilbert x = Ok y -> analytic_of x y.
Proof. exact c59_hilbert. Qed.
Print Assumptions C59_hilbert.

Theorem C59_anapulse : forall n ti, 0 < n ->
  let t := match ti with Some t => t | None => IZR (half_round n) end in
  exists y, anapulse n ti = Ok y /\ zlen y = n /\ analytic_of (map (fun k => if Req_EM_T (IZR k) t then 1%R else 0%R) (arange 0 n)) y.
Proof. exact c59_anapulse. Qed.
Print Assumptions C59_anapulse.

Theorem C59_anastep : forall n ti, 0 < n ->
  let t := match ti with Some t => t | None => IZR (half_round n) end in
  exists y, anastep n ti = Ok y /\ zlen y = n /\ analytic_of (map (fun k => if Rlt_dec t (IZR k) then 1%R else 0%R) (arange 0 n)) y.
Proof. exact c59_anastep. Qed.
Print Assumptions C59_anastep.

Theorem C59_raises : forall n ti, n <= 0 -> anapulse n ti = Raise ValueError /\ anastep n ti = Raise ValueError.
Proof. exact c59_raises. Qed.
Print Assumptions C59_raises.

(** A position that is not a sample gives the zero signal. *)
Theorem C59_off_grid : forall n t y, (forall k, 0 <= k < n -> IZR k <> t) -> anapulse n (Some t) = Ok y -> forall v, In v y -> v = RtoC 0.
Proof. exact c59_off_grid. Qed.
Print Assumptions C59_off_grid.

(** Two samples: the analytic signal of (0, 1) is itself. *)
Example C59_example : exists y, anapulse 2 None = Ok y /\ map Re y = [0; 1]%R.
Proof. exact c59_example. Qed.

Theorem C77_outcome : forall count n t0 h, 0 < n -> (h <= 0)%R ->
  (sing_fits (count n) n -> exists r, anasing count n t0 h = Ok r) /\
  (~ sing_fits (count n) n -> anasing count n t0 h = Raise ValueError).
Proof. exact c77_outcome. Qed.
Print Assumptions C77_outcome.

Theorem C77_exact : forall n t0 h, 0 < n -> exists r, anasing sing_count n t0 h = Ok r.
Proof. exact c77_exact. Qed.
Print Assumptions C77_exact.

Theorem C77_no_points : forall count n t0 h, count = sing_count \/ count = sing_count64 -> n <= 0 ->
  anasing count n t0 h = Raise (if (if Rle_dec h 0 then n =? 0 else false) then ZeroDivisionError else ValueError).
Proof. exact c77_no_points. Qed.
Print Assumptions C77_no_points.

(** Double precision: powers of two work, 40 raises. *)
Theorem C77_pow2 : forall k t0 h, 0 <= k <= 53 -> (h <= 0)%R -> exists r, anasing sing_count64 (2 ^ k) t0 h = Ok r.
Proof. exact c77_pow2. Qed.
Print Assumptions C77_pow2.

Theorem C77_binary64_refuted : exists n, 0 < n /\ forall t0 h, (h <= 0)%R -> anasing sing_count64 n t0 h = Raise ValueError.
Proof. exact c77_binary64_refuted. Qed.
Print Assumptions C77_binary64_refuted.

Theorem C77_real_part : forall count n t0 h y, 0 < n -> anasing count n t0 h = Ok (Some y) ->
  zlen y = n /\ (forall v, In v (map Re y) -> (0 <= v)%R) /\ In 0%R (map Re y).
Proof. exact c77_real_part. Qed.
Print Assumptions C77_real_part.

Theorem C77_cosines : forall count m t h y, 2 <= m -> count (2 * m) = m - 1 -> (h <= 0)%R -> anasing count (2 * m) (Some t) h = Ok (Some y) ->
  let g s := rsum (arange 1 m) (fun k => Rpower (IZR k / IZR (2 * m)) (-1 - h) * cos (2 * PI * IZR k * (IZR s - (t - 1)) / IZR (2 * m)))%R in
  exists i j, 0 <= i < 2 * m /\ 0 <= j < 2 * m /\ (0 < g i)%R /\ (forall s, 0 <= s < 2 * m -> (g j <= g s <= g i)%R) /\
  forall s, 0 <= s < 2 * m -> rnth (map Re y) s = ((g s - g j) / g i)%R.
Proof. exact c77_cosines. Qed.
Print Assumptions C77_cosines.

(** h > 0: the cusp max - |k - t0|^h, largest at the sample nearest to t0. *)
Theorem C77_cusp : forall count n t h y, 0 < n -> (0 < h)%R -> anasing count n (Some t) h = Ok (Some y) ->
  exists M, (forall k, 0 <= k < n -> rnth (map Re y) k = (M - rpow0 (Rabs (IZR k - t)) h)%R) /\
  forall j k, 0 <= j < n -> 0 <= k < n -> (Rabs (IZR k - t) <= Rabs (IZR j - t))%R -> (rnth (map Re y) j <= rnth (map Re y) k)%R.
Proof. exact c77_cusp. Qed.
Print Assumptions C77_cusp.

Example C77_example : exists y, anasing sing_count64 2 (Some 0%R) 1 = Ok (Some y) /\ map Re y = [1; 0]%R.
Proof. exact c77_example. Qed.
