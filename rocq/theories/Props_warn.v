(** Property theorems, restated from T_warn.v (generated by tools/genprops.py).
    C123: when fmhyp, fmpar and fmpower warn about aliasing. *)

From Coq Require Import Reals ZArith List Lia Lra Bool.
From Coquelicot Require Import Coquelicot.
From Verif Require Import Py Scalars CSum M_base M_gen1 M_warn T_gen2 T_warn.
Import ListNotations.
Local Open Scope Z_scope.

(** fmhyp returns what it returned without the warning, and warns when one of the
    values of the law it returns is negative or above one half; as the law is
    monotone, the first and the last value decide. *)
Theorem C123_fmhyp : forall n a1 b1 a2 b2, (0 < a1)%R -> (0 < a2)%R -> a1 <> a2 -> 1 <= n ->
  let c := ((b2 - b1) / (1 / a2 - 1 / a1))%R in
  let law := fun t => (b1 - c / a1 + c / t)%R in
  exists x l w, fmhyp n a1 b1 a2 b2 = Ok (x, l) /\ fmhyp_w n a1 b1 a2 b2 = Ok (x, l, w) /\ law a1 = b1 /\ law a2 = b2 /\
  (w = true <-> exists f, In f l /\ (f < 0 \/ 1 / 2 < f)%R) /\
  (w = true <-> (law 1 < 0 \/ 1 / 2 < law 1 \/ law (IZR n) < 0 \/ 1 / 2 < law (IZR n))%R).
Proof. exact c123_fmhyp. Qed.
Print Assumptions C123_fmhyp.

(** The two points enclose the samples and are themselves in [0, 1/2]: no warning. *)
Theorem C123_fmhyp_quiet : forall n a1 b1 a2 b2, (0 < a1 <= 1)%R -> (IZR n <= a2)%R -> (a1 < a2)%R -> (0 <= b1 <= 1 / 2)%R -> (0 <= b2 <= 1 / 2)%R -> 1 <= n ->
  exists x l, fmhyp_w n a1 b1 a2 b2 = Ok (x, l, false).
Proof. exact c123_fmhyp_quiet. Qed.
Print Assumptions C123_fmhyp_quiet.

(** fmpar: a warning iff a value of the returned law is outside [0, 1/2]. *)
Theorem C123_fmpar : forall n a0 a1 a2, exists x l w, fmpar n a0 a1 a2 = (x, l) /\ fmpar_w n a0 a1 a2 = (x, l, w) /\
  (w = true <-> exists k, 0 <= k < n /\ (par_law a0 a1 a2 (IZR k) < 0 \/ 1 / 2 < par_law a0 a1 a2 (IZR k))%R).
Proof. exact c123_fmpar. Qed.
Print Assumptions C123_fmpar.

(** The law is not the frequency of the signal returned (C57): no warning, and the phase runs faster than half a turn per sample. *)
Theorem C123_fmpar_silent_refuted : exists n a0 a1 a2 x l t d, fmpar_w n a0 a1 a2 = (x, l, false) /\ (0 <= t < IZR n)%R /\ x = map (fun k => cis (par_p a0 a1 a2 (IZR k))) (arange 0 n) /\
  is_derive (par_p a0 a1 a2) t (2 * PI * d)%R /\ (1 / 2 < d)%R.
Proof. exact c123_fmpar_silent_refuted. Qed.
Print Assumptions C123_fmpar_silent_refuted.

(** First and last value in range do not silence it. *)
Theorem C123_fmpar_ends_refuted : exists n a0 a1 a2 x l, fmpar_w n a0 a1 a2 = (x, l, true) /\ (0 <= par_law a0 a1 a2 0 <= 1 / 2)%R /\ (0 <= par_law a0 a1 a2 (IZR (n - 1)) <= 1 / 2)%R.
Proof. exact c123_fmpar_ends_refuted. Qed.
Print Assumptions C123_fmpar_ends_refuted.

(** fmpower with a positive degree warns in every call, whatever the law: its value at sample 0 is infinite. *)
Theorem C123_fmpower_always : forall n k f0 c, (0 < k)%R -> k <> 1%R -> c <> 0%R -> 1 <= n ->
  exists x l, fmpower n (DFloat k) [f0; c] = Ok (x, l) /\ fmpower_w n (DFloat k) [f0; c] = Ok (x, l, true).
Proof. exact c123_fmpower_always. Qed.
Print Assumptions C123_fmpower_always.

(** With a degree that is not positive, or a constant law, the values of the law decide. *)
Theorem C123_fmpower : forall n k f0 c, (k <= 0)%R \/ c = 0%R -> k <> 1%R ->
  exists x l w, fmpower n (DFloat k) [f0; c] = Ok (x, l) /\ fmpower_w n (DFloat k) [f0; c] = Ok (x, l, w) /\
  (w = true <-> exists f, In (Some f) l /\ (f < 0 \/ 1 / 2 < f)%R).
Proof. exact c123_fmpower. Qed.
Print Assumptions C123_fmpower.

(** Two points choose the coefficients; the warning is the same. *)
Theorem C123_fmpower_points : forall n k a1 b1 a2 b2 rest, (0 < a1)%R -> (0 < a2)%R -> Rpower a1 k <> Rpower a2 k ->
  let c := ((b2 - b1) / (1 / Rpower a2 k - 1 / Rpower a1 k))%R in
  fmpower_w n (DFloat k) (a1 :: b1 :: a2 :: b2 :: rest) = fmpower_w n (DFloat k) [(b1 - c / Rpower a1 k)%R; c].
Proof. exact c123_fmpower_points. Qed.
Print Assumptions C123_fmpower_points.

(** The docstring's own call warns although every sample from 1 to 127 has its law in [0, 1/2]. *)
Theorem C123_fmpower_refuted : exists x l, fmpower_w 128 (DFloat (1 / 2)) [1; 1 / 2; 100; 1 / 10]%R = Ok (x, l, true) /\
  forall j, 1 <= j < 128 -> exists f, nth (Z.to_nat j) l None = Some f /\ (0 <= f <= 1 / 2)%R.
Proof. exact c123_fmpower_refuted. Qed.
Print Assumptions C123_fmpower_refuted.

(** fmhyp(128, (1, 0.5), (128, 0.1)) does not warn, fmhyp(2, (1, 0.5), (2, -0.1)) does. *)
Example C123_example : (exists x l, fmhyp_w 128 1 (1 / 2) 128 (1 / 10) = Ok (x, l, false)) /\ (exists x l, fmhyp_w 2 1 (1 / 2) 2 (- (1 / 10)) = Ok (x, l, true)).
Proof. exact c123_example. Qed.
