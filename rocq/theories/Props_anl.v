(** Property theorems, restated from T_anl.v (generated by tools/genprops.py).
    C144: closed forms of the analytic signals. *)

From Coq Require Import Reals ZArith List Lia Lra Bool.
From Coquelicot Require Import Coquelicot.
From Flocq Require Import Core.
From Verif Require Import Py Scalars CSum DFT Spec M_base M_utils M_dom M_gen1 M_gen2 P_base T_utils T_putils T_dom T_gen1 T_gen2 T_hil T_key T_noise T_cells T_nmom T_anl.
Import ListNotations.
Local Open Scope Z_scope.

(** The analytic signal is the circular convolution with the analytic impulse. *)
Theorem C144_convolution : forall x y, hilbert x = Ok y -> zlen y = zlen x /\ forall j, 0 <= j < zlen x ->
  cnth y j = csum (arange 0 (zlen x)) (fun k => RtoC (rnth x k) * impulse_at (zlen x) (j - k))%C.
Proof. exact c144_convolution. Qed.
Print Assumptions C144_convolution.

(** anapulse at a sample. *)
Theorem C144_impulse : forall n k, 0 <= k < n -> anapulse n (Some (IZR k)) = Ok (map (fun j => impulse_at n (j - k)) (arange 0 n)).
Proof. exact c144_impulse. Qed.
Print Assumptions C144_impulse.

(** anastep is the sum of the impulses after its position. *)
Theorem C144_step : forall n t, 0 < n -> -1 <= t < n ->
  anastep n (Some (IZR t)) = Ok (map (fun j => csum (arange (t + 1) n) (fun k => impulse_at n (j - k))) (arange 0 n)).
Proof. exact c144_step. Qed.
Print Assumptions C144_step.

(** Linear combinations and circular delays. *)
Theorem C144_linear : forall x1 x2 y1 y2 a b, zlen x1 = zlen x2 -> hilbert x1 = Ok y1 -> hilbert x2 = Ok y2 ->
  hilbert (map (fun k => a * rnth x1 k + b * rnth x2 k)%R (arange 0 (zlen x1))) = Ok (map (fun k => RtoC a * cnth y1 k + RtoC b * cnth y2 k)%C (arange 0 (zlen x1))).
Proof. exact c144_linear. Qed.
Print Assumptions C144_linear.

Theorem C144_delay : forall x y s, hilbert x = Ok y ->
  hilbert (map (fun k => rnth x ((k - s) mod zlen x)) (arange 0 (zlen x))) = Ok (map (fun k => cnth y ((k - s) mod zlen x)) (arange 0 (zlen x))).
Proof. exact c144_delay. Qed.
Print Assumptions C144_delay.

(** A cosine on a bin strictly between 0 and half the sampling frequency becomes the
    complex exponential. *)
Theorem C144_tone : forall n f (c : C), 0 < 2 * f < n ->
  hilbert (map (fun k => Re (c * root n (f * k))%C) (arange 0 n)) = Ok (map (fun k => c * root n (f * k))%C (arange 0 n)).
Proof. exact c144_tone. Qed.
Print Assumptions C144_tone.

(** Energy of the analytic impulse. *)
Theorem C144_energy : forall n k y, 0 <= k < n -> anapulse n (Some (IZR k)) = Ok y ->
  energy y = (2 - 1 / IZR n - (if Z.even n then 1 / IZR n else 0))%R.
Proof. exact c144_energy. Qed.
Print Assumptions C144_energy.

(** Four samples: the impulse at sample 1. *)
Example C144_example : anapulse 4 (Some 1%R) = Ok [(0, -1 / 2); (1, 0); (0, 1 / 2); (0, 0)]%R.
Proof. exact c144_example. Qed.

(** fmconst at a frequency k/n strictly between 0 and 1/2 is the analytic signal of its
    real part. *)
Theorem C144_fmconst : forall n f c, 0 <= c < n -> 0 < 2 * f < n ->
  exists y, fmconst n (IZR f / IZR n) (Some (IZR c)) = Ok (map Some y, map (fun _ => (IZR f / IZR n)%R) (arange 0 n)) /\ zlen y = n /\ hilbert (map Re y) = Ok y.
Proof. exact c144_fmconst. Qed.
Print Assumptions C144_fmconst.

(** Off the bins it is not. *)
Theorem C144_off_bin_refuted : exists n f c y l, 0 <= c < n /\ (0 < f < 1 / 2)%R /\ fmconst n f (Some (IZR c)) = Ok (map Some y, l) /\ hilbert (map Re y) <> Ok y.
Proof. exact c144_off_bin_refuted. Qed.
Print Assumptions C144_off_bin_refuted.
