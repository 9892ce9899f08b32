(** Property theorems, restated from T_over.v (generated by tools/genprops.py).
    C53 for spreads that are not positive; C127: overflow and underflow. *)

From Coq Require Import Reals ZArith List Lia Lra Bool.
From Coquelicot Require Import Coquelicot.
From Flocq Require Import Core.
From Verif Require Import Py Scalars CSum DFT M_base Spec P_base M_utils M_putils M_dom T_dom T_utils M_gen1 T_gen1 M_gen2 M_gen3 M_over T_misc2 T_over.
Import ListNotations.
Local Open Scope Z_scope.

(** *** C53: spreads that are not positive *)
(** The sign of the spread does not matter for the Gaussian; a negative spread turns the
    exponential into its reciprocal, and gives the empty rectangle and triangle. *)
Theorem C53_negative_spread : forall n t s, 0 < n -> (s < 0)%R ->
  amgauss n (Some t) (Some s) = amgauss n (Some t) (Some (- s)%R) /\
  (exists y z, amexpos n (Some t) (Some s) true = Ok (map Some y) /\ amexpos n (Some t) (Some (- s)%R) true = Ok (map Some z) /\ zlen y = n /\ zlen z = n /\
     forall k, 0 <= k < n -> (rnth y k * rnth z k = 1)%R /\ (1 <= rnth y k)%R) /\
  (exists y, amexpos n (Some t) (Some s) false = Ok (map Some y) /\ zlen y = n /\
     forall k, 0 <= k < n -> ((IZR k < t)%R -> rnth y k = 0%R) /\ ((t <= IZR k)%R -> rnth y k = exp (sqrt PI * (IZR k - t) / - s) /\ (1 <= rnth y k)%R)) /\
  amrect n (Some t) (Some s) = Ok (repeat false (Z.to_nat n)) /\
  amtriang n (Some t) (Some s) = Ok (repeat (Some 0%R) (Z.to_nat n)).
Proof. exact c53_negative_spread. Qed.
Print Assumptions C53_negative_spread.

(** Spread 0: the Gaussian is 0 with NaN at its centre, the rectangle is one sample (if
    the centre is one), the triangle is NaN everywhere. *)
Theorem C53_zero_spread_others : forall n t, 0 < n ->
  amgauss n (Some t) (Some 0%R) = Ok (map (fun k => if Req_EM_T (IZR k) (t - 1) then None else Some 0%R) (arange 0 n)) /\
  amrect n (Some t) (Some 0%R) = Ok (map (fun k => if Req_EM_T (IZR k) t then true else false) (arange 0 n)) /\
  amtriang n (Some t) (Some 0%R) = Ok (repeat None (Z.to_nat n)).
Proof. exact c53_zero_spread_others. Qed.
Print Assumptions C53_zero_spread_others.

(** The unilateral exponential: 0 or the value of the formula from the centre on; before
    the centre 0, or NaN where exp overflows. *)
Theorem C127_unilateral : forall n t s, 0 < n -> (0 < s)%R ->
  exists l, amexpos_x n (Some t) (Some s) false = Ok l /\ zlen l = n /\
  forall k, 0 <= k < n ->
    ((t <= IZR k)%R -> exists v, xnth l k = Fin v /\ (v = exp (- sqrt PI * (IZR k - t) / s) \/ (v = 0 /\ exp (- sqrt PI * (IZR k - t) / s) <= tiny))%R) /\
    ((IZR k < t)%R -> (huge <= exp (sqrt PI * (t - IZR k) / s))%R -> xnth l k = NaN) /\
    ((IZR k < t)%R -> (exp (sqrt PI * (t - IZR k) / s) < huge)%R -> xnth l k = Fin 0).
Proof. exact c127_unilateral. Qed.
Print Assumptions C127_unilateral.

(** exp overflows from 500 spreads before the centre on, at the latest. *)
Theorem C127_unilateral_nan : forall n t s k, (0 < s)%R -> 0 <= k < n -> (IZR k <= t - 500 * s)%R ->
  exists l, amexpos_x n (Some t) (Some s) false = Ok l /\ xnth l k = NaN.
Proof. exact c127_unilateral_nan. Qed.
Print Assumptions C127_unilateral_nan.

(** The bilateral kind is always finite. *)
Theorem C127_bilateral : forall n t s, 0 < n -> (0 < s)%R ->
  exists l, amexpos_x n (Some t) (Some s) true = Ok l /\ zlen l = n /\
  forall k, 0 <= k < n -> exists v, xnth l k = Fin v /\ (0 <= v <= 1)%R /\
    (v = exp (- sqrt (2 * PI) * Rabs (IZR k - t) / s) \/ (v = 0 /\ exp (- sqrt (2 * PI) * Rabs (IZR k - t) / s) <= tiny))%R.
Proof. exact c127_bilateral. Qed.
Print Assumptions C127_bilateral.

(** So: one sample before the centre is NaN for a spread of 1/500. *)
Theorem C127_refuted : exists n t s l k, (0 < s)%R /\ 0 <= k < n /\ amexpos_x n (Some t) (Some s) false = Ok l /\ xnth l k = NaN.
Proof. exact c127_refuted. Qed.
Print Assumptions C127_refuted.

(** With a large attenuation no sample of the wavelet is a number. *)
Theorem C127_klauder : forall n att f0, 2 <= n -> (0 < f0 < 1 / 2)%R -> (538 <= 2 * PI * att * f0 - 1 / 2)%R ->
  exists l, klauder_x n att f0 = Ok l /\ zlen l = 2 * (n / 2) /\ forall v, In v l -> forall r, v <> Fin r.
Proof. exact c127_klauder. Qed.
Print Assumptions C127_klauder.

(** The default attenuation 10 on two points is finite; 1000 is not. *)
Example C127_example :
  klauder_x 2 10 (1 / 5) = Ok [Fin (- sqrt (1 / 2)); Fin (sqrt (1 / 2))] /\
  (exists l, klauder_x 2 1000 (1 / 5) = Ok l /\ zlen l = 2 /\ forall r, ~ In (Fin r) l).
Proof. exact c127_example. Qed.
