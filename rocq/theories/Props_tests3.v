(** Property theorems, restated from T_tests3.v (generated by tools/genprops.py).
    C132, continued: the curvature of the Gaussian, the extrema of the Mexican hat, the
    instantaneous frequency of a chirp. *)

From Coq Require Import Reals ZArith List Lia Lra Bool.
From Coquelicot Require Import Coquelicot.
From Flocq Require Import Core.
From Verif Require Import Py Scalars CSum DFT Spec M_base M_utils M_putils M_dom M_gen1 M_gen3 P_base T_putils T_dom T_gen1 T_utils T_nd T_tests3.
Import ListNotations.
Local Open Scope Z_scope.

(** The second difference of amgauss is positive at samples further than sigma + 1 from the centre and negative within sigma of it,
    sigma = spread / sqrt(2 pi); so the three assertions of the test, cut at floor(b - c) - 1 and floor(b + c), hold for all parameters. *)
Theorem C132_amgauss_curvature : forall n t s, 0 < n -> (0 < s)%R ->
  exists y, amgauss n (Some t) (Some s) = Ok (map Some y) /\ forall k, 1 <= k < n - 1 ->
  let sigma := (s / sqrt (2 * PI))%R in let d := Rabs (IZR k - (t - 1)) in let D := (rnth y (k + 1) - 2 * rnth y k + rnth y (k - 1))%R in
  ((sigma + 1 <= d)%R -> (0 < D)%R) /\ ((d <= sigma)%R -> (D < 0)%R).
Proof. exact c132_amgauss_curvature. Qed.
Print Assumptions C132_amgauss_curvature.

Theorem C132_amgauss_test : forall n t s, 0 < n -> (0 < s)%R ->
  exists y, amgauss n (Some t) (Some s) = Ok (map Some y) /\ forall k, 1 <= k < n - 1 ->
  let sigma := (s / sqrt (2 * PI))%R in let i1 := Zfloor (t - sigma) - 1 in let i2 := Zfloor (t + sigma) in
  let D := (rnth y (k + 1) - 2 * rnth y k + rnth y (k - 1))%R in
  (k + 1 < i1 -> (0 < D)%R) /\ (i1 <= k - 1 -> k + 1 < i2 -> (D < 0)%R) /\ (i2 <= k - 1 -> (0 < D)%R).
Proof. exact c132_amgauss_test. Qed.
Print Assumptions C132_amgauss_test.

(** The values of mexhat fall from the centre as long as 2 (pi nu t)^2 <= 3 and rise from there on. *)
Theorem C132_mexhat_shape : forall nu, (0 < nu <= 1 / 2)%R -> exists y, let n := Zceil (3 / 2 / nu) in
  mexhat nu = Ok y /\ zlen y = 2 * n + 1 /\
  (forall t, 0 <= t <= n -> rnth y (n - t) = rnth y (n + t)) /\
  (forall t, 0 <= t < n -> (2 * (PI * nu * IZR (t + 1)) ^ 2 <= 3)%R -> (rnth y (n + t + 1) < rnth y (n + t))%R) /\
  (forall t, 1 <= t < n -> (3 <= 2 * (PI * nu * IZR t) ^ 2)%R -> (rnth y (n + t) < rnth y (n + t + 1))%R) /\
  (forall t, 1 <= t <= n -> (rnth y (n + t) < rnth y n)%R).
Proof. exact c132_mexhat_shape. Qed.
Print Assumptions C132_mexhat_shape.

(** So the centre is the only sample above both its neighbours (argrelmax in the test), and for
    2 (pi nu)^2 >= 3, as for the test's nu = 0.5, the samples next to the centre are the only ones below both (argrelmin). *)
Theorem C132_mexhat_extrema : forall nu, (0 < nu <= 1 / 2)%R -> exists y, let n := Zceil (3 / 2 / nu) in
  mexhat nu = Ok y /\ zlen y = 2 * n + 1 /\
  (forall j, 1 <= j < 2 * n -> ((rnth y (j - 1) < rnth y j)%R /\ (rnth y (j + 1) < rnth y j)%R <-> j = n)) /\
  ((3 <= 2 * (PI * nu) ^ 2)%R -> forall j, 1 <= j < 2 * n -> ((rnth y j < rnth y (j - 1))%R /\ (rnth y j < rnth y (j + 1))%R <-> j = n - 1 \/ j = n + 1)).
Proof. exact c132_mexhat_extrema. Qed.
Print Assumptions C132_mexhat_extrema.

(** *** test_freq_domain.py, test_instfreq *)
Theorem C132_instfreq : forall ang n fi ff t0 y law d, (forall k z, is_angle z (ang k z)) -> 4 <= n -> (0 < fi < 1 / 2)%R -> (0 < ff < 1 / 2)%R ->
  fmlin n fi ff t0 = Ok (y, law) ->
  exists fs, inst_freq ang y None = Ok (fs, arange 2 n) /\ is_linear fs d = true /\
  rnth fs 0 = (fi + (ff - fi) / IZR (n - 1))%R /\ rnth fs (n - 3) = (ff - (ff - fi) / IZR (n - 1))%R.
Proof. exact c132_instfreq. Qed.
Print Assumptions C132_instfreq.
