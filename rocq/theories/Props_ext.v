(** Property theorems, restated from T_ext.v (generated by tools/genprops.py).
    C63: doppler for a zero sampling frequency or wave speed. *)

From Coq Require Import Reals ZArith List Lia Lra Bool.
From Coquelicot Require Import Coquelicot.
From Flocq Require Import Core.
From Verif Require Import Py Scalars CSum DFT Spec M_base M_utils M_putils M_dom M_gen1 M_gen2 M_gen3 M_over M_ext P_base T_putils T_dom T_gen1 T_gen2 T_hil T_key T_misc T_ext.
Import ListNotations.
Local Open Scope Z_scope.

Theorem C63_raises_x : forall n sf f0 dist v t c, ~ doppler_valid n sf f0 dist v t -> doppler_x n sf f0 dist v (Some t) c = Raise TypeError.
Proof. exact c63_raises_x. Qed.
Print Assumptions C63_raises_x.

Theorem C63_default_x : forall n sf f0 dist v c, doppler_x n sf f0 dist v None c = doppler_x n sf f0 dist v (Some (IZR n / 2)%R) c.
Proof. exact c63_default_x. Qed.
Print Assumptions C63_default_x.

(** Away from the zeros nothing is infinite and the two models agree. *)
Theorem C63_finite : forall n sf f0 dist v t c fm am law, doppler_valid n sf f0 dist v t -> (0 < sf)%R -> c <> 0%R ->
  doppler n sf f0 dist v (Some t) c = Ok (fm, am, law) ->
  doppler_x n sf f0 dist v (Some t) c = Ok (map xcomplex fm, option_map (map Fin) am, map Fin law).
Proof. exact c63_finite. Qed.
Print Assumptions C63_finite.

(** Without a sampling frequency (f0 is then 0) every sample and every value of
    the law is NaN, and the amplitude is the number 0. *)
Theorem C63_no_sampling : forall n f0 dist v t c, doppler_valid n 0 f0 dist v t ->
  f0 = 0%R /\
  doppler_x n 0 f0 dist v (Some t) c = Ok (map (fun _ => (NaN, NaN)) (arange 0 n), None, map (fun _ => NaN) (arange 0 n)).
Proof. exact c63_no_sampling. Qed.
Print Assumptions C63_no_sampling.

(** Without a wave speed every sample is NaN and the law infinite, away from t0. *)
Theorem C63_no_wave : forall n sf f0 dist v t, doppler_valid n sf f0 dist v t -> (0 < sf)%R ->
  exists fm am law, doppler_x n sf f0 dist v (Some t) 0 = Ok (fm, am, law) /\
  fm = map (fun _ => (NaN, NaN)) (arange 0 n) /\
  (am = None <-> (f0 < bpow radix2 (-52))%R) /\
  (forall a, am = Some a -> a = map (fun k => Fin (1 / sqrt (dop_d sf dist v t (IZR k + 1)))) (arange 0 n)) /\
  zlen law = n /\
  forall k, 0 <= k < n ->
    (f0 = 0%R \/ v = 0%R \/ IZR (k + 1) = t -> nth (Z.to_nat k) law (Fin 0) = NaN) /\
    (f0 <> 0%R -> v <> 0%R -> (IZR (k + 1) < t)%R -> nth (Z.to_nat k) law (Fin 0) = Inf false) /\
    (f0 <> 0%R -> v <> 0%R -> (t < IZR (k + 1))%R -> nth (Z.to_nat k) law (Fin 0) = Inf true).
Proof. exact c63_no_wave. Qed.
Print Assumptions C63_no_wave.

Example C63_no_wave_example : exists fm am law, doppler_x 3 4 1 1 1 (Some 2%R) 0 = Ok (fm, am, law) /\ law = [Inf false; NaN; Inf true].
Proof. exact c63_no_wave_example. Qed.
