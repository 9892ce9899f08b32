(** Property theorems, restated from T_dopx.v (generated by tools/genprops.py).
    C60: dopnoise with zero sampling frequency, distance or wave speed. *)

From Coq Require Import Reals ZArith List Lia Lra Bool.
From Coquelicot Require Import Coquelicot.
From Flocq Require Import Core.
From Verif Require Import Py Scalars CSum DFT Spec M_base M_utils M_putils M_dom M_gen1 M_gen2 M_gen3 M_over M_ext M_alt M_dopx P_base T_utils T_putils T_dom T_gen1 T_gen2 T_hil T_misc2 T_noise T_alt T_dopx.
Import ListNotations.
Local Open Scope Z_scope.

Theorem C60_dopnoise_zero : forall rand n sf ft dist v tc c, sampler rand -> 2 <= n ->
  (forall i, 2 <= i < 2 * n -> ~ law_undefined n sf dist v tc c i) ->
  dopnoise_x rand n sf ft dist v (Some tc) c = (r <- dopnoise rand n sf ft dist v (Some tc) c ;; Ok (fst r, map Fin (snd r))).
Proof. exact c60_dopnoise_zero. Qed.
Print Assumptions C60_dopnoise_zero.

Theorem C60_dopnoise_nan : forall rand n sf ft dist v tc c, sampler rand -> 2 <= n ->
  (exists i, 2 <= i < 2 * n /\ law_undefined n sf dist v tc c i) ->
  exists law, dopnoise_x rand n sf ft dist v (Some tc) c = Ok (None, law) /\ zlen law = n - 1 /\
  forall k, 0 <= k < n - 1 -> (finite (nth (Z.to_nat k) law NaN) = None <-> law_undefined n sf dist v tc c (n + 1 + k)).
Proof. exact c60_dopnoise_nan. Qed.
Print Assumptions C60_dopnoise_nan.

Theorem C60_dopnoise_few : forall rand n sf ft dist v tc c, sampler rand -> n <= 1 -> dopnoise_x rand n sf ft dist v tc c = Raise ValueError.
Proof. exact c60_dopnoise_few. Qed.
Print Assumptions C60_dopnoise_few.

(** A source that passes through the observer at a sample spoils the whole signal; a
    centre between samples does not. *)
Example C60_dopnoise_nan_example : exists law, dopnoise_x (fun m => repeat 1%R (Z.to_nat m)) 4 200 60 0 70 None 340 = Ok (None, law) /\ zlen law = 3 /\ nth 1 law NaN <> NaN.
Proof. exact c60_dopnoise_nan_example. Qed.
