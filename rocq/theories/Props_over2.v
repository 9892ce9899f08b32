(** Property theorems, restated from T_over2.v (generated by tools/genprops.py).
    The range of double precision: what the limits of M_over are, in terms of rounding
    to nearest even in Flocq's binary64 format. *)

From Coq Require Import Reals ZArith List Lia Lra Bool.
From Coquelicot Require Import Coquelicot.
From Flocq Require Import Core.
From Verif Require Import Py Scalars CSum DFT M_base Spec P_base M_utils M_putils M_dom T_dom T_utils M_gen1 T_gen1 M_gen2 M_gen3 M_over T_misc2 T_over T_over2.
Import ListNotations.
Local Open Scope Z_scope.

Theorem C127_limits : forall v, (0 <= v)%R -> let rd := round radix2 (FLT_exp (-1074) 53) ZnearestE in
  ((huge <= v)%R <-> (bpow radix2 1024 <= rd v)%R) /\ ((v <= tiny)%R <-> rd v = 0%R).
Proof. exact c127_limits. Qed.
Print Assumptions C127_limits.

(** A spread of zero: every sample is 0 or NaN. *)
Theorem C127_zero_spread : forall n t, 0 < n ->
  amexpos_x n (Some t) (Some 0%R) false = Ok (map (fun k => if Rlt_dec t (IZR k) then Fin 0 else NaN) (arange 0 n)) /\
  amexpos_x n (Some t) (Some 0%R) true = Ok (map (fun k => if Req_EM_T (IZR k) t then NaN else Fin 0) (arange 0 n)).
Proof. exact c127_zero_spread. Qed.
Print Assumptions C127_zero_spread.

(** A negative spread: the envelopes grow away from the centre and overflow to infinity,
    never to NaN. *)
Theorem C127_negative_spread : forall n t s, 0 < n -> (s < 0)%R ->
  (exists l, amexpos_x n (Some t) (Some s) false = Ok l /\ zlen l = n /\ forall k, 0 <= k < n ->
     ((IZR k < t)%R -> xnth l k = Fin 0) /\
     ((t <= IZR k)%R -> let v := exp (sqrt PI * (IZR k - t) / - s) in ((huge <= v)%R -> xnth l k = Inf false) /\ ((v < huge)%R -> xnth l k = Fin v))) /\
  (exists l, amexpos_x n (Some t) (Some s) true = Ok l /\ zlen l = n /\ forall k, 0 <= k < n ->
     let v := exp (sqrt (2 * PI) * Rabs (IZR k - t) / - s) in ((huge <= v)%R -> xnth l k = Inf false) /\ ((v < huge)%R -> xnth l k = Fin v)).
Proof. exact c127_negative_spread. Qed.
Print Assumptions C127_negative_spread.

(** Three samples around the centre 1. *)
Example C127_zero_spread_example :
  amexpos_x 3 (Some 1%R) (Some 0%R) false = Ok [NaN; NaN; Fin 0] /\ amexpos_x 3 (Some 1%R) (Some 0%R) true = Ok [Fin 0; NaN; Fin 0].
Proof. exact c127_zero_spread_example. Qed.

(** When klauder raises: exactly as without overflow. *)
Theorem C127_klauder_outcome : forall n att f0,
  (n <= 0 \/ ~ (0 < f0 < 1 / 2)%R -> klauder_x n att f0 = Raise AssertionError) /\
  (n = 1 -> (0 < f0 < 1 / 2)%R -> klauder_x n att f0 = Raise ValueError) /\
  (2 <= n -> (0 < f0 < 1 / 2)%R -> exists l, klauder_x n att f0 = Ok l /\ zlen l = 2 * (n / 2)).
Proof. exact c127_klauder_outcome. Qed.
Print Assumptions C127_klauder_outcome.
