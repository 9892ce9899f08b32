(** Property theorems, restated from T_pmmod.v (generated by tools/genprops.py).
    C163: PseudoMargenauHillDistribution of a delayed, modulated or conjugated signal. *)

From Coq Require Import Reals ZArith List Lia Lra Bool.
From Coquelicot Require Import Coquelicot.
From Flocq Require Import Core.
From Verif Require Import Py Scalars CSum DFT Spec M_base M_stft M_cohen M_amb M_putils M_reas P_base P_stft P_wvd P_mh P_pwvd P_spec P_spwv T_mh T_spwv T_red T_key T_noise T_putils T_reas T_reas2 T_conc T_rtone T_sptone T_pmtone T_pmcov T_ex1 T_pmmod.
Import ListNotations.
Local Open Scope Z_scope.

(** Zeros put in front move the columns, up to both ends. *)
Theorem C163_delay : forall x s ts ts' n w ox oy f c, 1 <= n -> 0 <= s -> pmh x (Some ts) (Some n) (Some w) = Ok ox -> pmh (delay s x) (Some ts') (Some n) (Some w) = Ok oy -> 0 <= f < n -> 0 <= c < ts_len ts -> c + s < ts_len ts' ->
  at2 (r_tfr oy) f (c + s) = at2 (r_tfr ox) f c.
Proof. exact c163_delay. Qed.
Print Assumptions C163_delay.

(** The columns in front of the signal are 0. *)
Theorem C163_before : forall x s ts n w o f c, 1 <= n -> 0 <= s -> pmh (delay s x) (Some ts) (Some n) (Some w) = Ok o -> 0 <= f < n -> 0 <= c < ts_len ts -> c < s -> at2 (r_tfr o) f c = RtoC 0.
Proof. exact c163_before. Qed.
Print Assumptions C163_before.

(** Modulation by m bins moves the rows by m and turns every entry by exp(2 i pi m / n). *)
Theorem C163_modulation : forall x m ts n w ox oy f c, 1 <= n -> pmh x (Some ts) (Some n) (Some w) = Ok ox -> pmh (modulate n m x) (Some ts) (Some n) (Some w) = Ok oy -> 0 <= f < n -> 0 <= c < ts_len ts ->
  at2 (r_tfr oy) f c = (root n m * at2 (r_tfr ox) ((f - m) mod n) c)%C.
Proof. exact c163_modulation. Qed.
Print Assumptions C163_modulation.

Theorem C163_modulus : forall x m ts n w ox oy f c, 1 <= n -> pmh x (Some ts) (Some n) (Some w) = Ok ox -> pmh (modulate n m x) (Some ts) (Some n) (Some w) = Ok oy -> 0 <= f < n -> 0 <= c < ts_len ts ->
  Cmod (at2 (r_tfr oy) f c) = Cmod (at2 (r_tfr ox) ((f - m) mod n) c).
Proof. exact c163_modulus. Qed.
Print Assumptions C163_modulus.

(** So the rows alone do not move the picture: an entry that is not 0 changes unless m is a multiple of n. *)
Theorem C163_turned : forall x m ts n w ox oy f c, 1 <= n -> pmh x (Some ts) (Some n) (Some w) = Ok ox -> pmh (modulate n m x) (Some ts) (Some n) (Some w) = Ok oy -> 0 <= f < n -> 0 <= c < ts_len ts ->
  at2 (r_tfr ox) ((f - m) mod n) c <> RtoC 0 -> (at2 (r_tfr oy) f c = at2 (r_tfr ox) ((f - m) mod n) c <-> (n | m)).
Proof. exact c163_turned. Qed.
Print Assumptions C163_turned.

(** Real windows: conjugation reflects the rows and conjugates. *)
Theorem C163_conj : forall x ts n w ox oy f c, 1 <= n -> real_list w -> pmh x (Some ts) (Some n) (Some w) = Ok ox -> pmh (map Cconj x) (Some ts) (Some n) (Some w) = Ok oy -> 0 <= f < n -> 0 <= c < ts_len ts ->
  at2 (r_tfr oy) ((- f) mod n) c = Cconj (at2 (r_tfr ox) f c).
Proof. exact c163_conj. Qed.
Print Assumptions C163_conj.

(** A real signal: rows f and -f are conjugates. *)
Theorem C163_real : forall x ts n w o f c, 1 <= n -> real_list w -> real_list x -> pmh x (Some ts) (Some n) (Some w) = Ok o -> 0 <= f < n -> 0 <= c < ts_len ts ->
  at2 (r_tfr o) ((- f) mod n) c = Cconj (at2 (r_tfr o) f c).
Proof. exact c163_real. Qed.
Print Assumptions C163_real.

(** 1, 1 on 4 rows with [1]: column 1 is 1 everywhere; times 1, i, it is i; behind two zeros it is column 3. *)
Example C163_example : let x := [RtoC 1; RtoC 1] in let w := [RtoC 1] in
  exists o om od, pmh x (Some (TsI [0; 1])) (Some 4) (Some w) = Ok o /\ pmh (modulate 4 1 x) (Some (TsI [0; 1])) (Some 4) (Some w) = Ok om /\ pmh (delay 2 x) (Some (TsI [0; 1; 2; 3])) (Some 4) (Some w) = Ok od /\
  (forall f, 0 <= f < 4 -> at2 (r_tfr o) f 1 = RtoC 1 /\ at2 (r_tfr om) f 1 = Ci /\ at2 (r_tfr od) f 3 = RtoC 1).
Proof. exact c163_example. Qed.
