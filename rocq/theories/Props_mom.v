(** Property theorems, restated from T_mom.v (generated by tools/genprops.py).
    C134: locfreq, inst_freq and group_delay under changes of scale, delays,
    modulations and conjugation. *)

From Coq Require Import Reals ZArith List Lia Lra Bool Permutation.
From Coquelicot Require Import Coquelicot.
From Flocq Require Import Core.
From Verif Require Import Py Scalars CSum DFT Spec M_base M_putils M_dom P_base T_utils T_putils T_dom T_mom.
Import ListNotations.
Local Open Scope Z_scope.

Theorem C134_locfreq_delay : forall s x, locfreq (rolled s x) = locfreq x.
Proof. exact c134_locfreq_delay. Qed.
Print Assumptions C134_locfreq_delay.

Theorem C134_locfreq_scale : forall c x, c <> RtoC 0 -> locfreq (scale c x) = locfreq x.
Proof. exact c134_locfreq_scale. Qed.
Print Assumptions C134_locfreq_scale.

Theorem C134_locfreq_modulate : forall m x fm bw, let n := zlen x in
  n mod 4 <> 1 -> (forall f, 0 <= f < n -> cnth (fft x) f <> RtoC 0 -> flab n ((f + m) mod n) = (flab n f + IZR m / IZR n)%R) ->
  locfreq x = Ok (Some (fm, bw)) -> locfreq (modulate n m x) = Ok (Some ((fm + IZR m / IZR n)%R, bw)).
Proof. exact c134_locfreq_modulate. Qed.
Print Assumptions C134_locfreq_modulate.

(** A change of scale and a shift of frequency by f0 shift every estimate by f0, modulo
    the range 1/2 of the estimates (f0 = 0: a change of scale alone leaves it). *)
Theorem C134_inst_tuned : forall ang c f0 x ts fs us gs vs, (forall k z, is_angle z (ang k z)) -> c <> RtoC 0 -> (forall i, In i ts -> 2 <= i < zlen x) ->
  inst_freq ang x (Some ts) = Ok (fs, us) -> inst_freq ang (scale c (tuned f0 x)) (Some ts) = Ok (gs, vs) ->
  zlen gs = zlen ts /\ forall k, 0 <= k < zlen ts -> cnth x (nth (Z.to_nat k) ts 0) <> RtoC 0 -> cnth x (nth (Z.to_nat k) ts 0 - 2) <> RtoC 0 ->
    exists j : Z, rnth gs k = (rnth fs k + f0 - IZR j / 2)%R.
Proof. exact c134_inst_tuned. Qed.
Print Assumptions C134_inst_tuned.

(** Conjugation reverses the frequency axis: f becomes 1/2 - f (modulo 1/2). *)
Theorem C134_inst_conj : forall ang x ts fs us gs vs, (forall k z, is_angle z (ang k z)) -> (forall i, In i ts -> 2 <= i < zlen x) ->
  inst_freq ang x (Some ts) = Ok (fs, us) -> inst_freq ang (conjd x) (Some ts) = Ok (gs, vs) ->
  zlen gs = zlen ts /\ forall k, 0 <= k < zlen ts -> cnth x (nth (Z.to_nat k) ts 0) <> RtoC 0 -> cnth x (nth (Z.to_nat k) ts 0 - 2) <> RtoC 0 ->
    rnth gs k = (1 / 2 - rnth fs k)%R \/ (rnth gs k = rnth fs k /\ (rnth fs k = 0 \/ rnth fs k = 1 / 2)%R).
Proof. exact c134_inst_conj. Qed.
Print Assumptions C134_inst_conj.

Theorem C134_delay : forall s x fs gs hs, 0 <= s -> group_delay x (Some fs) = Ok gs -> group_delay (delay s x) (Some fs) = Ok hs ->
  zlen hs = zlen gs /\ forall k, 0 <= k < zlen gs ->
    (nth (Z.to_nat k) gs None = None -> nth (Z.to_nat k) hs None = None) /\
    (forall v, nth (Z.to_nat k) gs None = Some v -> v <> 0%R -> nth (Z.to_nat k) hs None = Some (v + IZR s)%R).
Proof. exact c134_delay. Qed.
Print Assumptions C134_delay.

Theorem C134_tuned : forall c f0 x fs, c <> RtoC 0 -> group_delay (scale c (tuned f0 x)) (Some fs) = group_delay x (Some (map (fun f => f - f0)%R fs)).
Proof. exact c134_tuned. Qed.
Print Assumptions C134_tuned.

Theorem C134_conj : forall x fs, group_delay (conjd x) (Some fs) = group_delay x (Some (map Ropp fs)).
Proof. exact c134_conj. Qed.
Print Assumptions C134_conj.

(** A component that passes the end of the axis wraps: the shift by m/n is not general. *)
Theorem C134_wrap_refuted : exists m x fm bw, locfreq x = Ok (Some (fm, bw)) /\
  locfreq (modulate (zlen x) m x) = Ok (Some ((fm + IZR m / IZR (zlen x) - 1)%R, bw)).
Proof. exact c134_wrap_refuted. Qed.
Print Assumptions C134_wrap_refuted.

Example C134_example : group_delay [RtoC 1] (Some [(1 / 10)%R]) = Ok [Some 1%R] /\ group_delay (delay 2 [RtoC 1]) (Some [(1 / 10)%R]) = Ok [Some 3%R] /\
  locfreq (tone 8 1 (RtoC 1)) = Ok (Some ((1 / 8)%R, 0%R)) /\ locfreq (modulate 8 2 (tone 8 1 (RtoC 1))) = Ok (Some ((1 / 8 + 2 / 8)%R, 0%R)).
Proof. exact c134_example. Qed.
