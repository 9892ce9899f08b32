(** Property theorems, restated from T_rpwv.v (generated by tools/genprops.py).
    C39: which cells of the reassigned pseudo Wigner-Ville distribution move, and how far. *)

From Coq Require Import Reals ZArith List Lia Lra Bool.
From Coquelicot Require Import Coquelicot.
From Flocq Require Import Core.
From Verif Require Import Py Scalars CSum DFT Spec M_base M_stft M_cohen M_putils M_reas P_base P_stft P_spec T_key T_noise T_reas T_reas2 T_rpwv.
Import ListNotations.
Local Open Scope Z_scope.

(** Row j - 1 - q modulo n, q an integer nearest to the displacement
    n Im(S) / (2 pi tfr), the even one in case of a tie. *)
Theorem C39_nearest : forall x ts n w tfr rtfr vec, rpwv x ts n w = Ok (Some (tfr, rtfr, vec)) ->
  let l := rp_ts x ts in let w := rp_w x n w in let n := rp_n x n in
  forall j i, 0 <= j < n -> 0 <= i < zlen l -> forall r, vent vec j i = Some r ->
  let ti := nth (Z.to_nat i) l 0 in
  exists d q, derive_window (rp_fw w) = Ok (Some d) /\ rdest vec j i = (j - 1 - q) mod n /\
   let a := (Im (rp_S x (rp_fw w) d n ti j) * (IZR n / rent tfr j i / (2 * PI)))%R in
   (Rabs (a - IZR q) <= / 2)%R /\ (Rabs (a - IZR q) = / 2 -> Z.even q = true)%R.
Proof. exact c39_nearest. Qed.
Print Assumptions C39_nearest.

(** The cells that move are those above a millionth of the mean power of the samples
    numbered from the least to the greatest instant. *)
Theorem C39_moved : forall x ts n w tfr rtfr vec, rpwv x ts n w = Ok (Some (tfr, rtfr, vec)) ->
  let l := rp_ts x ts in let n := rp_n x n in
  forall a b, In a l -> In b l -> (forall t, In t l -> a <= t <= b) -> 0 <= a -> b < zlen x ->
  forall j i, 0 <= j < n -> 0 <= i < zlen l ->
  (vent vec j i <> None <-> (1 / 1000000 * (rsum (arange a (b + 1)) (fun k => Cmod (cnth x k) ^ 2) / IZR (b + 1 - a)) < Rabs (rent tfr j i))%R).
Proof. exact c39_moved. Qed.
Print Assumptions C39_moved.

(** Signal [3, 1, 2], instant 1, two bins: both cells hold 9 and move, the threshold being
    a millionth of the power of the sample numbered 1. *)
Example C39_moved_example : exists tfr rtfr vec, rpwv [RtoC 3; RtoC 1; RtoC 2] (Some [1]) (Some 2) (Some ones3) = Ok (Some (tfr, rtfr, vec)) /\
  rent tfr 0 0 = 9%R /\ vent vec 0 0 <> None.
Proof. exact c39_moved_example. Qed.
