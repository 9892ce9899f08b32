(** Property theorems, restated from T_ambat.v (generated by tools/genprops.py).
    C148: the narrow-band ambiguity function of two atoms: the atoms at the origin, their interference away from it. *)

From Coq Require Import Reals ZArith List Lia Lra Bool.
From Coquelicot Require Import Coquelicot.
From Verif Require Import Py Scalars CSum DFT Spec M_base M_stft M_cohen M_amb P_base P_stft P_wvd P_spec P_mh T_wvd T_amb T_par T_midw T_ambat.
Import ListNotations.
Local Open Scope Z_scope.

(** One atom: wherever it is and whatever its frequency, the modulus is that of the atom itself, centred at lag 0
    and Doppler shift 0. *)
Theorem C148_one : forall x lag n naf lag' xi g c a f r j, 1 <= n -> narrow_band x (Some lag) (Some n) = Ok (naf, lag', xi) -> 0 <= r < n -> 0 <= j < zlen lag -> is_atom x g c a f ->
  let tau := nth (Z.to_nat j) lag 0 in let k := r - n / 2 in
  at2 naf r j = (RtoC (Cmod c ^ 2) * cis (2 * PI * (2 * f * IZR tau - IZR k / IZR n * IZR (a - tau))) * amb g n (IZR k) (2 * tau))%C /\
  Cmod (at2 naf r j) = (Cmod c ^ 2 * Cmod (amb g n (IZR k) (2 * tau)))%R.
Proof. exact c148_one. Qed.
Print Assumptions C148_one.

(** Two atoms: the two at the origin, and two interference terms at the differences of their instants and of
    their frequencies. *)
Theorem C148_two : forall x y lag n naf lag' xi g c1 c2 a b f1 f2 r j, 1 <= n -> zlen x = zlen y -> narrow_band (plus x y) (Some lag) (Some n) = Ok (naf, lag', xi) -> 0 <= r < n -> 0 <= j < zlen lag ->
  is_atom x g c1 a f1 -> is_atom y g c2 b f2 ->
  let tau := nth (Z.to_nat j) lag 0 in let k := r - n / 2 in
  at2 naf r j = ((RtoC (Cmod c1 ^ 2) * cis (2 * PI * (2 * f1 * IZR tau - IZR k / IZR n * IZR (a - tau))) + RtoC (Cmod c2 ^ 2) * cis (2 * PI * (2 * f2 * IZR tau - IZR k / IZR n * IZR (b - tau)))) * amb g n (IZR k) (2 * tau) +
    c1 * Cconj c2 * cis (2 * PI * ((f1 - f2) * IZR a + 2 * f2 * IZR tau - IZR k / IZR n * IZR (a - tau))) * amb g n (IZR k - IZR n * (f1 - f2)) (2 * tau - (a - b)) +
    c2 * Cconj c1 * cis (2 * PI * ((f2 - f1) * IZR b + 2 * f1 * IZR tau - IZR k / IZR n * IZR (b - tau))) * amb g n (IZR k + IZR n * (f1 - f2)) (2 * tau + (a - b)))%C.
Proof. exact c148_two. Qed.
Print Assumptions C148_two.

Theorem C148_atom : forall g n nu s, 0 < n -> (zlen g <= Z.abs s -> amb g n nu s = RtoC 0) /\ (Cmod (amb g n nu s) <= energy g)%R /\ amb g n 0 0 = RtoC (energy g).
Proof. exact c148_atom. Qed.
Print Assumptions C148_atom.

(** Atoms at least twice their length apart: the four terms have no lag in common. Near lag 0 there are only the
    atoms; at lags near half the distance only the interference, which reaches |c1 c2| times the energy. *)
Theorem C148_separated : forall x y lag n naf lag' xi g c1 c2 a b f1 f2 r j, 1 <= n -> zlen x = zlen y -> narrow_band (plus x y) (Some lag) (Some n) = Ok (naf, lag', xi) -> 0 <= r < n -> 0 <= j < zlen lag ->
  is_atom x g c1 a f1 -> is_atom y g c2 b f2 -> 1 <= zlen g -> 2 * zlen g <= a - b ->
  let tau := nth (Z.to_nat j) lag 0 in let k := r - n / 2 in
  (2 * Z.abs tau <= a - b - zlen g ->
   (Cmod (at2 naf r j) <= (Cmod c1 ^ 2 + Cmod c2 ^ 2) * Cmod (amb g n (IZR k) (2 * tau)))%R) /\
  (zlen g <= 2 * tau -> Cmod (at2 naf r j) = (Cmod c1 * Cmod c2 * Cmod (amb g n (IZR k - IZR n * (f1 - f2)) (2 * tau - (a - b))))%R) /\
  (zlen g <= Z.abs (2 * tau) -> zlen g <= Z.abs (2 * tau - (a - b)) -> zlen g <= Z.abs (2 * tau + (a - b)) -> at2 naf r j = RtoC 0) /\
  (2 * tau = a - b -> (IZR k = IZR n * (f1 - f2))%R -> Cmod (at2 naf r j) = (Cmod c1 * Cmod c2 * energy g)%R).
Proof. exact c148_separated. Qed.
Print Assumptions C148_separated.

(** Impulses 1 at sample 0 and 2 at sample 4: at lag 2 the modulus is 2 at every Doppler shift, at lag 1 it is 0. *)
Example C148_example : exists x y naf lag xi g, zlen g = 1 /\ is_atom x g (RtoC 1) 4 0 /\ is_atom y g (RtoC 2) 0 0 /\ narrow_band (plus x y) None None = Ok (naf, lag, xi) /\ lag = [-2; -1; 0; 1; 2] /\
  Cmod (at2 naf 2 4) = 2%R /\ at2 naf 2 3 = RtoC 0 /\ (Cmod (at2 naf 1 2) <= 5)%R.
Proof. exact c148_example. Qed.
