(** Property theorems, restated from T_midw.v (generated by tools/genprops.py).
    C147: the Wigner-Ville distribution of two atoms, and the interference midway between them. *)

From Coq Require Import Reals ZArith List Lia Lra Bool.
From Coquelicot Require Import Coquelicot.
From Verif Require Import Py Scalars CSum DFT Spec M_base M_stft M_cohen P_base P_stft P_wvd P_spec P_mh T_wvd T_par T_midw.
Import ListNotations.
Local Open Scope Z_scope.

(** One atom: its own distribution, moved to its place and scaled by its power. *)
Theorem C147_one : forall x ts n o g c a f k t, 2 <= n -> wvd x (Some ts) (Some n) = Ok o -> 0 <= k < n -> 0 <= t < zlen x -> is_atom x g c a f ->
  at2 (r_tfr o) k t = RtoC (Cmod c ^ 2 * Re (wig g n (IZR k - 2 * IZR n * f) (2 * (t - a)))).
Proof. exact c147_one. Qed.
Print Assumptions C147_one.

(** Two atoms: both, and the interference, which is the distribution of the atom again, at the
    mean instant and the mean frequency, times an oscillation. *)
Theorem C147_two : forall x y ts n o g c1 c2 a b f1 f2 k t, 2 <= n -> zlen x = zlen y -> wvd (plus x y) (Some ts) (Some n) = Ok o -> 0 <= k < n -> 0 <= t < zlen x ->
  is_atom x g c1 a f1 -> is_atom y g c2 b f2 ->
  at2 (r_tfr o) k t = RtoC (Cmod c1 ^ 2 * Re (wig g n (IZR k - 2 * IZR n * f1) (2 * (t - a))) + Cmod c2 ^ 2 * Re (wig g n (IZR k - 2 * IZR n * f2) (2 * (t - b))) +
    2 * Re (c1 * Cconj c2 * cis (2 * PI * ((f1 - f2) * IZR t + (f1 + f2 - IZR k / IZR n) * IZR (a - b) / 2)))%C * Re (wig g n (IZR k - IZR n * (f1 + f2)) (2 * t - a - b))).
Proof. exact c147_two. Qed.
Print Assumptions C147_two.

(** The distribution of an atom nowhere exceeds its energy, which a symmetric atom reaches at its
    centre and at frequency 0. *)
Theorem C147_largest : forall g n nu s, 0 < n -> (Rabs (Re (wig g n nu s)) <= rsum (arange 0 (zlen g)) (fun p => Cmod (cnth g p) ^ 2))%R.
Proof. exact c147_largest. Qed.
Print Assumptions C147_largest.

Theorem C147_centre : forall g n, 0 < n -> (forall p, 0 <= p < zlen g -> cnth g (zlen g - 1 - p) = cnth g p) -> wig g n 0 (zlen g - 1) = RtoC (rsum (arange 0 (zlen g)) (fun p => Cmod (cnth g p) ^ 2)%R).
Proof. exact c147_centre. Qed.
Print Assumptions C147_centre.

(** Two symmetric atoms of energy E: at the mean instant and the mean frequency the interference
    is 2 E Re(c1 conj(c2) exp(2 i pi (f1 - f2) t)), however far apart they are. *)
Theorem C147_midpoint : forall x y ts n o g c1 c2 a b f1 f2 k t, 2 <= n -> zlen x = zlen y -> wvd (plus x y) (Some ts) (Some n) = Ok o -> 0 <= k < n -> 0 <= t < zlen x ->
  is_atom x g c1 a f1 -> is_atom y g c2 b f2 -> (forall p, 0 <= p < zlen g -> cnth g (zlen g - 1 - p) = cnth g p) ->
  2 * t = a + b + zlen g - 1 -> (IZR k = IZR n * (f1 + f2))%R -> zlen g <= Z.abs (a - b) ->
  at2 (r_tfr o) k t = RtoC (2 * Re (c1 * Cconj c2 * cis (2 * PI * ((f1 - f2) * IZR t)))%C * rsum (arange 0 (zlen g)) (fun p => Cmod (cnth g p) ^ 2)%R).
Proof. exact c147_midpoint. Qed.
Print Assumptions C147_midpoint.

(** Atom (1, 1, 1), once at sample 0 with frequency 0 and once at sample 4 with frequency 1/2: at sample 3
    and bin 4 of eight, where neither has anything, the distribution of the sum is -6. *)
Example C147_example : exists x y o g, zlen g = 3 /\ is_atom x g (RtoC 1) 0 0 /\ is_atom y g (RtoC 1) 4 (1 / 2) /\ zlen x = 8 /\ zlen y = 8 /\
  wvd (plus x y) None None = Ok o /\ at2 (r_tfr o) 4 3 = RtoC (-6).
Proof. exact c147_example. Qed.
