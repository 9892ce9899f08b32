(** Property theorems, restated from T_tonesc.v (generated by tools/genprops.py).
    C149: the Morlet scalogram of a tone. *)

From Coq Require Import Reals ZArith List Lia Lra Bool.
From Coquelicot Require Import Coquelicot.
From Flocq Require Import Core.
From Verif Require Import Py Scalars CSum DFT Spec M_base M_utils M_putils M_dom M_gen1 M_gen2 M_gen3 M_aff P_base T_utils T_putils T_dom T_gen1 T_gen2 T_hil T_key T_noise T_misc T_misc2 T_aff T_aff2 T_cells T_nmom T_anl T_tonesc.
Import ListNotations.
Local Open Scope Z_scope.

(** A voice answers most to its own frequency. *)
Theorem C149_own : forall nha d, 0 <= ZnearestE nha -> (Rabs (spread nha d) <= spread nha 0)%R /\ (1 <= spread nha 0)%R.
Proof. exact c149_own. Qed.
Print Assumptions C149_own.

(** The scalogram of a tone on bin f of N: away from the edges every voice is constant in time, and its
    level is the squared transform of its envelope at the distance of the tone, over its scale.  A tone outside the band gives zero. *)
Theorem C149_tone : forall x ts fmin fmax wp c f m t g wt, let n := zlen x in
  (forall k, 0 <= k < n -> Re (cnth x k) = Re (c * root n (f * k))%C) -> 0 < 2 * f < n -> c <> RtoC 0 -> (0 < fmin < fmax)%R -> (fmax <= 1 / 2)%R -> (1 / 2 < wp)%R ->
  scalogram x ts (Some fmin) (Some fmax) None (Some (Wnum wp)) = Ok (Some m, t, g, wt) ->
  let lo := 1 + ZnearestE (fmin * IZR (n - 2)) in let hi := 1 + ZnearestE (fmax * IZR (n - 2)) in
  let a := fun i => Rpower (fmax / fmin) (1 - IZR i / IZR (n - 1)) in let h := fun i => (fmin * Rpower (fmax / fmin) (IZR i / IZR (n - 1)))%R in
  (lo <= f <= hi -> exists k, (0 < k)%R /\ forall i j, 0 <= i < n -> ZnearestE (wp * a i) <= j < n - ZnearestE (wp * a i) -> ent m i j = (k * (spread (wp * a i) (h i - IZR f / IZR n)) ^ 2 / a i)%R) /\
  (~ lo <= f <= hi -> forall i j, 0 <= i < n -> 0 <= j < n -> ent m i j = 0%R).
Proof. exact c149_tone. Qed.
Print Assumptions C149_tone.

(** There is a result (rather than NaN) as soon as one voice of which the wavelet fits inside the signal answers to the tone. *)
Theorem C149_returns : forall x ts fmin fmax wp c f i, let n := zlen x in
  (forall k, 0 <= k < n -> Re (cnth x k) = Re (c * root n (f * k))%C) -> 0 < 2 * f < n -> c <> RtoC 0 -> (0 < fmin < fmax)%R -> (1 / 2 < wp)%R ->
  let a := fun i => Rpower (fmax / fmin) (1 - IZR i / IZR (n - 1)) in let h := fun i => (fmin * Rpower (fmax / fmin) (IZR i / IZR (n - 1)))%R in
  0 <= i < n -> 2 * ZnearestE (wp * a i) < n -> spread (wp * a i) (h i - IZR f / IZR n) <> 0%R ->
  exists m g wt, scalogram x ts (Some fmin) (Some fmax) None (Some (Wnum wp)) = Ok (Some m, arange 0 n, g, wt) /\ zlen m = n /\
    forall i j, 0 <= i < n -> 2 * ZnearestE (wp * a i) <= j < n ->
      cnth (nth (Z.to_nat i) wt []) j = (c * root n (f * (j - ZnearestE (wp * a i))) * RtoC (spread (wp * a i) (h i - IZR f / IZR n)) / RtoC (sqrt (a i)))%C.
Proof. exact c149_returns. Qed.
Print Assumptions C149_returns.

(** cos(pi k / 2) on four samples, band 1/8 to 1/4, wavelets of half-length 1: the last voice is at the frequency of the tone, is constant on samples 1 and 2, and is positive there. *)
Example C149_example : exists m g wt, scalogram [RtoC 1; RtoC 0; RtoC (-1); RtoC 0] None (Some (1 / 8)%R) (Some (1 / 4)%R) None (Some (Wnum 1%R)) = Ok (Some m, [0; 1; 2; 3], g, wt) /\
  ent m 3 1 = ent m 3 2 /\ (0 < ent m 3 1)%R.
Proof. exact c149_example. Qed.
