(** Property theorems, restated from T_misc.v (generated by tools/genprops.py).
    C63, C65, C67: doppler, mexhat, atoms. *)

From Coq Require Import Reals ZArith List Lia Lra Bool.
From Coquelicot Require Import Coquelicot.
From Flocq Require Import Core.
From Verif Require Import Py Scalars CSum DFT Spec M_base M_utils M_putils M_dom M_gen1 M_gen2 M_gen3 P_base T_putils T_dom T_gen1 T_gen2 T_hil T_key T_misc.
Import ListNotations.
Local Open Scope Z_scope.

Theorem C63_raises : forall n sf f0 dist v t c, ~ doppler_valid n sf f0 dist v t -> doppler n sf f0 dist v (Some t) c = Raise TypeError.
Proof. exact c63_raises. Qed.
Print Assumptions C63_raises.

Theorem C63_default : forall n sf f0 dist v c, doppler n sf f0 dist v None c = doppler n sf f0 dist v (Some (IZR n / 2)%R) c.
Proof. exact c63_default. Qed.
Print Assumptions C63_default.

(** Unit modulus, phase, and the law is the derivative of the phase; the
    amplitude decays like the square root of the distance. *)
Theorem C63_signal : forall n sf f0 dist v t c, doppler_valid n sf f0 dist v t -> (0 < sf)%R -> c <> 0%R ->
  exists fm am law, doppler n sf f0 dist v (Some t) c = Ok (fm, am, law) /\ zlen fm = n /\ zlen law = n /\
  (forall k, 0 <= k < n ->
     cnth fm k = cis (dop_phase sf f0 dist v t c (IZR k + 1)) /\ Cmod (cnth fm k) = 1%R /\
     is_derive (dop_phase sf f0 dist v t c) (IZR k + 1)%R (2 * PI * rnth law k)%R) /\
  match am with
  | None => (f0 < bpow radix2 (-52))%R
  | Some a => (bpow radix2 (-52) <= f0)%R /\ zlen a = n /\ forall k, 0 <= k < n -> (0 < rnth a k)%R /\ (rnth a k ^ 2 * dop_d sf dist v t (IZR k + 1) = 1)%R
  end.
Proof. exact c63_signal. Qed.
Print Assumptions C63_signal.

(** The frequency falls from approach to recession, passes f0 / s_freq at the
    closest point and deviates by at most the factor v / c. *)
Theorem C63_law : forall n sf f0 dist v t c fm am law, doppler_valid n sf f0 dist v t -> (0 < sf)%R -> (0 < c)%R ->
  doppler n sf f0 dist v (Some t) c = Ok (fm, am, law) ->
  (forall j k, 0 <= j <= k -> k < n -> (rnth law k <= rnth law j)%R) /\
  (forall k, 0 <= k < n -> IZR (k + 1) = t -> rnth law k = (f0 / sf)%R) /\
  (forall k, 0 <= k < n -> (Rabs (rnth law k - f0 / sf) <= v / c * (f0 / sf))%R).
Proof. exact c63_law. Qed.
Print Assumptions C63_law.

(** Three samples around a source at rest. *)
Example C63_example : exists fm am law, doppler 3 4 1 1 0 (Some 2%R) 340 = Ok (fm, am, law) /\ law = [1 / 4; 1 / 4; 1 / 4]%R.
Proof. exact c63_example. Qed.

(** *** C65 *)
Theorem C65_outcome : forall nu,
  ((nu < 0 \/ 1 / 2 < nu)%R -> mexhat nu = Raise AssertionError) /\
  (nu = 0%R -> mexhat nu = Raise ZeroDivisionError) /\
  ((0 < nu <= 1 / 2)%R -> exists m h, mexhat nu = Ok h /\ (IZR (m - 1) < 3 / 2 / nu <= IZR m)%R /\ 3 <= m /\ zlen h = 2 * m + 1 /\
     (forall k, - m <= k <= m -> rnth h (m + k) = rnth h (m - k)) /\
     rnth h m = (nu * sqrt PI / 2)%R /\
     (forall i, 0 <= i < 2 * m + 1 -> i <> m -> (rnth h i < rnth h m)%R) /\
     (forall k, - m <= k <= m -> (0 < rnth h (m + k) <-> 2 * (PI * nu * IZR k) ^ 2 < 1)%R)).
Proof. exact c65_outcome. Qed.
Print Assumptions C65_outcome.

Example C65_example : exists h, mexhat (1 / 2) = Ok h /\ zlen h = 7 /\ rnth h 3 = (sqrt PI / 4)%R.
Proof. exact c65_example. Qed.

(** *** C67 *)
(** Time centre: clamped to [1, n], rounded half to even. *)
Theorem C67_centre : forall n t, 1 <= n ->
  nearest_even (Rmax (Rmin t (IZR n)) 1) (atom_centre n t) /\ 1 <= atom_centre n t <= n /\
  (atom_centre n t = n <-> (n = 1 \/ (IZR n - 1 / 2 < t)%R \/ (t = IZR n - 1 / 2)%R /\ Z.even n = true)).
Proof. exact c67_centre. Qed.
Print Assumptions C67_centre.

Theorem C67_atoms : forall n coords, 1 <= n ->
  (forall a, In a coords -> a_T a <> 0%R /\ atom_centre n (a_t a) < n) ->
  exists y, atoms n coords = Ok (map Some y) /\ zlen y = n /\
  forall k, 0 <= k < n -> cnth y k = csum coords (fun a => atom_at n a k).
Proof. exact c67_atoms. Qed.
Print Assumptions C67_atoms.

Theorem C67_additive : forall n l1 l2 y1 y2 y, 1 <= n ->
  (forall a, In a (l1 ++ l2) -> a_T a <> 0%R /\ atom_centre n (a_t a) < n) ->
  atoms n l1 = Ok (map Some y1) -> atoms n l2 = Ok (map Some y2) -> atoms n (l1 ++ l2) = Ok (map Some y) ->
  forall k, 0 <= k < n -> cnth y k = (cnth y1 k + cnth y2 k)%C.
Proof. exact c67_additive. Qed.
Print Assumptions C67_additive.

Theorem C67_raises : forall n coords,
  (n < 0 -> atoms n coords = Raise ValueError) /\
  (n = 0 -> coords <> [] -> atoms n coords = Raise TypeError) /\
  (1 <= n -> (exists a, In a coords /\ atom_centre n (a_t a) = n) -> atoms n coords = Raise IndexError) /\
  (forall l, 0 <= n -> l <> [] -> atoms_1d n l = Raise IndexError).
Proof. exact c67_raises. Qed.
Print Assumptions C67_raises.

Theorem C67_last_refuted : exists n a, (1 <= a_t a <= IZR n)%R /\ atoms n [a] = Raise IndexError.
Proof. exact c67_last_refuted. Qed.
Print Assumptions C67_last_refuted.

(** One atom of length 3 centred on 1: amplitude 1 at sample 0. *)
Example C67_example : exists y, atoms 3 [{| a_t := 1; a_f := 0; a_T := 1; a_A := 2 |}] = Ok (map Some y) /\ cnth y 0 = RtoC 2.
Proof. exact c67_example. Qed.
