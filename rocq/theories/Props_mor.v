(** Property theorems, restated from T_mor.v (generated by tools/genprops.py).
    C92: reassigned.morlet_scalogram. *)

From Coq Require Import Reals ZArith List Lia Lra Bool.
From Coquelicot Require Import Coquelicot.
From Flocq Require Import Core.
From Verif Require Import Py Scalars CSum DFT Spec M_base P_base M_reas M_mor T_utils T_reas T_reas2 T_mor.
Import ListNotations.
Local Open Scope Z_scope.

(** ** Outcome of every call *)
Theorem C92_irregular : forall x l n tbp, (forall a d T, 2 <= T -> l <> steps a d T) -> morlet x (Some l) n tbp = Raise ValueError.
Proof. exact c92_irregular. Qed.
Print Assumptions C92_irregular.

Theorem C92_outside : forall x a d T n tbp, 1 <= zlen x -> 2 <= T -> 2 <= n -> (0 < tbp)%R ->
  (exists i, 0 <= i < T /\ (a + d * i < 1 - zlen x \/ Z.max 2 (zlen x) <= a + d * i)) ->
  morlet x (Some (steps a d T)) (Some n) tbp = Raise IndexError.
Proof. exact c92_outside. Qed.
Print Assumptions C92_outside.

Theorem C92_outcome : forall x a d T n tbp, 1 <= zlen x -> 2 <= T -> 2 <= n -> (0 < tbp)%R ->
  (forall i, 0 <= i < T -> 1 - zlen x <= a + d * i < Z.max 2 (zlen x)) ->
  let thr := (rsum x (fun v => Cmod v ^ 2) / IZR (zlen x) / 1000000)%R in
  ((exists i j, 0 <= i < T /\ 0 <= j < n /\ (thr < energy n tbp x (a + d * i) j)%R) -> morlet x (Some (steps a d T)) (Some n) tbp = Raise IndexError) /\
  ((forall i j, 0 <= i < T -> 0 <= j < n -> (energy n tbp x (a + d * i) j <= thr)%R) ->
    exists tfr rtfr, morlet x (Some (steps a d T)) (Some n) tbp = Ok (tfr, rtfr) /\ shape tfr n T /\ shape rtfr n T /\
      forall i j, 0 <= i < T -> 0 <= j < n -> rent tfr j i = energy n tbp x (a + d * i) j /\ rent rtfr j i = rent tfr j i).
Proof. exact c92_outcome. Qed.
Print Assumptions C92_outcome.

Theorem C92_default : forall x n tbp, morlet x None n tbp = morlet x (Some (steps 0 1 (zlen x))) n tbp /\ morlet x None None tbp = morlet x (Some (steps 0 1 (zlen x))) (Some (zlen x)) tbp /\
  (zlen x <= 1 -> morlet x None n tbp = Raise ValueError).
Proof. exact c92_default. Qed.
Print Assumptions C92_default.

Theorem C92_mirror : forall n tbp x t m, (forall k, Im (cnth x k) = 0%R) -> 1 <= m < n / 2 -> energy n tbp x t (n - m) = energy n tbp x t m.
Proof. exact c92_mirror. Qed.
Print Assumptions C92_mirror.

Theorem C92_scale : forall n tbp c x t j, energy n tbp (map (fun v => c * v)%C x) t j = (Cmod c ^ 2 * energy n tbp x t j)%R.
Proof. exact c92_scale. Qed.
Print Assumptions C92_scale.

Theorem C92_scale_outcome : forall c x a d T n tbp, c <> RtoC 0 -> 1 <= zlen x -> 2 <= T -> 2 <= n -> (0 < tbp)%R ->
  ((exists r, morlet x (Some (steps a d T)) (Some n) tbp = Ok r) <-> (exists r, morlet (map (fun v => c * v)%C x) (Some (steps a d T)) (Some n) tbp = Ok r)).
Proof. exact c92_scale_outcome. Qed.
Print Assumptions C92_scale_outcome.

Theorem C92_impulse : forall N s n tbp m, 2 <= N -> 0 <= s < N -> (0 < tbp)%R -> 1 <= m < n / 2 ->
  energy n tbp (impulse N s) s m = (IZR m / (tbp * IZR n) * exp (- (IZR (m - 1) / (IZR n * tbp)) ^ 2))%R.
Proof. exact c92_impulse. Qed.
Print Assumptions C92_impulse.

(** So the function raises on impulses, whatever their place, with default
    timestamps. *)
Theorem C92_impulse_raises : forall N s n tbp, 2 <= N -> 0 <= s < N -> 4 <= n -> (0 < tbp)%R -> (tbp * IZR n < 1000000 * IZR N)%R ->
  morlet (impulse N s) None (Some n) tbp = Raise IndexError.
Proof. exact c92_impulse_raises. Qed.
Print Assumptions C92_impulse_raises.

(** Row m of a unit impulse at its own instant falls short of m / (tbp n). *)
Theorem C92_peak_refuted : exists N s n tbp m, 2 <= N /\ 0 <= s < N /\ (0 < tbp)%R /\ 1 <= m < n / 2 /\ (energy n tbp (impulse N s) s m < IZR m / (tbp * IZR n) / 2)%R.
Proof. exact c92_peak_refuted. Qed.
Print Assumptions C92_peak_refuted.

Example C92_example : morlet (impulse 4 1) None None (1 / 4)%R = Raise IndexError /\ morlet (impulse 4 1) (Some [0; 1; 3]) None (1 / 4)%R = Raise ValueError /\
  exists tfr rtfr, morlet [RtoC 0; RtoC 0; RtoC 0] None None (1 / 4)%R = Ok (tfr, rtfr) /\ forall i j, 0 <= i < 3 -> 0 <= j < 3 -> rent rtfr j i = 0%R.
Proof. exact c92_example. Qed.
