(** Property theorems, restated from T_heis.v (generated by tools/genprops.py).
    C104: the product of the two spreads (Heisenberg-Gabor). *)

From Coq Require Import Reals ZArith List Lia Lra Bool.
From Coquelicot Require Import Coquelicot.
From Flocq Require Import Core.
From Verif Require Import Py Scalars CSum DFT Spec M_base M_putils M_dom P_base M_utils T_putils T_reas T_utils T_dom T_heis.
Import ListNotations.
Local Open Scope Z_scope.

Theorem C104_impulse : forall x k, 2 <= zlen x -> zlen x mod 4 <> 1 -> impulse_at x k ->
  (exists tm, loctime x = Ok (Some (tm, 0%R))) /\ exists fm, locfreq x = Ok (Some (fm, (2 * sqrt (PI * ((IZR (zlen x) ^ 2 - 1) / (12 * IZR (zlen x) ^ 2))))%R)).
Proof. exact c104_impulse. Qed.
Print Assumptions C104_impulse.

(** A tone on a bin: no frequency spread; the time spread is that of a constant. *)
Theorem C104_tone : forall n m c, 2 <= n -> n mod 4 <> 1 -> 0 <= m < n -> c <> RtoC 0 ->
  (exists tm, loctime (tone n m c) = Ok (Some (tm, (2 * sqrt (PI * ((IZR n ^ 2 - 1) / 12)))%R))) /\ exists fm, locfreq (tone n m c) = Ok (Some (fm, 0%R)).
Proof. exact c104_tone. Qed.
Print Assumptions C104_tone.

(** Zero frequency spread exactly for a tone on a bin. *)
Theorem C104_zero_band : forall x, 2 <= zlen x -> energy x <> 0%R -> (fspread x = 0%R <-> exists m c, 0 <= m < zlen x /\ c <> RtoC 0 /\ x = tone (zlen x) m c).
Proof. exact c104_zero_band. Qed.
Print Assumptions C104_zero_band.

(** The product of the spreads is zero exactly for one-sample signals and for tones on a bin. *)
Theorem C104_product : forall x tm T fm B, 2 <= zlen x -> zlen x mod 4 <> 1 -> loctime x = Ok (Some (tm, T)) -> locfreq x = Ok (Some (fm, B)) ->
  (0 <= T * B)%R /\ ((T * B = 0)%R <-> (exists k, impulse_at x k) \/ (exists m c, 0 <= m < zlen x /\ c <> RtoC 0 /\ x = tone (zlen x) m c)).
Proof. exact c104_product. Qed.
Print Assumptions C104_product.

(** The two spreads are never zero together. *)
Theorem C104_not_both : forall x tm T fm B, 2 <= zlen x -> zlen x mod 4 <> 1 -> loctime x = Ok (Some (tm, T)) -> locfreq x = Ok (Some (fm, B)) -> (0 < T \/ 0 < B)%R.
Proof. exact c104_not_both. Qed.
Print Assumptions C104_not_both.

(** "bounded below by unity" is false: a single sample has product 0 at every admissible length. *)
Theorem C104_refuted : forall n, 2 <= n -> n mod 4 <> 1 -> exists x tm T fm B, zlen x = n /\ loctime x = Ok (Some (tm, T)) /\ locfreq x = Ok (Some (fm, B)) /\ (T * B = 0)%R.
Proof. exact c104_refuted. Qed.
Print Assumptions C104_refuted.

Example C104_example : exists tm fm, loctime (tone 4 1 (RtoC 1)) = Ok (Some (tm, (2 * sqrt (PI * (5 / 4)))%R)) /\ locfreq (tone 4 1 (RtoC 1)) = Ok (Some (fm, 0%R)).
Proof. exact c104_example. Qed.
