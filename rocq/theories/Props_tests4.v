(** Property theorems, restated from T_tests4.v (generated by tools/genprops.py).
    C132, concluded: the tests marked as known failures, and the concrete cases. *)

From Coq Require Import Reals ZArith List Lia Lra Bool.
From Coquelicot Require Import Coquelicot.
From Flocq Require Import Core.
From Verif Require Import Py Scalars CSum DFT Spec M_base M_utils M_putils M_stft M_cohen M_dom M_gen1 M_gen3 P_base P_stft P_wvd T_wvd T_stft T_spec T_putils T_gen1 T_tests T_tests3 T_tests4.
Import ListNotations.
Local Open Scope Z_scope.

Theorem C132_conjugation_refuted : exists x o o', zlen x = 2 /\ stft (map Cconj x) None (Some 2) (Some [RtoC 1]) = Ok o /\ stft (rev x) None (Some 2) (Some [RtoC 1]) = Ok o' /\
  at2 (r_tfr o) 0 1 <> Cconj (at2 (r_tfr o') 0 1).
Proof. exact c132_conjugation_refuted. Qed.
Print Assumptions C132_conjugation_refuted.

(** *** test_linear.py, test_stft_translation (skipped there as a known failure): rolling the signal does not multiply the transform by a phase. *)
Theorem C132_translation_refuted : exists x o o', zlen x = 2 /\ stft x None (Some 2) (Some [RtoC 1]) = Ok o /\ stft (roll 1 x) None (Some 2) (Some [RtoC 1]) = Ok o' /\
  at2 (r_tfr o') 0 1 <> (cis (- (2 * PI * 1 * 0)) * at2 (r_tfr o) 0 1)%C.
Proof. exact c132_translation_refuted. Qed.
Print Assumptions C132_translation_refuted.

(** The test's mexhat(0.5): seven samples, one maximum at 3, minima at 2 and 4. *)
Example C132_mexhat_example : exists y, mexhat (1 / 2) = Ok y /\ zlen y = 7 /\
  (forall j, 1 <= j < 6 -> ((rnth y (j - 1) < rnth y j)%R /\ (rnth y (j + 1) < rnth y j)%R <-> j = 3)) /\
  (forall j, 1 <= j < 6 -> ((rnth y j < rnth y (j - 1))%R /\ (rnth y j < rnth y (j + 1))%R <-> j = 2 \/ j = 4)).
Proof. exact c132_mexhat_example. Qed.

(** The energy test with the default window, for every signal of constant modulus and at least 8 bins. *)
Theorem C132_energy_default : forall x n A, 8 <= n -> (forall k, 0 <= k < zlen x -> Cmod (cnth x k) = A) ->
  exists m, spectrogram x None (Some n) None = Ok m /\ zlen m = zlen x /\ rsum m mass = (IZR n * energy x)%R.
Proof. exact c132_energy_default. Qed.
Print Assumptions C132_energy_default.

(** The chirp of the test: the spectrogram of fmlin sums to 64 times its length. *)
Example C132_energy_example : exists y law m, fmlin 128 (1 / 10) (4 / 10) None = Ok (y, law) /\ spectrogram y None (Some 64) None = Ok m /\ rsum m mass = (64 * 128)%R.
Proof. exact c132_energy_example. Qed.
