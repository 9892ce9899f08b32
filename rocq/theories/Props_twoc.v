(** Property theorems, restated from T_twoc.v (generated by tools/genprops.py).
    C154: inst_freq and group_delay of two equally strong components. *)

From Coq Require Import Reals ZArith List Lia Lra Bool.
From Coquelicot Require Import Coquelicot.
From Flocq Require Import Core.
From Verif Require Import Py Scalars CSum DFT Spec M_base M_dom M_gen1 M_gallery2 P_base P_stft T_dom T_gen1 T_chirp T_angle T_gallery T_gallery3 T_twoc.
Import ListNotations.
Local Open Scope Z_scope.

(** Two components of the same modulus at sample k, of frequencies F and G over the next two samples: inst_freq returns the mean of the
    frequencies, or that displaced by a quarter. *)
Theorem C154_pair : forall ang x fs ts k y z A F G, (forall k z, is_angle z (ang k z)) -> inst_freq ang x None = Ok (fs, ts) -> 0 <= k < zlen x - 2 ->
  cnth x k = (y + z)%C -> cnth x (k + 2) = (y * cis (4 * PI * F) + z * cis (4 * PI * G))%C -> Cmod y = A -> Cmod z = A ->
  let M := ((F + G) / 2)%R in (0 < M < 1 / 2)%R -> exists s, (cnth x (k + 2) * Cconj (cnth x k))%C = (RtoC s * cis (4 * PI * M))%C /\
  ((0 < s)%R -> rnth fs k = M) /\
  ((s < 0)%R -> ((M < 1 / 4)%R -> rnth fs k = (M + 1 / 4)%R) /\ ((1 / 4 < M)%R -> rnth fs k = (M - 1 / 4)%R) /\ (M = (1 / 4)%R -> rnth fs k = 0%R \/ rnth fs k = (1 / 2)%R)).
Proof. exact c154_pair. Qed.
Print Assumptions C154_pair.

(** The sum of two chirps of fmlin. *)
Theorem C154_chirps : forall ang n a b c d x fs ts k, (forall k z, is_angle z (ang k z)) -> chirp_sum n a b c d = Ok x -> inst_freq ang x None = Ok (fs, ts) -> 0 <= k < n - 2 ->
  cnth x k <> RtoC 0 -> cnth x (k + 2) <> RtoC 0 -> forall y l1 z l2, fmlin n a b None = Ok (y, l1) -> fmlin n c d None = Ok (z, l2) ->
  let M := ((rnth l1 (k + 1) + rnth l2 (k + 1)) / 2)%R in (0 < M < 1 / 2)%R ->
  rnth fs k = M \/ ((M < 1 / 4)%R /\ rnth fs k = (M + 1 / 4)%R) \/ ((1 / 4 < M)%R /\ rnth fs k = (M - 1 / 4)%R) \/ (M = (1 / 4)%R /\ (rnth fs k = 0%R \/ rnth fs k = (1 / 2)%R)).
Proof. exact c154_chirps. Qed.
Print Assumptions C154_chirps.

(** plot_2_7_multicomp_nonstat_instfreq_grpdlay.py, for every number of samples: away from zeros of the signal, the instantaneous frequency
    is at least 1/10 off both components. *)
Theorem C154_program : forall ang n x fs ts k, (forall k z, is_angle z (ang k z)) -> chirp_sum n 0 (1 / 5) (3 / 10) (1 / 2) = Ok x -> inst_freq ang x None = Ok (fs, ts) -> 0 <= k < n - 2 ->
  cnth x k <> RtoC 0 -> cnth x (k + 2) <> RtoC 0 ->
  let f1 := (1 / 5 * (IZR (k + 1) / IZR (n - 1)))%R in let f2 := (3 / 10 + 1 / 5 * (IZR (k + 1) / IZR (n - 1)))%R in
  (1 / 10 <= Rabs (rnth fs k - f1))%R /\ (1 / 10 <= Rabs (rnth fs k - f2))%R.
Proof. exact c154_program. Qed.
Print Assumptions C154_program.

Theorem C154_mirror : forall x K u f, mirrored x K u -> gd_den x f <> RtoC 0 -> group_delay x (Some [f]) = Ok [Some (IZR K / 2 + 1)%R].
Proof. exact c154_mirror. Qed.
Print Assumptions C154_mirror.

(** Two impulses of the same modulus: nothing but their midpoint is reported. *)
Theorem C154_impulses : forall x p q a b f, 0 <= p < q -> q < zlen x -> Cmod a = Cmod b -> a <> RtoC 0 ->
  (forall k, 0 <= k < zlen x -> cnth x k = if k =? p then a else if k =? q then b else RtoC 0) -> gd_den x f <> RtoC 0 -> group_delay x (Some [f]) = Ok [Some (IZR (p + q) / 2 + 1)%R].
Proof. exact c154_impulses. Qed.
Print Assumptions C154_impulses.

Example C154_example : group_delay [RtoC 0; RtoC 1; RtoC 0; RtoC 0; RtoC 0; RtoC 1] (Some [0%R]) = Ok [Some 4%R] /\
  forall ang, (forall k z, is_angle z (ang k z)) -> exists fs, inst_freq ang [RtoC 2; (RtoC 1 + Ci)%C; RtoC 0; (RtoC 1 - Ci)%C] None = Ok (fs, [2; 3]) /\ rnth fs 1 = (3 / 8)%R.
Proof. exact c154_example. Qed.
