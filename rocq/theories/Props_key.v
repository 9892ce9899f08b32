(** Property theorems, restated from T_key.v (generated by tools/genprops.py).
    C58: keyed signals. *)

From Coq Require Import Reals ZArith List Lia Lra Bool.
From Coquelicot Require Import Coquelicot.
From Flocq Require Import Core.
From Verif Require Import Py Scalars CSum DFT Spec M_base M_utils M_dom M_gen1 M_gen2 P_base T_putils T_dom T_gen1 T_gen2 T_key.
Import ListNotations.
Local Open Scope Z_scope.

Theorem C58_anaask : forall rand n nc f0, uniform rand -> 2 <= n -> 1 <= nc -> (0 <= f0 <= 1 / 2)%R ->
  exists y am, anaask rand n (Some nc) f0 = Ok (map Some y, am) /\
  keyed_signal n nc f0 (fun u => u) (rand (cdiv n nc)) y am /\
  (forall k, 0 <= k < n -> (0 <= rnth am k < 1)%R) /\
  (forall j k, 0 <= j < n -> 0 <= k < n -> j / nc = k / nc -> rnth am j = rnth am k).
Proof. exact c58_anaask. Qed.
Print Assumptions C58_anaask.

Theorem C58_anabpsk : forall rand n nc f0, uniform rand -> 2 <= n -> 1 <= nc -> (0 <= f0 <= 1 / 2)%R ->
  exists y am, anabpsk rand n (Some nc) f0 = Ok (map Some y, am) /\
  keyed_signal n nc f0 (fun u => if Rle_dec u (1 / 2) then (-1)%R else 1%R) (rand (cdiv n nc)) y am /\
  (forall k, 0 <= k < n -> rnth am k = 1%R \/ rnth am k = (-1)%R) /\
  (forall k, 0 <= k < n -> Cmod (cnth y k) = 1%R) /\
  (forall j k, 0 <= j < n -> 0 <= k < n -> j / nc = k / nc -> rnth am j = rnth am k).
Proof. exact c58_anabpsk. Qed.
Print Assumptions C58_anabpsk.

Theorem C58_raises : forall rand n nc f0, uniform rand -> 1 <= nc ->
  ((f0 < 0 \/ 1 / 2 < f0)%R -> anaask rand n (Some nc) f0 = Raise TypeError /\ anabpsk rand n (Some nc) f0 = Raise TypeError) /\
  ((0 <= f0 <= 1 / 2)%R -> n <= 0 -> anaask rand n (Some nc) f0 = Raise (if n <=? - nc then ValueError else TypeError) /\ anabpsk rand n (Some nc) f0 = Raise (if n <=? - nc then ValueError else TypeError)) /\
  ((0 <= f0 <= 1 / 2)%R -> n = 1 -> anaask rand n (Some nc) f0 = Raise IndexError /\ anabpsk rand n (Some nc) f0 = Raise IndexError).
Proof. exact c58_raises. Qed.
Print Assumptions C58_raises.

Theorem C58_defaults : forall rand n f0,
  (exists nc, nearest_even (IZR n / 2) nc /\ anaask rand n None f0 = anaask rand n (Some nc) f0) /\
  (exists nc, nearest_even (IZR n / 5) nc /\ anabpsk rand n None f0 = anabpsk rand n (Some nc) f0) /\
  ((0 <= f0 <= 1 / 2)%R -> anaask rand n (Some 0) f0 = Raise ZeroDivisionError /\ anabpsk rand n (Some 0) f0 = Raise ZeroDivisionError).
Proof. exact c58_defaults. Qed.
Print Assumptions C58_defaults.

Theorem C58_anafsk : forall rand n nc nbf, uniform rand -> 0 <= n -> 1 <= nc -> 1 <= nbf ->
  exists y law, anafsk rand n (Some nc) nbf = Ok (y, law) /\
  zlen y = cdiv n nc * nc /\ zlen law = cdiv n nc * nc /\
  (forall k, 0 <= k < cdiv n nc * nc ->
     (exists j, 0 <= j < nbf /\ (IZR j <= IZR nbf * rnth (rand (cdiv n nc)) (k / nc) < IZR j + 1)%R /\
        rnth law k = (1 / 4 + (2 * IZR j + 1 - IZR nbf) / (8 * IZR nbf))%R) /\
     (1 / 8 < rnth law k < 3 / 8)%R /\
     Cmod (cnth y k) = 1%R /\
     cnth y k = ((if Z.eq_dec k 0 then RtoC 1 else cnth y (k - 1)) * cis (2 * PI * rnth law k))%C) /\
  (forall j k, 0 <= j < cdiv n nc * nc -> 0 <= k < cdiv n nc * nc -> j / nc = k / nc -> rnth law j = rnth law k).
Proof. exact c58_anafsk. Qed.
Print Assumptions C58_anafsk.

Theorem C58_anafsk_raises : forall rand n nbf, uniform rand ->
  (anafsk rand n (Some 0) nbf = Raise ZeroDivisionError) /\
  (forall nc, 1 <= nc -> - nc < n -> anafsk rand n (Some nc) 0 = Raise ZeroDivisionError) /\
  (forall nc, 1 <= nc -> n <= - nc -> anafsk rand n (Some nc) nbf = Raise ValueError) /\
  (exists nc, nearest_even (IZR n / 5) nc /\ anafsk rand n None nbf = anafsk rand n (Some nc) nbf).
Proof. exact c58_anafsk_raises. Qed.
Print Assumptions C58_anafsk_raises.

Theorem C58_anafsk_length_refuted : exists n nc nbf, forall rand, uniform rand -> exists y law, anafsk rand n (Some nc) nbf = Ok (y, law) /\ zlen y <> n.
Proof. exact c58_anafsk_length_refuted. Qed.
Print Assumptions C58_anafsk_length_refuted.

(** QPSK: unit modulus, phases 0, pi/2, pi, 3pi/2 on blocks. *)
Theorem C58_anaqpsk : forall rand n nc f0, uniform rand -> 0 <= n -> 1 <= nc -> (nc | n) -> (0 <= f0 <= 1 / 2)%R ->
  exists y pm, anaqpsk rand n (Some nc) f0 = Ok (y, pm) /\ zlen y = n /\ zlen pm = n /\
  (forall k, 0 <= k < n ->
     (exists j, 0 <= j < 4 /\ (IZR j <= 4 * rnth (rand (cdiv n nc)) (k / nc) < IZR j + 1)%R /\ rnth pm k = (IZR j * (PI / 2))%R) /\
     cnth y k = (cis (2 * PI * f0 * (IZR k - 1)) * cis (rnth pm k))%C /\ Cmod (cnth y k) = 1%R) /\
  (forall j k, 0 <= j < n -> 0 <= k < n -> j / nc = k / nc -> rnth pm j = rnth pm k).
Proof. exact c58_anaqpsk. Qed.
Print Assumptions C58_anaqpsk.

Theorem C58_anaqpsk_raises : forall rand n nc f0, uniform rand -> 1 <= nc ->
  ((f0 < 0 \/ 1 / 2 < f0)%R -> anaqpsk rand n (Some nc) f0 = Raise TypeError) /\
  ((0 <= f0 <= 1 / 2)%R -> 2 <= n -> ~ (nc | n) -> anaqpsk rand n (Some nc) f0 = Raise ValueError) /\
  ((0 <= f0 <= 1 / 2)%R -> anaqpsk rand n (Some 0) f0 = Raise ZeroDivisionError) /\
  (exists nc', nearest_even (IZR n / 5) nc' /\ anaqpsk rand n None f0 = anaqpsk rand n (Some nc') f0).
Proof. exact c58_anaqpsk_raises. Qed.
Print Assumptions C58_anaqpsk_raises.

(** The default block length of 128 samples is 26, which does not divide 128. *)
Theorem C58_anaqpsk_default_refuted : forall rand, uniform rand -> anaqpsk rand 128 None (1 / 4) = Raise ValueError.
Proof. exact c58_anaqpsk_default_refuted. Qed.
Print Assumptions C58_anaqpsk_default_refuted.

Example C58_example : exists y, anabpsk two_draws 4 (Some 2) (1 / 4) = Ok (y, [-1; -1; 1; 1]%R) /\ nth 2 y None = Some Ci.
Proof. exact c58_example. Qed.

Theorem C58_negative_blocks : forall rand n nc f0, uniform rand -> nc < 0 ->
  ((0 <= f0 <= 1 / 2)%R -> let e := if n =? 0 then TypeError else if (n =? 1) && (nc <? -1) then IndexError else ValueError in
     anaask rand n (Some nc) f0 = Raise e /\ anabpsk rand n (Some nc) f0 = Raise e) /\
  (forall nbf, nbf <> 0 -> anafsk rand n (Some nc) nbf = if (0 <=? n) && (n <? - nc) then Ok ([], []) else Raise ValueError) /\
  ((0 <= f0 <= 1 / 2)%R -> anaqpsk rand n (Some nc) f0 = if ((n =? 0) || (n =? 1)) && (n <? - nc) then Ok ([], []) else Raise ValueError).
Proof. exact c58_negative_blocks. Qed.
Print Assumptions C58_negative_blocks.

(** QPSK of one sample is as long as the block; of none, or of a few too few, empty. *)
Theorem C58_anaqpsk_few : forall rand n nc f0, uniform rand -> 1 <= nc -> (0 <= f0 <= 1 / 2)%R ->
  (n = 1 -> exists y pm, anaqpsk rand n (Some nc) f0 = Ok (y, pm) /\ zlen y = nc) /\
  (- nc < n <= 0 -> anaqpsk rand n (Some nc) f0 = Ok ([], [])) /\
  (n <= - nc -> anaqpsk rand n (Some nc) f0 = Raise ValueError).
Proof. exact c58_anaqpsk_few. Qed.
Print Assumptions C58_anaqpsk_few.
