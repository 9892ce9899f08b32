(** Property theorems, restated from T_docs.v (generated by tools/genprops.py).
    C58 (float block lengths) and C133: the programs of the docstrings. *)

From Coq Require Import Reals ZArith List Lia Lra Bool.
From Coquelicot Require Import Coquelicot.
From Flocq Require Import Core.
From Verif Require Import Py Scalars CSum DFT Spec M_base M_stft M_reas M_post M_dom M_gen1 M_gen2 M_gen3 M_gallery M_docs P_base P_stft T_putils T_stft T_dom T_gen1 T_gen2 T_key T_tone T_gallery T_docs.
Import ListNotations.
Local Open Scope Z_scope.

Theorem C58_number : forall rand n k f0 nbf,
  anaask_num rand n (NInt k) f0 = anaask rand n (Some k) f0 /\ anabpsk_num rand n (NInt k) f0 = anabpsk rand n (Some k) f0 /\
  anaqpsk_num rand n (NInt k) f0 = anaqpsk rand n (Some k) f0 /\ anafsk_num rand n (NInt k) (NInt nbf) = anafsk rand n (Some k) nbf /\
  anafsk_num rand n (NInt k) (NFloat (IZR nbf)) = anafsk rand n (Some k) nbf.
Proof. exact c58_number. Qed.
Print Assumptions C58_number.

Theorem C58_float : forall rand n r f0,
  let e := if Rle_dec 0 f0 then if Rle_dec f0 (1 / 2) then float_error n r else TypeError else TypeError in
  anaask_num rand n (NFloat r) f0 = Raise e /\ anabpsk_num rand n (NFloat r) f0 = Raise e /\ anaqpsk_num rand n (NFloat r) f0 = Raise e.
Proof. exact c58_float. Qed.
Print Assumptions C58_float.

Theorem C58_float_fsk : forall rand n r nbf, anafsk_num rand n (NFloat r) nbf =
  Raise (match float_error n r with TypeError => if Req_EM_T (nval nbf) 0 then ZeroDivisionError else TypeError | e => e end).
Proof. exact c58_float_fsk. Qed.
Print Assumptions C58_float_fsk.

(** Their docstrings: anaqpsk(512, 64.0, 0.05) and anafsk(512, 54.0, 5.0). *)
Example C58_docstrings_refuted : forall rand,
  anaqpsk_num rand 512 (NFloat 64) (5 / 100) = Raise TypeError /\ anafsk_num rand 512 (NFloat 54) (NFloat 5) = Raise TypeError.
Proof. exact c58_docstrings_refuted. Qed.
