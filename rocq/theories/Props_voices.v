(** Property theorems, restated from T_voices.v (generated by tools/genprops.py).
    C82: the scalogram with a negative number of voices, with none, with one,
    and with two voices for three samples. *)

From Coq Require Import Reals ZArith List Lia Lra Bool.
From Coquelicot Require Import Coquelicot.
From Flocq Require Import Core.
From Verif Require Import Py Scalars CSum DFT Spec M_base M_utils M_putils M_post M_gen1 M_gen2 M_gen3 M_aff M_wb P_base P_spec T_post T_utils T_putils T_dom T_gen1 T_gen2 T_hil T_key T_noise T_misc T_misc2 T_aff T_aff2 T_post2 T_voices.
Import ListNotations.
Local Open Scope Z_scope.

Theorem C82_negative_voices : forall x ts fmin fmax nv wp, 0 < zlen x -> nv < 0 ->
  scalogram x ts (Some fmin) (Some fmax) (Some nv) wp = Raise ValueError.
Proof. exact c82_negative_voices. Qed.
Print Assumptions C82_negative_voices.

Theorem C82_no_voices : forall x ts fmin fmax wp, 2 <= zlen x ->
  scalogram x ts (Some fmin) (Some fmax) (Some 0) (Some (Wnum wp)) = if zlen x =? 2 then Ok (None, [0; 1], [], []) else Raise ValueError.
Proof. exact c82_no_voices. Qed.
Print Assumptions C82_no_voices.

(** One voice: it is fmin, at the scale fmax / fmin. *)
Theorem C82_one_voice : forall x ts fmin fmax wp, 2 <= zlen x -> (0 < fmin < fmax)%R -> (1 / 2 < wp)%R \/ (wp = 0%R /\ (fmax <= 1 / 2)%R) ->
  let r := scalogram x ts (Some fmin) (Some fmax) (Some 1) (Some (Wnum wp)) in
  if zlen x =? 2 then exists w, r = Ok (None, [0; 1], [fmin], [w]) /\ zlen w = 2 else r = Raise ValueError.
Proof. exact c82_one_voice. Qed.
Print Assumptions C82_one_voice.

(** Two voices for three samples: the axis of two frequencies broadcasts against
    the three rows and the integral comes out over the two voices, so that the
    normalisation is right; the matrix has a third row, of zeros. *)
Theorem C82_two_voices : forall x ts fmin fmax wp, zlen x = 3 -> (0 < fmin < fmax)%R -> (1 / 2 < wp)%R \/ (wp = 0%R /\ (fmax <= 1 / 2)%R) ->
  exists z wt a0 b0 c0 a1 b1 c1, scal_z x = Ok z /\
  (a0, b0, c0) = (voice z fmin fmax wp 2 0 0, voice z fmin fmax wp 2 0 1, voice z fmin fmax wp 2 0 2) /\
  (a1, b1, c1) = (voice z fmin fmax wp 2 1 0, voice z fmin fmax wp 2 1 1, voice z fmin fmax wp 2 1 2) /\
  let i := ((a0 / 2 + b0 + c0 / 2 + (a1 / 2 + b1 + c1 / 2)) / 2 * (fmax - fmin))%R in
  let k := (scal_mult z 3 fmin fmax / i)%R in
  scalogram x ts (Some fmin) (Some fmax) (Some 2) (Some (Wnum wp)) =
  Ok (if Req_EM_T i 0 then None else Some (map (map (fun v => v * k / 2)%R) [[a0; b0; c0]; [a1; b1; c1]; [0; 0; 0]%R]), [0; 1; 2], [fmin; fmax], wt).
Proof. exact c82_two_voices. Qed.
Print Assumptions C82_two_voices.

(** Sixteen samples of a constant and one voice. *)
Example C82_voices_example : scalogram (repeat (RtoC 1) 16) None (Some (1 / 20)%R) (Some (4 / 10)%R) (Some 1) (Some (Wnum 4%R)) = Raise ValueError
  /\ scalogram (repeat (RtoC 1) 16) None (Some (1 / 20)%R) (Some (4 / 10)%R) (Some (-1)) None = Raise ValueError
  /\ scalogram [RtoC 1; RtoC 2] None (Some (1 / 20)%R) (Some (4 / 10)%R) (Some 0) (Some (Wnum 4%R)) = Ok (None, [0; 1], [], []).
Proof. exact c82_voices_example. Qed.
