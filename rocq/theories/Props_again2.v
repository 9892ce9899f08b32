(** Property theorems, restated from T_again2.v (generated by tools/genprops.py).
    C15, the spectrogram: a second [run] of the same object. *)

From Coq Require Import Reals ZArith List Lia Lra Bool.
From Coquelicot Require Import Coquelicot.
From Verif Require Import Py Scalars CSum DFT Spec M_base M_stft M_cohen M_state M_heap M_utils T_again2.
From Verif Require Import P_base P_stft P_wvd P_pwvd T_utils P_spec T_state T_mh T_plot T_heap T_heap2.
Import ListNotations.
Local Open Scope Z_scope.

(** Every [run] that returns leaves in the array it worked on the table of which the matrix it
    returns is the transform. *)
Theorem C121_table : forall k s s' b, reachable k s -> s_rows s = None -> run_step k s = Some (s', Ok b) -> cell s' b = finish k (cell s' (s_at s)).
Proof. exact c121_table. Qed.
Print Assumptions C121_table.

(** A one-sample window: the column at a timestamp goes from the constant a = |x|^2 to
    (u + (n-1) a)^2 at bin 0 and (u - a)^2 at the others, where u is the real part of the sample
    in the phase of the window. *)
Theorem C15_spectrogram_second_run : forall x l n v, 2 <= n -> v <> RtoC 0 ->
  exists s1 a s2 b, run_step KSpec (create x (Some (TsI l)) (Some n) (Some [v])) = Some (s1, Ok a) /\ run_step KSpec s1 = Some (s2, Ok b) /\
  forall i ti, 0 <= i -> nth_error l (Z.to_nat i) = Some ti -> 1 <= ti <= zlen x ->
  let e := (Cmod (cnth x (ti - 1)) ^ 2)%R in
  let u := Re (cnth x (ti - 1) * Cconj v / RtoC (Cmod v))%C in
  forall f, 0 <= f < n -> at2 (seen KSpec s1 a) f i = RtoC e /\
  at2 (seen KSpec s2 b) f i = RtoC ((if f =? 0 then u + IZR (n - 1) * e else u - e) ^ 2)%R.
Proof. exact c15_spectrogram_second_run. Qed.
Print Assumptions C15_spectrogram_second_run.

(** The two columns agree only in the coincidence a = 4/n^2, u = - 2 (n-2)/n^2. *)
Theorem C15_spectrogram_refuted : forall x l n v, 2 <= n -> v <> RtoC 0 ->
  exists s1 a s2 b, run_step KSpec (create x (Some (TsI l)) (Some n) (Some [v])) = Some (s1, Ok a) /\ run_step KSpec s1 = Some (s2, Ok b) /\
  forall i ti, 0 <= i -> nth_error l (Z.to_nat i) = Some ti -> 1 <= ti <= zlen x -> cnth x (ti - 1) <> RtoC 0 ->
  ((forall f, 0 <= f < n -> at2 (seen KSpec s2 b) f i = at2 (seen KSpec s1 a) f i) <->
   (Cmod (cnth x (ti - 1)) ^ 2 = 4 / IZR n ^ 2 /\ Re (cnth x (ti - 1) * Cconj v / RtoC (Cmod v))%C = - (2 * IZR (n - 2) / IZR n ^ 2))%R).
Proof. exact c15_spectrogram_refuted. Qed.
Print Assumptions C15_spectrogram_refuted.
