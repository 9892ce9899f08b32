(** Property theorems, restated from T_mhtone.v (generated by tools/genprops.py).
    C155: the Margenau-Hill and Page representations of a tone and of an impulse. *)

From Coq Require Import Reals ZArith List Lia Lra Bool.
From Coquelicot Require Import Coquelicot.
From Flocq Require Import Core.
From Verif Require Import Py Scalars CSum DFT Spec M_base M_stft M_cohen M_putils M_reas P_base P_stft P_wvd P_spec P_mh T_mh T_ts T_par T_rect T_key T_noise T_putils T_reas T_reas2 T_conc T_rtone T_mhtone.
Import ListNotations.
Local Open Scope Z_scope.

(** Margenau-Hill: the row of the tone, and the trace left in all others by the sample that is not used. *)
Theorem C155_mh_tone : forall x a k0 n l o i t f, is_tone x a (IZR k0 / IZR n) -> 1 <= n <= zlen x -> mh x (Some (TsI l)) (Some n) = Ok o -> nth_error l (Z.to_nat i) = Some t -> 0 <= t < zlen x -> 0 <= f < n ->
  at2 (r_tfr o) f i = RtoC (Cmod a ^ 2 * (if (k0 - f) mod n =? 0 then IZR n - 1 else - cos (2 * PI * IZR ((k0 - f) * t) / IZR n)))%R.
Proof. exact c155_mh_tone. Qed.
Print Assumptions C155_mh_tone.

(** Page: the other rows are empty, and the row of the tone carries the factor cos(2 pi k0 / n). *)
Theorem C155_page_tone : forall x a k0 n l o i t f, is_tone x a (IZR k0 / IZR n) -> 1 <= n <= zlen x -> page x (Some (TsI l)) (Some n) = Ok o -> nth_error l (Z.to_nat i) = Some t -> 0 <= t < zlen x -> 0 <= f < n ->
  at2 (r_tfr o) f i = RtoC (if (k0 - f) mod n =? 0 then Cmod a ^ 2 * IZR n * cos (2 * PI * IZR k0 / IZR n) else 0)%R.
Proof. exact c155_page_tone. Qed.
Print Assumptions C155_page_tone.

(** A tone a quarter of the sampling frequency high (or three) is invisible to Page, whatever its amplitude. *)
Theorem C155_page_quarter : forall x a k0 n l o i t f, is_tone x a (IZR k0 / IZR n) -> 1 <= n <= zlen x -> page x (Some (TsI l)) (Some n) = Ok o -> nth_error l (Z.to_nat i) = Some t -> 0 <= t < zlen x -> 0 <= f < n ->
  n = 4 * k0 \/ 3 * n = 4 * k0 -> at2 (r_tfr o) f i = RtoC 0.
Proof. exact c155_page_quarter. Qed.
Print Assumptions C155_page_quarter.

Theorem C155_mh_impulse : forall x k a n l o i t f, only_at x k a -> 0 <= k < zlen x -> 1 <= n -> mh x (Some (TsI l)) (Some n) = Ok o -> nth_error l (Z.to_nat i) = Some t -> 0 <= t < zlen x -> 0 <= f < n ->
  at2 (r_tfr o) f i = RtoC (if (t =? k) && (1 <=? k) && (k <? n) then Cmod a ^ 2 else 0)%R.
Proof. exact c155_mh_impulse. Qed.
Print Assumptions C155_mh_impulse.

Theorem C155_page_impulse : forall x k a n l o i t f, only_at x k a -> 0 <= k < zlen x -> 1 <= n -> page x (Some (TsI l)) (Some n) = Ok o -> nth_error l (Z.to_nat i) = Some t -> 0 <= t < zlen x -> 0 <= f < n ->
  at2 (r_tfr o) f i = RtoC (if (t =? k) && (k <? n) then Cmod a ^ 2 * cos (2 * PI * IZR f / IZR n) else 0)%R.
Proof. exact c155_page_impulse. Qed.
Print Assumptions C155_page_impulse.

(** 1, i, -1, -i: row 1 of Margenau-Hill holds 3, that of Page 0; and an impulse at sample 2 of 4. *)
Example C155_example : let x := [RtoC 1; Ci; RtoC (-1); (- Ci)%C] in let y := [RtoC 0; RtoC 0; RtoC 3; RtoC 0] in
  (exists o, mh x (Some (TsI [0; 1; 2; 3])) (Some 4) = Ok o /\ at2 (r_tfr o) 1 2 = RtoC 3 /\ at2 (r_tfr o) 3 2 = RtoC (-1)) /\
  (exists o, page x (Some (TsI [0; 1; 2; 3])) (Some 4) = Ok o /\ forall f i, 0 <= f < 4 -> 0 <= i < 4 -> at2 (r_tfr o) f i = RtoC 0) /\
  (exists o, mh y (Some (TsI [0; 1; 2; 3])) (Some 4) = Ok o /\ at2 (r_tfr o) 2 2 = RtoC 9) /\
  (exists o, page y (Some (TsI [0; 1; 2; 3])) (Some 4) = Ok o /\ at2 (r_tfr o) 2 2 = RtoC (-9)).
Proof. exact c155_example. Qed.
