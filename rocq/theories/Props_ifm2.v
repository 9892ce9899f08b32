(** Property theorems, restated from T_ifm2.v (generated by tools/genprops.py).
    C130: the circular moments of the Margenau-Hill and Page columns. *)

From Coq Require Import Reals ZArith List Lia Lra Bool.
From Coquelicot Require Import Coquelicot.
From Verif Require Import Py Scalars CSum DFT Spec M_base M_stft M_cohen M_amb M_dom P_base P_stft P_wvd P_mh T_wvd T_mh T_dom T_ifm T_ifm2.
Import ListNotations.
Local Open Scope Z_scope.

(** Every circular moment of a Margenau-Hill column whose samples at distance m both lie in range. *)
Theorem C130_mh_moments : forall x l n o i t m, 1 <= n -> mh x (Some (TsI l)) (Some n) = Ok o -> nth_error l (Z.to_nat i) = Some t -> 0 <= t ->
  1 <= t - m < Z.min n (zlen x) -> 1 <= t + m < Z.min n (zlen x) ->
  csum (arange 0 n) (fun f => at2 (r_tfr o) f i * cis (2 * PI * (IZR f * IZR m) / IZR n))%C
  = (RtoC (IZR n) / RtoC 2 * (cnth x t * Cconj (cnth x (t - m)) + Cconj (cnth x t) * cnth x (t + m)))%C.
Proof. exact c130_mh_moments. Qed.
Print Assumptions C130_mh_moments.

Theorem C130_page_moments : forall x l n o i t m, 1 <= n -> page x (Some (TsI l)) (Some n) = Ok o -> nth_error l (Z.to_nat i) = Some t -> 0 <= t ->
  0 <= t - 1 - m < Z.min n (zlen x) -> 0 <= t - 1 + m < Z.min n (zlen x) ->
  csum (arange 0 n) (fun f => at2 (r_tfr o) f i * cis (2 * PI * (IZR f * IZR m) / IZR n))%C
  = (RtoC (IZR n) / RtoC 2 * (cnth x t * Cconj (cnth x (t - 1 - m)) + Cconj (cnth x t) * cnth x (t - 1 + m)))%C.
Proof. exact c130_page_moments. Qed.
Print Assumptions C130_page_moments.

(** For samples of equal modulus the first moment of the Margenau-Hill column points, up to its
    sign, in the direction of the instantaneous frequency. *)
Theorem C130_mh : forall ang x l n o i fs is t A, (forall k z, is_angle z (ang k z)) -> 1 <= n ->
  mh x (Some (TsI l)) (Some n) = Ok o -> nth_error l (Z.to_nat i) = Some t -> inst_freq ang x None = Ok (fs, is) ->
  2 <= t < zlen x - 1 -> t < n - 1 ->
  Cmod (cnth x (t - 1)) = A -> Cmod (cnth x t) = A -> Cmod (cnth x (t + 1)) = A ->
  let S := csum (arange 0 n) (fun f => at2 (r_tfr o) f i * cis (2 * PI * IZR f / IZR n))%C in
  (S * S = RtoC (Cmod S ^ 2) * cis (4 * PI * rnth fs (t - 1)))%C /\ (Cmod S <= IZR n * A ^ 2)%R.
Proof. exact c130_mh. Qed.
Print Assumptions C130_mh.

(** A column of the Margenau-Hill distribution of four quarter-turns. *)
Example C130_mh_example : exists o, mh [RtoC 1; Ci; RtoC (-1); (- Ci)%C] None None = Ok o /\
  csum (arange 0 4) (fun f => at2 (r_tfr o) f 2 * cis (2 * PI * (IZR f * IZR 1) / IZR 4))%C = (RtoC 4 * Ci)%C.
Proof. exact c130_mh_example. Qed.
