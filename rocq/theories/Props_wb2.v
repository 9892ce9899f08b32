(** Property theorems, restated from T_wb2.v (generated by tools/genprops.py).
    C86, continued: a default band of width zero. *)

From Coq Require Import Reals ZArith List Lia Lra Bool.
From Coquelicot Require Import Coquelicot.
From Flocq Require Import Core.
From Verif Require Import Py Scalars CSum DFT Spec M_base M_utils M_putils M_post M_gen1 M_gen2 M_gen3 M_aff M_wb P_base P_spec T_post T_utils T_putils T_dom T_gen1 T_gen2 T_hil T_key T_noise T_misc T_misc2 T_aff T_aff2 T_wb M_spw T_spw T_wb2.
From Verif Require M_fp T_fp T_fp2.
Import ListNotations.
Local Open Scope Z_scope.

(** When the loudest part of the shifted envelope is one bin at a multiple of 0.05 the two default
    bounds coincide; with the default number of voices the call raises ValueError (a NaN is
    converted to an integer). *)
Theorem C86_empty_band : forall x z, 2 <= zlen x -> hilbert (map Re x) = Ok z ->
  let n := zlen x in let m := half_round n in
  (exists k, 0 <= k < m /\ cnth z ((k + (n + 1) / 2) mod n) <> RtoC 0) ->
  exists lo hi, bounds (envelope z m) lo hi /\
  let a := Rmax (1 / 100) (5 / 100 * IZR (Zfloor (10 * IZR lo / IZR m))) in
  let b := (5 / 100 * IZR (Zceil (10 * IZR hi / IZR m)))%R in
  (a = b -> wide_band x None None None = Raise ValueError).
Proof. exact c86_empty_band. Qed.
Print Assumptions C86_empty_band.

(** A tone at half the sampling rate, in exact arithmetic and in double precision (C116: the bin is
    exactly 5 cells of 0.05). *)
Theorem C86_empty_band_refuted : wide_band (map RtoC [0; 1; 0; 1]%R) None None None = Raise ValueError /\ M_fp.cells64 2 1 = 5%R.
Proof. exact c86_empty_band_refuted. Qed.
Print Assumptions C86_empty_band_refuted.

(** The same with one bound given.  The default lower bound is a Python float exactly when it is the
    0.01 of the list; two Python floats make 2.0 / R a ZeroDivisionError, whatever N is. *)
Theorem C86_equal_bounds : forall x z N, 2 <= zlen x -> hilbert (map Re x) = Ok z ->
  let n := zlen x in let m := half_round n in
  (exists k, 0 <= k < m /\ cnth z ((k + (n + 1) / 2) mod n) <> RtoC 0) ->
  exists lo hi, bounds (envelope z m) lo hi /\
  let a := Rmax (1 / 100) (5 / 100 * IZR (Zfloor (10 * IZR lo / IZR m))) in
  let b := (5 / 100 * IZR (Zceil (10 * IZR hi / IZR m)))%R in
  (10 * lo < m -> a = (1 / 100)%R /\ wide_band x None (Some a) N = Raise ZeroDivisionError) /\
  (m <= 10 * lo -> (1 / 100 < a)%R /\ wide_band x None (Some a) None = Raise ValueError) /\
  wide_band x (Some b) None None = Raise ValueError.
Proof. exact c86_equal_bounds. Qed.
Print Assumptions C86_equal_bounds.

(** ** C91: the default number of voices of the smoothed pseudo affine Wigner distribution *)
(** For any half length of the window, integer or not: half the number of dilations is the half
    length, rounded, in a wide band and the rounded 1 + 2 h fmax ln(fmax/fmin) in a narrow one. *)
Theorem C91_any_voices : forall x ts K h ng0 fmin fmax, (0 < fmin < fmax)%R -> (1 / 2 < num_val h)%R ->
  let b := (fmax * ln (fmax / fmin))%R in
  let mu := if Rlt_dec (2 * b) 1 then ZnearestE (1 + 2 * num_val h * b) else ZnearestE (num_val h) in
  let q := even_part (Zceil (fmax * IZR (2 * mu - 1) * ln (fmax / fmin))) in
  (q = 0 -> spw x ts K (Some h) ng0 (Some fmin) (Some fmax) None = Raise ValueError) /\
  (q <> 0 -> exists e, 1 <= e /\ q <= 2 ^ e /\ 2 ^ (e - 1) < q /\
    spw x ts K (Some h) ng0 (Some fmin) (Some fmax) None = spw x ts K (Some h) ng0 (Some fmin) (Some fmax) (Some (2 ^ e))).
Proof. exact c91_any_voices. Qed.
Print Assumptions C91_any_voices.

(** A half length of 2.5 is rounded to 2, the even neighbour: in the band from 0.5 / e to 0.5 the
    interval of 3 samples needs 2 voices. *)
Example C91_any_voices_example : forall x ts K ng0, spw x ts K (Some (Flt (5 / 2))) ng0 (Some (1 / 2 / exp 1)%R) (Some (1 / 2)%R) None
  = spw x ts K (Some (Flt (5 / 2))) ng0 (Some (1 / 2 / exp 1)%R) (Some (1 / 2)%R) (Some 2).
Proof. exact c91_any_voices_example. Qed.
