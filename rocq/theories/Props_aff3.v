(** Property theorems, restated from T_aff3.v (generated by tools/genprops.py).
    C87-C89: the affine classes: default band, kernel, interpolation. *)

From Coq Require Import Reals ZArith List Lia Lra Bool.
From Coquelicot Require Import Coquelicot.
From Flocq Require Import Core.
From Verif Require Import Py Scalars CSum DFT Spec M_base M_utils M_putils M_post M_gen1 M_gen2 M_gen3 M_aff M_wb P_base P_spec T_post T_utils T_putils T_dom T_gen1 T_gen2 T_hil T_key T_noise T_misc T_misc2 T_aff T_aff2 T_wb T_aff3.
Import ListNotations.
Local Open Scope Z_scope.

Theorem C87_band : forall x ts lo hi, zmin_list ts = Ok lo -> zmax_list ts = Ok hi -> 0 <= lo -> hi < zlen x -> lo < hi ->
  let s := map (fun i => Re (cnth x i)) (arange lo (hi + 1)) in let m := half_round (zlen s) in
  (exists k, 0 <= k < m /\ power s k <> 0%R) ->
  exists i j, bounds (map (power s) (arange 0 m)) i j /\
  affine_band x ts None None = Ok (Rmax (1 / 100) (5 / 100 * IZR (Zfloor (10 * IZR i / IZR m))), 5 / 100 * IZR (Zceil (10 * IZR j / IZR m)))%R.
Proof. exact c87_band. Qed.
Print Assumptions C87_band.

(** The band lies in [0, 1/2] and brackets every bin above one hundredth of
    the maximum (taken at frequency k / (2 m)), down to 0.01. *)
Theorem C87_brackets : forall sp i j, bounds sp i j -> let m := zlen sp in
  let a := Rmax (1 / 100) (5 / 100 * IZR (Zfloor (10 * IZR i / IZR m))) in let b := (5 / 100 * IZR (Zceil (10 * IZR j / IZR m)))%R in
  (1 / 100 <= a < 1 / 2)%R /\ (0 <= b <= 1 / 2)%R /\
  forall mx k, is_max sp mx -> 0 <= k < m -> (mx / 100 < rnth sp k)%R -> (IZR k / IZR (2 * m) <= b)%R /\ (a <= IZR k / IZR (2 * m) \/ a = 1 / 100)%R.
Proof. exact c87_brackets. Qed.
Print Assumptions C87_brackets.

(** A silent segment, or one of a single sample, has no band. *)
Theorem C87_silent : forall x ts lo hi fmin, zmin_list ts = Ok lo -> zmax_list ts = Ok hi -> 0 <= lo -> hi < zlen x ->
  let s := map (fun i => Re (cnth x i)) (arange lo (hi + 1)) in
  (forall k, 0 <= k < half_round (zlen s) -> power s k = 0%R) ->
  affine_band x ts fmin None = Raise ValueError /\ affine_band x ts None fmin = Raise ValueError.
Proof. exact c87_silent. Qed.
Print Assumptions C87_silent.

(** A quarter-rate tone gets a band of width zero, a constant one that ends below its start. *)
Example C87_example : affine_band [RtoC 1; RtoC 0; RtoC (-1); RtoC 0] (arange 0 4) None None = Ok (1 / 4, 1 / 4)%R /\ affine_band [RtoC 1; RtoC 1; RtoC 1; RtoC 1] (arange 0 4) None None = Ok (1 / 100, 0)%R.
Proof. exact c87_example. Qed.

(** Dilation by a whole number c of voices is an exact shift, with zeros beyond the last voice. *)
Theorem C88_shift : forall (S : Z -> C) nv i c, 1 <= nv -> 0 <= i < nv -> - nv <= c <= nv ->
  dil S nv i (IZR c) = if ((0 <=? i + c) && (i + c <? nv))%Z then S (i + c)%Z else RtoC 0.
Proof. exact c88_shift. Qed.
Print Assumptions C88_shift.

(** The kernel at u and at - u are conjugate, and at 0 it is the power of the voice. *)
Theorem C88_kernel : forall k S q nv i u, 1 <= nv -> 0 <= i < nv -> (k = Dfl -> (-4 < u < 4)%R) ->
  kern k S q nv i (- u) = Cconj (kern k S q nv i u) /\ kern k S q nv i 0 = RtoC (Cmod (S i) ^ 2).
Proof. exact c88_kernel. Qed.
Print Assumptions C88_kernel.

(** Summed over the instants, a row of the matrix is the frequency times the power of the voice. *)
Theorem C88_marginal : forall k S q umax nv m1 i f, 1 <= nv -> 0 <= i < nv -> 1 <= m1 ->
  rsum (arange 0 (2 * m1)) (affine_sum k S q umax nv m1 i f) = (f * Cmod (S i) ^ 2)%R.
Proof. exact c88_marginal. Qed.
Print Assumptions C88_marginal.

(** Each returned row is a common constant times the spline through the points of its voice. *)
Theorem C88_run : forall spl form k x ts fmin fmax nv o tfr t f, 1 <= zlen x -> (0 < fmin < fmax)%R -> aff_new k x ts (Some fmin) (Some fmax) nv = Ok o ->
  aff_run spl form o = Ok (Some tfr, t, f) -> exists K, forall i, 0 <= i < a_nv o -> nth (Z.to_nat i) tfr [] = map (fun v => v * K)%R (voice_row spl o i).
Proof. exact c88_run. Qed.
Print Assumptions C88_run.

Example C88_example : let S := fun k => RtoC (IZR (k + 1)) in
  dil S 3 0 (IZR 2) = RtoC 3 /\ dil S 3 2 (IZR 1) = RtoC 0 /\ rsum (arange 0 8) (affine_sum Bert S 2 1 3 4 1 (1 / 10)) = (4 / 10)%R.
Proof. exact c88_example. Qed.

(** *** C89: when the interpolation of the affine distributions works *)
Theorem C89_outcome : forall spl form k x ts fmin fmax nv o, (forall u v w, zlen (spl u v w) = zlen w) -> 2 <= zlen x -> (0 < fmin < fmax)%R ->
  aff_new k x ts (Some fmin) (Some fmax) nv = Ok o -> 2 <= a_nv o -> 2 <= zlen (a_ts o) -> (k = Unt -> form = true) ->
  if Rlt_dec (IZR (2 * a_m1 o - 1)) (3 * (fmax / fmin)) then aff_run spl form o = Raise TypeError
  else exists tfr, aff_run spl form o = Ok (tfr, a_ts o, geo_grid fmin fmax (a_nv o)).
Proof. exact c89_outcome. Qed.
Print Assumptions C89_outcome.

(** A signal of 3 fmax / fmin + 1 samples is always long enough; a short one is not. *)
Theorem C89_long : forall spl form k x ts fmin fmax nv o, (forall u v w, zlen (spl u v w) = zlen w) -> 2 <= zlen x -> (0 < fmin < fmax)%R ->
  aff_new k x ts (Some fmin) (Some fmax) nv = Ok o -> 2 <= a_nv o -> 2 <= zlen (a_ts o) -> (k = Unt -> form = true) -> (3 * (fmax / fmin) <= IZR (zlen x - 1))%R ->
  exists tfr, aff_run spl form o = Ok (tfr, a_ts o, geo_grid fmin fmax (a_nv o)).
Proof. exact c89_long. Qed.
Print Assumptions C89_long.

Theorem C89_form : forall spl o, a_kind o = Unt -> 2 <= a_nv o -> aff_run spl false o = Raise IndexError.
Proof. exact c89_form. Qed.
Print Assumptions C89_form.

Example C89_example : forall spl (x : list C), (forall u v w, zlen (spl u v w) = zlen w) -> zlen x = 2 ->
  exists o, aff_new Unt x None (Some (1 / 10)%R) (Some (4 / 10)%R) (Some 4) = Ok o /\ aff_run spl true o = Raise TypeError.
Proof. exact c89_example. Qed.

Theorem C89_short_refuted : exists x fmin fmax nv, (0 < fmin < fmax)%R /\ 2 <= zlen x /\ 2 <= nv /\ forall spl, (forall u v w, zlen (spl u v w) = zlen w) ->
  exists o, aff_new Unt x None (Some fmin) (Some fmax) (Some nv) = Ok o /\ aff_run spl true o = Raise TypeError.
Proof. exact c89_short_refuted. Qed.
Print Assumptions C89_short_refuted.

Theorem C87_span : forall x ts lo hi fmin fmax, zmin_list ts = Ok lo -> zmax_list ts = Ok hi -> fmin = None \/ fmax = None ->
  let n := zlen x in
  let p := if lo <? 0 then Z.max 0 (lo + n) else Z.min lo n in
  let q := if hi + 1 <? 0 then Z.max 0 (hi + 1 + n) else Z.min (hi + 1) n in
  (q <= p -> affine_band x ts fmin fmax = Raise ValueError) /\
  (p < q -> affine_band x ts fmin fmax = affine_band x (arange p q) fmin fmax).
Proof. exact c87_span. Qed.
Print Assumptions C87_span.

Example C87_span_example : let x := [RtoC 1; RtoC 0; RtoC (-1); RtoC 0] in
  affine_band x [-4; -3; -2] None None = affine_band x [0; 1; 2] None None /\ affine_band x [-9; 3] None None = affine_band x [0; 1; 2; 3] None None /\ affine_band x [-3; -1] None None = Raise ValueError.
Proof. exact c87_span_example. Qed.
