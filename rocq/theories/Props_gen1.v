(** Property theorems, restated from T_gen1.v (generated by tools/genprops.py).
    Amplitude modulators and the constant/linear frequency modulators
    (C53, C54, C55 and the consequences for C51). *)

From Coq Require Import Reals ZArith List Lia Lra Bool.
From Coquelicot Require Import Coquelicot.
From Flocq Require Import Core.
From Verif Require Import Py Scalars CSum DFT M_base Spec P_base M_putils M_dom T_dom M_gen1 T_gen1.
Import ListNotations.
Local Open Scope Z_scope.

Theorem C53_raises : forall n t0 spread b, n <= 0 ->
  let e := match spread with None => if n <? 0 then ValueError else TypeError | Some _ => TypeError end in
  amgauss n t0 spread = Raise e /\ amexpos n t0 spread b = Raise e /\ amrect n t0 spread = Raise e /\ amtriang n t0 spread = Raise e.
Proof. exact c53_raises. Qed.
Print Assumptions C53_raises.

(** Leaving out an argument is the same as passing the documented default. *)
Theorem C53_defaults : forall n, 0 < n ->
  (forall sp, amgauss n None sp = amgauss n (Some (IZR (half_round n))) sp) /\ (forall t, amgauss n t None = amgauss n t (Some (2 * sqrt (IZR n))%R)) /\
  (forall sp b, amexpos n None sp b = amexpos n (Some (IZR (half_round n))) sp b) /\ (forall t b, amexpos n t None b = amexpos n t (Some (2 * sqrt (IZR n))%R) b) /\
  (forall sp, amrect n None sp = amrect n (Some (IZR (half_round n))) sp) /\ (forall t, amrect n t None = amrect n t (Some (2 * sqrt (IZR n))%R)) /\
  (forall sp, amtriang n None sp = amtriang n (Some (IZR (half_round n))) sp) /\ (forall t, amtriang n t None = amtriang n t (Some (2 * sqrt (IZR n))%R)) /\
  (2 * half_round n = n \/ (Z.abs (2 * half_round n - n) = 1 /\ Z.even (half_round n) = true)).
Proof. exact c53_defaults. Qed.
Print Assumptions C53_defaults.

(** amgauss: centred on sample t0 - 1 (counting from 0). *)
Theorem C53_amgauss : forall n t s, 0 < n -> (0 < s)%R ->
  exists y, amgauss n (Some t) (Some s) = Ok (map Some y) /\ zlen y = n /\ envelope y (t - 1) /\
  forall k, 0 <= k < n -> rnth y k = exp (- PI * ((IZR k - (t - 1)) / s) ^ 2).
Proof. exact c53_amgauss. Qed.
Print Assumptions C53_amgauss.

(** The one-sided exponential and the others are centred on sample t0. *)
Theorem C53_amexpos : forall n t s, 0 < n -> (0 < s)%R ->
  exists y, amexpos n (Some t) (Some s) true = Ok (map Some y) /\ zlen y = n /\ envelope y t /\
  forall k, 0 <= k < n -> rnth y k = exp (- sqrt (2 * PI) * Rabs (IZR k - t) / s).
Proof. exact c53_amexpos. Qed.
Print Assumptions C53_amexpos.

(** Spread 0: 0/0 at the centre, inf * 0 before it. *)
Theorem C53_zero_spread : forall n t, 0 < n ->
  amexpos n (Some t) (Some 0%R) true = Ok (map (fun k => if Req_EM_T (IZR k) t then None else Some 0%R) (arange 0 n)) /\
  amexpos n (Some t) (Some 0%R) false = Ok (map (fun k => if Rle_dec (IZR k) t then None else Some 0%R) (arange 0 n)).
Proof. exact c53_zero_spread. Qed.
Print Assumptions C53_zero_spread.

Theorem C53_amexpos_unilateral : forall n t s, 0 < n -> (0 < s)%R ->
  exists y, amexpos n (Some t) (Some s) false = Ok (map Some y) /\ zlen y = n /\
  (forall k, 0 <= k < n -> (0 <= rnth y k <= 1)%R) /\
  (forall k, 0 <= k < n -> (IZR k < t)%R -> rnth y k = 0%R) /\
  (forall k, 0 <= k < n -> (t <= IZR k)%R -> rnth y k = exp (- sqrt PI * (IZR k - t) / s)) /\
  (forall k, 0 <= k < n -> IZR k = t -> rnth y k = 1%R) /\
  (forall j k, 0 <= j < n -> 0 <= k < n -> (t <= IZR k <= IZR j)%R -> (rnth y j <= rnth y k)%R).
Proof. exact c53_amexpos_unilateral. Qed.
Print Assumptions C53_amexpos_unilateral.

(** amrect is the indicator of |k - t0| <= spread/2 * sqrt(3/pi); so it is 1 at
    the centre, symmetric and non-increasing away from it. *)
Theorem C53_amrect : forall n t s, 0 < n ->
  exists y, amrect n (Some t) (Some s) = Ok y /\ zlen y = n /\
  (forall k, 0 <= k < n -> nth (Z.to_nat k) y false = true <-> (Rabs (IZR k - t) <= s / 2 * sqrt (3 / PI))%R) /\
  ((0 < s)%R -> envelope (map (fun b : bool => if b then 1 else 0)%R y) t).
Proof. exact c53_amrect. Qed.
Print Assumptions C53_amrect.

Theorem C53_amtriang : forall n t s, 0 < n -> (0 < s)%R ->
  let L := (sqrt (10 / PI) * s / 2)%R in
  exists y, amtriang n (Some t) (Some s) = Ok (map Some y) /\ zlen y = n /\ envelope y t /\
  forall k, 0 <= k < n ->
    rnth y k = if Rle_dec (Rabs (IZR k - t)) L then (1 - Rabs (IZR k - t) / L)%R else 0%R.
Proof. exact c53_amtriang. Qed.
Print Assumptions C53_amtriang.

(** A one-sample Gaussian misses its own centre. *)
Theorem C53_gauss_one_refuted : exists v, amgauss 1 None None = Ok [Some v] /\ (v < 1)%R.
Proof. exact c53_gauss_one_refuted. Qed.
Print Assumptions C53_gauss_one_refuted.

(** Spread 0: the Gaussian is 0 away from the centre and NaN at it. *)
Theorem C53_zero_spread_refuted : exists n t, amgauss n (Some t) (Some 0%R) = Ok [None; Some 0%R].
Proof. exact c53_zero_spread_refuted. Qed.
Print Assumptions C53_zero_spread_refuted.

Example C53_example : amgauss 3 (Some 2%R) (Some 1%R) = Ok [Some (exp (- PI)); Some 1%R; Some (exp (- PI))].
Proof. exact c53_example. Qed.

(** Which exception is raised, for every argument. *)
Theorem C54_raises : forall n f t0,
  (n <= 0 -> fmconst n f t0 = Raise TypeError) /\
  (0 < n -> (1 / 2 < Rabs f)%R -> fmconst n f t0 = Raise TypeError) /\
  (0 < n -> (Rabs f <= 1 / 2)%R -> (Ztrunc (centre_of n t0) < - n \/ n <= Ztrunc (centre_of n t0)) -> fmconst n f t0 = Raise IndexError) /\
  (0 < n -> (Rabs f <= 1 / 2)%R -> - n <= Ztrunc (centre_of n t0) < n -> exists r, fmconst n f t0 = Ok r).
Proof. exact c54_raises. Qed.
Print Assumptions C54_raises.

(** A centre on a sample: the tone, for every length and frequency. *)
Theorem C54_tone : forall n f c, 0 <= c < n -> (Rabs f <= 1 / 2)%R ->
  exists y, fmconst n f (Some (IZR c)) = Ok (map Some y, map (fun _ => f) (arange 0 n)) /\ zlen y = n /\
  (forall k, 0 <= k < n -> cnth y k = cis (2 * PI * f * IZR (k - c))) /\
  cnth y c = RtoC 1 /\
  (forall k, 0 <= k < n -> Cmod (cnth y k) = 1%R) /\
  (forall k, 0 <= k < n - 1 -> cnth y (k + 1) = (cnth y k * cis (2 * PI * f))%C).
Proof. exact c54_tone. Qed.
Print Assumptions C54_tone.

Theorem C54_default : forall n f, fmconst n f None = fmconst n f (Some (IZR (half_round n))).
Proof. exact c54_default. Qed.
Print Assumptions C54_default.

(** Between samples the signal is divided by a cosine instead of having unit
    modulus; a negative centre uses the sample counted from the end. *)
Theorem C54_modulus : forall n f t, 0 < n -> (Rabs f <= 1 / 2)%R -> - n <= Ztrunc t < n ->
  let i := if Ztrunc t <? 0 then Ztrunc t + n else Ztrunc t in
  let d := cos (2 * PI * f * (IZR i - t)) in
  fmconst n f (Some t) =
    Ok (map (fun k => if Req_EM_T d 0 then None else Some (cis (2 * PI * f * (IZR k - t)) / RtoC d)%C) (arange 0 n), map (fun _ => f) (arange 0 n)) /\
  forall k, d <> 0%R -> Cmod (cis (2 * PI * f * (IZR k - t)) / RtoC d)%C = (1 / Rabs d)%R.
Proof. exact c54_modulus. Qed.
Print Assumptions C54_modulus.

(** t0 = 3/2, f = 1/4: every sample has modulus sqrt 2. *)
Theorem C54_fraction_refuted : exists n f t y l, (0 <= t < IZR n)%R /\ fmconst n f (Some t) = Ok (y, l) /\ y <> [] /\
  forall z, In z y -> exists w, z = Some w /\ (Cmod w = sqrt 2)%R.
Proof. exact c54_fraction_refuted. Qed.
Print Assumptions C54_fraction_refuted.

Example C54_example : exists l, fmconst 3 (1 / 4) (Some (IZR 1)) = Ok ([Some (- Ci)%C; Some (RtoC 1); Some Ci], l).
Proof. exact c54_example. Qed.

(** *** C55 *)
Theorem C55_raises : forall n fi ff t0,
  (n <= 0 \/ (1 / 2 < Rabs fi)%R \/ (1 / 2 < Rabs ff)%R -> fmlin n fi ff t0 = Raise TypeError) /\
  ((Rabs fi <= 1 / 2)%R -> (Rabs ff <= 1 / 2)%R -> fmlin 1 fi ff t0 = Raise ZeroDivisionError) /\
  (2 <= n -> (Rabs fi <= 1 / 2)%R -> (Rabs ff <= 1 / 2)%R -> (Ztrunc (centre_of n t0) < 1 - n \/ n < Ztrunc (centre_of n t0)) -> fmlin n fi ff t0 = Raise IndexError).
Proof. exact c55_raises. Qed.
Print Assumptions C55_raises.

(** The chirp: for every centre (real number) in range. *)
Theorem C55_chirp : forall n fi ff t0, 2 <= n -> (Rabs fi <= 1 / 2)%R -> (Rabs ff <= 1 / 2)%R -> 1 - n <= Ztrunc (centre_of n t0) <= n ->
  exists y law, fmlin n fi ff t0 = Ok (y, law) /\ zlen y = n /\ zlen law = n /\
  (forall k, 0 <= k < n -> rnth law k = (fi + (ff - fi) * IZR k / IZR (n - 1))%R) /\
  rnth law 0 = fi /\ rnth law (n - 1) = ff /\
  (forall k, 0 <= k < n -> Cmod (cnth y k) = 1%R) /\
  cnth y ((Ztrunc (centre_of n t0) - 1) mod n) = RtoC 1 /\
  (forall k, 0 <= k < n - 1 -> cnth y (k + 1) = (cnth y k * cis (2 * PI * ((rnth law k + rnth law (k + 1)) / 2)))%C) /\
  (forall k, 0 <= k < n - 2 -> cnth y (k + 2) = (cnth y k * cis (4 * PI * rnth law (k + 1)))%C).
Proof. exact c55_chirp. Qed.
Print Assumptions C55_chirp.

Theorem C55_default : forall n fi ff, 2 <= n -> 1 <= half_round n <= n /\ fmlin n fi ff None = fmlin n fi ff (Some (IZR (half_round n))).
Proof. exact c55_default. Qed.
Print Assumptions C55_default.

(** Two samples, frequencies 0 and 1/2, centre 1: (1, i). *)
Example C55_example : exists y, fmlin 2 0 (1 / 2) (Some 1%R) = Ok (y, [0; 1 / 2]%R) /\ y = [RtoC 1; Ci].
Proof. exact c55_example. Qed.

(** *** C51 on the generated signals *)
Theorem C51_fmconst : forall ang n f c y law, (forall k z, is_angle z (ang k z)) -> 0 <= c < n -> (0 < f <= 1 / 2)%R ->
  fmconst n f (Some (IZR c)) = Ok (map Some y, law) ->
  exists fs, inst_freq ang y None = Ok (fs, arange 2 n) /\
  forall v, In v fs -> if Rlt_dec f (1 / 2) then v = f else (v = 0 \/ v = 1 / 2)%R.
Proof. exact c51_fmconst. Qed.
Print Assumptions C51_fmconst.

Theorem C51_fmlin : forall ang n fi ff t0 y law, (forall k z, is_angle z (ang k z)) -> 2 <= n -> (Rabs fi <= 1 / 2)%R -> (Rabs ff <= 1 / 2)%R ->
  fmlin n fi ff t0 = Ok (y, law) ->
  exists fs, inst_freq ang y None = Ok (fs, arange 2 n) /\ zlen fs = n - 2 /\
  forall k, 0 <= k < n - 2 -> (0 < rnth law (k + 1) < 1 / 2)%R -> rnth fs k = rnth law (k + 1).
Proof. exact c51_fmlin. Qed.
Print Assumptions C51_fmlin.
