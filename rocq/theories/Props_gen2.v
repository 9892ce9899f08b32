(** Property theorems, restated from T_gen2.v (generated by tools/genprops.py).
    Arbitrary frequency modulation and the phase laws (C56, C57). *)

From Coq Require Import Reals ZArith List Lia Lra Bool.
From Coquelicot Require Import Coquelicot.
From Flocq Require Import Core.
From Verif Require Import Py Scalars CSum DFT M_base Spec P_base M_putils M_dom T_reas T_dom M_gen1 T_gen1 T_gen2.
Import ListNotations.
Local Open Scope Z_scope.

Theorem C56_raises : forall law t0,
  (fmodany None [] t0 = Raise ValueError) /\
  (law <> [] -> ~ within_half law -> fmodany None law t0 = Raise TypeError) /\
  (law <> [] -> within_half law -> zlen law < t0 \/ t0 = 0 -> fmodany None law t0 = Raise TypeError) /\
  (law <> [] -> within_half law -> t0 = zlen law \/ t0 < - zlen law -> fmodany None law t0 = Raise IndexError) /\
  (forall c, c <> 1 -> fmodany (Some c) law t0 = Raise TypeError) /\
  (zlen law < t0 \/ t0 = 0 -> fmodany (Some 1) law t0 = Raise TypeError).
Proof. exact c56_raises. Qed.
Print Assumptions C56_raises.

(** The signal whenever one is returned: unit modulus, 1 at index t0, phase
    increments 2 pi iflaw. *)
Theorem C56_signal : forall cols law t0 y, fmodany cols law t0 = Ok y ->
  zlen y = zlen law /\ (forall k, 0 <= k < zlen law -> Cmod (cnth y k) = 1%R) /\
  cnth y (t0 mod zlen law) = RtoC 1 /\
  (forall k, 0 < k < zlen law -> cnth y k = (cnth y (k - 1) * cis (2 * PI * rnth law k))%C).
Proof. exact c56_signal. Qed.
Print Assumptions C56_signal.

Theorem C56_ok : forall law t0, law <> [] -> within_half law -> - zlen law <= t0 < zlen law -> t0 <> 0 -> exists y, fmodany None law t0 = Ok y.
Proof. exact c56_ok. Qed.
Print Assumptions C56_ok.

(** A column vector escapes the range check. *)
Theorem C56_column_refuted : exists law, ~ within_half law /\ exists y, fmodany (Some 1) law 1 = Ok y.
Proof. exact c56_column_refuted. Qed.
Print Assumptions C56_column_refuted.

(** The documented range 1..len(iflaw) includes one value that fails. *)
Theorem C56_last_refuted : forall law, law <> [] -> within_half law -> fmodany None law (zlen law) = Raise IndexError.
Proof. exact c56_last_refuted. Qed.
Print Assumptions C56_last_refuted.

Example C56_example : fmodany None [0; 1 / 4; 1 / 4]%R 1 = Ok [(- Ci)%C; RtoC 1; Ci].
Proof. exact c56_example. Qed.

(** *** C57 *)
(** fmhyp: phase p(t) = 2 pi (f0 t + c ln t), law f0 + c / t through both points. *)
Theorem C57_fmhyp : forall n a1 b1 a2 b2, a1 <> 0%R -> a2 <> 0%R -> a1 <> a2 ->
  let c := ((b2 - b1) / (1 / a2 - 1 / a1))%R in
  let f0 := (b1 - c / a1)%R in
  let p := fun t => (2 * PI * (f0 * t + c * ln t))%R in
  let law := fun t => (f0 + c / t)%R in
  fmhyp n a1 b1 a2 b2 = Ok (map (fun k => cis (p (IZR k))) (arange 1 (n + 1)), map (fun k => law (IZR k)) (arange 1 (n + 1))) /\
  (forall t, (0 < t)%R -> is_derive p t (2 * PI * law t)%R) /\ law a1 = b1 /\ law a2 = b2.
Proof. exact c57_fmhyp. Qed.
Print Assumptions C57_fmhyp.

Theorem C57_fmhyp_raises : forall n a1 b1 a2 b2, a1 = 0%R \/ a2 = 0%R \/ a1 = a2 -> fmhyp n a1 b1 a2 b2 = Raise ZeroDivisionError.
Proof. exact c57_fmhyp_raises. Qed.
Print Assumptions C57_fmhyp_raises.

Theorem C57_fmpower : forall n k f0 c, k <> 1%R ->
  exists y law, fmpower n (DFloat k) [f0; c] = Ok (y, law) /\ zlen y = Z.max 0 n /\ zlen law = Z.max 0 n /\
  (forall j, 0 < j < n -> nth (Z.to_nat j) y None = Some (cis (pow_p f0 c k (IZR j))) /\ nth (Z.to_nat j) law None = Some (pow_law f0 c k (IZR j))) /\
  (forall t, (0 < t)%R -> is_derive (pow_p f0 c k) t (2 * PI * pow_law f0 c k t)%R) /\
  (0 < n -> (0 < k)%R -> nth 0 law None = None).
Proof. exact c57_fmpower. Qed.
Print Assumptions C57_fmpower.

(** Two points give the coefficients of a law through both. *)
Theorem C57_fmpower_points : forall n k a1 b1 a2 b2 rest, (0 < a1)%R -> (0 < a2)%R ->
  Rpower a1 (dval k) <> Rpower a2 (dval k) ->
  exists f0 c, fmpower n k (a1 :: b1 :: a2 :: b2 :: rest) = fmpower n k [f0; c] /\ pow_law f0 c (dval k) a1 = b1 /\ pow_law f0 c (dval k) a2 = b2.
Proof. exact c57_fmpower_points. Qed.
Print Assumptions C57_fmpower_points.

(** Every positive integer degree (the documented type) raises. *)
Theorem C57_fmpower_int : forall n k f0 c, 1 <= n -> 1 <= k -> fmpower n (DInt k) [f0; c] = Raise (if k =? 1 then ZeroDivisionError else ValueError).
Proof. exact c57_fmpower_int. Qed.
Print Assumptions C57_fmpower_int.

Theorem C57_fmpower_coeffs : forall n k l, length l = 0%nat \/ length l = 1%nat \/ length l = 3%nat ->
  fmpower n k l = Raise (if Nat.eqb (length l) 3 then IndexError else UnboundLocalError).
Proof. exact c57_fmpower_coeffs. Qed.
Print Assumptions C57_fmpower_coeffs.

Theorem C57_fmsin : forall n fmin fmax per t0 f0 pm1, (fmin < fmax)%R -> per <> 0%R -> (fmin <= f0 <= fmax)%R -> (pm1 = 1 \/ pm1 = -1)%R ->
  let p := sin_p fmin fmax per f0 pm1 in
  let law := sin_law fmin fmax per f0 pm1 in
  fmsin n fmin fmax (Some per) (Some t0) (Some f0) pm1 =
    Ok (Some (map (fun k => cis (p (IZR k - t0)%R)) (arange 0 n), map (fun k => law (IZR k - t0)%R) (arange 0 n))) /\
  (forall t, is_derive p t (2 * PI * law t)%R) /\
  (forall t, fmin <= law t <= fmax)%R /\ law 0%R = f0 /\
  (exists d : R, is_derive law 0%R d /\ d = (pm1 * (2 * PI / per) * sqrt (((fmax - fmin) / 2) ^ 2 - (f0 - (fmin + fmax) / 2) ^ 2))%R).
Proof. exact c57_fmsin. Qed.
Print Assumptions C57_fmsin.

Theorem C57_fmsin_defaults : forall n fmin fmax pm1,
  fmsin n fmin fmax None None None pm1 = fmsin n fmin fmax (Some (IZR n)) (Some (IZR n / 2)%R) (Some ((fmin + fmax) / 2)%R) pm1.
Proof. exact c57_fmsin_defaults. Qed.
Print Assumptions C57_fmsin_defaults.

Theorem C57_fmsin_equal_band : forall n f per t0 f0 pm1, fmsin n f f per t0 f0 pm1 = Raise ZeroDivisionError.
Proof. exact c57_fmsin_equal_band. Qed.
Print Assumptions C57_fmsin_equal_band.

(** fnorm0 outside the band: every sample is NaN. *)
Theorem C57_fmsin_outside : forall n fmin fmax per t0 f0 pm1, 1 <= n -> (fmin < fmax)%R -> (f0 < fmin \/ fmax < f0)%R ->
  fmsin n fmin fmax per t0 (Some f0) pm1 = Ok None.
Proof. exact c57_fmsin_outside. Qed.
Print Assumptions C57_fmsin_outside.

(** A zero period: every sample is NaN.  No points: two empty arrays, whatever the other parameters. *)
Theorem C57_fmsin_zero_period : forall n fmin fmax t0 f0 pm1, 1 <= n -> fmin <> fmax -> fmsin n fmin fmax (Some 0%R) t0 f0 pm1 = Ok None.
Proof. exact c57_fmsin_zero_period. Qed.
Print Assumptions C57_fmsin_zero_period.

Theorem C57_fmsin_no_points : forall n fmin fmax per t0 f0 pm1, n <= 0 -> fmin <> fmax -> fmsin n fmin fmax per t0 f0 pm1 = Ok (Some ([], [])).
Proof. exact c57_fmsin_no_points. Qed.
Print Assumptions C57_fmsin_no_points.

(** The phase at the reference time is (delta*period - 1) sin(phi), not 0. *)
Theorem C57_fmsin_phase : forall fmin fmax per f0 pm1, per <> 0%R ->
  sin_p fmin fmax per f0 pm1 0 = (((fmax - fmin) / 2 * per - 1) * sin (sin_phi fmin fmax f0 pm1))%R.
Proof. exact c57_fmsin_phase. Qed.
Print Assumptions C57_fmsin_phase.

Theorem C57_fmpar : forall n a0 a1 a2,
  fmpar n a0 a1 a2 = (map (fun k => cis (par_p a0 a1 a2 (IZR k))) (arange 0 n), map (fun k => par_law a0 a1 a2 (IZR k)) (arange 0 n)) /\
  (forall t, is_derive (par_p a0 a1 a2) t (2 * PI * (a0 + a1 ^ 2 / 2 * t + a2 ^ 3 / 9 * t ^ 2))%R) /\
  ((forall t, is_derive (par_p a0 a1 a2) t (2 * PI * par_law a0 a1 a2 t)%R) <-> (a1 = 0 \/ a1 = 2)%R /\ (a2 = 0 \/ a2 = 3 \/ a2 = -3)%R).
Proof. exact c57_fmpar. Qed.
Print Assumptions C57_fmpar.

(** The docstring's own coefficients fail. *)
Theorem C57_fmpar_refuted : exists a0 a1 a2, ~ (forall t, is_derive (par_p a0 a1 a2) t (2 * PI * par_law a0 a1 a2 t)%R).
Proof. exact c57_fmpar_refuted. Qed.
Print Assumptions C57_fmpar_refuted.

Example C57_example : forall n, exists y law, fmhyp n 1 (1 / 2) 2 (1 / 4) = Ok (y, law) /\ (0 < n -> nth 0 law 0%R = (1 / 2)%R).
Proof. exact c57_example. Qed.
