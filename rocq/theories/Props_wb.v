(** Property theorems, restated from T_wb.v (generated by tools/genprops.py).
    C84-C86: the wide-band ambiguity function. *)

From Coq Require Import Reals ZArith List Lia Lra Bool.
From Coquelicot Require Import Coquelicot.
From Flocq Require Import Core.
From Verif Require Import Py Scalars CSum DFT Spec M_base M_utils M_putils M_post M_gen1 M_gen2 M_gen3 M_aff M_wb P_base P_spec T_post T_utils T_putils T_dom T_gen1 T_gen2 T_hil T_key T_noise T_misc T_misc2 T_aff T_aff2 T_wb.
From Verif Require T_post3.
Import ListNotations.
Local Open Scope Z_scope.

Theorem C85_value : forall x z fmin fmax N, 2 <= zlen x -> (0 < fmin < fmax)%R -> (fmax <= 1 / 2)%R -> 2 <= N -> hilbert (map Re x) = Ok z ->
  let n := zlen x in let m := half_round n in
  let a := ZnearestE (fmin * IZR (n - 2)) in let b := ZnearestE (fmax * IZR (n - 2)) in
  let E := rsum (arange a (b + 1)) (fun k => ((if (k =? 0)%Z then 1 else 2) * Cmod (cnth (fft (map RtoC (map Re x))) k)) ^ 2)%R in
  let c := cross z fmin fmax N (if Z.even N then -1 else 0) (-1) in
  (c = RtoC 0 -> wide_band x (Some fmin) (Some fmax) (Some N) = Ok None) /\
  (c <> RtoC 0 -> exists w tau theta, wide_band x (Some fmin) (Some fmax) (Some N) = Ok (Some (w, tau, theta)) /\
     zlen w = n /\ (forall col, In col w -> zlen col = N) /\
     forall r i, 0 <= r < N -> 0 <= i < n -> at2 w r i = (cross z fmin fmax N (r - N / 2) (i - m) * RtoC E / c / RtoC (IZR N))%C).
Proof. exact c85_value. Qed.
Print Assumptions C85_value.

(** The cell that carries the band energy: delay -1, and for even N the scale
    index -1. *)
Theorem C85_reference : forall x fmin fmax N w tau theta, 2 <= zlen x -> (0 < fmin < fmax)%R -> (fmax <= 1 / 2)%R -> 2 <= N ->
  wide_band x (Some fmin) (Some fmax) (Some N) = Ok (Some (w, tau, theta)) ->
  let n := zlen x in let m := half_round n in
  let a := ZnearestE (fmin * IZR (n - 2)) in let b := ZnearestE (fmax * IZR (n - 2)) in
  let E := rsum (arange a (b + 1)) (fun k => ((if (k =? 0)%Z then 1 else 2) * Cmod (cnth (fft (map RtoC (map Re x))) k)) ^ 2)%R in
  at2 w (N / 2 - (if Z.even N then 1 else 0)) (m - 1) = RtoC (E / IZR N) /\ nth (Z.to_nat (m - 1)) tau 0 = -1.
Proof. exact c85_reference. Qed.
Print Assumptions C85_reference.

Theorem C85_peak : forall x fmin fmax N w tau theta, 2 <= zlen x -> (0 < fmin < fmax)%R -> (fmax <= 1 / 2)%R -> 2 <= N ->
  wide_band x (Some fmin) (Some fmax) (Some N) = Ok (Some (w, tau, theta)) -> let m := half_round (zlen x) in
  nth (Z.to_nat m) tau 1 = 0 /\ forall r, 0 <= r < N -> (Cmod (at2 w r m) <= Cmod (at2 w (N / 2) m))%R.
Proof. exact c85_peak. Qed.
Print Assumptions C85_peak.

(** Only the real part of the signal matters. *)
Theorem C85_real : forall x fmin fmax N, wide_band (map (fun v => RtoC (Re v)) x) fmin fmax N = wide_band x fmin fmax N.
Proof. exact c85_real. Qed.
Print Assumptions C85_real.

(** Multiplying the signal by a real number multiplies the result by its square. *)
Theorem C85_scale : forall a x fmin fmax N w tau theta, a <> 0%R -> 2 <= zlen x -> (0 < fmin < fmax)%R -> (fmax <= 1 / 2)%R -> 2 <= N ->
  wide_band x (Some fmin) (Some fmax) (Some N) = Ok (Some (w, tau, theta)) ->
  exists w', wide_band (map (fun v => RtoC a * v)%C x) (Some fmin) (Some fmax) (Some N) = Ok (Some (w', tau, theta)) /\
    forall r i, 0 <= r < N -> 0 <= i < zlen x -> at2 w' r i = (RtoC (a ^ 2) * at2 w r i)%C.
Proof. exact c85_scale. Qed.
Print Assumptions C85_scale.

Theorem C85_origin_refuted : exists x fmin fmax N w tau theta, (0 < fmin < fmax)%R /\ (fmax <= 1 / 2)%R /\ wide_band x (Some fmin) (Some fmax) (Some N) = Ok (Some (w, tau, theta)) /\
  nth 1 tau 1 = 0 /\ aff_mult x (zlen x) fmin fmax = Ok 1%R /\ at2 w 1 1 <> RtoC (1 / IZR N).
Proof. exact c85_origin_refuted. Qed.
Print Assumptions C85_origin_refuted.

(** *** C84: outcomes and axes *)
Theorem C84_axes : forall x fmin fmax N w tau theta, 2 <= zlen x -> (0 < fmin < fmax)%R -> (fmax <= 1 / 2)%R -> 2 <= N ->
  wide_band x (Some fmin) (Some fmax) (Some N) = Ok (Some (w, tau, theta)) ->
  zlen w = zlen x /\ (forall col, In col w -> zlen col = N) /\
  tau = map (fun i => i - half_round (zlen x)) (arange 0 (zlen x)) /\
  zlen theta = N /\ (forall k, 0 <= k < N -> rnth theta k = (ln (fmax / fmin) * (2 * IZR k / IZR (N - 1) - 1))%R) /\
  rnth theta 0 = (- ln (fmax / fmin))%R /\ rnth theta (N - 1) = ln (fmax / fmin).
Proof. exact c84_axes. Qed.
Print Assumptions C84_axes.

(** For an even number of voices (every default) no row is labelled with the
    logarithm 0 of the scale 1; the row N / 2, which is the scale 1, is
    labelled ln(fmax / fmin) / (N - 1). *)
Theorem C84_theta_refuted : forall x fmin fmax N w tau theta, 2 <= zlen x -> (0 < fmin < fmax)%R -> (fmax <= 1 / 2)%R -> 2 <= N -> Z.even N = true ->
  wide_band x (Some fmin) (Some fmax) (Some N) = Ok (Some (w, tau, theta)) ->
  (forall k, 0 <= k < N -> rnth theta k <> 0%R) /\ (rnth theta (N / 2) = ln (fmax / fmin) / IZR (N - 1) /\ 0 < rnth theta (N / 2))%R.
Proof. exact c84_theta_refuted. Qed.
Print Assumptions C84_theta_refuted.

Theorem C84_raises : forall fmin fmax N x, (0 < fmin)%R -> (0 < fmax)%R ->
  wide_band [] (Some fmin) (Some fmax) (Some N) = Raise ValueError /\
  (x <> [] -> wide_band x (Some fmin) (Some fmin) (Some N) = Raise ZeroDivisionError) /\
  (x <> [] -> fmin <> fmax -> wide_band x (Some fmin) (Some fmax) (Some 1) = Raise ZeroDivisionError) /\
  (x <> [] -> fmin <> fmax -> N <= 0 -> wide_band x (Some fmin) (Some fmax) (Some N) = Raise ValueError).
Proof. exact c84_raises. Qed.
Print Assumptions C84_raises.

(** The default number of voices. *)
Theorem C84_default_voices : forall x fmin fmax, 2 <= zlen x -> (0 < fmin < fmax)%R ->
  let q := even_part (Zceil (fmax * IZR (zlen x - 1) * ln (fmax / fmin))) in
  (q = 0 -> wide_band x (Some fmin) (Some fmax) None = Raise ValueError) /\
  (q <> 0 -> exists e, 1 <= e /\ q <= 2 ^ e /\ 2 ^ (e - 1) < q /\ wide_band x (Some fmin) (Some fmax) None = wide_band x (Some fmin) (Some fmax) (Some (2 ^ e))).
Proof. exact c84_default_voices. Qed.
Print Assumptions C84_default_voices.

Example C84_example : exists w tau theta, wide_band [RtoC 0; RtoC 1] (Some (1 / 8)%R) (Some (1 / 2)%R) (Some 2) = Ok (Some (w, tau, theta)) /\ tau = [-1; 0] /\ theta = [- ln 4; ln 4]%R.
Proof. exact c84_example. Qed.

Example C85_example : exists w tau theta, wide_band [RtoC 0; RtoC 1] (Some (1 / 8)%R) (Some (1 / 2)%R) (Some 2) = Ok (Some (w, tau, theta)) /\ at2 w 0 0 = RtoC (1 / 2).
Proof. exact c85_example. Qed.

Theorem C86_band : forall x z N, 2 <= zlen x -> hilbert (map Re x) = Ok z ->
  let n := zlen x in let m := half_round n in
  (exists k, 0 <= k < m /\ cnth z ((k + (n + 1) / 2) mod n) <> RtoC 0) ->
  exists lo hi, bounds (envelope z m) lo hi /\
  let a := Rmax (1 / 100) (5 / 100 * IZR (Zfloor (10 * IZR lo / IZR m))) in
  let b := (5 / 100 * IZR (Zceil (10 * IZR hi / IZR m)))%R in
  (a <> b -> wide_band x None None N = wide_band x (Some a) (Some b) N).
Proof. exact c86_band. Qed.
Print Assumptions C86_band.

(** A silent first half of the shifted envelope. *)
Theorem C86_silent : forall x z fmin N, 0 < zlen x -> hilbert (map Re x) = Ok z ->
  let n := zlen x in
  (forall k, 0 <= k < half_round n -> cnth z ((k + (n + 1) / 2) mod n) = RtoC 0) ->
  wide_band x fmin None N = Raise ValueError /\ wide_band x None fmin N = Raise ValueError.
Proof. exact c86_silent. Qed.
Print Assumptions C86_silent.

Theorem C86_spectrum_refuted : forall n k N, 0 < k -> 2 * k < n ->
  let m := half_round n in
  wide_band (tone n k) None None N = wide_band (tone n k) (Some (1 / 100)%R) (Some (5 / 100 * IZR (Zceil (10 * IZR (m - 1) / IZR m)))%R) N.
Proof. exact c86_spectrum_refuted. Qed.
Print Assumptions C86_spectrum_refuted.

Example C86_example : forall N, wide_band (tone 64 1) None None N = wide_band (tone 64 1) (Some (1 / 100)%R) (Some (1 / 2)%R) N.
Proof. exact c86_example. Qed.

(** An upper bound of zero, which the default can be when only the first bin is
    loud: every frequency is zero, the result is not a number. *)
Theorem C86_zero : forall x fmin N, x <> [] -> fmin <> 0%R -> 
  wide_band x (Some fmin) (Some 0%R) (Some N) = if N =? 1 then Raise ZeroDivisionError else if N <=? 0 then Raise ValueError else Ok None.
Proof. exact c86_zero. Qed.
Print Assumptions C86_zero.

(** A two-sample signal always falls in this case: no entry of the result is a number. *)
Theorem C86_two_refuted : forall a b N, b <> 0%R -> 2 <= N -> wide_band [RtoC a; RtoC b] None None (Some N) = Ok None.
Proof. exact c86_two_refuted. Qed.
Print Assumptions C86_two_refuted.
