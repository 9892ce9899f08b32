(** Property theorems, restated from T_par.v (generated by tools/genprops.py).
    C119: the superposition principle of the quadratic representations. *)

From Coq Require Import Reals ZArith List Lia Lra Bool.
From Coquelicot Require Import Coquelicot.
From Verif Require Import Py Scalars CSum DFT Spec M_base M_stft M_cohen M_amb P_base P_stft P_wvd P_pwvd P_spec P_mh T_stft T_wvd T_pwvd T_spec T_mh T_amb T_again T_bound T_par.
Import ListNotations.
Local Open Scope Z_scope.

(** Pseudo Wigner-Ville. *)
Theorem C119_pwvd : forall x y ts n w ox oy op om mx my mp mm f t, 1 <= n -> (zlen w - 1) / 2 < round_half n -> zlen x = zlen y ->
  pwvd x (Some ts) (Some n) (Some w) = Ok (ox, mx) -> pwvd y (Some ts) (Some n) (Some w) = Ok (oy, my) -> pwvd (plus x y) (Some ts) (Some n) (Some w) = Ok (op, mp) -> pwvd (diff x y) (Some ts) (Some n) (Some w) = Ok (om, mm) ->
  0 <= f < n -> 0 <= t < ts_len ts -> (at2 mp f t + at2 mm f t = RtoC 2 * at2 mx f t + RtoC 2 * at2 my f t)%C.
Proof. exact c119_pwvd. Qed.
Print Assumptions C119_pwvd.

(** Ambiguity function. *)
Theorem C119_ambiguity : forall x y lag n nx ny np nm lx ly lp lm ax ay ap am r c, 1 <= n -> zlen x = zlen y ->
  narrow_band x (Some lag) (Some n) = Ok (nx, lx, ax) -> narrow_band y (Some lag) (Some n) = Ok (ny, ly, ay) -> narrow_band (plus x y) (Some lag) (Some n) = Ok (np, lp, ap) -> narrow_band (diff x y) (Some lag) (Some n) = Ok (nm, lm, am) ->
  0 <= r < n -> 0 <= c < zlen lag -> (at2 np r c + at2 nm r c = RtoC 2 * at2 nx r c + RtoC 2 * at2 ny r c)%C.
Proof. exact c119_ambiguity. Qed.
Print Assumptions C119_ambiguity.

Theorem C119_mh : forall x y l n ox oy op om i ti f, 1 <= n -> zlen x = zlen y ->
  mh x (Some (TsI l)) (Some n) = Ok ox -> mh y (Some (TsI l)) (Some n) = Ok oy -> mh (plus x y) (Some (TsI l)) (Some n) = Ok op -> mh (diff x y) (Some (TsI l)) (Some n) = Ok om ->
  nth_error l (Z.to_nat i) = Some ti -> 0 <= ti < zlen x -> 0 <= f < n ->
  (at2 (r_tfr op) f i + at2 (r_tfr om) f i = RtoC 2 * at2 (r_tfr ox) f i + RtoC 2 * at2 (r_tfr oy) f i)%C.
Proof. exact c119_mh. Qed.
Print Assumptions C119_mh.

Theorem C119_page : forall x y l n ox oy op om i ti f, 1 <= n -> zlen x = zlen y ->
  page x (Some (TsI l)) (Some n) = Ok ox -> page y (Some (TsI l)) (Some n) = Ok oy -> page (plus x y) (Some (TsI l)) (Some n) = Ok op -> page (diff x y) (Some (TsI l)) (Some n) = Ok om ->
  nth_error l (Z.to_nat i) = Some ti -> 0 <= ti < zlen x -> 0 <= f < n ->
  (at2 (r_tfr op) f i + at2 (r_tfr om) f i = RtoC 2 * at2 (r_tfr ox) f i + RtoC 2 * at2 (r_tfr oy) f i)%C.
Proof. exact c119_page. Qed.
Print Assumptions C119_page.

Theorem C119_spectrogram : forall x y l n w mx my mp mm i ti cx cy cp cm f, 1 <= n -> zlen x = zlen y ->
  spectrogram x (Some (TsI l)) (Some n) (Some w) = Ok mx -> spectrogram y (Some (TsI l)) (Some n) (Some w) = Ok my ->
  spectrogram (plus x y) (Some (TsI l)) (Some n) (Some w) = Ok mp -> spectrogram (diff x y) (Some (TsI l)) (Some n) (Some w) = Ok mm ->
  nth_error l i = Some ti -> nth_error mx i = Some (Some cx) -> nth_error my i = Some (Some cy) -> nth_error mp i = Some (Some cp) -> nth_error mm i = Some (Some cm) ->
  (wenergy x (wincut (maxlag w n) w) (ti - 1) <> 0)%R -> 0 <= f < n ->
  (rnth cp f + rnth cm f = 2 * rnth cx f + 2 * rnth cy f)%R.
Proof. exact c119_spectrogram. Qed.
Print Assumptions C119_spectrogram.

(** None of them is additive: two copies of the same signal carry four times its energy. *)
Theorem C119_refuted : exists x o o2, wvd x None None = Ok o /\ wvd (plus x x) None None = Ok o2 /\ at2 (r_tfr o2) 0 0 <> (at2 (r_tfr o) 0 0 + at2 (r_tfr o) 0 0)%C.
Proof. exact c119_refuted. Qed.
Print Assumptions C119_refuted.

Example C119_example : exists np nm nx ny lp lm lx ly ap am ax ay, let x := [RtoC 1; Ci; RtoC 2] in let y := [RtoC 3; RtoC 1; Ci] in
  narrow_band x (Some [1]) (Some 3) = Ok (nx, lx, ax) /\ narrow_band y (Some [1]) (Some 3) = Ok (ny, ly, ay) /\ narrow_band (plus x y) (Some [1]) (Some 3) = Ok (np, lp, ap) /\ narrow_band (diff x y) (Some [1]) (Some 3) = Ok (nm, lm, am) /\
  (at2 np 1 0 + at2 nm 1 0 = RtoC 2 * at2 nx 1 0 + RtoC 2 * at2 ny 1 0)%C.
Proof. exact c119_example. Qed.
