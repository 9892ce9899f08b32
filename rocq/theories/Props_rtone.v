(** Property theorems, restated from T_rtone.v (generated by tools/genprops.py).
    C139: the reassigned spectrogram of a pure tone. *)

From Coq Require Import Reals ZArith List Lia Lra Psatz Bool.
From Coquelicot Require Import Coquelicot.
From Flocq Require Import Core.
From Verif Require Import Py Scalars CSum DFT Spec M_base M_stft M_cohen M_putils M_reas P_base T_putils T_reas T_reas2 T_conc T_rtone.
Import ListNotations.
Local Open Scope Z_scope.

(** The cells before reassignment: the window's transform around the tone. *)
Theorem C139_cells : forall x ts n w tfr rtfr vec a f j i, rspec x ts n w = Ok (Some (tfr, rtfr, vec)) -> is_tone x a f -> real_list (rs_w x w) -> symmetric (rs_w x w) ->
  0 <= j < rs_n x n -> 0 <= i < zlen (rs_ts x ts) -> inside x (rs_w x w) (rs_n x n) (nth (Z.to_nat i) (rs_ts x ts) 0) ->
  rent tfr j i = (Cmod a ^ 2 * gain (rs_w x w) (2 * PI * (IZR j / IZR (rs_n x n) - f)) ^ 2 / wener (rs_w x w))%R.
Proof. exact c139_cells. Qed.
Print Assumptions C139_cells.

(** Where each cell goes: no displacement in time, in frequency the transform of
    the centred difference over that of the window. *)
Theorem C139_vectors : forall x ts n w tfr rtfr vec a f j i, rspec x ts n w = Ok (Some (tfr, rtfr, vec)) -> is_tone x a f -> a <> RtoC 0 ->
  real_list (rs_w x w) -> symmetric (rs_w x w) -> 3 <= zlen (rs_w x w) ->
  0 <= j < rs_n x n -> 0 <= i < zlen (rs_ts x ts) -> inside x (rs_w x w) (rs_n x n) (nth (Z.to_nat i) (rs_ts x ts) 0) ->
  let t := (2 * PI * (IZR j / IZR (rs_n x n) - f))%R in let L := (zlen (rs_w x w) - 1) / 2 in
  let bend := (sin t + lagw (rs_w x w) L * (sin (t * IZR L) - sin (t * IZR (L + 1))) / gain (rs_w x w) t)%R in
  dest vec j i = if Rlt_dec (Cmod a ^ 2 / 1000000) (rent tfr j i) then ((j - ZnearestE (IZR (rs_n x n) / (2 * PI) * bend) - 1) mod rs_n x n, Z.max 0 (i - 1)) else (j, i).
Proof. exact c139_vectors. Qed.
Print Assumptions C139_vectors.

(** A window that vanishes at its ends: every cell within n/2 bins of the tone is
    sent next to the tone's row, the better the closer. *)
Theorem C139_rows : forall x ts n w tfr rtfr vec a f j i q, rspec x ts n w = Ok (Some (tfr, rtfr, vec)) -> is_tone x a f -> a <> RtoC 0 ->
  real_list (rs_w x w) -> symmetric (rs_w x w) -> 3 <= zlen (rs_w x w) -> cnth (rs_w x w) 0 = RtoC 0 ->
  0 <= j < rs_n x n -> 0 <= i < zlen (rs_ts x ts) -> inside x (rs_w x w) (rs_n x n) (nth (Z.to_nat i) (rs_ts x ts) 0) ->
  (Cmod a ^ 2 / 1000000 < rent tfr j i)%R -> let n := rs_n x n in let dlt := (IZR (j + q * n) - IZR n * f)%R in (Rabs dlt <= IZR n / 2)%R ->
  exists p, dest vec j i = ((p - 1) mod n, Z.max 0 (i - 1)) /\ (Rabs (IZR p - IZR n * f) <= 1 / 2 + 2 * PI ^ 2 * Rabs dlt ^ 3 / (3 * IZR n ^ 2))%R.
Proof. exact c139_rows. Qed.
Print Assumptions C139_rows.

(** A tone on a bin: all cells up to D bins away are collected in one row, one
    column to the left. *)
Theorem C139_collect : forall x ts n w tfr rtfr vec a k0 D i, rspec x ts n w = Ok (Some (tfr, rtfr, vec)) ->
  let n := rs_n x n in is_tone x a (IZR k0 / IZR n) -> a <> RtoC 0 ->
  real_list (rs_w x w) -> symmetric (rs_w x w) -> 3 <= zlen (rs_w x w) -> cnth (rs_w x w) 0 = RtoC 0 ->
  0 <= i < zlen (rs_ts x ts) -> inside x (rs_w x w) n (nth (Z.to_nat i) (rs_ts x ts) 0) ->
  0 <= D -> (4 * PI ^ 2 * IZR D ^ 3 < 3 * IZR n ^ 2)%R ->
  (forall d, - D <= d <= D -> (Cmod a ^ 2 / 1000000 < rent tfr ((k0 + d) mod n)%Z i)%R -> dest vec ((k0 + d) mod n)%Z i = ((k0 - 1) mod n, Z.max 0 (i - 1))) /\
  (rsum (arange (- D) (D + 1)) (fun d => rent tfr ((k0 + d) mod n)%Z i) - IZR (2 * D + 1) * (Cmod a ^ 2 / 1000000) <= rent rtfr ((k0 - 1) mod n)%Z (Z.max 0 (i - 1)))%R.
Proof. exact c139_collect. Qed.
Print Assumptions C139_collect.

(** Eight samples of a tone with two periods, window (0, 1, 0): flat columns; after
    reassignment row 1 of columns 1..6 holds at least three of the eight cells. *)
Example C139_example : exists x tfr rtfr vec, is_tone x (RtoC 1) (2 / 8) /\ zlen x = 8 /\ rspec x None None (Some [RtoC 0; RtoC 1; RtoC 0]) = Ok (Some (tfr, rtfr, vec)) /\
  forall i, 2 <= i < 8 -> (forall j, 0 <= j < 8 -> rent tfr j i = 1%R) /\ (29 / 10 <= rent rtfr 1 (i - 1))%R.
Proof. exact c139_example. Qed.
