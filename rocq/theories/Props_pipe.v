(** Property theorems, restated from T_pipe.v (generated by tools/genprops.py).
    C153: friedman_density and ridges applied to the reassignment fields of the library. *)

From Coq Require Import Reals ZArith List Lia Lra Bool.
From Coquelicot Require Import Coquelicot.
From Flocq Require Import Core.
From Verif Require Import Py Scalars CSum DFT Spec M_base M_stft M_cohen M_putils M_reas M_post M_gallery2 P_base P_stft P_spec T_key T_noise T_putils T_reas T_reas2 T_rpwv T_conc T_post3 T_gallery3 T_rtone T_rchirp T_rpimp T_pipe.
Import ListNotations.
Local Open Scope Z_scope.

(** Each cell above the threshold is counted once, in the row after the one its energy is moved to, the last row excepted. *)
Theorem C153_density : forall x ts n w tfr rtfr vec d, rpwv x ts n w = Ok (Some (tfr, rtfr, vec)) -> let n := rp_n x n in friedman tfr (hat_real vec) n = Some d ->
  exists K, 0 < K /\ forall b i, 0 <= b < n -> 0 <= i < zlen (rp_ts x ts) ->
  rent d b i = (IZR (zlen (filter (fun j => gtb (rent tfr j i) (mean_half tfr) && (b =? landing vec n j i)) (arange 0 n))) / IZR K)%R.
Proof. exact c153_density. Qed.
Print Assumptions C153_density.

(** Row 0 of the density stays empty. *)
Theorem C153_row0 : forall x ts n w tfr rtfr vec d, rpwv x ts n w = Ok (Some (tfr, rtfr, vec)) -> 2 <= rp_n x n -> friedman tfr (hat_real vec) (rp_n x n) = Some d ->
  forall i, 0 <= i < zlen (rp_ts x ts) -> rent d 0 i = 0%R.
Proof. exact c153_row0. Qed.
Print Assumptions C153_row0.

(** ridges with 'rpwv': the 1-based rows of the field are compared with 0-based ones, so that a cell is a ridge point when
    its energy is moved one row down, which is where cells without displacement go; row 0 has no ridge points. *)
Theorem C153_ridge_pwv : forall x ts n w tfr rtfr vec thr, rpwv x ts n w = Ok (Some (tfr, rtfr, vec)) -> forall j i, 0 <= i < zlen (rp_ts x ts) ->
  (In j (ridge_idx Rpwv thr i (nth (Z.to_nat i) tfr []) (nth (Z.to_nat i) (hat_z vec) [])) <->
   1 <= j < rp_n x n /\ (thr < rent tfr j i)%R /\ vent vec j i <> None /\ rdest vec j i = j - 1).
Proof. exact c153_ridge_pwv. Qed.
Print Assumptions C153_ridge_pwv.

Theorem C153_undisplaced : forall x ts n w tfr rtfr vec thr, rpwv x ts n w = Ok (Some (tfr, rtfr, vec)) ->
  let l := rp_ts x ts in let w := rp_w x n w in let n := rp_n x n in
  forall j i, 0 <= j < n -> 0 <= i < zlen l -> vent vec j i <> None -> let ti := nth (Z.to_nat i) l 0 in
  exists d q, derive_window (rp_fw w) = Ok (Some d) /\ (Rabs (Im (rp_S x (rp_fw w) d n ti j) * (IZR n / rent tfr j i / (2 * PI)) - IZR q) <= / 2)%R /\
  (In j (ridge_idx Rpwv thr i (nth (Z.to_nat i) tfr []) (nth (Z.to_nat i) (hat_z vec) [])) <-> 1 <= j /\ (thr < rent tfr j i)%R /\ q mod n = 0).
Proof. exact c153_undisplaced. Qed.
Print Assumptions C153_undisplaced.

(** ridges with 'rsp': the rows of this field are 0-based and the columns 1-based; a cell is a ridge point when it keeps its row. *)
Theorem C153_ridge_spec : forall x ts n w tfr rtfr vec thr, rspec x ts n w = Ok (Some (tfr, rtfr, vec)) -> forall j i, 0 <= i < zlen (rs_ts x ts) ->
  (In j (ridge_idx Rsp thr i (nth (Z.to_nat i) tfr []) (nth (Z.to_nat i) (hat_rc vec) [])) <->
   0 <= j < rs_n x n /\ vent vec j i <> None /\ dest vec j i = (j, i - 1)).
Proof. exact c153_ridge_spec. Qed.
Print Assumptions C153_ridge_spec.

(** So a cell without displacement in frequency is never one. *)
Theorem C153_never : forall x ts n w tfr rtfr vec thr, rspec x ts n w = Ok (Some (tfr, rtfr, vec)) -> 3 <= zlen (rs_w x w) -> 2 <= rs_n x n ->
  exists d, derive_window (rs_w x w) = Ok (Some d) /\ forall j i, 0 <= i < zlen (rs_ts x ts) ->
  In j (ridge_idx Rsp thr i (nth (Z.to_nat i) tfr []) (nth (Z.to_nat i) (hat_rc vec) [])) -> let df := disp_f x (rs_w x w) d (rs_n x n) (nth (Z.to_nat i) (rs_ts x ts) 0) j in (df + 1) mod rs_n x n = 0 /\ df <> 0.
Proof. exact c153_never. Qed.
Print Assumptions C153_never.

(** A chirp that is on bin k0 at the instant: of the cells at most D bins away, the one on the chirp is the ridge point, and all are
    counted in its row of the density. *)
Theorem C153_chirp : forall x ts n w tfr rtfr vec A law k0 D i thr, rpwv x ts n w = Ok (Some (tfr, rtfr, vec)) -> sweeps x A law -> (0 < A)%R ->
  let l := rp_ts x ts in let w := rp_w x n w in let n := rp_n x n in real_list w -> symmetric w -> 3 <= zlen w -> cnth w 0 = RtoC 0 -> 0 <= i < zlen l -> (forall t, In t l -> 0 <= t) ->
  let ti := nth (Z.to_nat i) l 0 in fits x w ti -> (2 * IZR n * law (ti - 1)%Z = IZR k0)%R -> 0 <= D -> (4 * PI ^ 2 * IZR D ^ 3 < 3 * IZR n ^ 2)%R ->
  forall d, - D <= d <= D -> let j := (k0 + d) mod n in (A / 1000000 < Rabs (rent tfr j i))%R ->
  (k0 mod n <> 0 -> landing vec n j i = k0 mod n) /\
  (In j (ridge_idx Rpwv thr i (nth (Z.to_nat i) tfr []) (nth (Z.to_nat i) (hat_z vec) [])) <-> d = 0 /\ k0 mod n <> 0 /\ (thr < rent tfr j i)%R).
Proof. exact c153_chirp. Qed.
Print Assumptions C153_chirp.

(** A tone on bin k0 in the reassigned spectrogram: of the cells at most D bins away it is the one below the tone that is found. *)
Theorem C153_tone : forall x ts n w tfr rtfr vec a k0 D i thr, rspec x ts n w = Ok (Some (tfr, rtfr, vec)) ->
  let n := rs_n x n in is_tone x a (IZR k0 / IZR n) -> a <> RtoC 0 ->
  real_list (rs_w x w) -> symmetric (rs_w x w) -> 3 <= zlen (rs_w x w) -> cnth (rs_w x w) 0 = RtoC 0 ->
  0 <= i < zlen (rs_ts x ts) -> inside x (rs_w x w) n (nth (Z.to_nat i) (rs_ts x ts) 0) -> 0 <= D -> (4 * PI ^ 2 * IZR D ^ 3 < 3 * IZR n ^ 2)%R ->
  forall d, - D <= d <= D -> let j := (k0 + d) mod n in (Cmod a ^ 2 / 1000000 < rent tfr j i)%R ->
  (In j (ridge_idx Rsp thr i (nth (Z.to_nat i) tfr []) (nth (Z.to_nat i) (hat_rc vec) [])) <-> 1 <= i /\ (d + 1) mod n = 0).
Proof. exact c153_tone. Qed.
Print Assumptions C153_tone.

(** The line of an impulse is found whole, but for its row 0. *)
Theorem C153_impulse : forall x n w tfr rtfr vec k a thr, rpwv x None n w = Ok (Some (tfr, rtfr, vec)) -> only_at x k a -> a <> RtoC 0 -> 0 <= k < zlen x - 1 -> real_list (rp_w x n w) ->
  forall j, In j (ridge_idx Rpwv thr (k + 1) (nth (Z.to_nat (k + 1)) tfr []) (nth (Z.to_nat (k + 1)) (hat_z vec) [])) <-> 1 <= j < rp_n x n /\ (thr < Cmod a ^ 2)%R.
Proof. exact c153_impulse. Qed.
Print Assumptions C153_impulse.

Example C153_example : exists tfr rtfr vec, rpwv [RtoC 0; RtoC 2; RtoC 0; RtoC 0] None (Some 8) (Some [RtoC 1; RtoC 1; RtoC 1]) = Ok (Some (tfr, rtfr, vec)) /\
  forall j, In j (ridge_idx Rpwv 3 2 (nth 2%nat tfr []) (nth 2%nat (hat_z vec) [])) <-> 1 <= j < 8.
Proof. exact c153_example. Qed.
