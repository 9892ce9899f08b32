(** Property theorems, restated from T_rchirp.v (generated by tools/genprops.py).
    C145: the reassigned pseudo Wigner-Ville distribution of a linear chirp. *)

From Coq Require Import Reals ZArith List Lia Lra Psatz Bool.
From Coquelicot Require Import Coquelicot.
From Flocq Require Import Core.
From Verif Require Import Py Scalars CSum DFT Spec M_base M_stft M_cohen M_putils M_reas M_gen1 P_base T_noise T_key T_noise T_putils T_reas T_reas2 T_conc T_rpwv T_chirp T_rtone T_rchirp.
Import ListNotations.
Local Open Scope Z_scope.

(** Quadratic phases sweep, in particular tones; so does fmlin, along the law it returns. *)
Theorem C145_quadratic : forall x a f0 b, (forall m, 0 <= m < zlen x -> cnth x m = (a * cis (2 * PI * (f0 * IZR m + b * IZR m ^ 2 / 2)))%C) ->
  sweeps x (Cmod a ^ 2) (fun t => f0 + b * IZR t)%R.
Proof. exact c145_quadratic. Qed.
Print Assumptions C145_quadratic.

Theorem C145_fmlin : forall n fi ff t0 y law, fmlin n fi ff t0 = Ok (y, law) -> sweeps y 1 (rnth law).
Proof. exact c145_fmlin. Qed.
Print Assumptions C145_fmlin.

(** Cell (j, i): the transform of the window, centred at twice the frequency of sample ti - 1. *)
Theorem C145_cells : forall x ts n w tfr rtfr vec A law j i, rpwv x ts n w = Ok (Some (tfr, rtfr, vec)) -> sweeps x A law ->
  let l := rp_ts x ts in let w := rp_w x n w in let n := rp_n x n in real_list w -> symmetric w -> 0 <= j < n -> 0 <= i < zlen l ->
  let ti := nth (Z.to_nat i) l 0 in fits x w ti ->
  rent tfr j i = (A * gain w (2 * PI * (IZR j / IZR n - 2 * law (ti - 1)%Z)) / lagw w 0)%R.
Proof. exact c145_cells. Qed.
Print Assumptions C145_cells.

(** Where the cells go. *)
Theorem C145_vectors : forall x ts n w tfr rtfr vec A law j i, rpwv x ts n w = Ok (Some (tfr, rtfr, vec)) -> sweeps x A law -> (0 < A)%R ->
  let l := rp_ts x ts in let w := rp_w x n w in let n := rp_n x n in real_list w -> symmetric w -> 3 <= zlen w -> 0 <= j < n -> 0 <= i < zlen l -> (forall t, In t l -> 0 <= t) ->
  let ti := nth (Z.to_nat i) l 0 in fits x w ti ->
  let t := (2 * PI * (IZR j / IZR n - 2 * law (ti - 1)%Z))%R in let L := (zlen w - 1) / 2 in
  let bend := (sin t + lagw w L * (sin (t * IZR L) - sin (t * IZR (L + 1))) / gain w t)%R in
  rdest vec j i = if Rlt_dec (A / 1000000) (Rabs (rent tfr j i)) then (j - ZnearestE (IZR n / (2 * PI) * bend) - 1) mod n else j.
Proof. exact c145_vectors. Qed.
Print Assumptions C145_vectors.

(** A window that vanishes at its ends: every moved cell within n/2 bins of the ridge is
    sent next to the row of the frequency at that instant, the better the closer. *)
Theorem C145_rows : forall x ts n w tfr rtfr vec A law j i q, rpwv x ts n w = Ok (Some (tfr, rtfr, vec)) -> sweeps x A law -> (0 < A)%R ->
  let l := rp_ts x ts in let w := rp_w x n w in let n := rp_n x n in real_list w -> symmetric w -> 3 <= zlen w -> cnth w 0 = RtoC 0 -> 0 <= j < n -> 0 <= i < zlen l -> (forall t, In t l -> 0 <= t) ->
  let ti := nth (Z.to_nat i) l 0 in fits x w ti -> (A / 1000000 < Rabs (rent tfr j i))%R ->
  let f := law (ti - 1) in let dlt := (IZR (j + q * n) - 2 * IZR n * f)%R in (Rabs dlt <= IZR n / 2)%R ->
  exists p, rdest vec j i = (p - 1) mod n /\ (Rabs (IZR p - 2 * IZR n * f) <= 1 / 2 + 2 * PI ^ 2 * Rabs dlt ^ 3 / (3 * IZR n ^ 2))%R.
Proof. exact c145_rows. Qed.
Print Assumptions C145_rows.

(** An instant at which twice the frequency is bin k0: the cells up to D bins away meet in
    row k0 - 1 of the same column, up to the small cells and the far ones. *)
Theorem C145_collect : forall x ts n w tfr rtfr vec A law k0 D i, rpwv x ts n w = Ok (Some (tfr, rtfr, vec)) -> sweeps x A law -> (0 < A)%R ->
  let l := rp_ts x ts in let w := rp_w x n w in let n := rp_n x n in real_list w -> symmetric w -> 3 <= zlen w -> cnth w 0 = RtoC 0 -> 0 <= i < zlen l -> (forall t, In t l -> 0 <= t) ->
  let ti := nth (Z.to_nat i) l 0 in fits x w ti -> (2 * IZR n * law (ti - 1)%Z = IZR k0)%R ->
  0 <= D -> (4 * PI ^ 2 * IZR D ^ 3 < 3 * IZR n ^ 2)%R ->
  (forall d, - D <= d <= D -> (A / 1000000 < Rabs (rent tfr ((k0 + d) mod n)%Z i))%R -> rdest vec ((k0 + d) mod n)%Z i = (k0 - 1) mod n) /\
  (Rabs (rent rtfr ((k0 - 1) mod n)%Z i - rsum (arange (- D) (D + 1)) (fun d => rent tfr ((k0 + d) mod n)%Z i)) <=
    IZR (2 * D + 1) * (A / 1000000) + rsum (arange (D + 1) (n - D)) (fun d => Rabs (rent tfr ((k0 + d) mod n)%Z i)))%R.
Proof. exact c145_collect. Qed.
Print Assumptions C145_collect.

(** Eight samples exp(2 i pi m^2/16), whose frequency at sample m is m/8, window (0, 1, 0): flat
    columns of ones; after reassignment row 2(i-1) - 1 (mod 8) of column i holds 3. *)
Example C145_example : exists x tfr rtfr vec, (forall m, 0 <= m < 8 -> cnth x m = cis (2 * PI * (IZR m ^ 2 / 16))) /\ zlen x = 8 /\
  rpwv x None None (Some [RtoC 0; RtoC 1; RtoC 0]) = Ok (Some (tfr, rtfr, vec)) /\
  forall i, 2 <= i < 8 -> (forall j, 0 <= j < 8 -> rent tfr j i = 1%R) /\ rent rtfr ((2 * (i - 1) - 1) mod 8)%Z i = 3%R.
Proof. exact c145_example. Qed.
