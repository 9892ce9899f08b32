(** Property theorems, restated from T_chirp2.v (generated by tools/genprops.py).
    C102: the ambiguity function of a linear chirp. *)

From Coq Require Import Reals ZArith List Lia Lra Bool.
From Coquelicot Require Import Coquelicot.
From Flocq Require Import Core.
From Verif Require Import Py Scalars CSum DFT Spec M_base M_stft M_cohen M_dom M_gen1 M_amb P_base P_stft P_wvd T_dom T_gen1 T_wvd T_amb Dirichlet Kernel T_chirp T_chirp2.
Import ListNotations.
Local Open Scope Z_scope.

(** The modulus in the column of lag tau is that of a geometric sum of
    n - 2|tau| terms centred at the Doppler shift 2 tau sweep. *)
Theorem C102_entry : forall n fi ff t0 y law lag nf naf lag' xi r c, fmlin n fi ff t0 = Ok (y, law) -> 1 <= nf -> narrow_band y (Some lag) (Some nf) = Ok (naf, lag', xi) ->
  0 <= r < nf -> 0 <= c < zlen lag -> let tau := nth (Z.to_nat c) lag 0 in 2 * Z.abs tau <= n ->
  Cmod (at2 naf r c) = Cmod (tone_sum (n - 2 * Z.abs tau) (2 * sweep n fi ff * IZR tau - rnth xi r)).
Proof. exact c102_entry. Qed.
Print Assumptions C102_entry.

(** With at least two overlapping samples and no more than bins, row r is a maximum
    of the column iff no Doppler value of the axis is nearer (modulo 1) to 2 tau
    sweep. *)
Theorem C102_ridge : forall n fi ff t0 y law lag nf naf lag' xi r c, fmlin n fi ff t0 = Ok (y, law) -> 1 <= nf -> narrow_band y (Some lag) (Some nf) = Ok (naf, lag', xi) ->
  0 <= r < nf -> 0 <= c < zlen lag -> let tau := nth (Z.to_nat c) lag 0 in 2 <= n - 2 * Z.abs tau <= nf ->
  ((forall g, 0 <= g < nf -> (Cmod (at2 naf g c) <= Cmod (at2 naf r c))%R) <->
   (forall g, 0 <= g < nf -> (dist_int (2 * sweep n fi ff * IZR tau - rnth xi r) <= dist_int (2 * sweep n fi ff * IZR tau - rnth xi g))%R)).
Proof. exact c102_ridge. Qed.
Print Assumptions C102_ridge.

(** Such a row is within half a bin of the line of slope 2 sweep through the origin. *)
Theorem C102_line : forall n fi ff t0 y law lag nf naf lag' xi r c, fmlin n fi ff t0 = Ok (y, law) -> 1 <= nf -> narrow_band y (Some lag) (Some nf) = Ok (naf, lag', xi) ->
  0 <= r < nf -> 0 <= c < zlen lag -> let tau := nth (Z.to_nat c) lag 0 in 2 <= n - 2 * Z.abs tau <= nf ->
  (forall g, 0 <= g < nf -> (Cmod (at2 naf g c) <= Cmod (at2 naf r c))%R) ->
  exists q, (Rabs (2 * sweep n fi ff * IZR tau - (rnth xi r + IZR q)) <= 1 / (2 * IZR nf))%R.
Proof. exact c102_line. Qed.
Print Assumptions C102_line.

(** Value on the line: n - 2|tau|, the largest a column can hold, reached exactly
    where the axis meets the line. *)
Theorem C102_peak : forall n fi ff t0 y law lag nf naf lag' xi r c, fmlin n fi ff t0 = Ok (y, law) -> 1 <= nf -> narrow_band y (Some lag) (Some nf) = Ok (naf, lag', xi) ->
  0 <= r < nf -> 0 <= c < zlen lag -> let tau := nth (Z.to_nat c) lag 0 in 2 <= n - 2 * Z.abs tau ->
  (Cmod (at2 naf r c) <= IZR (n - 2 * Z.abs tau))%R /\
  (Cmod (at2 naf r c) = IZR (n - 2 * Z.abs tau) <-> exists q, (2 * sweep n fi ff * IZR tau = rnth xi r + IZR q)%R).
Proof. exact c102_peak. Qed.
Print Assumptions C102_peak.

(** 16 samples from 0 to 15/32 (sweep 1/32): at lag 2, Doppler 1/8, the value is 12. *)
Example C102_example : exists y law naf lag xi, fmlin 16 0 (15 / 32) None = Ok (y, law) /\ narrow_band y None None = Ok (naf, lag, xi) /\ nth 9 lag 0 = 2 /\ rnth xi 10 = (1 / 8)%R /\ Cmod (at2 naf 10 9) = 12%R.
Proof. exact c102_example. Qed.
