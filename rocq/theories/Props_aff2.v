(** Property theorems, restated from T_aff2.v (generated by tools/genprops.py).
    C68, C82, C83: normalisation of the affine class and the scalogram. *)

From Coq Require Import Reals ZArith List Lia Lra Bool.
From Coquelicot Require Import Coquelicot.
From Flocq Require Import Core.
From Verif Require Import Py Scalars CSum DFT Spec M_base M_utils M_putils M_gen1 M_gen2 M_gen3 M_aff P_base T_utils T_putils T_dom T_gen1 T_gen2 T_hil T_key T_noise T_misc T_misc2 T_aff T_aff2.
Import ListNotations.
Local Open Scope Z_scope.

Theorem C68_band : forall x nts fmin fmax, 0 < zlen x ->
  let a := ZnearestE (fmin * IZR (nts - 2)) in let b := ZnearestE (fmax * IZR (nts - 2)) in
  0 <= a <= b + 1 -> b < zlen x -> aff_mult x nts fmin fmax = Ok (band_energy (map Re x) a b).
Proof. exact c68_band. Qed.
Print Assumptions C68_band.

Theorem C68_affine : forall spl form o tfr t f, (forall x y xi, zlen (spl x y xi) = zlen xi) -> 0 < zlen (a_sig o) ->
  aff_run spl form o = Ok (Some tfr, t, f) ->
  let nts := zlen (a_ts o) in
  t = a_ts o /\ f = geo_grid (a_fmin o) (a_fmax o) (a_nv o) /\ zlen tfr = a_nv o /\ zlen f = a_nv o /\ (forall r, In r tfr -> zlen r = nts) /\
  exists E, aff_mult (a_sig o) nts (a_fmin o) (a_fmax o) = Ok E /\
    integrate_2d tfr nts (Some (map IZR t)) (Some f) = Ok (E / IZR (a_nv o))%R.
Proof. exact c68_affine. Qed.
Print Assumptions C68_affine.

(** All samples used, band below 1/2: bins from round(fmin (N-2)) to
    round(fmax (N-2)), positive frequencies. *)
Theorem C68_inband : forall x fmin fmax, 2 <= zlen x -> (0 < fmin < fmax)%R -> (fmax <= 1 / 2)%R ->
  let N := zlen x in let a := ZnearestE (fmin * IZR (N - 2)) in let b := ZnearestE (fmax * IZR (N - 2)) in
  0 <= a <= b /\ 2 * b < N /\
  aff_mult x N fmin fmax = Ok (rsum (arange a (b + 1)) (fun k => ((if (k =? 0)%Z then 1 else 2) * Cmod (cnth (fft (map RtoC (map Re x))) k)) ^ 2)%R).
Proof. exact c68_inband. Qed.
Print Assumptions C68_inband.

Theorem C83_scalogram : forall x ts fmin fmax wp, 2 <= zlen x -> (0 < fmin < fmax)%R -> (1 / 2 < wp)%R \/ (wp = 0%R /\ (fmax <= 1 / 2)%R) ->
  let N := zlen x in
  exists z, hilbert (map (fun v => Re v - rsum x Re / IZR N)%R x) = Ok z /\
  exists tfr, scalogram x ts (Some fmin) (Some fmax) None (Some (Wnum wp)) =
      Ok (tfr, arange 0 N, geo_grid fmin fmax N, map (fun i => map (voice_wt z fmin fmax wp N i) (arange 0 N)) (arange 0 N)) /\
  exists J, integrate_2d (map (fun i => map (voice z fmin fmax wp N i) (arange 0 N)) (arange 0 N)) N (Some (map IZR (arange 0 N))) (Some (geo_grid fmin fmax N)) = Ok J /\
    (J = 0%R -> tfr = None) /\
    (J <> 0%R -> exists m, tfr = Some m /\ zlen m = N /\ (forall r, In r m -> zlen r = N) /\
       exists c, (forall i t, 0 <= i < N -> 0 <= t < N -> ent m i t = (c * voice z fmin fmax wp N i t)%R) /\
         integrate_2d m N (Some (map IZR (arange 0 N))) (Some (geo_grid fmin fmax N)) = Ok (scal_mult z N fmin fmax / IZR N)%R).
Proof. exact c83_scalogram. Qed.
Print Assumptions C83_scalogram.

Theorem C68_scalogram : forall x z fmin fmax, 2 <= zlen x -> (0 < fmin < fmax)%R -> (fmax <= 1 / 2)%R -> scal_z x = Ok z ->
  let N := zlen x in let a := ZnearestE (fmin * IZR (N - 2)) in let b := ZnearestE (fmax * IZR (N - 2)) in
  0 <= a <= b /\ 2 * (b + 1) <= N + 1 /\ scal_mult z N fmin fmax = band_energy (map Re x) (a + 1) (b + 1).
Proof. exact c68_scalogram. Qed.
Print Assumptions C68_scalogram.

(** *** C82: the options of the scalogram *)
Theorem C82_timestamps_refuted : forall x ts fmin fmax nv wp tfr t f wt, scalogram x ts fmin fmax nv wp = Ok (tfr, t, f, wt) -> t = arange 0 (zlen x).
Proof. exact c82_timestamps_refuted. Qed.
Print Assumptions C82_timestamps_refuted.

(** Defaults: wavelets of half-length sqrt(N) and N voices. *)
Theorem C82_defaults : forall x ts fmin fmax nv wp,
  scalogram x ts fmin fmax nv None = scalogram x ts fmin fmax nv (Some (Wnum (sqrt (IZR (zlen x))))) /\
  scalogram x ts fmin fmax None wp = scalogram x ts fmin fmax (Some (zlen x)) wp.
Proof. exact c82_defaults. Qed.
Print Assumptions C82_defaults.

Theorem C82_array_refuted : forall x ts fmin fmax nv, 0 < zlen x -> scalogram x ts (Some fmin) (Some fmax) nv (Some Warr) = Raise ValueError.
Proof. exact c82_array_refuted. Qed.
Print Assumptions C82_array_refuted.

Theorem C82_voices_refuted : forall x ts fmin fmax nv wp, 2 <= zlen x -> (0 < fmin < fmax)%R -> (1 / 2 < wp)%R \/ (wp = 0%R /\ (fmax <= 1 / 2)%R) ->
  let N := zlen x in 2 <= nv -> nv <> N -> (nv = 2 -> N <> 3) ->
  scalogram x ts (Some fmin) (Some fmax) (Some nv) (Some (Wnum wp)) = Raise (if nv <? N then ValueError else IndexError).
Proof. exact c82_voices_refuted. Qed.
Print Assumptions C82_voices_refuted.

(** A wavelet half-length of at most 1/2. *)
Theorem C82_short_wavelet : forall x ts fmin fmax wp, 2 <= zlen x -> (0 < fmin < fmax)%R -> (0 < wp <= 1 / 2)%R ->
  scalogram x ts (Some fmin) (Some fmax) None (Some (Wnum wp)) = Raise IndexError.
Proof. exact c82_short_wavelet. Qed.
Print Assumptions C82_short_wavelet.

(** A negative wavelet length leaves every row zero: the normalisation divides zero by zero. *)
Theorem C82_negative : forall x ts fmin fmax wp, 2 <= zlen x -> (0 < fmin < fmax)%R -> (wp < 0)%R ->
  let N := zlen x in
  scalogram x ts (Some fmin) (Some fmax) None (Some (Wnum wp)) = Ok (None, arange 0 N, geo_grid fmin fmax N, repeat (zeros N) (Z.to_nat N)).
Proof. exact c82_negative. Qed.
Print Assumptions C82_negative.

Example C82_example : scalogram (repeat (RtoC 1) 256) None (Some (1 / 20)%R) (Some (4 / 10)%R) (Some 128) (Some (Wnum 7%R)) = Raise ValueError.
Proof. exact c82_example. Qed.

Example C68_example : aff_mult [RtoC 1; RtoC 0; RtoC (-1); RtoC 0] 4 (1 / 5) (2 / 5) = Ok 16%R.
Proof. exact c68_example. Qed.

Example C83_example : exists m f wt, scalogram [RtoC 1; RtoC (-1)] None (Some (1 / 8)%R) (Some (1 / 4)%R) None (Some (Wnum 1%R)) = Ok (Some m, [0; 1], f, wt) /\
  integrate_2d m 2 (Some [0%R; 1%R]) (Some f) = Ok 2%R.
Proof. exact c83_example. Qed.
