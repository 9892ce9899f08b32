(** Property theorems, restated from T_bwd.v (generated by tools/genprops.py).
    C141: the affine distributions with fmax < fmin. *)

From Coq Require Import Reals ZArith List Lia Lra Psatz Bool.
From Coquelicot Require Import Coquelicot.
From Flocq Require Import Core.
From Verif Require Import Py Scalars CSum DFT Spec M_base P_base M_utils M_putils M_post M_gen1 M_gen2 M_gen3 M_aff M_wb M_bwd P_spec T_post T_utils T_putils T_dom T_gen1 T_gen2 T_hil T_key T_noise T_misc T_misc2 T_aff T_aff2 T_wb T_aff3 T_bwd.
Import ListNotations.
Local Open Scope Z_scope.

(** A positive length T gives a negative number of samples. *)
Theorem C141_voices : forall fmin fmax T, (0 < fmax < fmin)%R -> 1 <= T -> get_nvoices fmin fmax (Some T) = Raise ValueError.
Proof. exact c141_voices. Qed.
Print Assumptions C141_voices.

Theorem C141_bertrand : forall x ts fmin fmax nv, (0 < fmax < fmin)%R -> aff_new Bert x ts (Some fmin) (Some fmax) nv = Raise ValueError.
Proof. exact c141_bertrand. Qed.
Print Assumptions C141_bertrand.

(** D-Flandrin: the root of the band the right way round; the default number of voices never works. *)
Theorem C141_flandrin : forall x ts fmin fmax, 1 <= zlen x -> (0 < fmax < fmin)%R ->
  let N := zlen x in let v := (fmax * aff_root Dfl (fmin / fmax))%R in
  aff_new Dfl x ts (Some fmin) (Some fmax) None = Raise (if Rlt_dec (IZR (half_len N)) (IZR (2 * half_len N) * v) then ValueError else AttributeError) /\
  forall nv, exists o, aff_new Dfl x ts (Some fmin) (Some fmax) (Some nv) = Ok o /\ a_nv o = nv /\ a_umax o = aff_root Dfl (fmin / fmax) /\ half_len N <= a_m1 o /\
    a_fmin o = fmin /\ a_fmax o = fmax.
Proof. exact c141_flandrin. Qed.
Print Assumptions C141_flandrin.

(** The number of points of the grid of u has the sign of umax times that of m1. *)
Theorem C141_count : forall u m, m <> 0 -> ((0 < u)%R -> aff_count u m = 2 * m) /\ ((u < 0)%R -> aff_count u m = - (2 * m)).
Proof. exact c141_count. Qed.
Print Assumptions C141_count.

(** On the objects described so far nothing changes. *)
Theorem C141_same : forall spl form o, (0 < a_umax o)%R -> 1 <= a_m1 o -> aff_run_any spl form o = aff_run spl form o.
Proof. exact c141_same. Qed.
Print Assumptions C141_same.

(** Unterberger: a negative root and T always set.  The default number of voices is refused when m1 >= 1;
    whatever the number of voices, run never returns. *)
Theorem C141_unterberger : forall x ts fmin fmax, 1 <= zlen x -> (0 < fmax < fmin)%R ->
  let v := (fmax * (sqrt (fmin / fmax) - / sqrt (fmin / fmax)))%R in
  (0 < v)%R /\ exists m1,
  (Rabs (IZR m1 - 1 + 2 * IZR (half_len (zlen x)) * v) <= / 2)%R /\
  (1 <= m1 -> aff_new Unt x ts (Some fmin) (Some fmax) None = Raise ValueError) /\
  (forall nv, exists o, aff_new Unt x ts (Some fmin) (Some fmax) (Some nv) = Ok o /\ a_nv o = nv) /\
  forall nv o, aff_new Unt x ts (Some fmin) (Some fmax) nv = Ok o -> a_m1 o = m1 /\ (a_umax o < 0)%R /\
    forall spl form, aff_run_any spl form o = Raise (if a_nv o =? 1 then ZeroDivisionError else if (1 <=? a_nv o) && (m1 =? 0) then IndexError else ValueError).
Proof. exact c141_unterberger. Qed.
Print Assumptions C141_unterberger.

(** The frequency axis then goes down from fmin to fmax in a constant ratio. *)
Theorem C141_axis : forall fmin fmax nv, (0 < fmax < fmin)%R -> 2 <= nv -> let f := geo_grid fmin fmax nv in
  zlen f = nv /\ rnth f 0 = fmin /\ rnth f (nv - 1) = fmax /\ exists q, (0 < q < 1)%R /\ forall k, 0 <= k < nv - 1 -> (rnth f (k + 1) = q * rnth f k)%R.
Proof. exact c141_axis. Qed.
Print Assumptions C141_axis.

(** D-Flandrin with a number of voices given does return, for three samples and more: every point of the warped
    time axis, built from the last (here the lowest) frequency, is kept for every voice. *)
Theorem C141_flandrin_run : forall spl form x ts fmin fmax nv o, (forall u v w, zlen (spl u v w) = zlen w) -> 3 <= zlen x -> (0 < fmax < fmin)%R -> 2 <= nv ->
  aff_new Dfl x ts (Some fmin) (Some fmax) (Some nv) = Ok o -> 2 <= zlen (a_ts o) ->
  exists tfr, aff_run_any spl form o = Ok (tfr, a_ts o, geo_grid fmin fmax nv).
Proof. exact c141_flandrin_run. Qed.
Print Assumptions C141_flandrin_run.

Theorem C141_flandrin_zero : forall spl form x ts fmin fmax nv o m t f, (0 < fmax < fmin)%R -> aff_new Dfl x ts (Some fmin) (Some fmax) nv = Ok o -> 2 <= zlen (a_ts o) -> (1 < (fmin - fmax) * IZR (zlen (a_ts o) - 2))%R ->
  aff_run_any spl form o = Ok (Some m, t, f) -> forall row v, In row m -> In v row -> v = 0%R.
Proof. exact c141_flandrin_zero. Qed.
Print Assumptions C141_flandrin_zero.

Theorem C141_scalogram_zero : forall x ts fmin fmax nv wp m t f wt, (0 < fmax < fmin)%R -> 2 <= zlen x -> (1 < (fmin - fmax) * IZR (zlen x - 2))%R ->
  scalogram x ts (Some fmin) (Some fmax) nv wp = Ok (Some m, t, f, wt) -> forall row v, In row m -> In v row -> v = 0%R.
Proof. exact c141_scalogram_zero. Qed.
Print Assumptions C141_scalogram_zero.

(** 16 samples, band 0.4 down to 0.1, 8 voices: m1 = -1 and run raises ValueError. *)
Example C141_example : forall x, zlen x = 16 -> exists o, aff_new Unt x None (Some (4 / 10)%R) (Some (1 / 10)%R) (Some 8) = Ok o /\ a_m1 o = -1 /\ forall spl form, aff_run_any spl form o = Raise ValueError.
Proof. exact c141_example. Qed.
