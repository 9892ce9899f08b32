(** Property theorems, restated from T_post3.v (generated by tools/genprops.py).
    C44-C46: ideal representation, Friedman density, ridges. *)

From Coq Require Import Reals ZArith List Lia Lra Bool.
From Coquelicot Require Import Coquelicot.
From Flocq Require Import Core.
From Verif Require Import Py Scalars CSum DFT Spec M_base M_putils M_reas M_post P_base T_putils T_reas T_post T_post3.
Import ListNotations.
Local Open Scope Z_scope.

(** Laws without NaN and with values in [0, 1/2], [n >= 1] frequency bins,
    timestamps that index the laws (from either end): the function returns;
    column c holds 1 exactly in the rows round(2 f (n-1)) of the laws at the
    c-th timestamp and 0 elsewhere; and the label of a marked row is within
    3/(4n) of the frequency. *)
Theorem C44_marks : forall iflaws ts n len, 1 <= n -> 0 <= len ->
  (forall law, In law iflaws -> zlen law = len /\ forall v, In v law -> exists f, v = Some f /\ (0 <= f <= 1 / 2)%R) ->
  (forall t, In t ts -> - len <= t < len) ->
  exists m freqs, ideal_tfr iflaws (Some ts) (Some n) = Ok (m, ts, freqs) /\ grid m n (zlen ts) /\ zlen freqs = n /\
  (forall r c, 0 <= r < n -> 0 <= c < zlen ts ->
     cell None m r c = Some 1%R /\ (exists law f, In law iflaws /\ get law (nth (Z.to_nat c) ts 0) = Ok (Some f) /\ r = ZnearestE (2 * f * IZR (n - 1)))
     \/ cell None m r c = Some 0%R /\ ~ (exists law f, In law iflaws /\ get law (nth (Z.to_nat c) ts 0) = Ok (Some f) /\ r = ZnearestE (2 * f * IZR (n - 1)))) /\
  (forall f, (0 <= f <= 1 / 2)%R -> let r := ZnearestE (2 * f * IZR (n - 1)) in 0 <= r < n /\ (Rabs (rnth freqs r - f) <= 3 / (4 * IZR n))%R).
Proof. exact c44_marks. Qed.
Print Assumptions C44_marks.

Theorem C44_default : forall iflaws law, get iflaws 0 = Ok law ->
  ideal_tfr iflaws None None = ideal_tfr iflaws (Some (arange 0 (zlen law))) (Some (zlen law)).
Proof. exact c44_default. Qed.
Print Assumptions C44_default.

Example C44_example : forall a b c d : R, a = 0%R -> b = (1 / 4)%R -> c = (1 / 2)%R -> d = (3 / 16)%R ->
  exists fr, ideal_tfr [[Some a; Some b; Some c]; [Some c; Some b; Some d]] None (Some 5) =
  Ok ([[Some 1; Some 0; Some 0; Some 0; Some 1]; [Some 0; Some 0; Some 1; Some 0; Some 0]; [Some 0; Some 0; Some 1; Some 0; Some 1]]%R, [0; 1; 2], fr).
Proof. exact c44_example. Qed.

(** A NaN in the law of index fi at time t is written at row t, column fi, not
    in the column of that time: here time 1 has no frequency, its column is left
    at zero and the NaN lands in the column of time 0. *)
Theorem C44_nan_refuted : exists iflaws m ts fr, ideal_tfr iflaws None None = Ok (m, ts, fr) /\
  iflaws = [[Some (1 / 4)%R; None]] /\ cell None m 1 0 = None /\ cell None m 0 1 = Some 0%R /\ cell None m 1 1 = Some 0%R.
Proof. exact c44_nan_refuted. Qed.
Print Assumptions C44_nan_refuted.

(** ... and the write raises IndexError when the time is not a row number. *)
Theorem C44_nan_raises : exists iflaws n, ideal_tfr iflaws None (Some n) = Raise IndexError /\ iflaws = [[Some (1 / 4)%R; Some (1 / 4)%R; None]] /\ n = 2.
Proof. exact c44_nan_raises. Qed.
Print Assumptions C44_nan_raises.

Theorem C45_bins : forall n b v, 0 <= b < n -> in_bin n b v = match bin_of n v with Some k => b =? k | None => false end.
Proof. exact c45_bins. Qed.
Print Assumptions C45_bins.

Theorem C45_density : forall tfr re n, 1 <= n ->
  let thr := mean_half tfr in let K := fcount tfr re in
  (K = 0 -> friedman tfr re n = None) /\
  (K <> 0 -> exists m, friedman tfr re n = Some m /\
     (forall v, In v (concat m) -> (0 <= v)%R) /\ rsum (concat m) (fun v => v) = 1%R /\
     grid m n (zlen (fpairs tfr re)) /\
     forall b c, 0 <= b < n -> 0 <= c < zlen (fpairs tfr re) ->
       cell 0%R m b c = (IZR (count (fun vr => gtb (fst vr) thr && match bin_of n (snd vr) with Some k => b =? k | None => false end)
                               (nth (Z.to_nat c) (fpairs tfr re) [])) / IZR K)%R).
Proof. exact c45_density. Qed.
Print Assumptions C45_density.

(** A distribution with a positive total and a relocation defined everywhere
    always has a cell above the threshold. *)
Theorem C45_positive : forall tfr re n, 1 <= n -> zlen re = zlen tfr ->
  (forall k, (k < length tfr)%nat -> length (nth k re []) = length (nth k tfr [])) ->
  (forall c v, In c re -> In v c -> v <> NaN) -> (0 < rsum (concat tfr) (fun v => v))%R ->
  friedman tfr re n <> None.
Proof. exact c45_positive. Qed.
Print Assumptions C45_positive.

(** An all-zero distribution yields NaN everywhere. *)
Theorem C45_zero : forall t re n, 1 <= n -> friedman (repeat (repeat 0%R (Z.to_nat n)) t) re n = None.
Proof. exact c45_zero. Qed.
Print Assumptions C45_zero.

Example C45_example : friedman [[4; 0]; [0; 0]]%R [[Fin (6 / 5); Fin 0]; [PInf; NaN]]%R 2 = Some [[0; 1]; [0; 0]]%R.
Proof. exact c45_example. Qed.

(** *** C46 *)
(** A ridge point of column [icol]: for 'rpwv'/'rpmh' a row above the threshold
    whose relocated frequency is the row itself; for the other methods a row
    whose relocated (frequency, time) is the cell itself, whatever its energy. *)
Theorem C46_points : forall meth thr icol c rc j, In j (ridge_idx meth thr icol c rc) <->
  0 <= j < zlen c /\ exists z, nth (Z.to_nat j) rc None = Some z /\
    match meth with
    | Rpwv => (thr < rnth c j)%R /\ z = RtoC (IZR j)
    | _ => z = (IZR j, IZR icol)
    end.
Proof. exact c46_points. Qed.
Print Assumptions C46_points.

(** What is returned: the points of the last column that has any; with none in
    any column, UnboundLocalError; an unknown method, ValueError. *)
Theorem C46_last : forall tfr re n ts meth, meth <> Rother -> zlen re = zlen tfr -> zlen tfr <= zlen ts ->
  let idx c := ridge_idx meth (mean_half tfr) c (nth (Z.to_nat c) tfr []) (nth (Z.to_nat c) re []) in
  (forall c, 0 <= c < zlen tfr -> idx c <> [] -> (forall c', c < c' < zlen tfr -> idx c' = []) ->
     ridges tfr re n (Some ts) meth = Ok (map (fun _ => rnth ts c) (idx c), map (fun j => IZR j / ridge_div meth n)%R (idx c))) /\
  ((forall c, 0 <= c < zlen tfr -> idx c = []) -> ridges tfr re n (Some ts) meth = Raise UnboundLocalError).
Proof. exact c46_last. Qed.
Print Assumptions C46_last.

Theorem C46_unknown : forall tfr re n ts, ridges tfr re n ts Rother = Raise ValueError.
Proof. exact c46_unknown. Qed.
Print Assumptions C46_unknown.

Theorem C46_default_ts : forall tfr re n meth, ridges tfr re n None meth = ridges tfr re n (Some (map IZR (arange 0 (zlen tfr)))) meth.
Proof. exact c46_default_ts. Qed.
Print Assumptions C46_default_ts.

(** Two columns, one bin: both cells are fixed points above the threshold, only
    the second is returned. *)
Theorem C46_refuted : exists tfr re n, (forall c, 0 <= c < 2 -> In 0 (ridge_idx Rpwv (mean_half tfr) c (nth (Z.to_nat c) tfr []) (nth (Z.to_nat c) re []))) /\ zlen tfr = 2 /\
  ridges tfr re n None Rpwv = Ok ([1%R], [0%R]).
Proof. exact c46_refuted. Qed.
Print Assumptions C46_refuted.

(** 'rsp': a cell of zero energy, below the threshold, is returned. *)
Theorem C46_threshold_refuted : exists tfr re n, ridges tfr re n None Rsp = Ok ([0%R], [0%R]) /\ (rnth (nth 0 tfr []) 0 < mean_half tfr)%R.
Proof. exact c46_threshold_refuted. Qed.
Print Assumptions C46_threshold_refuted.
