(** Property theorems, restated from T_plot3.v (generated by tools/genprops.py).
    C95: [plot] of the affine distributions.  C96: Scalogram.plot.
    C98: plotifl. *)

From Coq Require Import Reals ZArith List Lia Lra Bool.
From Coquelicot Require Import Coquelicot.
From Verif Require Import Py Scalars CSum DFT Spec M_base P_base M_utils M_putils M_post M_stft M_cohen M_state M_gen1 M_gen2 M_aff M_plot T_gen1 T_putils T_state T_aff T_plot T_plot2 T_plot3.
Import ListNotations.
Local Open Scope Z_scope.

Theorem C95_outcome : forall k tf th o freqs m rows cols flat, matrix_of m rows cols -> a_nv o = rows -> zlen (a_ts o) = cols -> 1 <= rows -> 1 <= cols -> 2 <= zlen (a_sig o) -> freqs <> [] -> (0 <= th < 1)%R ->
  (flat = false <-> contrast m) ->
  match aff_refusal k tf rows cols (zlen (a_sig o)) flat with
  | Some e => affine_picture k tf th o freqs m = Raise e
  | None => exists m' p, affine_picture k tf th o freqs m = Ok (m', p)
  end.
Proof. exact c95_outcome. Qed.
Print Assumptions C95_outcome.

Theorem C95_inplace : forall k tf th o freqs m m' p rows cols, matrix_of m rows cols -> affine_picture k tf th o freqs m = Ok (m', p) ->
  matrix_of m' rows cols /\
  (exists mx, entry m mx /\ (forall v, entry m v -> (v <= mx)%R) /\
     forall i j, 0 <= i < rows -> 0 <= j < cols -> ent m' i j = if Rle_dec (ent m i j) (th * mx) then 0%R else ent m i j) /\
  ((0 <= th < 1)%R -> affine_picture k tf th o freqs m' = Ok (m', p)).
Proof. exact c95_inplace. Qed.
Print Assumptions C95_inplace.

Theorem C95_labels_refuted : forall th o m m' p rows cols, matrix_of m rows cols -> a_nv o = rows -> (0 < a_fmin o < a_fmax o)%R ->
  let freqs := geo_grid (a_fmin o) (a_fmax o) rows in
  affine_picture Kcontour true th o freqs m = Ok (m', p) ->
  exists a rest, p = a :: rest /\
    (forall k y, placed a k y <-> 0 <= k < rows /\ y = (a_fmin o + IZR k / IZR (rows - 1) * (a_fmax o - a_fmin o))%R) /\
    (forall k y, placed a k y -> 0 < k < rows - 1 -> (rnth freqs k < y)%R) /\
    placed a 0 (rnth freqs 0) /\ placed a (rows - 1) (rnth freqs (rows - 1)).
Proof. exact c95_labels_refuted. Qed.
Print Assumptions C95_labels_refuted.

(** The part of the signal whose spectrum is drawn: from the first to the last
    timestamp. *)
Theorem C97_span : forall ts a b, In a ts -> In b ts -> (forall t, In t ts -> a <= t <= b) -> span ts = (a, b).
Proof. exact c97_span. Qed.
Print Assumptions C97_span.

(** C97, affine: the line beside an affine picture is upside down.  Sample i is
    the power at bin nv - 1 - i of 2 nv (the highest first) and its height grows
    with i. *)
Theorem C97_affine_refuted : forall k th o freqs m m' p rows cols, matrix_of m rows cols -> 4 <= zlen (a_sig o) -> (a_fmin o < a_fmax o)%R ->
  affine_picture k true th o freqs m = Ok (m', p) -> let N := zlen (a_sig o) in
  exists main xs ys, p = main ++ [Line (map IZR (arange 0 N)) (map Re (a_sig o)); Line xs ys] /\ zlen xs = N / 2 /\ zlen ys = N / 2 /\
    forall i, 0 <= i < N / 2 -> rnth xs i = power (pyslice (a_sig o) (fst (span (a_ts o))) (snd (span (a_ts o)) + 1)) (2 * rows) (rows - 1 - i) /\
      side_height true ys (rnth ys i) = (IZR i / IZR (N / 2 - 1))%R.
Proof. exact c97_affine_refuted. Qed.
Print Assumptions C97_affine_refuted.

Theorem C96_draws : forall k tf th x fmin fmax m, 2 <= zlen x -> matrix_of m (zlen x) (zlen x) -> let N := zlen x in
  exists mx m', greatest (concat m) mx /\ m' = cut_rows (mx * th) m /\
  scal_picture k tf th x fmin fmax m = Ok (m', scal_main k tf x m' ++ (if tf then
      [Line (map IZR (arange 0 N)) (map Re x); Line (map (fun i => power x N ((N - 1) / 2 - i)) (arange 0 (N / 2))) (axis fmin fmax (N / 2))] else [])).
Proof. exact c96_draws. Qed.
Print Assumptions C96_draws.

(** Row k holds fmin (fmax/fmin)^(k/(N-1)); the contours put it at k/(2(N-1)), the
    image lower than k/(2N). *)
Theorem C96_labels_refuted : forall tf th x fmin fmax m, 2 <= zlen x -> matrix_of m (zlen x) (zlen x) -> (0 < fmin < fmax)%R -> let N := zlen x in
  (exists m' a rest, scal_picture Kcontour tf th x fmin fmax m = Ok (m', a :: rest) /\
     (forall k y, placed a k y <-> 0 <= k < N /\ y = (IZR k / (2 * IZR (N - 1)))%R) /\ placed a 0 0 /\ (0 < rnth (geo_grid fmin fmax N) 0)%R /\
     (fmax <> 1 / 2 -> placed a (N - 1) (1 / 2) /\ rnth (geo_grid fmin fmax N) (N - 1) <> (1 / 2))%R) /\
  (exists m' a rest, scal_picture Kcmap tf th x fmin fmax m = Ok (m', a :: rest) /\
     (forall k y, placed a k y <-> 0 <= k < N /\ y = (- IZR (N / 2) / IZR N + (IZR k + 1 / 2) * IZR (2 * (N / 2) - 1) / (IZR N * IZR N))%R) /\
     exists y, placed a 0 y /\ (y < 0 < rnth (geo_grid fmin fmax N) 0)%R).
Proof. exact c96_labels_refuted. Qed.
Print Assumptions C96_labels_refuted.

(** C97, scalogram: the ordinates lie in [fmin, fmax] but the axis runs from 0 to
    N//2 - 1: the line is squeezed into the top of the drawing. *)
Theorem C97_scalogram_refuted : forall (x : list C) fmin fmax i, 4 <= zlen x -> (0 < fmin < fmax)%R -> let N := zlen x in let ys := axis fmin fmax (N / 2) in
  0 <= i < N / 2 -> (1 - fmax / IZR (N / 2 - 1) <= side_height false ys (rnth ys i) <= 1)%R.
Proof. exact c97_scalogram_refuted. Qed.
Print Assumptions C97_scalogram_refuted.

(** ** C98: plotifl *)
Theorem C98_outcome : forall (t : list R) (law : list (option R)) (sig : option (list C)),
  let ok := known law <> [] /\ zlen t = zlen law /\ (forall s, sig = Some s -> zlen s = zlen t) in
  (ok -> exists lim, plotifl t law sig = Ok lim) /\ (~ ok -> plotifl t law sig = Raise ValueError).
Proof. exact c98_outcome. Qed.
Print Assumptions C98_outcome.

Theorem C98_limits : forall t law sig lo hi, plotifl t law sig = Ok (lo, hi) ->
  hi = (1 / 2)%R /\ (lo = 0 /\ (forall v, In (Some v) law -> 0 <= v) \/ lo = - (1 / 2) /\ exists v, In (Some v) law /\ v < 0)%R /\
  ((forall v, In (Some v) law -> (lo <= v <= hi)%R) <-> forall v, In (Some v) law -> (Rabs v <= 1 / 2)%R).
Proof. exact c98_limits. Qed.
Print Assumptions C98_limits.

Example C98_example : plotifl [0; 1; 2]%R [Some (1 / 10); None; Some (3 / 10)]%R None = Ok (0, 1 / 2)%R /\ plotifl [0; 1]%R [None; None] None = Raise ValueError /\ plotifl [0]%R [Some (- (1 / 4))]%R None = Ok (- (1 / 2), 1 / 2)%R.
Proof. exact c98_example. Qed.

Example C95_example : forall o freqs, a_nv o = 2 -> a_ts o = [0; 1] -> zlen (a_sig o) = 4 -> freqs <> [] ->
  (exists p, affine_picture Kcontour true (1 / 20) o freqs [[10; 1]; [0; 2 / 10]]%R = Ok ([[10; 1]; [0; 0]]%R, p)) /\
  affine_picture Kcontour true (1 / 20) o freqs [[1; 1]; [1; 1]]%R = Raise ValueError.
Proof. exact c95_example. Qed.

Example C96_example : forall fmin fmax, exists m', scal_picture Kcontour true (1 / 20) [RtoC 1; RtoC 2] fmin fmax [[10; 1]; [0; 2 / 10]]%R =
  Ok (m', [Contour [0; 1]%R (axis 0 (1 / 2) 2) m' None; Line [0; 1]%R [1; 2]%R; Line [9]%R [fmin]]).
Proof. exact c96_example. Qed.

(** What [run] leaves: as many rows as voices, one column per instant; [spl] is
    SciPy's spline evaluation, of which only the length of the result is used. *)
Theorem C95_run : forall spl form o m ts f, (forall u v w, zlen (spl u v w) = zlen w) -> aff_run spl form o = Ok (Some m, ts, f) ->
  matrix_of m (a_nv o) (zlen (a_ts o)) /\ ts = a_ts o /\ f = geo_grid (a_fmin o) (a_fmax o) (a_nv o) /\ 2 <= a_nv o.
Proof. exact c95_run. Qed.
Print Assumptions C95_run.
