(** Property theorems, restated from T_nd.v (generated by tools/genprops.py).
    Arrays of more than one dimension (C124). *)

From Coq Require Import Reals ZArith List Lia Lra Bool.
From Coquelicot Require Import Coquelicot.
From Verif Require Import Py Scalars CSum DFT P_base Spec M_base M_putils M_dom M_amb M_aff M_wb M_gen2 M_nd T_dom T_gen1 T_nd.
Import ListNotations.
Local Open Scope Z_scope.

(** A row or a column is treated as the signal it holds. *)
Theorem C124_row_column : forall x,
  (locfreq_nd (as_row x) = locfreq x /\ locfreq_nd (as_column x) = locfreq x) /\
  (forall ang, inst_freq_nd ang (as_row x) None = inst_freq ang x None /\ inst_freq_nd ang (as_column x) None = inst_freq ang x None) /\
  (forall ang t, inst_freq_nd ang (as_row x) (Some (as_row t)) = inst_freq ang x (Some t) /\ inst_freq_nd ang (as_column x) (Some (as_column t)) = inst_freq ang x (Some t)) /\
  (forall f, group_delay_nd (as_row x) f = group_delay x f /\ group_delay_nd (as_column x) f = group_delay x f) /\
  (forall a b N, wide_band_nd (as_row x) a b N = wide_band x a b N /\ wide_band_nd (as_column x) a b N = wide_band x a b N) /\
  (forall B (init : list C -> res B), base_nd init (as_row x) = init x /\ base_nd init (as_column x) = init x).
Proof. exact c124_row_column. Qed.
Print Assumptions C124_row_column.

(** A matrix without a dimension of length 1: the same array gives a different
    outcome in almost every module. *)
Theorem C124_matrix : forall c (rows : list (list C)), zlen rows <> 1 -> c <> 1 ->
  locfreq_nd (N2 c rows) = Raise TypeError /\
  (forall ang t, inst_freq_nd ang (N2 c rows) t = Raise TypeError) /\
  (forall f, group_delay_nd (N2 c rows) f = Raise TypeError) /\
  (forall a b N, wide_band_nd (N2 c rows) a b N = Raise ValueError) /\
  (forall y r, sigmerge_nd (N2 c rows) y r = Raise AssertionError) /\
  (forall B (init : list C -> res B), affine_nd init (N2 c rows) = Raise IndexError) /\
  (forall B (init : list C -> res B), base_nd init (N2 c rows) = init (concat rows)).
Proof. exact c124_matrix. Qed.
Print Assumptions C124_matrix.

(** Times that are a matrix. *)
Theorem C124_times : forall ang x c (rows : list (list Z)), zlen rows <> 1 -> c <> 1 -> inst_freq_nd ang (N1 x) (Some (N2 c rows)) = Raise TypeError.
Proof. exact c124_times. Qed.
Print Assumptions C124_times.

(** sigmerge accepts no row and no column, in either argument; the affine
    constructors no two-dimensional array at all, but they flatten any array of
    three dimensions or more. *)
Theorem C124_sigmerge : forall a b r,
  (ndim a = 1 /\ ndim b = 1 -> sigmerge_nd a b r = sigmerge (ravel a) (ravel b) r) /\
  (ndim a <> 1 \/ ndim b <> 1 -> sigmerge_nd a b r = Raise AssertionError).
Proof. exact c124_sigmerge. Qed.
Print Assumptions C124_sigmerge.

Theorem C124_affine : forall B (init : list C -> res B),
  (forall x, affine_nd init (N1 x) = init x) /\
  (forall x, affine_nd init (as_row x) = Raise IndexError /\ affine_nd init (as_column x) = Raise IndexError) /\
  (forall s x, 3 <= zlen s -> affine_nd init (NN s x) = init x).
Proof. exact c124_affine. Qed.
Print Assumptions C124_affine.

(** narrow_band with its default lags: of the two-dimensional arrays, only the
    one holding a single sample is accepted. *)
Theorem C124_narrow_band : forall c (rows : list (list C)), 1 <= zlen rows ->
  narrow_band_2d c rows = if (zlen rows =? 1) && (c =? 1) then narrow_band (concat rows) None None else Raise ValueError.
Proof. exact c124_narrow_band. Qed.
Print Assumptions C124_narrow_band.

(** A column of n samples: the same two numbers whatever the signal. *)
Theorem C124_loctime_column : forall x, loctime_nd (as_column x) =
  Ok (if Req_EM_T (energy x) 0 then None else Some ((IZR (zlen x) - 1) / 2, 2 * sqrt (PI * ((IZR (zlen x) ^ 2 - 1) / 12)))%R).
Proof. exact c124_loctime_column. Qed.
Print Assumptions C124_loctime_column.

(** A row: 0 and 0 whatever the signal. *)
Theorem C124_loctime_row : forall x, loctime_nd (as_row x) = Ok (if Req_EM_T (energy x) 0 then None else Some (0, 0)%R).
Proof. exact c124_loctime_row. Qed.
Print Assumptions C124_loctime_row.

(** A matrix that is not square has no outcome but an exception. *)
Theorem C124_loctime_rectangle : forall c rows, c <> zlen rows -> c <> 1 -> zlen rows <> 1 -> loctime_nd (N2 c rows) = Raise ValueError.
Proof. exact c124_loctime_rectangle. Qed.
Print Assumptions C124_loctime_rectangle.

Theorem C124_loctime_square : forall n rows, 1 <= n -> zlen rows = n -> (forall row, In row rows -> zlen row = n) ->
  let E := rsum (arange 0 n) (col_energy rows) in
  let tm := (rsum (arange 0 n) (fun j => IZR j * col_energy rows j) / E)%R in
  loctime_nd (N2 n rows) = Ok (if Req_EM_T E 0 then None else
    Some (tm, 2 * sqrt (PI * (rsum (arange 0 n) (fun j => (IZR j - tm) ^ 2 * col_energy rows j) / E)))%R).
Proof. exact c124_loctime_square. Qed.
Print Assumptions C124_loctime_square.

(** Three dimensions or more. *)
Theorem C124_loctime_deep : forall s x, loctime_nd (NN s x) = if existsb (Z.eqb 1) s then loctime x else Raise TypeError.
Proof. exact c124_loctime_deep. Qed.
Print Assumptions C124_loctime_deep.

(** So the location in time of a signal depends on whether it is a vector, a row or a column. *)
Theorem C124_loctime_refuted : exists x, loctime_nd (N1 x) = Ok (Some (2, 0)%R) /\ loctime_nd (as_row x) = Ok (Some (0, 0)%R) /\
  loctime_nd (as_column x) = Ok (Some (1, 2 * sqrt (PI * (2 / 3)))%R) /\ loctime_nd (NN [1; 3; 1] x) = loctime_nd (N1 x).
Proof. exact c124_loctime_refuted. Qed.
Print Assumptions C124_loctime_refuted.

(** A 2 by 2 matrix in every function. *)
Example C124_example : forall a b c d, let m := N2 2 [[a; b]; [c; d]] in
  locfreq_nd m = Raise TypeError /\ wide_band_nd m None None None = Raise ValueError /\ sigmerge_nd m (N1 [a]) 0 = Raise AssertionError /\
  narrow_band_2d 2 [[a; b]; [c; d]] = Raise ValueError /\ affine_nd (fun x => Ok x) m = Raise IndexError /\ base_nd (fun x => Ok x) m = Ok [a; b; c; d] /\
  loctime_nd (N2 2 [[RtoC 1; RtoC 0]; [RtoC 0; RtoC 1]]) = Ok (Some (1 / 2, 2 * sqrt (PI * (1 / 4)))%R).
Proof. exact c124_example. Qed.
