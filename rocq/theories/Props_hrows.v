(** Property theorems, restated from T_hrows.v (generated by tools/genprops.py).
    C41: accumulators with a single row, with none, and sizes that are refused. *)

From Coq Require Import Reals ZArith List Lia Lra Bool.
From Coquelicot Require Import Coquelicot.
From Flocq Require Import Core.
From Verif Require Import Py Scalars CSum DFT Spec M_base M_putils M_reas M_post P_base P_stft T_putils T_reas T_post T_hrows.
Import ListNotations.
Local Open Scope Z_scope.

(** One row: the bin width is infinite (a division by 0.0) and every vote lands in row 0. *)
Theorem C41_one_row : forall image ymax n imax, rect image ymax -> 1 <= zlen image -> 1 <= ymax -> 1 <= n -> is_max (concat image) imax ->
  exists ht rho theta, hough image ymax (Some 1) (Some n) = Ok (ht, rho, theta) /\ shape ht 1 n /\
  forall k, 0 <= k < n -> rent ht 0 k =
     rsum (arange 0 (zlen image)) (fun a => rsum (arange 0 ymax) (fun b =>
       if gtb (Rabs (pix image a b)) (imax / 20) && Rleb 0 (hrho (zlen image) ymax n a b k) then pix image a b else 0%R)).
Proof. exact c41_one_row. Qed.
Print Assumptions C41_one_row.

(** No row: the first vote raises; an image without one returns an empty accumulator. *)
Theorem C41_no_row : forall image ymax n imax, rect image ymax -> 1 <= zlen image -> 1 <= ymax -> 1 <= n -> is_max (concat image) imax ->
  ((exists a b k, 0 <= a < zlen image /\ 0 <= b < ymax /\ 0 <= k < n /\ (imax / 20 < Rabs (pix image a b))%R /\ (0 <= hrho (zlen image) ymax n a b k)%R) ->
    hough image ymax (Some 0) (Some n) = Raise IndexError) /\
  ((forall a b k, 0 <= a < zlen image -> 0 <= b < ymax -> 0 <= k < n -> (imax / 20 < Rabs (pix image a b))%R -> (hrho (zlen image) ymax n a b k < 0)%R) ->
    exists rho theta, hough image ymax (Some 0) (Some n) = Ok (repeat [] (Z.to_nat n), rho, theta)).
Proof. exact c41_no_row. Qed.
Print Assumptions C41_no_row.

(** No angle divides by zero, whatever the rest; negative sizes are refused. *)
Theorem C41_bad_sizes : forall image ymax m n, (n = 0 -> hough image ymax m (Some n) = Raise ZeroDivisionError) /\
  (n <> 0 -> (n < 0 \/ exists k, m = Some k /\ k < 0) -> hough image ymax m (Some n) = Raise ValueError).
Proof. exact c41_bad_sizes. Qed.
Print Assumptions C41_bad_sizes.

Example C41_rows_example : hough [[1%R]] 1 (Some 0) (Some 1) = Raise IndexError /\
  exists ht rho theta, hough [[1%R]] 1 (Some 1) (Some 1) = Ok (ht, rho, theta) /\ rent ht 0 0 = 1%R.
Proof. exact c41_rows_example. Qed.
