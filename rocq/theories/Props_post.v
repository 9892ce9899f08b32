(** Property theorems, restated from T_post.v (generated by tools/genprops.py).
    C41: the Hough transform. *)

From Coq Require Import Reals ZArith List Lia Lra Bool.
From Coquelicot Require Import Coquelicot.
From Flocq Require Import Core.
From Verif Require Import Py Scalars CSum DFT Spec M_base M_putils M_reas M_post P_base P_stft T_putils T_reas T_post.
Import ListNotations.
Local Open Scope Z_scope.

(** No line through a pixel is farther from the origin than the last row of the
    accumulator: the test [rho <= rhomax] never fails. *)
Theorem C41_rho_bound : forall xmax ymax n a b k, 0 <= a < xmax -> 0 <= b < ymax ->
  (hrho xmax ymax n a b k <= sqrt (IZR xmax ^ 2 + IZR ymax ^ 2) / 2)%R.
Proof. exact c41_rho_bound. Qed.
Print Assumptions C41_rho_bound.

Theorem C41_entries : forall image ymax m n imax, rect image ymax -> 1 <= zlen image -> 1 <= ymax -> 1 <= m -> 1 <= n ->
  is_max (concat image) imax ->
  let rhomax := (sqrt (IZR (zlen image) ^ 2 + IZR ymax ^ 2) / 2)%R in
  exists ht rho theta, hough image ymax (Some m) (Some n) = Ok (ht, rho, theta) /\ shape ht m n /\
  (forall r k, 0 <= r < m -> 0 <= k < n -> rent ht r k =
     rsum (arange 0 (zlen image)) (fun a => rsum (arange 0 ymax) (fun b =>
       let p := hrho (zlen image) ymax n a b k in
       if gtb (Rabs (pix image a b)) (imax / 20) && Rleb 0 p && (ZnearestE (p / (rhomax / IZR (m - 1))) =? r) then pix image a b else 0%R))) /\
  zlen theta = n /\ (forall k, 0 <= k < n -> rnth theta k = (2 * PI * IZR k / IZR n)%R) /\
  zlen rho = n /\ (forall k, 0 <= k < n -> 2 <= n -> rnth rho k = (IZR k * rhomax / IZR (n - 1))%R).
Proof. exact c41_entries. Qed.
Print Assumptions C41_entries.

(** The accumulator's total: every pixel above the threshold votes once for each
    angle at which its line has a non-negative distance. *)
Theorem C41_total : forall image ymax m n imax, rect image ymax -> 1 <= zlen image -> 1 <= ymax -> 1 <= m -> 1 <= n ->
  is_max (concat image) imax ->
  exists ht rho theta, hough image ymax (Some m) (Some n) = Ok (ht, rho, theta) /\
  rsum (arange 0 n) (fun k => rsum (arange 0 m) (fun r => rent ht r k)) =
  rsum (arange 0 (zlen image)) (fun a => rsum (arange 0 ymax) (fun b =>
    if gtb (Rabs (pix image a b)) (imax / 20) then (IZR (votes image ymax n a b) * pix image a b)%R else 0%R)).
Proof. exact c41_total. Qed.
Print Assumptions C41_total.

(** The rho axis has one entry per angle, not per row. *)
Theorem C41_rho_axis_refuted : exists image ymax m n ht rho theta, hough image ymax (Some m) (Some n) = Ok (ht, rho, theta) /\
  shape ht m n /\ zlen rho <> m.
Proof. exact c41_rho_axis_refuted. Qed.
Print Assumptions C41_rho_axis_refuted.

(** Empty images raise. *)
Theorem C41_empty : forall m n, 0 <= m -> 0 < n -> hough [] 0 (Some m) (Some n) = Raise ValueError.
Proof. exact c41_empty. Qed.
Print Assumptions C41_empty.

(** Image [[0], [1]], two rows, one angle: the bright pixel votes once, in row 1. *)
Example C41_example : exists ht rho theta, hough [[0]; [1]]%R 1 (Some 2) (Some 1) = Ok (ht, rho, theta) /\ rent ht 1 0 = 1%R /\ rent ht 0 0 = 0%R.
Proof. exact c41_example. Qed.
