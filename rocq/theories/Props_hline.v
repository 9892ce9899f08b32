(** Property theorems, restated from T_hline.v (generated by tools/genprops.py).
    C109: the Hough transform finds lines. *)

From Coq Require Import Reals ZArith List Lia Lra Bool.
From Coquelicot Require Import Coquelicot.
From Flocq Require Import Core.
From Verif Require Import Py Scalars CSum DFT Spec M_base M_putils M_reas M_post P_base P_stft T_putils T_reas T_post T_hline.
Import ListNotations.
Local Open Scope Z_scope.

(** No entry exceeds the brightness of the voting pixels, and an entry reaches it
    exactly when they all lie in its strip. *)
Theorem C109_strip : forall image ymax m n imax ht rho theta, rect image ymax -> 1 <= zlen image -> 1 <= ymax -> 2 <= m -> 1 <= n ->
  (forall a b, 0 <= a < zlen image -> 0 <= b < ymax -> (0 <= pix image a b)%R) -> is_max (concat image) imax ->
  hough image ymax (Some m) (Some n) = Ok (ht, rho, theta) -> forall r k, 0 <= r < m -> 0 <= k < n ->
  (0 <= rent ht r k <= mass image ymax imax)%R /\
  (rent ht r k = mass image ymax imax <-> forall a b, 0 <= a < zlen image -> 0 <= b < ymax -> bright image imax a b = true ->
    (0 <= hrho (zlen image) ymax n a b k)%R /\ ZnearestE (hrho (zlen image) ymax n a b k / spacing (zlen image) ymax m) = r).
Proof. exact c109_strip. Qed.
Print Assumptions C109_strip.

(** Lines of constant frequency: all bright pixels in row a.  The accumulator has
    the whole brightness at angle 0 (or pi), at the distance of the row. *)
Theorem C109_row : forall image ymax m n imax ht rho theta a, rect image ymax -> 1 <= ymax -> 2 <= m -> 1 <= n -> 0 <= a < zlen image ->
  (forall a b, 0 <= a < zlen image -> 0 <= b < ymax -> (0 <= pix image a b)%R) -> is_max (concat image) imax ->
  hough image ymax (Some m) (Some n) = Ok (ht, rho, theta) ->
  (forall a' b, 0 <= a' < zlen image -> 0 <= b < ymax -> bright image imax a' b = true -> a' = a) ->
  let x := hcoord (zlen image) a in
  (0 <= x -> rent ht (ZnearestE (IZR x / spacing (zlen image) ymax m)) 0 = mass image ymax imax) /\
  (x <= 0 -> n mod 2 = 0 -> rent ht (ZnearestE (IZR (- x) / spacing (zlen image) ymax m)) (n / 2) = mass image ymax imax).
Proof. exact c109_row. Qed.
Print Assumptions C109_row.

(** Impulses: all bright pixels in column b; angle 3 pi / 2 or pi / 2. *)
Theorem C109_column : forall image ymax m n imax ht rho theta b, rect image ymax -> 1 <= zlen image -> 2 <= m -> 1 <= n -> 0 <= b < ymax -> n mod 4 = 0 ->
  (forall a b, 0 <= a < zlen image -> 0 <= b < ymax -> (0 <= pix image a b)%R) -> is_max (concat image) imax ->
  hough image ymax (Some m) (Some n) = Ok (ht, rho, theta) ->
  (forall a b', 0 <= a < zlen image -> 0 <= b' < ymax -> bright image imax a b' = true -> b' = b) ->
  let y := hcoord ymax b in
  (0 <= y -> rent ht (ZnearestE (IZR y / spacing (zlen image) ymax m)) (3 * (n / 4)) = mass image ymax imax) /\
  (y <= 0 -> rent ht (ZnearestE (IZR (- y) / spacing (zlen image) ymax m)) (n / 4) = mass image ymax imax).
Proof. exact c109_column. Qed.
Print Assumptions C109_column.

(** A full row above the centre is found at one place only. *)
Theorem C109_unique : forall image ymax m n imax ht rho theta a r k, rect image ymax -> 2 <= ymax -> 2 <= m -> 1 <= n -> 0 <= a < zlen image ->
  (forall a b, 0 <= a < zlen image -> 0 <= b < ymax -> (0 <= pix image a b)%R) -> is_max (concat image) imax ->
  hough image ymax (Some m) (Some n) = Ok (ht, rho, theta) ->
  (forall a' b, 0 <= a' < zlen image -> 0 <= b < ymax -> bright image imax a' b = true -> a' = a) ->
  bright image imax a 0 = true -> bright image imax a (ymax - 1) = true -> let x := hcoord (zlen image) a in 0 < x ->
  (spacing (zlen image) ymax m * IZR n < 2 * IZR (ymax - 1))%R -> 0 <= r < m -> 0 <= k < n ->
  (r = ZnearestE (IZR x / spacing (zlen image) ymax m) /\ k = 0 -> rent ht r k = mass image ymax imax) /\
  (~ (r = ZnearestE (IZR x / spacing (zlen image) ymax m) /\ k = 0) -> (rent ht r k < mass image ymax imax)%R).
Proof. exact c109_unique. Qed.
Print Assumptions C109_unique.

(** Square images of 3 rows or more, default sizes. *)
Theorem C109_square : forall image imax ht rho theta a r k, let N := zlen image in rect image N -> 3 <= N -> 0 <= a < N ->
  (forall a b, 0 <= a < N -> 0 <= b < N -> (0 <= pix image a b)%R) -> is_max (concat image) imax ->
  hough image N None None = Ok (ht, rho, theta) ->
  (forall a' b, 0 <= a' < N -> 0 <= b < N -> bright image imax a' b = true -> a' = a) ->
  bright image imax a 0 = true -> bright image imax a (N - 1) = true -> let x := hcoord N a in 0 < x -> 0 <= r < N -> 0 <= k < N ->
  ((rent ht r k <= mass image N imax)%R /\ (rent ht r k = mass image N imax <-> r = ZnearestE (IZR x * IZR (N - 1) * sqrt 2 / IZR N) /\ k = 0)).
Proof. exact c109_square. Qed.
Print Assumptions C109_square.

(** The last row of a 3 by 3 image: 3 votes at angle 0, distance 1, fewer elsewhere. *)
Example C109_example : exists ht rho theta, hough [[0; 0; 0]; [0; 0; 0]; [1; 1; 1]]%R 3 None None = Ok (ht, rho, theta) /\ rent ht 1 0 = 3%R /\
  forall r k, 0 <= r < 3 -> 0 <= k < 3 -> ~ (r = 1 /\ k = 0) -> (rent ht r k < 3)%R.
Proof. exact c109_example. Qed.
