(** Property theorems, restated from T_postx.v (generated by tools/genprops.py).
    C137: the post-processing functions follow their input: a louder image, a
    turned image, a transposed image, an ideal representation. *)

From Coq Require Import Reals ZArith List Lia Lra Bool.
From Coquelicot Require Import Coquelicot.
From Flocq Require Import Core.
From Verif Require Import Py Scalars CSum DFT Spec M_base M_putils M_reas M_post P_base P_stft T_putils T_reas T_post T_post2 T_post3 T_hline T_hrows T_postx.
Import ListNotations.
Local Open Scope Z_scope.

Theorem C137_hough_scale : forall c image ymax m n, (0 < c)%R ->
  hough (scale_mat c image) ymax m n = (o <- hough image ymax m n ;; let '(ht, rho, theta) := o in Ok (scale_mat c ht, rho, theta)).
Proof. exact c137_hough_scale. Qed.
Print Assumptions C137_hough_scale.

(** A negative factor moves the threshold. *)
Theorem C137_hough_neg_refuted : exists image ht rho theta ht' rho' theta', hough image 1 (Some 1) (Some 1) = Ok (ht, rho, theta) /\
  hough (scale_mat (-1) image) 1 (Some 1) (Some 1) = Ok (ht', rho', theta') /\ rent ht 0 0 = (- (99 / 100))%R /\ rent ht' 0 0 = 1%R.
Proof. exact c137_hough_neg_refuted. Qed.
Print Assumptions C137_hough_neg_refuted.

Theorem C137_friedman_scale : forall c tfr re n, (0 < c)%R -> friedman (scale_mat c tfr) re n = friedman tfr re n.
Proof. exact c137_friedman_scale. Qed.
Print Assumptions C137_friedman_scale.

Theorem C137_ridges_scale : forall c tfr re n ts meth, (0 < c)%R -> ridges (scale_mat c tfr) re n ts meth = ridges tfr re n ts meth.
Proof. exact c137_ridges_scale. Qed.
Print Assumptions C137_ridges_scale.

Theorem C137_half_turn : forall image image' ymax m n ht rho theta ht' rho' theta', let xmax := zlen image in
  rect image ymax -> rect image' ymax -> zlen image' = xmax -> xmax mod 2 = 1 -> ymax mod 2 = 1 -> 1 <= ymax -> 1 <= m -> 1 <= n -> n mod 2 = 0 ->
  (forall a b, 0 <= a < xmax -> 0 <= b < ymax -> pix image' a b = pix image (xmax - 1 - a) (ymax - 1 - b)) ->
  hough image ymax (Some m) (Some n) = Ok (ht, rho, theta) -> hough image' ymax (Some m) (Some n) = Ok (ht', rho', theta') ->
  rho' = rho /\ theta' = theta /\ forall r k, 0 <= r < m -> 0 <= k < n -> rent ht' r k = rent ht r ((k + n / 2) mod n).
Proof. exact c137_half_turn. Qed.
Print Assumptions C137_half_turn.

Theorem C137_transpose : forall image image' ymax m n ht rho theta ht' rho' theta', let xmax := zlen image in
  rect image ymax -> rect image' xmax -> zlen image' = ymax -> 1 <= xmax -> 1 <= ymax -> 1 <= m -> 1 <= n -> n mod 4 = 0 ->
  (forall a b, 0 <= a < xmax -> 0 <= b < ymax -> pix image' b a = pix image a b) ->
  hough image ymax (Some m) (Some n) = Ok (ht, rho, theta) -> hough image' xmax (Some m) (Some n) = Ok (ht', rho', theta') ->
  forall r k, 0 <= r < m -> 0 <= k < n -> rent ht' r k = rent ht r ((3 * (n / 4) - k) mod n).
Proof. exact c137_transpose. Qed.
Print Assumptions C137_transpose.

Theorem C137_line : forall f N, 3 <= N -> (0 <= f <= 1 / 2)%R -> let a := ZnearestE (2 * f * IZR (N - 1)) in 0 < hcoord N a ->
  exists m ts fr ht rho theta, ideal_tfr [repeat (Some f) (Z.to_nat N)] None None = Ok (m, ts, fr) /\
  (forall r c, 0 <= r < N -> 0 <= c < N -> cell None m r c = Some (if r =? a then 1 else 0)%R) /\
  hough (image_of m N) N None None = Ok (ht, rho, theta) /\
  forall r k, 0 <= r < N -> 0 <= k < N ->
    (rent ht r k <= IZR N)%R /\ (rent ht r k = IZR N <-> r = ZnearestE (IZR (hcoord N a) * IZR (N - 1) * sqrt 2 / IZR N) /\ k = 0).
Proof. exact c137_line. Qed.
Print Assumptions C137_line.

Theorem C137_friedman_own : forall tfr n, (forall col, In col tfr -> zlen col = n) -> let thr := mean_half tfr in
  let K := count (fun v => gtb v thr) (concat tfr) in
  (K = 0 -> friedman tfr (own_rows tfr) n = None) /\
  (K <> 0 -> friedman tfr (own_rows tfr) n = Some (map (map (fun v => if gtb v thr then (/ IZR K)%R else 0%R)) tfr)).
Proof. exact c137_friedman_own. Qed.
Print Assumptions C137_friedman_own.

(** One column of three cells: the two above half the mean share the density; twice as loud, the same. *)
Example C137_example : let m := [[4; 0; 5]]%R in friedman m (own_rows m) 3 = Some [[/ 2; 0; / 2]]%R /\ friedman (scale_mat 2 m) (own_rows m) 3 = Some [[/ 2; 0; / 2]]%R.
Proof. exact c137_example. Qed.
