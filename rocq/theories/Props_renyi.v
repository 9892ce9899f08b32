(** Property theorems, restated from T_renyi.v (generated by tools/genprops.py).
    C105: Renyi information counts components and is largest for flat distributions. *)

From Coq Require Import Reals ZArith List Lia Lra Bool.
From Coquelicot Require Import Coquelicot.
From Flocq Require Import Core.
From Verif Require Import Py Scalars CSum DFT Spec M_base M_putils M_reas M_post P_base T_putils T_reas T_post T_post2 T_renyi.
Import ListNotations.
Local Open Scope Z_scope.

(** Order -k, k >= 1, all entries nonzero: inverses of k-th powers. *)
Theorem C105_negative : forall tfr n x y k, rows_of tfr n x y -> 1 <= k -> let I := quad x y n (zlen y) (ent tfr) in I <> 0%R ->
  (forall r v, In r tfr -> In v r -> v <> 0%R) ->
  let v := (I ^ Z.to_nat k * quad x y n (zlen y) (fun i j => / ent tfr i j ^ Z.to_nat k) + spacing1)%R in
  renyi_value tfr n x y (IZR (- k)) = Ok (if Rlt_dec 0 v then Some (ln v / ln 2 / (1 + IZR k))%R else None).
Proof. exact c105_negative. Qed.
Print Assumptions C105_negative.

(** Order 1 on a distribution without negative values: the Shannon entropy of the normalised
    distribution, with the guard inside the logarithm, always a number. *)
Theorem C105_shannon : forall tfr n x y, rows_of tfr n x y -> let I := quad x y n (zlen y) (ent tfr) in (0 < I)%R ->
  (forall r v, In r tfr -> In v r -> 0 <= v)%R ->
  renyi_value tfr n x y 1 = Ok (Some (- quad x y n (zlen y) (fun i j => ent tfr i j / I * (ln (ent tfr i j / I + spacing1) / ln 2)))%R).
Proof. exact c105_shannon. Qed.
Print Assumptions C105_shannon.

(** G components with disjoint supports, equal integrals and equal integrals of the k-th
    power: (2^((1-k)R) - eps) is divided by G^(k-1); R grows by at most log2 G. *)
Theorem C105_components : forall (l : list (list (list R))) A D n x y k r, In A l -> 2 <= k -> rows_of D n x y ->
  (forall M, In M l -> rows_of M n x y /\ quad x y n (zlen y) (ent M) = quad x y n (zlen y) (ent A) /\ quad x y n (zlen y) (fun i j => ent M i j ^ Z.to_nat k)%R = quad x y n (zlen y) (fun i j => ent A i j ^ Z.to_nat k)%R) ->
  (forall i j, 0 <= i < zlen y -> 0 <= j < n -> ent D i j = rsum l (fun M => ent M i j) /\ ForallOrdPairs (fun A B => ent A i j = 0%R \/ ent B i j = 0%R) l) ->
  renyi_value A n x y (IZR k) = Ok (Some r) ->
  exists r', renyi_value D n x y (IZR k) = Ok (Some r') /\
    (Rpower 2 ((1 - IZR k) * r') - spacing1 = (Rpower 2 ((1 - IZR k) * r) - spacing1) / INR (length l) ^ Z.to_nat (k - 1))%R /\
    (r' <= r + ln (INR (length l)) / ln 2)%R.
Proof. exact c105_components. Qed.
Print Assumptions C105_components.

(** For non-negative distributions the value is at most that of a flat distribution on the
    same axes (C42), hence below log2 of the area. *)
Theorem C105_max : forall tfr n x y k r, rows_of tfr n x y -> 2 <= k -> (rnth x 0 <= rnth x 1)%R -> rising y ->
  (forall i j, 0 <= i < zlen y -> 0 <= j < n -> (0 <= ent tfr i j)%R) -> let A := quad x y n (zlen y) (fun _ _ => 1%R) in (0 < A)%R ->
  renyi_value tfr n x y (IZR k) = Ok (Some r) ->
  (r <= ln (/ A ^ Z.to_nat (k - 1) + spacing1) / ln 2 / (1 - IZR k))%R /\ (r < ln A / ln 2)%R.
Proof. exact c105_max. Qed.
Print Assumptions C105_max.

Theorem C105_call : forall tfr n t f alpha, 1 <= n -> zlen t = n -> alpha <> 1%R -> fst (fst (renyi tfr n (Some t) (Some f) alpha)) = renyi_value tfr n t (rsort f) alpha.
Proof. exact c105_call. Qed.
Print Assumptions C105_call.

Theorem C105_defaults : forall tfr n alpha, alpha <> 1%R -> fst (fst (renyi tfr n None None alpha)) = renyi_value tfr n (map IZR (arange 0 n)) (rsort (map IZR (arange 0 (zlen tfr)))) alpha.
Proof. exact c105_defaults. Qed.
Print Assumptions C105_defaults.

(** One pixel inside a 3 by 5 grid against two: order 3, about 0 and about 1. *)
Example C105_example :
  fst (fst (renyi [[0;0;0;0;0];[0;1;0;0;0];[0;0;0;0;0]]%R 5 None None (IZR 3))) = Ok (Some (ln (1 + spacing1) / ln 2 / (1 - IZR 3))%R) /\
  fst (fst (renyi [[0;0;0;0;0];[0;1;0;1;0];[0;0;0;0;0]]%R 5 None None (IZR 3))) = Ok (Some (ln (1 / 4 + spacing1) / ln 2 / (1 - IZR 3))%R).
Proof. exact c105_example. Qed.
