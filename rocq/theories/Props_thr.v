(** Property theorems, restated from T_thr.v (generated by tools/genprops.py).
    C140: what the thresholds of the gallery programs remove. *)

From Coq Require Import Reals ZArith List Lia Lra Psatz Bool.
From Coquelicot Require Import Coquelicot.
From Verif Require Import Py Scalars CSum DFT Spec M_base M_utils M_post M_thr T_post T_plot T_plot2 T_thr.
Import ListNotations.
Local Open Scope Z_scope.

(** The outcomes, with the greatest value named: only an empty matrix raises. *)
Theorem C140_outcome : forall c (m : list (list C)) (r : list (list R)),
  (concat m = [] -> thr_mod c m = Raise ValueError /\ thr_sq c m = Raise ValueError) /\ (concat r = [] -> thr_real c r = Raise ValueError) /\
  (concat m <> [] -> exists g, greatest (map Cmod (concat m)) g /\
     thr_mod c m = Ok (on_entries (fun v => if Rle_dec (Cmod v) (g * c) then RtoC 0 else v) m) /\
     thr_sq c m = Ok (on_entries (fun v => if Rle_dec (Cmod v ^ 2) (g ^ 2 * c) then RtoC 0 else v) m)) /\
  (concat r <> [] -> exists g, greatest (concat r) g /\ thr_real c r = Ok (on_entries (fun v => if Rle_dec v (g * c) then 0%R else v) r)).
Proof. exact c140_outcome. Qed.
Print Assumptions C140_outcome.

(** An array of thresholds, each a fraction of its own entry, removes nothing. *)
Theorem C140_own : forall c (m : list (list C)), (c < 1)%R -> thr_own c m = m.
Proof. exact c140_own. Qed.
Print Assumptions C140_own.

(** A threshold on the squares at c is a threshold on the moduli at sqrt c. *)
Theorem C140_squares : forall c (m : list (list C)), (0 <= c)%R -> thr_sq c m = thr_mod (sqrt c) m.
Proof. exact c140_squares. Qed.
Print Assumptions C140_squares.

(** What is kept: everything above c times the greatest modulus, unchanged; in particular the
    greatest entries. *)
Theorem C140_kept : forall c (m t : list (list C)), (0 <= c < 1)%R -> thr_mod c m = Ok t ->
  exists g, greatest (map Cmod (concat m)) g /\ greatest (map Cmod (concat t)) g /\ zlen t = zlen m /\
    forall i j, let v := nth j (nth i m []) (RtoC 0) in let w := nth j (nth i t []) (RtoC 0) in
      ((g * c < Cmod v)%R -> w = v) /\ ((Cmod v <= g * c)%R -> w = RtoC 0).
Proof. exact c140_kept. Qed.
Print Assumptions C140_kept.

(** Thresholding again, at the same or a lower level, changes nothing; at a higher level it is the
    higher level alone that counts. *)
Theorem C140_again : forall c d (m t : list (list C)), (0 <= c < 1)%R -> (0 <= d < 1)%R -> thr_mod c m = Ok t -> thr_mod d t = thr_mod (Rmax c d) m.
Proof. exact c140_again. Qed.
Print Assumptions C140_again.

(** Scaling the matrix by any complex number scales the result. *)
Theorem C140_scaling : forall c z (m : list (list C)), z <> RtoC 0 -> thr_mod c (on_entries (Cmult z) m) = (t <- thr_mod c m ;; Ok (on_entries (Cmult z) t)).
Proof. exact c140_scaling. Qed.
Print Assumptions C140_scaling.

(** The energy removed is at most c^2 g^2 per entry. *)
Theorem C140_lost : forall c (m t : list (list C)), (0 <= c < 1)%R -> thr_mod c m = Ok t -> exists g, greatest (map Cmod (concat m)) g /\
  (rsum (concat m) (fun v => Cmod v ^ 2) - INR (length (concat m)) * (g * c) ^ 2 <= rsum (concat t) (fun v => Cmod v ^ 2) <= rsum (concat m) (fun v => Cmod v ^ 2))%R.
Proof. exact c140_lost. Qed.
Print Assumptions C140_lost.

(** The real threshold leaves no negative entry, unless all entries are negative and then it leaves zeros only. *)
Theorem C140_real : forall c (m t : list (list R)), (0 <= c <= 1)%R -> thr_real c m = Ok t -> (forall v, In v (concat t) -> (0 <= v)%R) /\
  ((forall v, In v (concat m) -> (v <= 0)%R) -> forall v, In v (concat t) -> v = 0%R).
Proof. exact c140_real. Qed.
Print Assumptions C140_real.

(** The fourth picture of noplot_4_3_5_page_margenau_hill.py is a function of the third one: the squares of
    its entries, cut at sqrt c instead of c. *)
Theorem C140_fourth : forall c (m : list (list C)), (0 <= c < 1)%R -> fourth_picture c m = (t <- thr_real (sqrt c) (energy m) ;; Ok (on_entries (fun v => v ^ 2)%R t)).
Proof. exact c140_fourth. Qed.
Print Assumptions C140_fourth.

(** A small matrix: the middle entry survives 5% of the modulus, not 5% of the square. *)
Example C140_example : thr_mod (5 / 100) [[RtoC 10; RtoC 1]; [RtoC 0; RtoC (1 / 10)]] = Ok [[RtoC 10; RtoC 1]; [RtoC 0; RtoC 0]] /\
  thr_sq (5 / 100) [[RtoC 10; RtoC 1]; [RtoC 0; RtoC (1 / 10)]] = Ok [[RtoC 10; RtoC 0]; [RtoC 0; RtoC 0]] /\
  thr_own (5 / 100) [[RtoC 10; RtoC 1]; [RtoC 0; RtoC (1 / 10)]] = [[RtoC 10; RtoC 1]; [RtoC 0; RtoC (1 / 10)]].
Proof. exact c140_example. Qed.
