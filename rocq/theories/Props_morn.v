(** Property theorems, restated from T_morn.v (generated by tools/genprops.py).
    C165: morlet_scalogram with a negative time-bandwidth product. *)

From Coq Require Import Reals ZArith List Lia Lra Bool.
From Coquelicot Require Import Coquelicot.
From Flocq Require Import Core.
From Verif Require Import Py Scalars CSum DFT Spec M_base P_base M_reas M_mor M_morn T_utils T_reas T_reas2 T_mor T_morn.
Import ListNotations.
Local Open Scope Z_scope.

(** NaN on every row the loops write, 0 on the others, whatever the signal; both arrays alike. *)
Theorem C165_nan : forall x a d T n tbp, 1 <= zlen x -> 2 <= T -> 2 <= n -> (tbp < 0)%R -> (forall i, 0 <= i < T -> ~ fatal (zlen x) n tbp (a + d * i)) ->
  let m := map (fun _ => map (fun j => if written n j then None else Some 0%R) (arange 0 n)) (arange 0 T) in morlet_neg x (Some (steps a d T)) (Some n) tbp = Ok (m, m).
Proof. exact c165_nan. Qed.
Print Assumptions C165_nan.

Theorem C165_raises : forall x a d T n tbp i, 1 <= zlen x -> 2 <= T -> 2 <= n -> (tbp < 0)%R -> 0 <= i < T -> fatal (zlen x) n tbp (a + d * i) -> morlet_neg x (Some (steps a d T)) (Some n) tbp = Raise IndexError.
Proof. exact c165_raises. Qed.
Print Assumptions C165_raises.

Theorem C165_irregular : forall x l n tbp, (forall a d T, 2 <= T -> l <> steps a d T) -> morlet_neg x (Some l) n tbp = Raise ValueError.
Proof. exact c165_irregular. Qed.
Print Assumptions C165_irregular.

(** The sign of the default lost, or anything below: NaN at all timestamps. *)
Theorem C165_quarter : forall x a d T n tbp, 1 <= zlen x -> 2 <= T -> 2 <= n -> (tbp <= - (1 / 4))%R ->
  let m := map (fun _ => map (fun j => if written n j then None else Some 0%R) (arange 0 n)) (arange 0 T) in morlet_neg x (Some (steps a d T)) (Some n) tbp = Ok (m, m).
Proof. exact c165_quarter. Qed.
Print Assumptions C165_quarter.

(** 5, 5, 5: with tbp = -1/4 and 4 bins rows 1 to 3 are NaN; with tbp = -1/96 and 64 bins IndexError. *)
Example C165_example : let x := [RtoC 5; RtoC 5; RtoC 5] in
  (exists tfr, morlet_neg x None (Some 4) (- (1 / 4))%R = Ok (tfr, tfr) /\ nth 1 tfr [] = [Some 0%R; None; None; None]) /\ morlet_neg x None (Some 64) (- (1 / 96))%R = Raise IndexError.
Proof. exact c165_example. Qed.
