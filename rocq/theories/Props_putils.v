(** Property theorems, restated from T_putils.v (generated by tools/genprops.py).
    C47, C48 and the spectrum helper. *)

From Coq Require Import Reals ZArith List Lia Lra Bool.
From Coquelicot Require Import Coquelicot.
From Verif Require Import Py Scalars CSum DFT Spec M_base M_putils P_base P_stft T_putils.
Import ListNotations.
Local Open Scope Z_scope.

(** With uniformly spaced x this is the iterated trapezoidal rule. *)
Theorem C47_trapezoid : forall mat n x y, 2 <= n -> 1 <= zlen mat -> (forall r, In r mat -> zlen r = n) ->
  zlen x = n -> zlen y = zlen mat -> uniform x ->
  integrate_2d mat n (Some x) (Some y) =
  Ok (trapz (rnth y) (fun i => trapz (rnth x) (ent mat i) n) (zlen mat)).
Proof. exact c47_trapezoid. Qed.
Print Assumptions C47_trapezoid.

(** For non-uniform x only the first step is used, so the rule is wrong: integral
    of the constant 1 over [0,3] x [0,1] sampled at x = 0, 1, 3 comes out as 2. *)
Theorem C47_nonuniform_refuted : exists mat x y,
  integrate_2d mat 3 (Some x) (Some y) = Ok 2%R /\
  trapz (rnth y) (fun i => trapz (rnth x) (ent mat i) 3) (zlen mat) = 3%R.
Proof. exact c47_nonuniform_refuted. Qed.
Print Assumptions C47_nonuniform_refuted.

(** One column: IndexError with the default axis. *)
Theorem C47_one_column : forall mat y, (forall r, In r mat -> zlen r = 1) ->
  integrate_2d mat 1 None y = Raise IndexError.
Proof. exact c47_one_column. Qed.
Print Assumptions C47_one_column.

(** The default axes are 0, 1, 2, ... *)
Theorem C47_default_axes : forall mat n, 2 <= n -> 1 <= zlen mat -> (forall r, In r mat -> zlen r = n) ->
  integrate_2d mat n None None = Ok (trapz IZR (fun i => trapz IZR (ent mat i) n) (zlen mat)).
Proof. exact c47_default_axes. Qed.
Print Assumptions C47_default_axes.

Theorem C47_linear : forall a b A B D n x y va vb, 1 <= n -> 1 <= zlen D -> zlen A = zlen D -> zlen B = zlen D ->
  (forall r, In r (A ++ B ++ D) -> zlen r = n) -> 2 <= zlen x -> zlen y = zlen D ->
  (forall i k, 0 <= i < zlen D -> 0 <= k < n -> (ent D i k = a * ent A i k + b * ent B i k)%R) ->
  integrate_2d A n (Some x) (Some y) = Ok va -> integrate_2d B n (Some x) (Some y) = Ok vb ->
  integrate_2d D n (Some x) (Some y) = Ok (a * va + b * vb)%R.
Proof. exact c47_linear. Qed.
Print Assumptions C47_linear.

(** Non-negativity. *)
Theorem C47_nonneg : forall mat n x y v, 1 <= n -> 1 <= zlen mat -> (forall r, In r mat -> zlen r = n) ->
  2 <= zlen x -> zlen y = zlen mat ->
  (forall i k, 0 <= i < zlen mat -> 0 <= k < n -> (0 <= ent mat i k)%R) ->
  (rnth x 0 <= rnth x 1)%R -> (forall i, 0 <= i < zlen mat - 1 -> (rnth y i <= rnth y (i + 1))%R) ->
  integrate_2d mat n (Some x) (Some y) = Ok v -> (0 <= v)%R.
Proof. exact c47_nonneg. Qed.
Print Assumptions C47_nonneg.

(** [integrate_2d] of a 5 by 3 matrix 1..15 (the self-test at the end of the
    file): 64. *)
Example C47_example : integrate_2d [[1;2;3];[4;5;6];[7;8;9];[10;11;12];[13;14;15]]%R 3 None None = Ok 64%R.
Proof. exact c47_example. Qed.

(** Every entry, for every window of at least two samples. *)
Theorem C48_formula : forall w, 2 <= zlen w ->
  exists dw, derive_window w = Ok (Some dw) /\ zlen dw = zlen w /\
  (forall k, 1 <= k < zlen w - 1 -> cnth dw k = ((cnth w (k + 1) - cnth w (k - 1)) / RtoC 2)%C) /\
  cnth dw 0 = ((cnth w 0 + cnth w 1 + dw_ramp w) / RtoC 2)%C /\
  cnth dw (zlen w - 1) = ((dw_ramp w - cnth w (zlen w - 2) - cnth w (zlen w - 1)) / RtoC 2)%C.
Proof. exact c48_formula. Qed.
Print Assumptions C48_formula.

(** Short windows: one sample gives NaN, none IndexError. *)
Theorem C48_short : forall w, (zlen w = 1 -> derive_window w = Ok None) /\ (zlen w = 0 -> derive_window w = Raise IndexError).
Proof. exact c48_short. Qed.
Print Assumptions C48_short.

(** The entries add up to the ramp (w[0] - w[-1]) / (len - 1), so to 0 exactly
    when the end points agree. *)
Theorem C48_sum : forall w dw, 2 <= zlen w -> derive_window w = Ok (Some dw) ->
  csum dw (fun z => z) = ((cnth w 0 - cnth w (zlen w - 1)) / RtoC (IZR (zlen w - 1)))%C.
Proof. exact c48_sum. Qed.
Print Assumptions C48_sum.

(** Symmetric windows: antisymmetric result, 0 at the centre, sum 0. *)
Theorem C48_symmetric : forall w dw, 2 <= zlen w -> (forall k, 0 <= k < zlen w -> cnth w k = cnth w (zlen w - 1 - k)) ->
  derive_window w = Ok (Some dw) ->
  (forall k, 0 <= k < zlen w -> cnth dw (zlen w - 1 - k) = (- cnth dw k)%C) /\
  (Z.odd (zlen w) = true -> cnth dw ((zlen w - 1) / 2) = RtoC 0) /\
  csum dw (fun z => z) = RtoC 0.
Proof. exact c48_symmetric. Qed.
Print Assumptions C48_symmetric.

(** Derivative of [1; 2; 1]: [3/2; 0; -3/2]. *)
Example C48_example : derive_window [RtoC 1; RtoC 2; RtoC 1] = Ok (Some [RtoC (3 / 2); RtoC 0; RtoC (- (3 / 2))]).
Proof. exact c48_example. Qed.

(** get_spectrum: the total is len(x) times the energy (Parseval). *)
Theorem C75_spectrum_total : forall x, zlen (get_spectrum x) = zlen x /\
  rsum (get_spectrum x) (fun v => v) = (IZR (zlen x) * energy x)%R /\
  (forall k, 0 <= k < zlen x -> rnth (get_spectrum x) k = (Cmod (cnth (fft x) ((k - zlen x / 2) mod zlen x)) ^ 2)%R).
Proof. exact c75_spectrum_total. Qed.
Print Assumptions C75_spectrum_total.
