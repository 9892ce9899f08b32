(** Property theorems, restated from T_dom.v (generated by tools/genprops.py).
    C49-C52: time and frequency localisation, instantaneous frequency, group delay. *)

From Coq Require Import Reals ZArith List Lia Lra Bool.
From Coquelicot Require Import Coquelicot.
From Flocq Require Import Core.
From Verif Require Import Py Scalars CSum DFT Spec M_base M_putils M_dom P_base T_putils T_reas T_dom.
Import ListNotations.
Local Open Scope Z_scope.

(** The result in closed form; NaN exactly when the energy is zero. *)
Theorem C49_formula : forall x, loctime x = Ok (if Req_EM_T (energy x) 0 then None else Some (tcentre x, tspread x)).
Proof. exact c49_formula. Qed.
Print Assumptions C49_formula.

Theorem C49_bounds : forall x, energy x <> 0%R -> (0 <= tcentre x <= IZR (zlen x - 1))%R /\ (0 <= tspread x)%R.
Proof. exact c49_bounds. Qed.
Print Assumptions C49_bounds.

(** Zero spread exactly for a signal supported on one sample. *)
Theorem C49_zero_spread : forall x, energy x <> 0%R ->
  (tspread x = 0%R <-> exists k, 0 <= k < zlen x /\ cnth x k <> RtoC 0 /\ forall j, 0 <= j < zlen x -> j <> k -> cnth x j = RtoC 0).
Proof. exact c49_zero_spread. Qed.
Print Assumptions C49_zero_spread.

Theorem C49_scale : forall c x, c <> RtoC 0 -> loctime (scale c x) = loctime x.
Proof. exact c49_scale. Qed.
Print Assumptions C49_scale.

(** Delaying the signal by s samples adds s to the centre and keeps the spread. *)
Theorem C49_shift : forall s x tm T, 0 <= s -> loctime x = Ok (Some (tm, T)) -> loctime (delay s x) = Ok (Some ((tm + IZR s)%R, T)).
Proof. exact c49_shift. Qed.
Print Assumptions C49_shift.

Example C49_example : loctime [RtoC 1; RtoC 0; RtoC 1] = Ok (Some (1, 2 * sqrt (PI * 1))%R).
Proof. exact c49_example. Qed.

(** Lengths other than 1 mod 4: energy-weighted mean of the bin labels. *)
Theorem C50_formula : forall x, 1 <= zlen x -> zlen x mod 4 <> 1 ->
  locfreq x = Ok (if Req_EM_T (energy x) 0 then None else Some (fcentre x, fspread x)).
Proof. exact c50_formula. Qed.
Print Assumptions C50_formula.

(** Lengths 1 mod 4: ValueError, whatever the signal; NaN for one sample. *)
Theorem C50_raises : forall x, zlen x mod 4 = 1 -> 5 <= zlen x -> locfreq x = Raise ValueError.
Proof. exact c50_raises. Qed.
Print Assumptions C50_raises.

Theorem C50_empty : locfreq [] = Raise ValueError.
Proof. exact c50_empty. Qed.
Print Assumptions C50_empty.

Theorem C50_one_sample : forall z, locfreq [z] = Ok None.
Proof. exact c50_one_sample. Qed.
Print Assumptions C50_one_sample.

(** The centre lies between the extreme labels, the spread is non-negative. *)
Theorem C50_bounds : forall x, 2 <= zlen x -> energy x <> 0%R ->
  (- IZR ((zlen x + 1) / 2) / IZR (zlen x) <= fcentre x <= IZR (zlen x / 2 - 1) / IZR (zlen x))%R /\ (0 <= fspread x)%R /\
  (Z.even (zlen x) = true -> (- (1 / 2) <= fcentre x < 1 / 2)%R).
Proof. exact c50_bounds. Qed.
Print Assumptions C50_bounds.

Theorem C50_tone : forall n m c, 2 <= n -> n mod 4 <> 1 -> 0 <= m < n -> c <> RtoC 0 -> locfreq (tone n m c) = Ok (Some (flab n m, 0%R)).
Proof. exact c50_tone. Qed.
Print Assumptions C50_tone.

Theorem C50_refuted : exists x, energy x <> 0%R /\ zlen x = 5 /\ locfreq x = Raise ValueError.
Proof. exact c50_refuted. Qed.
Print Assumptions C50_refuted.

(** Length 3, all the energy at frequency 1/3: reported centre -2/3. *)
Theorem C50_range_refuted : exists x, energy x <> 0%R /\ locfreq x = Ok (Some ((- (2 / 3))%R, 0%R)).
Proof. exact c50_range_refuted. Qed.
Print Assumptions C50_range_refuted.

Example C50_example : locfreq (tone 8 3 (RtoC 2)) = Ok (Some ((3 / 8)%R, 0%R)) /\ locfreq (tone 8 6 (RtoC 2)) = Ok (Some ((-2 / 8)%R, 0%R)).
Proof. exact c50_example. Qed.

Theorem C51_outcome : forall ang x t,
  let ts := match t with Some t => t | None => arange 2 (zlen x) end in
  ((forall i, In i ts -> 2 - zlen x <= i < zlen x) ->
    exists fs, inst_freq ang x t = Ok (fs, ts) /\ zlen fs = zlen ts /\
    forall k, 0 <= k < zlen ts -> exists u v, get x (nth (Z.to_nat k) ts 0) = Ok u /\ get x (nth (Z.to_nat k) ts 0 - 2) = Ok v /\
      rnth fs k = inst_entry (ang k (- u * Cconj v)%C)) /\
  ((exists i, In i ts /\ ~ (2 - zlen x <= i < zlen x)) -> inst_freq ang x t = Raise IndexError).
Proof. exact c51_outcome. Qed.
Print Assumptions C51_outcome.

(** The default instants never raise. *)
Theorem C51_default : forall ang x, exists fs, inst_freq ang x None = Ok (fs, arange 2 (zlen x)) /\ zlen fs = Z.max 0 (zlen x - 2).
Proof. exact c51_default. Qed.
Print Assumptions C51_default.

(** Every value lies in [0, 1/2]. *)
Theorem C51_range : forall ang x t fs ts, (forall k z, is_angle z (ang k z)) -> inst_freq ang x t = Ok (fs, ts) ->
  forall v, In v fs -> (0 <= v <= 1 / 2)%R.
Proof. exact c51_range. Qed.
Print Assumptions C51_range.

(** The phase advance theta over two samples is recovered when it lies strictly
    between 0 and 2 pi; for theta = 0 or 2 pi the answer is 0 or 1/2. *)
Theorem C51_exact : forall ang x t fs ts k a b phi psi, (forall k z, is_angle z (ang k z)) -> inst_freq ang x t = Ok (fs, ts) ->
  0 <= k < zlen ts -> (0 < a)%R -> (0 < b)%R ->
  get x (nth (Z.to_nat k) ts 0) = Ok (RtoC a * cis phi)%C -> get x (nth (Z.to_nat k) ts 0 - 2) = Ok (RtoC b * cis psi)%C ->
  ((0 < phi - psi < 2 * PI)%R -> rnth fs k = ((phi - psi) / (4 * PI))%R) /\
  ((phi - psi = 0 \/ phi - psi = 2 * PI)%R -> rnth fs k = 0%R \/ rnth fs k = (1 / 2)%R).
Proof. exact c51_exact. Qed.
Print Assumptions C51_exact.

(** Instants 0 and 1 compare with the end of the signal (negative indices). *)
Theorem C51_wrap : forall ang x, 3 <= zlen x -> (forall k z, is_angle z (ang k z)) ->
  exists f0 f1, inst_freq ang x (Some [0; 1]) = Ok ([f0; f1], [0; 1]) /\
    f0 = inst_entry (ang 0 (- cnth x 0 * Cconj (cnth x (zlen x - 2)))%C) /\ f1 = inst_entry (ang 1 (- cnth x 1 * Cconj (cnth x (zlen x - 1)))%C).
Proof. exact c51_wrap. Qed.
Print Assumptions C51_wrap.

(** 1, i, -1: a quarter turn per sample, frequency 1/4. *)
Example C51_example : inst_freq (fun _ => Carg) [RtoC 1; Ci; RtoC (-1)] None = Ok ([1 / 4]%R, [2]).
Proof. exact c51_example. Qed.

Theorem C52_formula : forall x fs, group_delay x (Some fs) = Ok (map (gd_value x) fs).
Proof. exact c52_formula. Qed.
Print Assumptions C52_formula.

(** Without frequencies: the values at j/n, j = 0..n-1, with the second half
    moved in front; an empty signal cannot be transformed. *)
Theorem C52_default : forall x, 0 < zlen x ->
  group_delay x None = Ok (fftshift (map (fun j => gd_value x (IZR j / IZR (zlen x))) (arange 0 (zlen x)))).
Proof. exact c52_default. Qed.
Print Assumptions C52_default.

Theorem C52_empty : group_delay [] None = Raise ValueError.
Proof. exact c52_empty. Qed.
Print Assumptions C52_empty.

(** Range of the values. *)
Theorem C52_range : forall x f v, gd_value x f = Some v -> (v = 0 \/ 1 <= v <= IZR (zlen x) + 3)%R.
Proof. exact c52_range. Qed.
Print Assumptions C52_range.

Theorem C52_values : forall x fn vs v, group_delay x fn = Ok vs -> In (Some v) vs -> (v = 0 \/ 1 <= v <= IZR (zlen x) + 3)%R.
Proof. exact c52_values. Qed.
Print Assumptions C52_values.

Theorem C52_impulse : forall n k c fs, 0 <= k < n -> c <> RtoC 0 ->
  let x := map (fun j => if j =? k then c else RtoC 0) (arange 0 n) in
  group_delay x (Some fs) = Ok (map (fun _ => Some (IZR (k + 1))) fs) /\
  group_delay x None = Ok (repeat (Some (IZR (k + 1))) (Z.to_nat n)).
Proof. exact c52_impulse. Qed.
Print Assumptions C52_impulse.

(** Multiplying the signal by a non-zero constant changes nothing. *)
Theorem C52_scale : forall x c fn, c <> RtoC 0 -> group_delay (scale c x) fn = group_delay x fn.
Proof. exact c52_scale. Qed.
Print Assumptions C52_scale.

(** Where the spectrum vanishes the value is not a number: "0 or in [1, n+3]"
    fails for the two-sample signal (1, 1) at frequency 1/2. *)
Theorem C52_nan_refuted : exists x fs, energy x <> 0%R /\ group_delay x (Some fs) = Ok [None].
Proof. exact c52_nan_refuted. Qed.
Print Assumptions C52_nan_refuted.

(** (0, 2, 0): delay 2 at every frequency. *)
Example C52_example : group_delay [RtoC 0; RtoC 2; RtoC 0] (Some [0; 1 / 3]%R) = Ok [Some 2%R; Some 2%R].
Proof. exact c52_example. Qed.
