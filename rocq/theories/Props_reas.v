(** Property theorems, restated from T_reas.v (generated by tools/genprops.py).
    C36-C40, C76: reassigned representations. *)

From Coq Require Import Reals ZArith List Lia Lra Bool.
From Coquelicot Require Import Coquelicot.
From Flocq Require Import Core.
From Verif Require Import Py Scalars CSum DFT Spec M_base M_stft M_cohen M_putils M_reas P_base P_stft P_spec T_putils T_reas.
Import ListNotations.
Local Open Scope Z_scope.

(** *** C36 *)
(** Every entry of the reassigned matrix is the sum of the cells whose returned
    vector points to it; destinations are always inside the matrix. *)
Theorem C36_entries : forall x ts n w tfr rtfr vec, rspec x ts n w = Ok (Some (tfr, rtfr, vec)) ->
  let T := zlen (rs_ts x ts) in let n := rs_n x n in
  shape tfr n T /\ shape rtfr n T /\
  (forall j i, 0 <= j < n -> 0 <= i < T -> 0 <= fst (dest vec j i) < n /\ 0 <= snd (dest vec j i) < T) /\
  (forall r c, 0 <= r < n -> 0 <= c < T ->
    rent rtfr r c = rsum (arange 0 T) (fun i => rsum (arange 0 n) (fun j =>
      if (fst (dest vec j i) =? r) && (snd (dest vec j i) =? c) then rent tfr j i else 0%R))).
Proof. exact c36_entries. Qed.
Print Assumptions C36_entries.

Theorem C36_mass : forall x ts n w tfr rtfr vec, rspec x ts n w = Ok (Some (tfr, rtfr, vec)) ->
  let T := zlen (rs_ts x ts) in let n := rs_n x n in
  rsum (arange 0 T) (fun c => rsum (arange 0 n) (fun r => rent rtfr r c)) =
  rsum (arange 0 T) (fun i => rsum (arange 0 n) (fun j => rent tfr j i)).
Proof. exact c36_mass. Qed.
Print Assumptions C36_mass.

Theorem C36_nonneg : forall x ts n w tfr rtfr vec r c, rspec x ts n w = Ok (Some (tfr, rtfr, vec)) ->
  0 <= r < rs_n x n -> 0 <= c < zlen (rs_ts x ts) -> (0 <= rent tfr r c)%R /\ (0 <= rent rtfr r c)%R.
Proof. exact c36_nonneg. Qed.
Print Assumptions C36_nonneg.

(** Which calls return: exactly these, whatever the signal and the
    displacements. *)
Theorem C36_outcome : forall x l n w,
  let r := rspec x (Some l) (Some n) (Some w) in
  (zlen w mod 2 = 0 \/ regular l = false \/ n <= 0 \/ l = [] -> r = Raise ValueError) /\
  (zlen w mod 2 <> 0 -> regular l = true -> 0 < n -> l <> [] ->
     ((exists t, In t l /\ ~ 1 - zlen x <= t <= zlen x) -> r = Raise IndexError) /\
     ((forall t, In t l -> 1 - zlen x <= t <= zlen x) -> 3 <= zlen w -> exists o, r = Ok o)).
Proof. exact c36_outcome. Qed.
Print Assumptions C36_outcome.

Theorem C36_nan : forall x l n w, zlen w mod 2 <> 0 -> regular l = true -> 0 < n -> l <> [] ->
  (forall t, In t l -> 1 - zlen x <= t <= zlen x) ->
  (rspec x (Some l) (Some n) (Some w) = Ok None <->
   exists ti, In ti l /\ rs_tau (zlen x) w n ti <> [] /\ forall t, In t (rs_tau (zlen x) w n ti) -> cnth w (win_lh w + t) = RtoC 0).
Proof. exact c36_nan. Qed.
Print Assumptions C36_nan.

(** Where the cells above the threshold go. *)
Theorem C37_vectors : forall x ts n w tfr rtfr vec, rspec x ts n w = Ok (Some (tfr, rtfr, vec)) ->
  let l := rs_ts x ts in let n := rs_n x n in let w := rs_w x w in
  (3 <= zlen w -> exists d, derive_window w = Ok (Some d) /\
   forall j i r c, 0 <= j < n -> 0 <= i < zlen l -> vent vec j i = Some (r, c) ->
    let ti := nth (Z.to_nat i) l 0 in
    r = (j - disp_f x w d n ti j - 1) mod n /\ c = Z.min (Z.max (i + disp_t x w n ti j) 1) (zlen l)) /\
  (zlen w = 1 -> forall j i, 0 <= j < n -> 0 <= i < zlen l -> vent vec j i = None).
Proof. exact c37_vectors. Qed.
Print Assumptions C37_vectors.

(** A cell with zero displacement goes one row up and one column to the left (the
    first column stays), so with two bins or more it never stays. *)
Theorem C37_undisplaced : forall x ts n w tfr rtfr vec d j i, rspec x ts n w = Ok (Some (tfr, rtfr, vec)) ->
  3 <= zlen (rs_w x w) -> derive_window (rs_w x w) = Ok (Some d) ->
  0 <= j < rs_n x n -> 0 <= i < zlen (rs_ts x ts) -> vent vec j i <> None ->
  disp_t x (rs_w x w) (rs_n x n) (nth (Z.to_nat i) (rs_ts x ts) 0) j = 0 ->
  disp_f x (rs_w x w) d (rs_n x n) (nth (Z.to_nat i) (rs_ts x ts) 0) j = 0 ->
  dest vec j i = ((j - 1) mod rs_n x n, Z.max 0 (i - 1)) /\ (2 <= rs_n x n -> fst (dest vec j i) <> j).
Proof. exact c37_undisplaced. Qed.
Print Assumptions C37_undisplaced.
