(** Property theorems, restated from T_reas2.v (generated by tools/genprops.py).
    C37 (refutation), C38-C40, C76: reassigned representations. *)

From Coq Require Import Reals ZArith List Lia Lra Bool.
From Coquelicot Require Import Coquelicot.
From Flocq Require Import Core.
From Verif Require Import Py Scalars CSum DFT Spec M_base M_stft M_cohen M_putils M_reas P_base P_stft P_spec T_putils T_reas T_reas2.
Import ListNotations.
Local Open Scope Z_scope.

(** The claim of C37 fails: constant signal, window [1, 1, 1], 4 bins, instants
    2 and 3. The cell of bin 0 at the first instant is not displaced, carries
    energy 3 and is written to bin 3. *)
Theorem C37_refuted : exists x ts n w tfr rtfr vec d j i,
  rspec x (Some ts) (Some n) (Some w) = Ok (Some (tfr, rtfr, vec)) /\ derive_window w = Ok (Some d) /\
  disp_t x w n (nth (Z.to_nat i) ts 0) j = 0 /\ disp_f x w d n (nth (Z.to_nat i) ts 0) j = 0 /\
  rent tfr j i = 3%R /\ dest vec j i = (3, 0) /\ (j, i) = (0, 0).
Proof. exact c37_refuted. Qed.
Print Assumptions C37_refuted.

(** *** C38 *)
Theorem C38_agrees : forall x l n w tfr rtfr vec, rspec x (Some l) (Some n) (Some w) = Ok (Some (tfr, rtfr, vec)) ->
  (forall t, In t l -> Z.min (round_half n - 1) ((zlen w - 1) / 2) < t) ->
  spectrogram x (Some (TsI l)) (Some n) (Some w) = Ok (map Some tfr).
Proof. exact c38_agrees. Qed.
Print Assumptions C38_agrees.

(** For an instant at or below the window half-length the sample before the first
    is read as the last one: x = [0,0,0,1], instant 1. *)
Theorem C38_left_edge_refuted : exists x l n w tfr rtfr vec col,
  rspec x (Some l) (Some n) (Some w) = Ok (Some (tfr, rtfr, vec)) /\
  spectrogram x (Some (TsI l)) (Some n) (Some w) = Ok [Some col] /\
  rent tfr 0 0 = (1 / 3)%R /\ rnth col 0 = 0%R.
Proof. exact c38_left_edge_refuted. Qed.
Print Assumptions C38_left_edge_refuted.

(** The first output, and the instants for which the call returns. *)
Theorem C39_entries : forall x ts n w tfr rtfr vec, rpwv x ts n w = Ok (Some (tfr, rtfr, vec)) ->
  let l := rp_ts x ts in let w := rp_w x n w in let n := rp_n x n in let lh := win_lh w in
  shape tfr n (zlen l) /\ shape rtfr n (zlen l) /\
  (forall i, 0 <= i < zlen l -> let ti := nth (Z.to_nat i) l 0 in
     ~ (round_half n - 1 < Z.min (ti - 1) (zlen x - ti) /\ round_half n - 1 <= lh) /\
     let m := Z.min (Z.min (ti - 1) (zlen x - ti)) lh in
     forall j, 0 <= j < n -> rent tfr j i = Re (csum (arange (- m) (m + 1)) (fun t =>
       cnth w (lh + t)%Z / cnth w lh * cnth x (ti - 1 + t)%Z * Cconj (cnth x (ti - 1 - t)%Z) * root n (- (j * t)%Z)))%C).
Proof. exact c39_entries. Qed.
Print Assumptions C39_entries.

(** Each column keeps its sum; cells only move within their column. *)
Theorem C39_mass : forall x ts n w tfr rtfr vec c, rpwv x ts n w = Ok (Some (tfr, rtfr, vec)) ->
  0 <= c < zlen (rp_ts x ts) -> let n := rp_n x n in
  (forall j, 0 <= j < n -> 0 <= rdest vec j c < n) /\
  (forall r, 0 <= r < n -> rent rtfr r c = rsum (arange 0 n) (fun j => if rdest vec j c =? r then rent tfr j c else 0%R)) /\
  rsum (arange 0 n) (fun r => rent rtfr r c) = rsum (arange 0 n) (fun j => rent tfr j c).
Proof. exact c39_mass. Qed.
Print Assumptions C39_mass.

Theorem C39_marginal : forall x ts n w tfr rtfr vec i, rpwv x ts n w = Ok (Some (tfr, rtfr, vec)) ->
  0 <= i < zlen (rp_ts x ts) -> let ti := nth (Z.to_nat i) (rp_ts x ts) 0 in let n := rp_n x n in
  rsum (arange 0 n) (fun j => rent tfr j i) =
  if (1 <=? ti) && (ti <=? zlen x) then (IZR n * Cmod (cnth x (ti - 1)%Z) ^ 2)%R else 0%R.
Proof. exact c39_marginal. Qed.
Print Assumptions C39_marginal.

Theorem C39_outcome : forall x l n w, 0 < n ->
  let r := rpwv x (Some l) (Some n) (Some w) in
  let bad ti := round_half n - 1 < Z.min (ti - 1) (zlen x - ti) /\ round_half n - 1 <= win_lh w in
  (zlen w mod 2 = 0 \/ l = [] -> r = Raise ValueError) /\
  (zlen w mod 2 <> 0 -> (exists ti, In ti l /\ bad ti) -> r = Raise IndexError) /\
  (zlen w mod 2 <> 0 -> 3 <= zlen w -> l <> [] -> (forall ti, In ti l -> ~ bad ti) ->
     if Ceq_dec (cnth w (win_lh w)) (RtoC 0) then r = Ok None else exists o, r = Ok (Some o)).
Proof. exact c39_outcome. Qed.
Print Assumptions C39_outcome.

(** Where the cells above the threshold go: row j - 1 - round(displacement),
    modulo n, so an undisplaced cell moves up by one row. *)
Theorem C39_vectors : forall x ts n w tfr rtfr vec, rpwv x ts n w = Ok (Some (tfr, rtfr, vec)) ->
  let l := rp_ts x ts in let w := rp_w x n w in let n := rp_n x n in
  exists dh, derive_window (rp_fw w) = Ok dh /\
  forall j i, 0 <= j < n -> 0 <= i < zlen l -> forall r, vent vec j i = Some r ->
  let ti := nth (Z.to_nat i) l 0 in
  exists d, dh = Some d /\
   rdest vec j i = (j - rp_df n (rent tfr j i) (Im (rp_S x (rp_fw w) d n ti j)) - 1) mod n.
Proof. exact c39_vectors. Qed.
Print Assumptions C39_vectors.

(** *** C40 *)
Theorem C40_pmh_raises : forall B (rest : list C -> res B) x n w, exists e, rpmh rest x n w = Raise e.
Proof. exact c40_pmh_raises. Qed.
Print Assumptions C40_pmh_raises.

Theorem C40_page_raises : forall B (rest : list C -> res B) x n w, exists e, rppage rest x n w = Raise e.
Proof. exact c40_page_raises. Qed.
Print Assumptions C40_page_raises.

Theorem C40_spwv_raises : forall B (rest : list C -> res B) x ts n tw fw, exists e, rspwv rest x ts n tw fw = Raise e.
Proof. exact c40_spwv_raises. Qed.
Print Assumptions C40_spwv_raises.

(** *** C76 *)
Theorem C76_morlet_loop : forall tfr n T thr, 0 <= n -> 0 <= T ->
  ((exists i j, 0 <= i < T /\ 0 <= j < n /\ (thr < rent tfr j i)%R) -> rmorlet_loop tfr n T thr = Raise IndexError) /\
  ((forall i j, 0 <= i < T -> 0 <= j < n -> (rent tfr j i <= thr)%R) ->
   exists m, rmorlet_loop tfr n T thr = Ok m /\ shape m n T /\ forall r c, 0 <= r < n -> 0 <= c < T -> rent m r c = rent tfr r c).
Proof. exact c76_morlet_loop. Qed.
Print Assumptions C76_morlet_loop.

(** Signal [3, 1], instants 1 and 2, two bins: the columns sum to 18 and 2, before
    and after reassignment. *)
Example C39_example : exists tfr rtfr vec, rpwv [RtoC 3; RtoC 1] (Some [1; 2]) (Some 2) (Some ones3) = Ok (Some (tfr, rtfr, vec)) /\
  rsum (arange 0 2) (fun r => rent rtfr r 0) = 18%R /\ rsum (arange 0 2) (fun r => rent rtfr r 1) = 2%R.
Proof. exact c39_example. Qed.

(** Five samples, instant 3, four bins, a window of three samples: IndexError. *)
Example C39_raises : forall a b c d e, rpwv [a; b; c; d; e] (Some [3]) (Some 4) (Some ones3) = Raise IndexError.
Proof. exact c39_raises. Qed.

(** The run of C37: the total is kept and one cell holds 3. *)
Example C36_example : exists x ts n w tfr rtfr vec, rspec x (Some ts) (Some n) (Some w) = Ok (Some (tfr, rtfr, vec)) /\ rent tfr 0 0 = 3%R /\
  (3 <= rent rtfr 3 0)%R /\
  rsum (arange 0 (zlen ts)) (fun c => rsum (arange 0 n) (fun r => rent rtfr r c)) = rsum (arange 0 (zlen ts)) (fun i => rsum (arange 0 n) (fun j => rent tfr j i)).
Proof. exact c36_example. Qed.

(** One cell above the threshold: no result; none: a copy. *)
Example C76_example : rmorlet_loop [[1; 5]]%R 2 1 2 = Raise IndexError /\ exists m, rmorlet_loop [[1; 2]]%R 2 1 2 = Ok m /\ rent m 1 0 = 2%R.
Proof. exact c76_example. Qed.
