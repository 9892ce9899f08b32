(** C150: the two pseudo Wigner-Ville distributions of the library. *)
From Coq Require Import Reals ZArith List Lia Lra Bool.
From Coquelicot Require Import Coquelicot.
From Flocq Require Import Core.
From Verif Require Import Py Scalars CSum DFT Spec M_base M_stft M_cohen M_putils M_reas P_base P_stft P_wvd P_pwvd T_wvd T_pwvd T_putils T_reas T_reas2.
Import ListNotations.
Local Open Scope Z_scope.

(** The entry of the reassigned module, as the pseudo Wigner-Ville sum of the class, one sample earlier. *)
Lemma rpwv_PWV x ts n w tfr rtfr vec j i : rpwv x ts (Some n) (Some w) = Ok (Some (tfr, rtfr, vec)) -> 0 <= j < n -> 0 <= i < zlen (rp_ts x ts) ->
  let ti := nth (Z.to_nat i) (rp_ts x ts) 0 in (1 <= ti <= zlen x -> rent tfr j i = Re (PWV x w n j (ti - 1) / cnth w (win_lh w))%C) /\ (ti < 1 \/ zlen x < ti -> rent tfr j i = 0%R).
Proof.
  intros H Hj Hi ti. destruct (c39_entries x ts (Some n) (Some w) tfr rtfr vec H) as (_ & _ & V). cbn [rp_n rp_w] in V. specialize (V i Hi). cbv zeta in V. fold ti in V. destruct V as [_ V]. specialize (V j Hj).
  split; intros Hti.
  - rewrite V. f_equal. set (lh := win_lh w) in *. set (m := Z.min (Z.min (ti - 1) (zlen x - ti)) lh) in *. unfold PWV, Cdiv. rewrite (Cmult_comm (csum _ _)). rewrite <- csum_scal_l.
    rewrite (csum_incl (arange (- m) (m + 1)) (arange (- zlen x) (zlen x + 1))); try apply NoDup_arange.
    + apply csum_ext. intros t Ht. apply in_arange in Ht. rewrite !sigf_in by lia. unfold winf. fold (win_lh w). fold lh. replace ((- lh <=? t) && (t <=? lh)) with true by (symmetry; apply andb_true_intro; split; apply Z.leb_le; lia). unfold Cdiv. ring.
    + intros t Ht. apply in_arange in Ht. apply in_arange. lia.
    + intros t _ NT. rewrite in_arange in NT. unfold winf. fold (win_lh w). fold lh. destruct (Z.leb_spec (- lh) t), (Z.leb_spec t lh); cbn [andb]; try ring.
      assert (t < - (ti - 1) \/ ti - 1 < t \/ zlen x - ti < t \/ t < - (zlen x - ti)) as [Q|[Q|[Q|Q]]] by lia.
      * rewrite (sigf_out x (ti - 1 + t)) by lia. ring.
      * rewrite (sigf_out x (ti - 1 - t)) by lia. rewrite Cconj_R. ring.
      * rewrite (sigf_out x (ti - 1 + t)) by lia. ring.
      * rewrite (sigf_out x (ti - 1 - t)) by lia. rewrite Cconj_R. ring.
  - rewrite V. rewrite arange_empty by lia. reflexivity.
Qed.
(** With one window, whose centre is real, the column of the reassigned module for the instant ti is the column ti - 1 of the class
    divided by the centre of the window. *)
Lemma c150_agree : forall x ts n w tfr rtfr vec tc o m j i, 1 <= n -> (zlen w - 1) / 2 < round_half n -> rpwv x ts (Some n) (Some w) = Ok (Some (tfr, rtfr, vec)) -> pwvd x (Some tc) (Some n) (Some w) = Ok (o, m) ->
  Im (cnth w ((zlen w - 1) / 2)) = 0%R -> cnth w ((zlen w - 1) / 2) <> RtoC 0 -> 0 <= j < n -> 0 <= i < zlen (rp_ts x ts) ->
  let ti := nth (Z.to_nat i) (rp_ts x ts) 0 in 1 <= ti <= zlen x -> ti <= ts_len tc -> at2 m j (ti - 1) = RtoC (Re (cnth w ((zlen w - 1) / 2)) * rent tfr j i).
Proof.
  intros x ts n w tfr rtfr vec tc o m j i Hn Hw H P I0 W0 Hj Hi ti Hti Htc. destruct (c28_pwvd_closed_form x tc n w o m j (ti - 1) Hn Hw P Hj ltac:(lia)) as [E _]. rewrite E. clear E. apply (f_equal RtoC).
  destruct (rpwv_PWV x ts n w tfr rtfr vec j i H Hj Hi) as [V _]. fold ti in V. rewrite V by auto. unfold win_lh. set (v := cnth w ((zlen w - 1) / 2)) in *.
  assert (EV : v = RtoC (Re v)) by (apply injective_projections; [reflexivity|exact I0]). assert (N0 : Re v <> 0%R) by (intros Q; apply W0; rewrite EV, Q; reflexivity).
  set (z := PWV x w n j (ti - 1)). rewrite EV at 2. replace (z / RtoC (Re v))%C with (RtoC (/ Re v) * z)%C by (rewrite RtoC_inv by auto; unfold Cdiv; ring).
  destruct z as [a b]. unfold Re at 1 3, Cmult, RtoC. cbn [fst snd]. field. exact N0.
Qed.
(** With the default instants 0, 1, .., N-1 the reassigned module is one column late: its first column is zero and the
    column of the last sample is missing. *)
Lemma c150_default : forall x n w tfr rtfr vec o m, 1 <= n -> (zlen w - 1) / 2 < round_half n -> rpwv x None (Some n) (Some w) = Ok (Some (tfr, rtfr, vec)) -> pwvd x None (Some n) (Some w) = Ok (o, m) ->
  cnth w ((zlen w - 1) / 2) = RtoC 1 -> forall j i, 0 <= j < n -> 0 <= i < zlen x -> rent tfr j i = if i =? 0 then 0%R else Re (at2 m j (i - 1)).
Proof.
  intros x n w tfr rtfr vec o m Hn Hw H P W1 j i Hj Hi.
  assert (NT : nth (Z.to_nat i) (arange 0 (zlen x)) 0 = i) by (rewrite <- (map_id (arange 0 (zlen x))), nth_map_arange by lia; lia).
  assert (LT : zlen (arange 0 (zlen x)) = zlen x) by (rewrite arange_zlen; lia).
  destruct (Z.eqb_spec i 0) as [->|N].
  - destruct (rpwv_PWV x None n w tfr rtfr vec j 0 H Hj ltac:(cbn [rp_ts]; lia)) as [_ V]. cbn [rp_ts] in V. rewrite NT in V. apply V. lia.
  - change (pwvd x None (Some n) (Some w)) with (pwvd x (Some (TsI (arange 0 (zlen x)))) (Some n) (Some w)) in P.
    assert (A := c150_agree x None n w tfr rtfr vec (TsI (arange 0 (zlen x))) o m j i Hn Hw H P). rewrite W1 in A. cbn [rp_ts ts_len] in A. rewrite NT in A. rewrite A; try lia; [cbn [Re RtoC fst]; ring|reflexivity|intros Q; apply RtoC_inj in Q; lra].
Qed.
(** Both return when the half-length of the window is below n/2 - 1; at n/2 - 1 the class still returns, while the
    reassigned module raises at every instant far enough from the ends. *)
Lemma c150_both : forall x n w, x <> [] -> 1 <= n -> zlen w mod 2 = 1 -> 3 <= zlen w -> cnth w ((zlen w - 1) / 2) <> RtoC 0 -> (zlen w - 1) / 2 < round_half n - 1 ->
  (exists tfr rtfr vec, rpwv x None (Some n) (Some w) = Ok (Some (tfr, rtfr, vec))) /\ exists o m, pwvd x None (Some n) (Some w) = Ok (o, m).
Proof.
  intros x n w X0 Hn Wo W3 W0 Hw. split.
  - destruct (c39_outcome x (arange 0 (zlen x)) n w ltac:(lia)) as (_ & _ & O). cbv zeta in O. change (rpwv x (Some (arange 0 (zlen x))) (Some n) (Some w)) with (rpwv x None (Some n) (Some w)) in O.
    specialize (O ltac:(lia) W3). destruct (Ceq_dec (cnth w (win_lh w)) (RtoC 0)) as [E|_]; [contradiction|]. destruct O as [[[a b] c] O].
    + intros Q. apply (f_equal zlen) in Q. rewrite arange_zlen in Q. change (zlen []) with 0 in Q. apply X0. destruct x; [reflexivity|]. unfold zlen in Q. cbn [length] in Q. lia.
    + intros ti _ [_ Q]. unfold win_lh in Q. lia.
    + eauto.
  - apply (c28_pwvd_short_window_total x (TsI (arange 0 (zlen x))) n w Hn). lia.
Qed.
Lemma c150_only_class : forall x n w c, 1 <= n -> zlen w mod 2 = 1 -> (zlen w - 1) / 2 = round_half n - 1 -> round_half n < c -> c < zlen x - round_half n + 1 ->
  rpwv x None (Some n) (Some w) = Raise IndexError /\ exists o m, pwvd x None (Some n) (Some w) = Ok (o, m).
Proof.
  intros x n w c Hn Wo Hw C1 C2. split.
  - destruct (c39_outcome x (arange 0 (zlen x)) n w ltac:(lia)) as (_ & O & _). cbv zeta in O. apply O; [lia|]. assert (1 <= round_half n) by (assert (Q := zlen_nonneg w); Z.to_euclidean_division_equations; lia).
    exists c. unfold win_lh. split; [apply in_arange; lia|]. lia.
  - apply (c28_pwvd_short_window_total x (TsI (arange 0 (zlen x))) n w Hn). lia.
Qed.
(** Samples 3, 1, 2, 2, eight bins, window 1, 1, 1: the value 1 + 6 + 6 at frequency 0 around sample 1 is in column 1 of
    the class and in column 2 of the reassigned module, of which column 0 is zero. *)
Example c150_example : exists tfr rtfr vec o m, let x := [RtoC 3; RtoC 1; RtoC 2; RtoC 2] in let w := Some [RtoC 1; RtoC 1; RtoC 1] in
  rpwv x None (Some 8) w = Ok (Some (tfr, rtfr, vec)) /\ pwvd x None (Some 8) w = Ok (o, m) /\ at2 m 0 1 = RtoC 13 /\ rent tfr 0 2 = 13%R /\ rent tfr 0 0 = 0%R.
Proof.
  set (x := [RtoC 3; RtoC 1; RtoC 2; RtoC 2]). set (w := [RtoC 1; RtoC 1; RtoC 1]). assert (RH : round_half 8 = 4) by reflexivity. assert (N1 : RtoC 1 <> RtoC 0) by (intros Q; apply RtoC_inj in Q; lra).
  destruct (c150_both x 8 w ltac:(discriminate) ltac:(lia) eq_refl ltac:(change (zlen w) with 3; lia) N1 ltac:(rewrite RH; vm_compute; reflexivity)) as [(tfr & rtfr & vec & H) (o & m & P)].
  exists tfr, rtfr, vec, o, m. cbv zeta. split; [exact H|]. split; [exact P|].
  assert (D := c150_default x 8 w tfr rtfr vec o m ltac:(lia) ltac:(rewrite RH; vm_compute; reflexivity) H P eq_refl).
  assert (V : at2 m 0 1 = RtoC 13).
  { change (pwvd x None (Some 8) (Some w)) with (pwvd x (Some (TsI (arange 0 4))) (Some 8) (Some w)) in P. destruct (c28_pwvd_closed_form x (TsI (arange 0 4)) 8 w o m 0 1 ltac:(lia) ltac:(rewrite RH; vm_compute; reflexivity) P ltac:(lia) ltac:(split; vm_compute; [discriminate|reflexivity])) as [E _]. rewrite E. apply (f_equal RtoC).
    unfold PWV. change (arange (- zlen x) (zlen x + 1)) with [-4; -3; -2; -1; 0; 1; 2; 3; 4]. rewrite !csum_cons, csum_nil. rewrite !Z.mul_0_l. change (- 0) with 0. rewrite root_0.
    change (winf w (-4)) with (RtoC 0). change (winf w (-3)) with (RtoC 0). change (winf w (-2)) with (RtoC 0). change (winf w 4) with (RtoC 0). change (winf w 3) with (RtoC 0). change (winf w 2) with (RtoC 0).
    change (winf w (-1)) with (RtoC 1). change (winf w 0) with (RtoC 1). change (winf w 1) with (RtoC 1). change (sigf x (1 + -1)) with (RtoC 3). change (sigf x (1 - -1)) with (RtoC 2). change (sigf x (1 + 0)) with (RtoC 1). change (sigf x (1 - 0)) with (RtoC 1). change (sigf x (1 + 1)) with (RtoC 2). change (sigf x (1 - 1)) with (RtoC 3).
    rewrite !Cconj_R, !Cmult_0_l, <- !RtoC_mult, <- !RtoC_plus. cbn [Re RtoC fst]. ring. }
  split; [exact V|]. rewrite (D 0 2), (D 0 0) by (change (zlen x) with 4; lia). change (2 =? 0) with false. change (0 =? 0) with true. change (2 - 1) with 1. rewrite V. split; reflexivity.
Qed.
