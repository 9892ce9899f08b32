(** C37 (refutation), C38-C40, C76: reassigned representations. *)
From Coq Require Import Reals ZArith List Lia Lra Bool.
From Coquelicot Require Import Coquelicot.
From Flocq Require Import Core.
From Verif Require Import Py Scalars CSum DFT Spec M_base M_stft M_cohen M_putils M_reas P_base P_stft P_spec T_putils T_reas.
Import ListNotations.
Local Open Scope Z_scope.


Lemma rs_sq_nth x w n l j i : 0 < n -> 0 <= j < n -> 0 <= i < zlen l ->
  rent (map (rs_sq x w n) l) j i = (Cmod (rS x w w n (nth (Z.to_nat i) l 0%Z) j / RtoC (rs_nrm x w n (nth (Z.to_nat i) l 0%Z)))%C ^ 2)%R.
Proof.
  intros Hn Hj Hi. unfold rent. rewrite (nth_indep _ [] (rs_sq x w n 0)) by (rewrite map_length; unfold zlen in Hi; lia).
  rewrite map_nth. unfold rs_sq, rnth. rewrite (nth_indep _ 0%R ((fun z => Cmod z ^ 2)%R (RtoC 0))).
  - rewrite (map_nth (fun z => Cmod z ^ 2)%R). fold (cnth (fft (rs_mat x w w n (nth (Z.to_nat i) l 0))) j). rewrite rs_mat_fft by auto. reflexivity.
  - rewrite map_length, fft_length. assert (E := rs_mat_zlen x w w n (nth (Z.to_nat i) l 0) ltac:(lia)). unfold zlen in E. lia.
Qed.

Definition ones3 : list C := [RtoC 1; RtoC 1; RtoC 1].
Lemma rs_nrm_ones x n ti : rs_tau (zlen x) ones3 n ti = [-1; 0; 1] -> rs_nrm x ones3 n ti = sqrt 3.
Proof.
  intros E. unfold rs_nrm, norm2. rewrite E. f_equal. change (win_lh ones3) with 1. cbn [map].
  unfold cnth, ones3. change (Z.to_nat (1 + -1)) with 0%nat. change (Z.to_nat (1 + 0)) with 1%nat. change (Z.to_nat (1 + 1)) with 2%nat.
  cbn [nth]. rewrite !rsum_cons, rsum_nil, Cmod_1. ring.
Qed.

Lemma Znearest_0 : ZnearestE 0 = 0.
Proof. apply (Zrnd_IZR ZnearestE 0). Qed.

(** The claim of C37 fails: constant signal, window [1, 1, 1], 4 bins, instants
    2 and 3. The cell of bin 0 at the first instant is not displaced, carries
    energy 3 and is written to bin 3. *)
Lemma c37_refuted : exists x ts n w tfr rtfr vec d j i,
  rspec x (Some ts) (Some n) (Some w) = Ok (Some (tfr, rtfr, vec)) /\ derive_window w = Ok (Some d) /\
  disp_t x w n (nth (Z.to_nat i) ts 0) j = 0 /\ disp_f x w d n (nth (Z.to_nat i) ts 0) j = 0 /\
  rent tfr j i = 3%R /\ dest vec j i = (3, 0) /\ (j, i) = (0, 0).
Proof.
  set (x := repeat (RtoC 1) 5). set (ts := [2; 3]). set (w := ones3).
  assert (Lx : zlen x = 5) by reflexivity.
  assert (Tau : forall ti, In ti ts -> rs_tau (zlen x) w 4 ti = [-1; 0; 1]) by (intros ti [<-|[<-|[]]]; reflexivity).
  destruct (c36_outcome x ts 4 w) as [_ O]. destruct O as [_ O]; try (reflexivity || lia || discriminate).
  destruct O as [o Ho]. { intros t [<-|[<-|[]]]; rewrite Lx; lia. } { change (zlen w) with 3. lia. }
  destruct o as [[[tfr rtfr] vec]|].
  2:{ apply c36_nan in Ho; try (reflexivity || lia || discriminate).
      - destruct Ho as (ti & Hi & _ & Q). specialize (Q 0). rewrite (Tau ti Hi) in Q. specialize (Q ltac:(right; left; auto)).
        exfalso. change (RtoC 1 = RtoC 0) in Q. apply RtoC_inj in Q. lra.
      - intros t [<-|[<-|[]]]; rewrite Lx; lia. }
  destruct (c48_formula w ltac:(change (zlen w) with 3; lia)) as (d & Ed & Ld & Ezi & Ez0 & Ez2).
  change (zlen w) with 3 in *. specialize (Ezi 1 ltac:(lia)).
  assert (R0 : dw_ramp w = RtoC 0). { unfold dw_ramp, w, ones3, cnth. change (Z.to_nat 0) with 0%nat. change (Z.to_nat (zlen _ - 1)) with 2%nat. cbn [nth]. unfold Cdiv. ring. }
  assert (W : forall t, 0 <= t < 3 -> cnth w t = RtoC 1).
  { intros t Ht. assert (t = 0 \/ t = 1 \/ t = 2) as [->|[->| ->]] by lia; reflexivity. }
  rewrite R0, !W in Ez0, Ez2 by lia. rewrite !W in Ezi by lia.
  assert (Ez0' : cnth d 0 = RtoC 1) by (rewrite Ez0; apply injective_projections; cbn; field).
  assert (Ez1' : cnth d 1 = RtoC 0) by (rewrite Ezi; apply injective_projections; cbn; field).
  assert (Ez2' : cnth d 2 = RtoC (-1)) by (change (3 - 1) with 2 in Ez2; rewrite Ez2; apply injective_projections; cbn; field).
  assert (X : forall t, -1 <= t <= 1 -> xwrap x (2 + t - 1) = RtoC 1).
  { intros t Ht. assert (t = -1 \/ t = 0 \/ t = 1) as [->|[->| ->]] by lia; reflexivity. }
  assert (TR : forall v, trans x w v 4 2 0 = (Cconj (v (-1)%Z) + Cconj (v 0%Z) + Cconj (v 1%Z))%C).
  { intros v. unfold trans. rewrite (Tau 2) by (left; auto). rewrite !csum_cons, csum_nil. rewrite !Z.mul_0_l. change (- 0) with 0. rewrite root_0, !X by lia. ring. }
  assert (Dt : disp_t x w 4 2 0 = 0).
  { unfold disp_t. rewrite !TR. change (win_lh w) with 1. rewrite !W by lia. transitivity (ZnearestE 0); [f_equal|apply Znearest_0].
    replace (Cconj (RtoC 1 * RtoC (IZR (-1))) + Cconj (RtoC 1 * RtoC (IZR 0)) + Cconj (RtoC 1 * RtoC (IZR 1)))%C with (RtoC 0) by (apply injective_projections; cbn; ring).
    unfold Cdiv. rewrite Cmult_0_l. reflexivity. }
  assert (Df : disp_f x w d 4 2 0 = 0).
  { unfold disp_f. rewrite !TR. change (win_lh w) with 1. change (1 + -1) with 0. change (1 + 0) with 1. change (1 + 1) with 2.
    rewrite Ez0', Ez1', Ez2', !W by lia. transitivity (ZnearestE 0); [f_equal|apply Znearest_0].
    replace (Cconj (RtoC 1) + Cconj (RtoC 0) + Cconj (RtoC (-1)))%C with (RtoC 0) by (apply injective_projections; cbn; ring).
    unfold Cdiv. replace (RtoC (IZR 4) * RtoC 0)%C with (RtoC 0) by ring. rewrite !Cmult_0_l. reflexivity. }
  assert (E : rent tfr 0 0 = 3%R).
  { assert (H := rspec_run _ _ _ _ _ _ _ Ho). cbv zeta in H. cbn [rs_ts rs_n rs_w] in H. destruct H as (_ & _ & _ & _ & _ & Et & _).
    rewrite Et, rs_sq_nth by (try lia; change (zlen ts) with 2; lia). change (nth (Z.to_nat 0) ts 0) with 2.
    change w with ones3; rewrite (rs_nrm_ones x 4 2) by (apply Tau; left; auto); fold w. rewrite rS_trans, TR. change (win_lh w) with 1. rewrite !W by lia.
    rewrite Cmod_div_R by (apply Rgt_not_eq, sqrt_lt_R0; lra). rewrite !Cconj_R, <- !RtoC_plus, Cmod_R.
    rewrite (Rabs_right (sqrt 3)) by (apply Rle_ge, sqrt_pos). rewrite (Rabs_right (1 + 1 + 1)) by lra.
    unfold Rdiv. rewrite Rpow_mult_distr. rewrite pow_inv. rewrite pow2_sqrt by lra. field. }
  exists x, ts, 4, w, tfr, rtfr, vec, d, 0, 0. split; [exact Ho|]. split; [exact Ed|]. split; [exact Dt|]. split; [exact Df|]. split; [exact E|]. split; [|reflexivity].
  assert (V : vent vec 0 0 <> None).
  { assert (H := rspec_run _ _ _ _ _ _ _ Ho). cbv zeta in H. cbn [rs_ts rs_n rs_w] in H.
    destruct H as (_ & _ & _ & _ & _ & Et & _ & mn & mx & dwin & Hmn & Hmx & _ & Hv & _).
    rewrite Hv by (try lia; change (zlen ts) with 2; lia). rewrite E. unfold above. destruct (Rlt_dec _ _) as [|N]; [discriminate|]. exfalso. apply N.
    assert (mn = 2) by (cbn in Hmn; congruence). assert (mx = 3) by (cbn in Hmx; congruence). subst mn mx.
    unfold rs_thr, mean2. change (arange 2 (3 + 1)) with [2; 3]. cbn [map]. change (xwrap x (2 - 1)) with (RtoC 1). change (xwrap x (3 - 1)) with (RtoC 1).
    rewrite !rsum_cons, rsum_nil, Cmod_1. change (zlen [RtoC 1; RtoC 1]) with 2. rewrite Rabs_right; lra. }
  destruct (c37_undisplaced x (Some ts) (Some 4) (Some w) tfr rtfr vec d 0 0 Ho) as [Q _]; auto; cbn [rs_ts rs_n rs_w]; try lia.
  - change (zlen w) with 3. lia.
  - change (zlen ts) with 2. lia.
Qed.

(** *** C38 *)
Lemma c38_agrees : forall x l n w tfr rtfr vec, rspec x (Some l) (Some n) (Some w) = Ok (Some (tfr, rtfr, vec)) ->
  (forall t, In t l -> Z.min (round_half n - 1) ((zlen w - 1) / 2) < t) ->
  spectrogram x (Some (TsI l)) (Some n) (Some w) = Ok (map Some tfr).
Proof.
  intros x l n w tfr rtfr vec H Hl. apply rspec_run in H. cbv zeta in H. cbn [rs_ts rs_n rs_w] in H.
  destruct H as (Hn & Hx & HT & Ho & Hl' & Et & _). rewrite spectrogram_ok by auto. f_equal. rewrite Et, map_map. apply map_ext_in.
  intros ti Hti. specialize (Hl ti Hti). destruct (Hl' ti Hti) as [Nn _].
  assert (Tau : rs_tau (zlen x) w n ti = spec_taus (zlen x) w n ti).
  { unfold rs_tau, spec_taus, spec_m. fold (win_lh w) in Hl. f_equal. lia. }
  assert (Nr : rs_nrm x w n ti = spec_nrm x w n ti) by (unfold rs_nrm, spec_nrm; now rewrite Tau).
  assert (M : rs_mat x w w n ti = scatter n (spec_taus (zlen x) w n ti) (spec_val x w n ti)).
  { unfold rs_mat. rewrite Tau, Nr. unfold scatter. f_equal. apply map_ext_in. intros t Ht. f_equal. unfold rs_raw, spec_val, xwrap.
    apply spec_taus_ok in Ht. rewrite (proj2 (Z.ltb_ge _ _)) by lia. reflexivity. }
  unfold rs_nan in Nn. rewrite Tau, Nr in Nn. unfold spec_out, rs_sq. rewrite M.
  destruct (spec_taus (zlen x) w n ti) eqn:E; [reflexivity|]. rewrite <- E. destruct (Req_EM_T (spec_nrm x w n ti) 0); [|reflexivity].
  exfalso. apply Nn. split; auto. discriminate.
Qed.

(** For an instant at or below the window half-length the sample before the first
    is read as the last one: x = [0,0,0,1], instant 1. *)
Lemma c38_left_edge_refuted : exists x l n w tfr rtfr vec col,
  rspec x (Some l) (Some n) (Some w) = Ok (Some (tfr, rtfr, vec)) /\
  spectrogram x (Some (TsI l)) (Some n) (Some w) = Ok [Some col] /\
  rent tfr 0 0 = (1 / 3)%R /\ rnth col 0 = 0%R.
Proof.
  set (x := [RtoC 0; RtoC 0; RtoC 0; RtoC 1]). set (w := ones3).
  assert (Tau : rs_tau (zlen x) w 4 1 = [-1; 0; 1]) by reflexivity.
  destruct (c36_outcome x [1] 4 w) as [_ O]. destruct O as [_ O]; try (reflexivity || lia || discriminate).
  destruct O as [o Ho]. { intros t [<-|[]]; change (zlen x) with 4; lia. } { change (zlen w) with 3. lia. }
  destruct o as [[[tfr rtfr] vec]|].
  2:{ apply c36_nan in Ho; try (reflexivity || lia || discriminate).
      - destruct Ho as (ti & [<-|[]] & _ & Q). specialize (Q 0). rewrite Tau in Q. specialize (Q ltac:(right; left; auto)).
        exfalso. change (RtoC 1 = RtoC 0) in Q. apply RtoC_inj in Q. lra.
      - intros t [<-|[]]; change (zlen x) with 4; lia. }
  assert (E : rent tfr 0 0 = (1 / 3)%R).
  { assert (H := rspec_run _ _ _ _ _ _ _ Ho). cbv zeta in H. cbn [rs_ts rs_n rs_w] in H. destruct H as (_ & _ & _ & _ & _ & Et & _).
    rewrite Et, rs_sq_nth by (try lia; change (zlen [1]) with 1; lia). change (nth (Z.to_nat 0) [1] 0) with 1.
    change w with ones3; rewrite (rs_nrm_ones x 4 1) by reflexivity; fold w. unfold rS. rewrite Tau, !csum_cons, csum_nil. rewrite !Z.mul_0_l. change (- 0) with 0. rewrite root_0.
    unfold rs_raw. change (xwrap x (1 + -1 - 1)) with (RtoC 1). change (xwrap x (1 + 0 - 1)) with (RtoC 0). change (xwrap x (1 + 1 - 1)) with (RtoC 0).
    change (cnth w (win_lh w + -1)) with (RtoC 1).
    rewrite Cmod_div_R by (apply Rgt_not_eq, sqrt_lt_R0; lra).
    replace (RtoC 1 * Cconj (RtoC 1) * RtoC 1 + (RtoC 0 * Cconj (cnth w (win_lh w + 0)) * RtoC 1 + (RtoC 0 * Cconj (cnth w (win_lh w + 1)) * RtoC 1 + RtoC 0)))%C with (RtoC 1)
      by (rewrite Cconj_R; ring).
    rewrite Cmod_1. rewrite (Rabs_right (sqrt 3)) by (apply Rle_ge, sqrt_pos).
    unfold Rdiv. rewrite Rpow_mult_distr, pow_inv, pow2_sqrt by lra. field. }
  assert (Hs := spectrogram_ok x w [1] 4 ltac:(lia)). cbn [map] in Hs.
  assert (Hnn : spec_nrm x w 4 1 <> 0%R).
  { unfold spec_nrm. change (spec_taus (zlen x) w 4 1) with [0; 1]. intros Q. apply norm2_0 with (z := RtoC 1) in Q; [|left; reflexivity].
    apply (f_equal fst) in Q. cbn in Q. lra. }
  destruct (spec_out x w 4 1) as [col|] eqn:Ec.
  - exists x, [1], 4, w, tfr, rtfr, vec, col. split; [exact Ho|]. split; [exact Hs|]. split; [exact E|].
    assert (Q := spec_entry x w 4 1 col 0 ltac:(lia) ltac:(lia) Ec).
    assert (Z0 : STFTw x (wincut (spec_m w 4) w) 4 0 (1 - 1) = RtoC 0).
    { unfold STFTw. change (arange 0 (zlen x)) with [0; 1; 2; 3]. rewrite !csum_cons, csum_nil.
      change (cnth x 0) with (RtoC 0). change (cnth x 1) with (RtoC 0). change (cnth x 2) with (RtoC 0).
      change (wincut (spec_m w 4) w (3 - (1 - 1))) with (RtoC 0). rewrite Cconj_R. ring. }
    rewrite Z0, Cmod_0 in Q. rewrite <- spec_nrm_sq in Q.
    assert (spec_nrm x w 4 1 ^ 2 <> 0)%R by (now apply pow_nonzero). 
    apply (Rmult_eq_reg_r (spec_nrm x w 4 1 ^ 2)); auto. rewrite Q. ring.
  - exfalso. unfold spec_out in Ec. change (spec_taus (zlen x) w 4 1) with [0; 1] in Ec. cbv iota in Ec.
    destruct (Req_EM_T (spec_nrm x w 4 1) 0); [auto|discriminate].
Qed.

(** *** C39 *)
(** The instants at which the half-width would be the float round(n/2) - 1. *)
Definition rp_bad (N lh n ti : Z) : Prop := round_half n - 1 < Z.min (ti - 1) (N - ti) /\ round_half n - 1 <= lh.
Definition rp_m (N lh ti : Z) : Z := Z.min (Z.min (ti - 1) (N - ti)) lh.
Definition rp_val (x g : list C) (lh ti t : Z) : C := (cnth g (lh + t)%Z * cnth x (ti + t - 1)%Z * Cconj (cnth x (ti - t - 1)%Z))%C.
Definition rp_mat (x fw g : list C) (n ti : Z) : list C :=
  let m := rp_m (zlen x) (win_lh fw) ti in scatter n (arange (- m) (m + 1)) (rp_val x g (win_lh fw) ti).

Lemma rp_taumax_eq N lh n ti : (rp_bad N lh n ti /\ isfloat (rp_taumax N lh n ti) = true) \/
  (~ rp_bad N lh n ti /\ rp_taumax N lh n ti = I (rp_m N lh ti) /\ rp_m N lh ti <= round_half n - 1).
Proof.
  unfold rp_taumax, rp_bad, rp_m. cbn [pymin nval].
  destruct (Z.ltb_spec (N - ti) (ti - 1)); cbn [nval].
  - destruct (Z.ltb_spec (round_half n - 1) (N - ti)); cbn [nval].
    + destruct (Z.ltb_spec lh (round_half n - 1)); [right|left; split; [lia|reflexivity]].
      split; [lia|]. split; [f_equal; lia|lia].
    + right. destruct (Z.ltb_spec lh (N - ti)); (split; [lia|]; split; [f_equal; lia|lia]).
  - destruct (Z.ltb_spec (round_half n - 1) (ti - 1)); cbn [nval].
    + destruct (Z.ltb_spec lh (round_half n - 1)); [right|left; split; [lia|reflexivity]].
      split; [lia|]. split; [f_equal; lia|lia].
    + right. destruct (Z.ltb_spec lh (ti - 1)); (split; [lia|]; split; [f_equal; lia|lia]).
Qed.

Lemma rp_col_ok x fw g n ti : 0 < n -> zlen fw mod 2 <> 0 -> zlen g = zlen fw ->
  (rp_bad (zlen x) (win_lh fw) n ti -> rp_col x fw g n ti = Raise IndexError) /\
  (~ rp_bad (zlen x) (win_lh fw) n ti -> rp_col x fw g n ti = Ok (rp_mat x fw g n ti)).
Proof.
  intros Hn Ho Hg. apply odd_lh in Ho. unfold rp_col.
  destruct (rp_taumax_eq (zlen x) (win_lh fw) n ti) as [[B E]|(B & E & Hm)]; (split; intros Q; [try tauto|try tauto]).
  - now rewrite E.
  - rewrite E. cbn [isfloat nval]. set (m := rp_m (zlen x) (win_lh fw) ti) in *.
    assert (Hm' : m <= win_lh fw /\ m <= ti - 1 /\ m <= zlen x - ti) by (unfold m, rp_m; lia).
    rewrite (take_ok (RtoC 0)).
    2:{ intros i Hi. apply in_map_iff in Hi. destruct Hi as [t [<- Ht]]. apply in_arange in Ht. lia. }
    cbn [bind]. rewrite (take_ok (RtoC 0)).
    2:{ intros i Hi. apply in_map_iff in Hi. destruct Hi as [t [<- Ht]]. apply in_arange in Ht. lia. }
    cbn [bind]. rewrite !map_map, bcast_map. cbn [bind]. rewrite (take_ok (RtoC 0)).
    2:{ intros i Hi. apply in_map_iff in Hi. destruct Hi as [t [<- Ht]]. apply in_arange in Ht. lia. }
    cbn [bind]. rewrite !map_map, bcast_map. cbn [bind].
    rewrite (put_map_ok (zeros n) (fun t => remainder n t + 1 - 1)).
    2:{ intros t _. rewrite zeros_zlen by lia. unfold remainder. assert (Q' := Z.mod_pos_bound (n + t) n Hn). lia. }
    cbn [bind]. 
    destruct ((ti <=? zlen x - round_half n) && (round_half n + 1 <? ti) && (round_half n <=? win_lh fw)) eqn:E3.
    + exfalso. apply B. unfold rp_bad. rewrite !andb_true_iff, !Z.leb_le, Z.ltb_lt in E3. lia.
    + f_equal. unfold rp_mat, scatter. fold m. f_equal. apply map_ext. intros t. unfold remainder. f_equal. lia.
Qed.

(** Entry j of the transform of the column of an accepted instant. *)
Definition rp_S (x fw g : list C) (n ti j : Z) : C :=
  let m := rp_m (zlen x) (win_lh fw) ti in
  csum (arange (- m) (m + 1)) (fun t => rp_val x g (win_lh fw) ti t * root n (- (j * t)))%C.
Lemma rp_nodup N (fw : list C) n ti : 0 < n -> ~ rp_bad N (win_lh fw) n ti ->
  NoDup (map (fun t => t mod n) (arange (- rp_m N (win_lh fw) ti) (rp_m N (win_lh fw) ti + 1))).
Proof.
  intros Hn B. destruct (rp_taumax_eq N (win_lh fw) n ti) as [[B' _]|(_ & _ & Hm)]; [tauto|].
  apply NoDup_mod_arange; auto. generalize (round_half_bounds n). lia.
Qed.
Lemma rp_mat_fft x fw g n ti j : 0 < n -> 0 <= j < n -> ~ rp_bad (zlen x) (win_lh fw) n ti ->
  cnth (fft (rp_mat x fw g n ti)) j = rp_S x fw g n ti j.
Proof. intros Hn Hj B. unfold rp_mat. rewrite scatter_fft by (auto; now apply rp_nodup). reflexivity. Qed.

Definition rp_ts (x : list C) (ts : option (list Z)) : list Z := match ts with None => arange 0 (zlen x) | Some l => l end.
Definition rp_n (x : list C) (n : option Z) : Z := match n with Some n => n | None => zlen x end.
Definition rp_w (x : list C) (n : option Z) (w : option (list C)) : list C :=
  match w with Some w => w | None => map RtoC (hamming (pmh_winlen (rp_n x n))) end.
(** The window scaled to 1 at its centre. *)
Definition rp_fw (w : list C) : list C := map (fun v => v / cnth w (win_lh w))%C w.

Lemma pmh_winlen_odd n : 0 <= n -> pmh_winlen n mod 2 <> 0 /\ 1 <= pmh_winlen n.
Proof. intros Hn. unfold pmh_winlen. destruct (Z.eqb_spec (n / 4 mod 2) 0); Z.to_euclidean_division_equations; lia. Qed.
Lemma rp_w_odd x n w : 0 <= rp_n x n -> match w with None => True | Some w => zlen w mod 2 <> 0 end -> zlen (rp_w x n w) mod 2 <> 0.
Proof.
  intros Hn H. destruct w as [w|]; [exact H|]. unfold rp_w. destruct (pmh_winlen_odd (rp_n x n) Hn). rewrite zlen_map, hamming_zlen by lia. auto.
Qed.
Lemma rpwv_defaults x ts n w : 0 <= rp_n x n ->
  rpwv x ts n w = rpwv x (Some (rp_ts x ts)) (Some (rp_n x n)) (Some (rp_w x n w)).
Proof.
  intros Hn. destruct w as [w|].
  - destruct ts, n; reflexivity.
  - assert (Ho := rp_w_odd x n None Hn Logic.I). apply Z.eqb_neq in Ho. unfold rpwv at 2. cbn zeta. rewrite Ho. cbn [bind].
    destruct ts, n; reflexivity.
Qed.

Lemma rp_fw_zlen w : zlen (rp_fw w) = zlen w.
Proof. unfold rp_fw. apply zlen_map. Qed.
Lemma win_lh_zlen {A B} (a : list A) (b : list B) : zlen a = zlen b -> win_lh a = win_lh b.
Proof. unfold win_lh. now intros ->. Qed.

Definition rp_thr (x : list C) (mn mx : Z) : option R :=
  match pyslice x mn (mx + 1) with [] => None | _ => Some (1 / 1000000 * mean2 (pyslice x mn (mx + 1)))%R end.
Definition rp_re (x fw : list C) (n ti : Z) : list R := map Re (fft (rp_mat x fw fw n ti)).
(** 1-based destination row of cell (j, i). *)
Definition rp_row (x fw d : list C) (n : Z) (l : list Z) (i j : Z) : Z :=
  let ti := nth (Z.to_nat i) l 0 in
  (j - rp_df n (Re (rp_S x fw fw n ti j)) (Im (rp_S x fw d n ti j)) - 1) mod n + 1.
Definition rp_hatf (x fw : list C) (dh : option (list C)) (n : Z) (l : list Z) (i j : Z) : res (Z * Z) :=
  match dh with None => Raise ValueError | Some d => Ok (rp_row x fw d n l i j - 1, i) end.

Lemma rent_map_fft (re : C -> R) (F : Z -> list C) l n i j : re (RtoC 0) = 0%R -> (forall ti, zlen (F ti) = n) -> 0 <= i < zlen l -> 0 <= j < n ->
  rent (map (fun col => map re (fft col)) (map F l)) j i = re (cnth (fft (F (nth (Z.to_nat i) l 0))) j).
Proof.
  intros R0 HF Hi Hj. rewrite map_map. unfold rent. rewrite (nth_indep _ [] (map re (fft (F 0)))) by (rewrite map_length; unfold zlen in Hi; lia).
  rewrite (map_nth (fun t => map re (fft (F t)))). unfold rnth, cnth. rewrite <- R0 at 1. now rewrite map_nth.
Qed.
Lemma rp_mat_zlen x fw g n ti : 0 <= n -> zlen (rp_mat x fw g n ti) = n.
Proof. intros. unfold rp_mat. apply scatter_zlen. auto. Qed.

Lemma rpwv_eval x l n w mn mx dh : 0 < n -> zlen w mod 2 <> 0 ->
  zmin l = Ok mn -> zmax l = Ok mx -> derive_window (rp_fw w) = Ok dh ->
  ((exists ti, In ti l /\ rp_bad (zlen x) (win_lh w) n ti) -> rpwv x (Some l) (Some n) (Some w) = Raise IndexError) /\
  ((forall ti, In ti l -> ~ rp_bad (zlen x) (win_lh w) n ti) ->
   (cnth w (win_lh w) = RtoC 0 -> rpwv x (Some l) (Some n) (Some w) = Ok None) /\
   (cnth w (win_lh w) <> RtoC 0 ->
     let fw := rp_fw w in let re := map (rp_re x fw n) l in let thr := rp_thr x mn mx in
     rpwv x (Some l) (Some n) (Some w) =
     (rtfr <- reassign re n (zlen l) thr (rp_hatf x fw dh n l) ;;
      Ok (Some (re, rtfr, map (fun i => map (fun j => if above thr (rent re j i) then Some (rp_row x fw (dflt fw dh) n l i j) else None)
       (arange 0 n)) (arange 0 (zlen l))))))).
Proof.
  intros Hn Ho Hmn Hmx Hd. assert (Hlh := odd_lh w Ho).
  assert (Hf : zlen (rp_fw w) mod 2 <> 0) by (now rewrite rp_fw_zlen).
  assert (Hlf : win_lh (rp_fw w) = win_lh w) by (apply win_lh_zlen, rp_fw_zlen).
  assert (W1 : 1 <= zlen w) by (generalize (zlen_nonneg w); lia).
  assert (Hd' : zlen (dflt (rp_fw w) dh) = zlen (rp_fw w)).
  { destruct (derive_window_cases (rp_fw w)) as (od & E & Q); [rewrite rp_fw_zlen; auto|]. assert (od = dh) by congruence. subst od. destruct dh; cbn; [tauto|auto]. }
  unfold rpwv. rewrite (proj2 (Z.eqb_neq _ _)) by auto. cbn [bind].
  rewrite (get_ok (RtoC 0)) by (unfold win_lh in *; lia). cbn [bind]. fold (cnth w (win_lh w)). fold (rp_fw w).
  rewrite (proj2 (Z.ltb_ge n 0)) by lia. rewrite Hd. cbn [bind]. fold (dflt (rp_fw w) dh).
  split.
  - intros (ti & Hi & B). rewrite (mapM_raise _ l IndexError).
    + reflexivity.
    + intros a Ha. destruct (rp_taumax_eq (zlen x) (win_lh (rp_fw w)) n a) as [[B' _]|(B' & _)].
      * right. apply rp_col_ok; auto.
      * left. eexists. apply rp_col_ok; auto.
    + exists ti. split; auto. apply rp_col_ok; auto. now rewrite Hlf.
  - intros Hg.
    assert (M : forall g, zlen g = zlen (rp_fw w) -> mapM (rp_col x (rp_fw w) g n) l = Ok (map (rp_mat x (rp_fw w) g n) l)).
    { intros g Hgl. apply mapM_ok. intros ti Hi. apply rp_col_ok; auto. rewrite Hlf. auto. }
    rewrite !M by auto. cbn [bind]. rewrite (proj2 (Z.eqb_neq n 0)) by lia. rewrite Hmn, Hmx. cbn [bind].
    destruct (Ceq_dec (cnth w (win_lh w)) (RtoC 0)) as [Hc|Hc].
    + split; [auto|tauto].
    + split; [tauto|]. intros _. set (fw := rp_fw w). set (re := map (rp_re x fw n) l). set (thr := rp_thr x mn mx). fold fw in Hlf.
      assert (Ere : map (fun col => map Re (fft col)) (map (rp_mat x (rp_fw w) (rp_fw w) n) l) = re) by (unfold re; now rewrite map_map).
      assert (Hre : forall i j, 0 <= i < zlen l -> 0 <= j < n -> rent re j i = Re (rp_S x fw fw n (nth (Z.to_nat i) l 0) j)).
      { intros i j Hi Hj. rewrite <- Ere, (rent_map_fft Re _ l n) by (auto; intros; apply rp_mat_zlen; lia). f_equal. apply rp_mat_fft; auto. rewrite Hlf. apply Hg, nth_In. unfold zlen in Hi; lia. }
      assert (Him : forall i j, 0 <= i < zlen l -> 0 <= j < n ->
        rent (map (fun col => map Im (fft col)) (map (rp_mat x fw (dflt fw dh) n) l)) j i = Im (rp_S x fw (dflt fw dh) n (nth (Z.to_nat i) l 0) j)).
      { intros i j Hi Hj. rewrite (rent_map_fft Im _ l n) by (auto; intros; apply rp_mat_zlen; lia). f_equal. apply rp_mat_fft; auto. rewrite Hlf. apply Hg, nth_In. unfold zlen in Hi; lia. }
      fold fw. fold fw in Ere. rewrite Ere. fold (rp_thr x mn mx). fold thr.
      assert (Hrow : forall i j, 0 <= i < zlen l -> 0 <= j < n ->
        ((j - rp_df n (rent re j i) (rent (map (fun col => map Im (fft col)) (map (rp_mat x fw (dflt fw dh) n) l)) j i) - 1) mod n + n) mod n + 1
        = rp_row x fw (dflt fw dh) n l i j).
      { intros i j Hi Hj. rewrite Hre, Him by auto. unfold rp_row. f_equal. rewrite <- Z.add_mod_idemp_r, Z.mod_same, Z.add_0_r, Z.mod_mod by lia. reflexivity. }
      rewrite (reassign_ext re n (zlen l) thr _ (rp_hatf x fw dh n l)).
      2:{ intros i j Hi Hj. unfold rp_hatf. rewrite Hrow by auto. destruct dh; reflexivity. }
      destruct (reassign re n (zlen l) thr (rp_hatf x fw dh n l)); cbn [bind]; auto. do 3 f_equal.
      apply map_ext_in. intros i Hi. apply in_arange in Hi. apply map_ext_in. intros j Hj. apply in_arange in Hj. now rewrite Hrow by auto.
Qed.

Lemma rpwv_pos x ts n w r : rpwv x ts n w = Ok r -> 0 < rp_n x n.
Proof.
  intros H. unfold rpwv in H. cbv zeta in H. fold (rp_n x n) in H. apply bind_ok_inv in H. destruct H as (w' & _ & H).
  apply bind_ok_inv in H. destruct H as (c & _ & H). destruct (Z.ltb_spec (rp_n x n) 0); [discriminate|].
  apply bind_ok_inv in H. destruct H as (dh & _ & H). apply bind_ok_inv in H. destruct H as (c1 & _ & H). apply bind_ok_inv in H. destruct H as (c2 & _ & H).
  destruct (Z.eqb_spec (rp_n x n) 0); [discriminate|]. lia.
Qed.

Lemma rp_bad_dec N lh n ti : {rp_bad N lh n ti} + {~ rp_bad N lh n ti}.
Proof. unfold rp_bad. destruct (Z_lt_dec (round_half n - 1) (Z.min (ti - 1) (N - ti))), (Z_le_dec (round_half n - 1) lh); (left; tauto) || (right; tauto). Qed.
Lemma rp_bad_list N lh n l : {exists ti, In ti l /\ rp_bad N lh n ti} + {forall ti, In ti l -> ~ rp_bad N lh n ti}.
Proof.
  induction l as [|a l [IH|IH]].
  - right. intros ti [].
  - left. destruct IH as (t & Ht & B). exists t. split; auto. now right.
  - destruct (rp_bad_dec N lh n a) as [B|B].
    + left. exists a. split; auto. now left.
    + right. intros ti [<-|Hi]; auto.
Qed.

Lemma rpwv_inv x l n w r : rpwv x (Some l) (Some n) (Some w) = Ok r ->
  0 < n /\ zlen w mod 2 <> 0 /\ exists mn mx dh, zmin l = Ok mn /\ zmax l = Ok mx /\ derive_window (rp_fw w) = Ok dh.
Proof.
  intros H. assert (Hn := rpwv_pos _ _ _ _ _ H). cbn [rp_n] in Hn. split; auto. unfold rpwv in H.
  destruct (Z.eqb_spec (zlen w mod 2) 0) as [|Ho]; [discriminate|]. split; auto. cbn [bind] in H. assert (Hl := odd_lh w Ho).
  rewrite (get_ok (RtoC 0)) in H by (unfold win_lh in *; generalize (zlen_nonneg w); lia). cbn [bind] in H. fold (cnth w (win_lh w)) in H. fold (rp_fw w) in H.
  rewrite (proj2 (Z.ltb_ge n 0)) in H by lia. apply bind_ok_inv in H. destruct H as (dh & Hd & H).
  apply bind_ok_inv in H. destruct H as (c1 & _ & H). apply bind_ok_inv in H. destruct H as (c2 & _ & H).
  rewrite (proj2 (Z.eqb_neq n 0)) in H by lia. apply bind_ok_inv in H. destruct H as (mn & Hmn & H). apply bind_ok_inv in H. destruct H as (mx & Hmx & H).
  exists mn, mx, dh. auto.
Qed.

(** 0-based destination row of a cell. *)
Definition rdest (vec : list (list (option Z))) (j i : Z) : Z := match vent vec j i with Some r => r - 1 | None => j end.

Lemma rp_row_range x fw d n l i j : 0 < n -> 0 <= rp_row x fw d n l i j - 1 < n.
Proof. intros Hn. unfold rp_row. cbv zeta. match goal with |- context [?a mod n] => assert (Q := Z.mod_pos_bound a n Hn) end. lia. Qed.

Lemma rp_re_ent x w n l i j : 0 < n -> (forall ti, In ti l -> ~ rp_bad (zlen x) (win_lh w) n ti) -> 0 <= i < zlen l -> 0 <= j < n ->
  rent (map (rp_re x (rp_fw w) n) l) j i = Re (rp_S x (rp_fw w) (rp_fw w) n (nth (Z.to_nat i) l 0) j).
Proof.
  intros Hn Hg Hi Hj. assert (Hlf : win_lh (rp_fw w) = win_lh w) by (apply win_lh_zlen, rp_fw_zlen).
  transitivity (rent (map (fun col => map Re (fft col)) (map (rp_mat x (rp_fw w) (rp_fw w) n) l)) j i); [now rewrite map_map|].
  rewrite (rent_map_fft Re _ l n) by (auto; intros; apply rp_mat_zlen; lia). f_equal. apply rp_mat_fft; auto. rewrite Hlf. apply Hg, nth_In. unfold zlen in Hi; lia.
Qed.

Lemma rp_re_shape x fw n l : 0 < n -> shape (map (rp_re x fw n) l) n (zlen l).
Proof.
  intros Hn. split; [apply zlen_map|]. intros c Hc. apply in_map_iff in Hc. destruct Hc as [ti [<- _]]. unfold rp_re, zlen. rewrite map_length, fft_length. apply rp_mat_zlen. lia.
Qed.

Lemma foldM_raises {A S} (f : S -> A -> res S) l s a r : In a l -> (forall s, exists e, f s a = Raise e) -> foldM f l s <> Ok r.
Proof.
  revert s. induction l as [|b l IH]; intros s Hi H Q; [destruct Hi|]. cbn [foldM] in Q. apply bind_ok_inv in Q. destruct Q as (s' & Es & Q).
  destruct Hi as [->|Hi]; [|eapply IH; eauto]. destruct (H s) as [e He]. congruence.
Qed.

Lemma rpwv_run x ts n w tfr rtfr vec : rpwv x ts n w = Ok (Some (tfr, rtfr, vec)) ->
  let l := rp_ts x ts in let w := rp_w x n w in let n := rp_n x n in
  0 < n /\ zlen w mod 2 <> 0 /\ cnth w (win_lh w) <> RtoC 0 /\ (forall ti, In ti l -> ~ rp_bad (zlen x) (win_lh w) n ti) /\
  shape tfr n (zlen l) /\ shape rtfr n (zlen l) /\
  (forall j i, 0 <= j < n -> 0 <= i < zlen l -> rent tfr j i = Re (rp_S x (rp_fw w) (rp_fw w) n (nth (Z.to_nat i) l 0%Z) j)) /\
  exists mn mx dh, zmin l = Ok mn /\ zmax l = Ok mx /\ derive_window (rp_fw w) = Ok dh /\
  (forall j i, 0 <= j < n -> 0 <= i < zlen l -> vent vec j i =
      if above (rp_thr x mn mx) (rent tfr j i) then Some (rp_row x (rp_fw w) (dflt (rp_fw w) dh) n l i j) else None) /\
  (dh = None -> forall j i, 0 <= j < n -> 0 <= i < zlen l -> above (rp_thr x mn mx) (rent tfr j i) = false) /\
  (forall r c, 0 <= r < n -> 0 <= c < zlen l ->
    rent rtfr r c = rsum (arange 0 n) (fun j => if rdest vec j c =? r then rent tfr j c else 0%R)).
Proof.
  intros H. assert (Hn := rpwv_pos _ _ _ _ _ H). rewrite rpwv_defaults in H by lia. cbv zeta.
  set (l := rp_ts x ts) in *. set (w' := rp_w x n w) in *. set (n' := rp_n x n) in *. 
  destruct (rpwv_inv _ _ _ _ _ H) as (_ & Ho & mn & mx & dh & Hmn & Hmx & Hd).
  destruct (rpwv_eval x l n' w' mn mx dh Hn Ho Hmn Hmx Hd) as [Eb Eg].
  destruct (rp_bad_list (zlen x) (win_lh w') n' l) as [B|B]; [rewrite Eb in H by auto; discriminate|].
  destruct (Eg B) as [E0 E1]. destruct (Ceq_dec (cnth w' (win_lh w')) (RtoC 0)) as [Hc|Hc]; [rewrite E0 in H by auto; discriminate|].
  specialize (E1 Hc). cbv zeta in E1. rewrite E1 in H. clear E0 E1 Eb Eg.
  set (fw := rp_fw w') in *. set (re := map (rp_re x fw n') l) in *. set (thr := rp_thr x mn mx) in *.
  apply bind_ok_inv in H. destruct H as (rt & Hr & H).
  assert (Et : tfr = re) by congruence. assert (Er : rtfr = rt) by congruence.
  assert (Ev : vec = map (fun i => map (fun j => if above thr (rent re j i) then Some (rp_row x fw (dflt fw dh) n' l i j) else None) (arange 0 n')) (arange 0 (zlen l))) by congruence.
  clear H. subst tfr rtfr.
  assert (HT : 1 <= zlen l) by (apply zmin_spec in Hmn; apply (nonempty_T l mn); tauto).
  assert (Hv : forall j i, 0 <= j < n' -> 0 <= i < zlen l -> vent vec j i = if above thr (rent re j i) then Some (rp_row x fw (dflt fw dh) n' l i j) else None).
  { intros j i Hj Hi. rewrite Ev. exact (vent_map2 (fun i j => if above thr (rent re j i) then Some (rp_row x fw (dflt fw dh) n' l i j) else None) n' (zlen l) j i Hj Hi). }
  assert (Sh := rp_re_shape x fw n' l Hn). fold re in Sh.
  assert (Hre : forall j i, 0 <= j < n' -> 0 <= i < zlen l -> rent re j i = Re (rp_S x fw fw n' (nth (Z.to_nat i) l 0%Z) j)).
  { intros j i Hj Hi. apply rp_re_ent; auto. }
  assert (Hdn : dh = None -> forall j i, 0 <= j < n' -> 0 <= i < zlen l -> above thr (rent re j i) = false).
  { intros -> j i Hj Hi. destruct (above thr (rent re j i)) eqn:Ea; auto. exfalso.
    unfold reassign in Hr. apply (foldM_raises (reassign_step re thr (rp_hatf x fw None n' l)) (list_prod (arange 0 (zlen l)) (arange 0 n'))
       (repeat (repeat 0%R (Z.to_nat n')) (Z.to_nat (zlen l))) (i, j) rt); auto.
    - apply in_prod; apply in_arange; lia.
    - intros s. unfold reassign_step. rewrite Ea. cbn. eauto. }
  destruct (reassign_ok re n' (zlen l) thr (rp_hatf x fw dh n' l) (fun i j => (rdest vec j i, i))) as (m & Em & Sm & Hm); try lia.
  - intros i j Hi Hj. cbn [fst snd]. split; [|auto]. unfold rdest. rewrite Hv by auto. destruct (above _ _); [apply rp_row_range; auto|auto].
  - intros i j Hi Hj. unfold rdest. rewrite Hv by auto. destruct (above thr (rent re j i)) eqn:Ea; [|reflexivity].
    unfold rp_hatf. destruct dh as [d|]; [reflexivity|]. rewrite Hdn in Ea by auto. discriminate.
  - assert (m = rt) by congruence. subst m.
    repeat (split; [solve [auto]|]). exists mn, mx, dh. repeat (split; [solve [auto]|]).
    intros r c Hrr Hcc. rewrite Hm by auto. cbn [fst snd].
    rewrite (rsum_single _ c); [|apply NoDup_arange|apply in_arange; lia|].
    + apply rsum_ext. intros j _. now rewrite Z.eqb_refl, andb_true_r.
    + intros i _ Hne. apply rsum_0. intros j _. rewrite (proj2 (Z.eqb_neq i c)) by auto. now rewrite andb_false_r.
Qed.

(** The first output, and the instants for which the call returns. *)
Lemma c39_entries : forall x ts n w tfr rtfr vec, rpwv x ts n w = Ok (Some (tfr, rtfr, vec)) ->
  let l := rp_ts x ts in let w := rp_w x n w in let n := rp_n x n in let lh := win_lh w in
  shape tfr n (zlen l) /\ shape rtfr n (zlen l) /\
  (forall i, 0 <= i < zlen l -> let ti := nth (Z.to_nat i) l 0 in
     ~ (round_half n - 1 < Z.min (ti - 1) (zlen x - ti) /\ round_half n - 1 <= lh) /\
     let m := Z.min (Z.min (ti - 1) (zlen x - ti)) lh in
     forall j, 0 <= j < n -> rent tfr j i = Re (csum (arange (- m) (m + 1)) (fun t =>
       cnth w (lh + t)%Z / cnth w lh * cnth x (ti - 1 + t)%Z * Cconj (cnth x (ti - 1 - t)%Z) * root n (- (j * t)%Z)))%C).
Proof.
  intros x ts n w tfr rtfr vec H. apply rpwv_run in H. cbv zeta in *.
  destruct H as (Hn & Ho & Hc & Hb & St & Sr & Ht & _). split; auto. split; auto. intros i Hi.
  assert (Hin : In (nth (Z.to_nat i) (rp_ts x ts) 0) (rp_ts x ts)) by (apply nth_In; unfold zlen in Hi; lia).
  split; [apply (Hb _ Hin)|]. intros j Hj. rewrite Ht by auto. unfold rp_S, rp_m.
  rewrite (win_lh_zlen (rp_fw (rp_w x n w)) (rp_w x n w)) by apply rp_fw_zlen. f_equal. apply csum_ext. intros t Ht'. apply in_arange in Ht'. f_equal.
  unfold rp_val. assert (Hl := odd_lh _ Ho). f_equal; [f_equal|].
  - unfold rp_fw, cnth at 1. rewrite (nth_indep _ (RtoC 0) ((fun v => v / cnth (rp_w x n w) (win_lh (rp_w x n w)))%C (RtoC 0))).
    + now rewrite (map_nth (fun v => v / cnth (rp_w x n w) (win_lh (rp_w x n w)))%C).
    + rewrite map_length. unfold zlen in Hl. lia.
  - f_equal. lia.
  - do 2 f_equal. lia.
Qed.

(** Each column keeps its sum; cells only move within their column. *)
Lemma c39_mass : forall x ts n w tfr rtfr vec c, rpwv x ts n w = Ok (Some (tfr, rtfr, vec)) ->
  0 <= c < zlen (rp_ts x ts) -> let n := rp_n x n in
  (forall j, 0 <= j < n -> 0 <= rdest vec j c < n) /\
  (forall r, 0 <= r < n -> rent rtfr r c = rsum (arange 0 n) (fun j => if rdest vec j c =? r then rent tfr j c else 0%R)) /\
  rsum (arange 0 n) (fun r => rent rtfr r c) = rsum (arange 0 n) (fun j => rent tfr j c).
Proof.
  intros x ts n w tfr rtfr vec c H Hc. apply rpwv_run in H. cbv zeta in *.
  destruct H as (Hn & Ho & Hc0 & Hb & St & Sr & Ht & mn & mx & dh & Hmn & Hmx & Hd & Hv & Hdn & Hr).
  assert (Hrd : forall j, 0 <= j < rp_n x n -> 0 <= rdest vec j c < rp_n x n).
  { intros j Hj. unfold rdest. rewrite Hv by auto. destruct (above _ _); [apply rp_row_range; auto|auto]. }
  split; auto. split; [intros; apply Hr; auto|].
  transitivity (rsum (arange 0 (rp_n x n)) (fun r => rsum (arange 0 (rp_n x n)) (fun j => if rdest vec j c =? r then rent tfr j c else 0%R))).
  - apply rsum_ext. intros r Hrr. apply in_arange in Hrr. apply Hr; auto.
  - rewrite rsum_swap. apply rsum_ext. intros j Hj. apply in_arange in Hj. apply rsum_pick. auto.
Qed.

Lemma c39_marginal : forall x ts n w tfr rtfr vec i, rpwv x ts n w = Ok (Some (tfr, rtfr, vec)) ->
  0 <= i < zlen (rp_ts x ts) -> let ti := nth (Z.to_nat i) (rp_ts x ts) 0 in let n := rp_n x n in
  rsum (arange 0 n) (fun j => rent tfr j i) =
  if (1 <=? ti) && (ti <=? zlen x) then (IZR n * Cmod (cnth x (ti - 1)%Z) ^ 2)%R else 0%R.
Proof.
  intros x ts n w tfr rtfr vec i H Hi ti. apply rpwv_run in H. cbv zeta in *. fold ti in H.
  destruct H as (Hn & Ho & Hc & Hb & _ & _ & Ht & _). set (l := rp_ts x ts) in *. set (n' := rp_n x n) in *. set (w' := rp_w x n w) in *.
  assert (Hin : In ti l) by (apply nth_In; unfold zlen in Hi; lia).
  assert (Hlf : win_lh (rp_fw w') = win_lh w') by (apply win_lh_zlen, rp_fw_zlen).
  assert (Hl := odd_lh _ Ho).
  transitivity (Re (csum (arange 0 n') (rp_S x (rp_fw w') (rp_fw w') n' ti))).
  { rewrite Re_csum. apply rsum_ext. intros j Hj. apply in_arange in Hj. rewrite Ht by auto. reflexivity. }
  set (m := rp_m (zlen x) (win_lh (rp_fw w')) ti).
  change (csum (arange 0 n') (rp_S x (rp_fw w') (rp_fw w') n' ti)) with (csum (arange 0 n') (esum n' (arange (- m) (m + 1)) (rp_val x (rp_fw w') (win_lh (rp_fw w')) ti))).
  rewrite esum_total by auto.
  assert (Hm : m <= round_half n' - 1).
  { destruct (rp_taumax_eq (zlen x) (win_lh (rp_fw w')) n' ti) as [[B' _]|(_ & _ & Hm)]; [|exact Hm]. rewrite Hlf in B'. destruct (Hb ti Hin B'). }
  assert (W0 : 0 <= win_lh w') by (unfold win_lh in *; generalize (zlen_nonneg w'); lia).
  destruct (Z.leb_spec 1 ti); cbn [andb].
  1: destruct (Z.leb_spec ti (zlen x)).
  - assert (Hm0 : 0 <= m) by (unfold m, rp_m; lia). generalize (round_half_bounds n'); intros Hb'.
    rewrite (csum_single _ 0); [|apply NoDup_arange|apply in_arange; lia|].
    + rewrite Z.mod_0_l by lia. cbn [Z.eqb]. unfold rp_val. rewrite !Z.add_0_r, Z.sub_0_r.
      replace (cnth (rp_fw w') (win_lh (rp_fw w'))) with (RtoC 1).
      * rewrite Cmult_1_l, <- Cmod2_conj, <- RtoC_mult. reflexivity.
      * rewrite Hlf. unfold rp_fw, cnth at 1. rewrite (nth_indep _ (RtoC 0) ((fun v => v / cnth w' (win_lh w'))%C (RtoC 0))).
        -- rewrite (map_nth (fun v => v / cnth w' (win_lh w'))%C). fold (cnth w' (win_lh w')). field. auto.
        -- rewrite map_length. unfold zlen in Hl. lia.
    + intros t Ht' Hne. apply in_arange in Ht'. destruct (Z.eqb_spec (t mod n') 0) as [Q|]; [|reflexivity]. exfalso.
      apply Z.mod_divide in Q; [|lia]. destruct Q as [q Q]. assert (q = 0) by (destruct (Z.lt_trichotomy q 0) as [L|[L|L]]; [exfalso; assert (q * n' <= - n') by nia; lia|auto|exfalso; assert (n' <= q * n') by nia; lia]). subst q. lia.
  - rewrite csum_0; [rewrite Cmult_0_r; reflexivity|]. intros t Ht'. apply in_arange in Ht'. unfold m, rp_m in Ht'. lia.
  - rewrite csum_0; [rewrite Cmult_0_r; reflexivity|]. intros t Ht'. apply in_arange in Ht'. unfold m, rp_m in Ht'. lia.
Qed.

Lemma c39_outcome : forall x l n w, 0 < n ->
  let r := rpwv x (Some l) (Some n) (Some w) in
  let bad ti := round_half n - 1 < Z.min (ti - 1) (zlen x - ti) /\ round_half n - 1 <= win_lh w in
  (zlen w mod 2 = 0 \/ l = [] -> r = Raise ValueError) /\
  (zlen w mod 2 <> 0 -> (exists ti, In ti l /\ bad ti) -> r = Raise IndexError) /\
  (zlen w mod 2 <> 0 -> 3 <= zlen w -> l <> [] -> (forall ti, In ti l -> ~ bad ti) ->
     if Ceq_dec (cnth w (win_lh w)) (RtoC 0) then r = Ok None else exists o, r = Ok (Some o)).
Proof.
  intros x l n w Hn r bad. split; [|split].
  - intros [He|He].
    + unfold r, rpwv. rewrite (proj2 (Z.eqb_eq _ _) He). reflexivity.
    + subst l. unfold r. destruct (Z.eqb_spec (zlen w mod 2) 0) as [E|Ho].
      * unfold rpwv. rewrite (proj2 (Z.eqb_eq _ _) E). reflexivity.
      * assert (Hl := odd_lh w Ho). assert (W1 : 1 <= zlen w) by (unfold win_lh in *; generalize (zlen_nonneg w); lia).
        unfold rpwv. rewrite (proj2 (Z.eqb_neq _ _) Ho). cbn [bind]. rewrite (get_ok (RtoC 0)) by (unfold win_lh in *; lia). cbn [bind]. rewrite (proj2 (Z.ltb_ge n 0)) by lia.
        fold (cnth w (win_lh w)). fold (rp_fw w).
        destruct (derive_window_cases (rp_fw w)) as (od & E & _); [rewrite rp_fw_zlen; auto|]. rewrite E. cbn [bind mapM]. rewrite (proj2 (Z.eqb_neq n 0)) by lia. reflexivity.
  - intros Ho Hb. assert (Hl := odd_lh w Ho). assert (W1 : 1 <= zlen w) by (unfold win_lh in *; generalize (zlen_nonneg w); lia).
    assert (Hne : l <> []) by (destruct Hb as (t & Ht & _); destruct l; [destruct Ht|discriminate]).
    destruct (zmin_ok l Hne) as [mn Hmn], (zmax_ok l Hne) as [mx Hmx].
    destruct (derive_window_cases (rp_fw w)) as (od & E & _); [rewrite rp_fw_zlen; auto|].
    destruct (rpwv_eval x l n w mn mx od Hn Ho Hmn Hmx E) as [Eb _]. apply Eb. exact Hb.
  - intros Ho H3 Hne Hg. assert (Hl := odd_lh w Ho).
    destruct (zmin_ok l Hne) as [mn Hmn], (zmax_ok l Hne) as [mx Hmx].
    destruct (derive_window_cases (rp_fw w)) as (od & E & Q); [rewrite rp_fw_zlen; lia|].
    destruct (rpwv_eval x l n w mn mx od Hn Ho Hmn Hmx E) as [_ Eg]. destruct (Eg Hg) as [E0 E1].
    destruct (Ceq_dec (cnth w (win_lh w)) (RtoC 0)) as [Hc|Hc]; [now apply E0|]. specialize (E1 Hc). cbv zeta in E1. unfold r. rewrite E1.
    destruct od as [d|]; [|rewrite rp_fw_zlen in Q; lia].
    assert (HT : 1 <= zlen l) by (apply zmin_spec in Hmn; apply (nonempty_T l mn); tauto).
    set (re := map (rp_re x (rp_fw w) n) l). set (thr := rp_thr x mn mx).
    destruct (reassign_ok re n (zlen l) thr (rp_hatf x (rp_fw w) (Some d) n l)
      (fun i j => if above thr (rent re j i) then (rp_row x (rp_fw w) d n l i j - 1, i) else (j, i))) as (m & Em & _); try lia.
    + intros i j Hi Hj. destruct (above _ _); cbn [fst snd]; [|auto]. split; [apply rp_row_range; auto|auto].
    + intros i j Hi Hj. destruct (above _ _); reflexivity.
    + rewrite Em. cbn [bind]. eauto.
Qed.

(** Where the cells above the threshold go: row j - 1 - round(displacement),
    modulo n, so an undisplaced cell moves up by one row. *)
Lemma c39_vectors : forall x ts n w tfr rtfr vec, rpwv x ts n w = Ok (Some (tfr, rtfr, vec)) ->
  let l := rp_ts x ts in let w := rp_w x n w in let n := rp_n x n in
  exists dh, derive_window (rp_fw w) = Ok dh /\
  forall j i, 0 <= j < n -> 0 <= i < zlen l -> forall r, vent vec j i = Some r ->
  let ti := nth (Z.to_nat i) l 0 in
  exists d, dh = Some d /\
   rdest vec j i = (j - rp_df n (rent tfr j i) (Im (rp_S x (rp_fw w) d n ti j)) - 1) mod n.
Proof.
  intros x ts n w tfr rtfr vec H. apply rpwv_run in H. cbv zeta in *.
  destruct H as (Hn & Ho & Hc0 & Hb & St & Sr & Ht & mn & mx & dh & Hmn & Hmx & Hd & Hv & Hdn & Hr).
  exists dh. split; auto. intros j i Hj Hi r Hvr. rewrite Hv in Hvr by auto. unfold rdest. rewrite Hv by auto.
  destruct (above _ _) eqn:Ea; [|discriminate]. destruct dh as [d|]; [|rewrite Hdn in Ea by auto; discriminate]. exists d. split; auto.
  unfold rp_row. cbv zeta. cbn [dflt]. rewrite <- Ht by auto. lia.
Qed.

(** *** C40 *)
Lemma c40_pmh_raises : forall B (rest : list C -> res B) x n w, exists e, rpmh rest x n w = Raise e.
Proof. intros. destruct w as [w|]; unfold rpmh; [destruct (zlen w mod 2 =? 0)|]; cbn; eauto. Qed.
Lemma c40_page_raises : forall B (rest : list C -> res B) x n w, exists e, rppage rest x n w = Raise e.
Proof. intros. destruct w as [w|]; unfold rppage; [destruct (zlen w mod 2 =? 0)|]; cbn; eauto. Qed.
Lemma c40_spwv_raises : forall B (rest : list C -> res B) x ts n tw fw, exists e, rspwv rest x ts n tw fw = Raise e.
Proof.
  intros. unfold rspwv. cbv zeta. destruct fw as [fw|]; [|cbn; eauto]. destruct (zlen fw mod 2 =? 0); [cbn; eauto|]. cbn [bind].
  destruct tw as [tw|]; [|cbn; eauto]. destruct (zlen tw mod 2 =? 0); [cbn; eauto|]. cbn [bind].
  set (l := match ts with Some l => l | None => _ end). destruct (zmin (zdiffs l)) as [dmin|] eqn:E; [|cbn; eauto]. cbn [bind].
  destruct (zmax (zdiffs l)) as [dmax|]; [|cbn; eauto]. cbn [bind]. destruct (negb _); [eauto|]. destruct (_ <? 0); [eauto|].
  destruct (derive_window fw); [|cbn; eauto]. cbn [bind]. destruct l as [|t l']; [discriminate|]. cbn. eauto.
Qed.

(** *** C76 *)
Lemma c76_morlet_loop : forall tfr n T thr, 0 <= n -> 0 <= T ->
  ((exists i j, 0 <= i < T /\ 0 <= j < n /\ (thr < rent tfr j i)%R) -> rmorlet_loop tfr n T thr = Raise IndexError) /\
  ((forall i j, 0 <= i < T -> 0 <= j < n -> (rent tfr j i <= thr)%R) ->
   exists m, rmorlet_loop tfr n T thr = Ok m /\ shape m n T /\ forall r c, 0 <= r < n -> 0 <= c < T -> rent m r c = rent tfr r c).
Proof.
  intros tfr n T thr Hn HT. unfold rmorlet_loop.
  assert (Hc : forall ij, In ij (list_prod (arange 0 T) (arange 0 n)) <-> 0 <= fst ij < T /\ 0 <= snd ij < n).
  { intros [i j]. rewrite in_prod_iff, !in_arange. reflexivity. }
  assert (S0 := zero_shape n T Hn HT). split.
  - intros (i & j & Hi & Hj & Hlt).
    assert (Hex : exists ij, In ij (list_prod (arange 0 T) (arange 0 n)) /\ (thr < rent tfr (snd ij) (fst ij))%R) by (exists (i, j); rewrite Hc; auto).
    assert (Hr : forall ij, In ij (list_prod (arange 0 T) (arange 0 n)) -> 0 <= fst ij < T /\ 0 <= snd ij < n) by (intros; now apply Hc).
    revert S0 Hex Hr. generalize (repeat (repeat 0%R (Z.to_nat n)) (Z.to_nat T)). generalize (list_prod (arange 0 T) (arange 0 n)). clear.
    induction l as [|[a b] l IH]; intros m Sm (ij & Hin & Hlt) Hr; [destruct Hin|]. cbn [foldM rmorlet_step].
    destruct (Rlt_dec thr (rent tfr b a)) as [|N]; [reflexivity|].
    destruct Hin as [<-|Hin]; [cbn [fst snd] in Hlt; lra|].
    destruct (Hr (a, b) (or_introl eq_refl)) as [H1 H2]. cbn [fst snd] in H1, H2.
    destruct (add2_ok m n T b a (rent tfr b a) Sm H2 H1) as (m1 & E1 & S1 & _). rewrite E1. cbn [bind]. apply IH; auto.
    + exists ij. auto.
    + intros; apply Hr; now right.
  - intros Hle. destruct (fold_add (fun ij => (snd ij, fst ij)) (fun ij => rent tfr (snd ij) (fst ij)) n T (rmorlet_step tfr thr) (list_prod (arange 0 T) (arange 0 n))) with (m := repeat (repeat 0%R (Z.to_nat n)) (Z.to_nat T)) as (m & Em & Sm & Fm); auto.
    + intros ij Hij. apply Hc in Hij. cbn [fst snd]. tauto.
    + intros m [i j] Hij. apply Hc in Hij. cbn [fst snd rmorlet_step] in *. destruct (Rlt_dec thr (rent tfr j i)) as [L|]; [|reflexivity]. specialize (Hle i j (proj1 Hij) (proj2 Hij)). lra.
    + exists m. split; auto. split; auto. intros r c Hr Hcc. rewrite Fm by auto. rewrite rent_zero.
      cbn [fst snd]. rewrite (rsum_list_prod (arange 0 T) (arange 0 n) (fun i j => if (j =? r) && (i =? c) then rent tfr j i else 0%R)).
      rewrite (rsum_single _ c); [|apply NoDup_arange|apply in_arange; lia|].
      * rewrite (rsum_single _ r); [|apply NoDup_arange|apply in_arange; lia|].
        -- rewrite !Z.eqb_refl. cbn. ring.
        -- intros j _ Hne. now rewrite (proj2 (Z.eqb_neq j r)) by auto.
      * intros i _ Hne. apply rsum_0. intros j _. rewrite (proj2 (Z.eqb_neq i c)) by auto. now rewrite andb_false_r.
Qed.

Lemma ex39_run : exists tfr rtfr vec, rpwv [RtoC 3; RtoC 1] (Some [1; 2]) (Some 2) (Some ones3) = Ok (Some (tfr, rtfr, vec)).
Proof.
  destruct (c39_outcome [RtoC 3; RtoC 1] [1; 2] 2 ones3 ltac:(lia)) as (_ & _ & O). cbv zeta in O.
  specialize (O ltac:(discriminate) ltac:(change (zlen ones3) with 3; lia) ltac:(discriminate)).
  destruct (Ceq_dec _ _) as [E|_] in O.
  - change (cnth ones3 (win_lh ones3)) with (RtoC 1) in E. apply RtoC_inj in E. lra.
  - destruct O as [[[a b] c] Ho]. { intros ti [<-|[<-|[]]]; cbv; intros [H _]; discriminate. } eauto.
Qed.
(** Signal [3, 1], instants 1 and 2, two bins: the columns sum to 18 and 2, before
    and after reassignment. *)
Example c39_example : exists tfr rtfr vec, rpwv [RtoC 3; RtoC 1] (Some [1; 2]) (Some 2) (Some ones3) = Ok (Some (tfr, rtfr, vec)) /\
  rsum (arange 0 2) (fun r => rent rtfr r 0) = 18%R /\ rsum (arange 0 2) (fun r => rent rtfr r 1) = 2%R.
Proof.
  destruct ex39_run as (tfr & rtfr & vec & H). exists tfr, rtfr, vec. split; auto.
  assert (A0 := c39_mass _ _ _ _ _ _ _ 0 H ltac:(cbn [rp_ts]; change (zlen [1; 2]) with 2; lia)). cbv zeta in A0. cbn [rp_n] in A0.
  assert (A1 := c39_mass _ _ _ _ _ _ _ 1 H ltac:(cbn [rp_ts]; change (zlen [1; 2]) with 2; lia)). cbv zeta in A1. cbn [rp_n] in A1.
  destruct A0 as (_ & _ & ->), A1 as (_ & _ & ->).
  assert (B0 := c39_marginal _ _ _ _ _ _ _ 0 H ltac:(cbn [rp_ts]; change (zlen [1; 2]) with 2; lia)). cbv zeta in B0. cbn [rp_n rp_ts] in B0.
  assert (B1 := c39_marginal _ _ _ _ _ _ _ 1 H ltac:(cbn [rp_ts]; change (zlen [1; 2]) with 2; lia)). cbv zeta in B1. cbn [rp_n rp_ts] in B1.
  rewrite B0, B1.
  change (nth (Z.to_nat 0) [1; 2] 0) with 1. change (nth (Z.to_nat 1) [1; 2] 0) with 2. change (zlen [RtoC 3; RtoC 1]) with 2.
  change ((1 <=? 1) && (1 <=? 2)) with true. change ((1 <=? 2) && (2 <=? 2)) with true. cbv iota.
  change (cnth [RtoC 3; RtoC 1] (1 - 1)) with (RtoC 3). change (cnth [RtoC 3; RtoC 1] (2 - 1)) with (RtoC 1).
  rewrite !Cmod_R, !Rabs_right by lra. split; ring.
Qed.
(** Five samples, instant 3, four bins, a window of three samples: IndexError. *)
Example c39_raises : forall a b c d e, rpwv [a; b; c; d; e] (Some [3]) (Some 4) (Some ones3) = Raise IndexError.
Proof.
  intros. destruct (c39_outcome [a; b; c; d; e] [3] 4 ones3 ltac:(lia)) as (_ & O & _). apply O; [discriminate|]. exists 3. split; [left; auto|]. cbv. split; congruence.
Qed.

(** The run of C37: the total is kept and one cell holds 3. *)
Example c36_example : exists x ts n w tfr rtfr vec, rspec x (Some ts) (Some n) (Some w) = Ok (Some (tfr, rtfr, vec)) /\ rent tfr 0 0 = 3%R /\
  (3 <= rent rtfr 3 0)%R /\
  rsum (arange 0 (zlen ts)) (fun c => rsum (arange 0 n) (fun r => rent rtfr r c)) = rsum (arange 0 (zlen ts)) (fun i => rsum (arange 0 n) (fun j => rent tfr j i)).
Proof.
  destruct c37_refuted as (x & ts & n & w & tfr & rtfr & vec & d & j & i & H & _ & _ & _ & E & D & Eij). 
  assert (j = 0) by congruence. assert (i = 0) by congruence. subst j i. exists x, ts, n, w, tfr, rtfr, vec. split; auto. split; auto. split.
  - destruct (c36_entries _ _ _ _ _ _ _ H) as (S1 & S2 & Hd & Hr). cbn [rs_ts rs_n] in *. assert (Hx := rspec_run _ _ _ _ _ _ _ H). cbv zeta in Hx. cbn [rs_ts rs_n rs_w] in Hx.
    destruct Hx as (Hn & _ & HT & _).
    assert (Q := Hd 0 0 ltac:(lia) ltac:(lia)). rewrite D in Q. cbn [fst snd] in Q. rewrite Hr by lia.
    apply Rle_trans with (rsum (arange 0 (zlen ts)) (fun i => if i =? 0 then 3 else 0)%R).
    + rewrite (rsum_single _ 0); [cbn; lra|apply NoDup_arange|apply in_arange; lia|]. intros b _ Hb. now rewrite (proj2 (Z.eqb_neq b 0)).
    + apply rsum_le. intros i Hi. apply in_arange in Hi. destruct (Z.eqb_spec i 0) as [->|Hne].
      * apply Rle_trans with (rsum (arange 0 n) (fun j => if j =? 0 then 3 else 0)%R).
        -- rewrite (rsum_single _ 0); [cbn; lra|apply NoDup_arange|apply in_arange; lia|]. intros b _ Hb. now rewrite (proj2 (Z.eqb_neq b 0)).
        -- apply rsum_le. intros j Hj. apply in_arange in Hj. destruct (Z.eqb_spec j 0) as [->|Hj0].
           ++ rewrite D. cbn [fst snd Z.eqb Pos.eqb andb]. rewrite E. lra.
           ++ destruct (andb _ _); [|lra]. apply (c36_nonneg _ _ _ _ _ _ _ j 0 H); cbn [rs_n rs_ts]; lia.
      * apply rsum_nonneg. intros j Hj. apply in_arange in Hj. destruct (andb _ _); [|lra]. apply (c36_nonneg _ _ _ _ _ _ _ j i H); cbn [rs_n rs_ts]; lia.
  - exact (c36_mass _ _ _ _ _ _ _ H).
Qed.

(** One cell above the threshold: no result; none: a copy. *)
Example c76_example : rmorlet_loop [[1; 5]]%R 2 1 2 = Raise IndexError /\ exists m, rmorlet_loop [[1; 2]]%R 2 1 2 = Ok m /\ rent m 1 0 = 2%R.
Proof.
  split.
  - apply c76_morlet_loop; try lia. exists 0, 1. repeat split; try lia. change (rent [[1; 5]]%R 1 0) with 5%R. lra.
  - destruct (c76_morlet_loop [[1; 2]]%R 2 1 2%R ltac:(lia) ltac:(lia)) as [_ Q]. destruct Q as (m & E & _ & F).
    + intros i j Hi Hj. assert (i = 0) by lia. subst i. assert (j = 0 \/ j = 1) as [->| ->] by lia; [change (rent [[1; 2]]%R 0 0) with 1%R|change (rent [[1; 2]]%R 1 0) with 2%R]; lra.
    + exists m. split; auto. rewrite F by lia. reflexivity.
Qed.
