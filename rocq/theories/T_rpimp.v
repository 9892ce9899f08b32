(** C151: the reassigned pseudo Wigner-Ville distribution of an impulse. *)
From Coq Require Import Reals ZArith List Lia Lra Bool.
From Coquelicot Require Import Coquelicot.
From Flocq Require Import Core.
From Verif Require Import Py Scalars CSum DFT Spec M_base M_stft M_cohen M_putils M_reas P_base P_stft P_spec T_key T_noise T_putils T_reas T_reas2 T_rpwv T_conc.
Import ListNotations.
Local Open Scope Z_scope.

Lemma impulse_power (z : C) : (z * Cconj z)%C = RtoC (Cmod z ^ 2).
Proof. rewrite <- Cmod2_conj. reflexivity. Qed.
Lemma fw_entry (l : list C) a k : 0 <= k < zlen l -> cnth (map (fun v => v / a)%C l) k = (cnth l k / a)%C.
Proof. intros H. unfold cnth. rewrite (nth_indep _ (RtoC 0) (RtoC 0 / a)%C) by (rewrite map_length; unfold zlen in H; lia). apply (map_nth (fun v => v / a)%C). Qed.

Lemma rp_S_impulse x fw g n k a ti j : only_at x k a -> 0 <= k < zlen x -> 0 <= win_lh fw ->
  rp_S x fw g n ti j = if ti =? k + 1 then (cnth g (win_lh fw) * RtoC (Cmod a ^ 2))%C else RtoC 0.
Proof.
  intros HX Hk Hl. unfold rp_S. cbv zeta. set (m := rp_m (zlen x) (win_lh fw) ti). unfold rp_m in m.
  assert (Z0 : forall t, In t (arange (- m) (m + 1)) -> ti <> k + 1 \/ t <> 0 -> (rp_val x g (win_lh fw) ti t * root n (- (j * t)))%C = RtoC 0).
  { intros t Ht N. apply in_arange in Ht. unfold rp_val. rewrite (HX (ti + t - 1)), (HX (ti - t - 1)) by lia.
    destruct (Z.eqb_spec (ti + t - 1) k), (Z.eqb_spec (ti - t - 1) k); try lia; rewrite ?Cconj_R; ring. }
  destruct (Z.eqb_spec ti (k + 1)) as [E|E].
  - rewrite (csum_single _ 0); [|apply NoDup_arange|apply in_arange; lia|intros t Ht N; apply Z0; auto].
    rewrite Z.mul_0_r. change (- 0) with 0. rewrite root_0. unfold rp_val. rewrite (HX (ti + 0 - 1)), (HX (ti - 0 - 1)) by lia. replace (ti + 0 - 1) with k by lia. replace (ti - 0 - 1) with k by lia. rewrite Z.eqb_refl, Z.add_0_r.
    rewrite <- impulse_power. ring.
  - apply csum_0. intros t Ht. apply Z0; auto.
Qed.

Lemma fw_centre w : cnth w (win_lh w) <> RtoC 0 -> zlen w mod 2 <> 0 -> cnth (rp_fw w) (win_lh w) = RtoC 1.
Proof.
  intros H Ho. assert (L := odd_lh w Ho). assert (0 <= win_lh w) by (generalize (zlen_nonneg w); lia). unfold rp_fw. rewrite fw_entry by lia. field. exact H.
Qed.
Lemma fw_real w : real_list w -> zlen w mod 2 <> 0 -> real_list (rp_fw w).
Proof.
  intros H Ho k Hk. assert (L := odd_lh w Ho). assert (0 <= win_lh w) by (generalize (zlen_nonneg w); lia). rewrite rp_fw_zlen in Hk. unfold rp_fw. rewrite fw_entry by lia. apply real_ratio; apply H; lia.
Qed.

(** Before reassignment: the squared modulus of the impulse, in every row of the columns for the instant k + 1. *)
Lemma c151_cells : forall x ts n w tfr rtfr vec k a, rpwv x ts n w = Ok (Some (tfr, rtfr, vec)) -> only_at x k a -> 0 <= k < zlen x ->
  forall j i, 0 <= j < rp_n x n -> 0 <= i < zlen (rp_ts x ts) -> rent tfr j i = if nth (Z.to_nat i) (rp_ts x ts) 0 =? k + 1 then (Cmod a ^ 2)%R else 0%R.
Proof.
  intros x ts n w tfr rtfr vec k a H HX Hk j i Hj Hi. apply rpwv_run in H. cbv zeta in H. destruct H as (Hn & Ho & Hc & _ & _ & _ & Ht & _). rewrite Ht by auto. set (w' := rp_w x n w) in *.
  assert (LF : win_lh (rp_fw w') = win_lh w') by (apply win_lh_zlen, rp_fw_zlen). assert (0 <= win_lh w') by (assert (L := odd_lh w' Ho); generalize (zlen_nonneg w'); lia).
  rewrite rp_S_impulse with (k := k) (a := a) by (auto; lia). rewrite LF, fw_centre by auto. destruct (_ =? _); [|reflexivity]. rewrite Cmult_1_l. reflexivity.
Qed.
(** A cell of those columns that moves goes to the row before it, circularly. *)
Lemma c151_rows : forall x ts n w tfr rtfr vec k a, rpwv x ts n w = Ok (Some (tfr, rtfr, vec)) -> only_at x k a -> 0 <= k < zlen x -> real_list (rp_w x n w) ->
  forall j i, 0 <= j < rp_n x n -> 0 <= i < zlen (rp_ts x ts) -> vent vec j i <> None -> rdest vec j i = (j - 1) mod (rp_n x n).
Proof.
  intros x ts n w tfr rtfr vec k a H HX Hk RW j i Hj Hi Hm. destruct (vent vec j i) as [r|] eqn:V; [|tauto]. destruct (c39_vectors x ts n w tfr rtfr vec H) as (dh & Hd & E). cbv zeta in E. specialize (E j i Hj Hi r V). destruct E as (d & -> & E). rewrite E.
  apply rpwv_run in H. cbv zeta in H. destruct H as (Hn & Ho & Hc & _). set (w' := rp_w x n w) in *.
  assert (LF : win_lh (rp_fw w') = win_lh w') by (apply win_lh_zlen, rp_fw_zlen). assert (L := odd_lh w' Ho). assert (0 <= win_lh w') by (generalize (zlen_nonneg w'); lia).
  assert (RD := derive_real _ _ (fw_real w' RW Ho) Hd). rewrite rp_S_impulse with (k := k) (a := a) by (auto; lia). rewrite LF.
  assert (I0 : Im (if nth (Z.to_nat i) (rp_ts x ts) 0 =? k + 1 then (cnth d (win_lh w') * RtoC (Cmod a ^ 2))%C else RtoC 0) = 0%R).
  { destruct (_ =? _); [|reflexivity]. assert (Q : Im (cnth d (win_lh w')) = 0%R).
    { destruct (Z_lt_dec (win_lh w') (zlen d)); [apply RD; lia|]. unfold cnth. rewrite nth_overflow by (unfold zlen in *; lia). reflexivity. }
    destruct (cnth d (win_lh w')) as [p q]. cbn [Im snd] in Q. subst q. unfold Im, Cmult, RtoC. cbn [fst snd]. ring. }
  rewrite I0. unfold rp_df. rewrite Rmult_0_l. replace (ZnearestE 0) with 0; [f_equal; lia|]. symmetry. apply (Zrnd_IZR ZnearestE 0).
Qed.
(** The reassigned distribution is the distribution. *)
Lemma c151_same : forall x ts n w tfr rtfr vec k a, rpwv x ts n w = Ok (Some (tfr, rtfr, vec)) -> only_at x k a -> 0 <= k < zlen x -> real_list (rp_w x n w) ->
  forall j i, 0 <= j < rp_n x n -> 0 <= i < zlen (rp_ts x ts) -> rent rtfr j i = rent tfr j i.
Proof.
  intros x ts n w tfr rtfr vec k a H HX Hk RW r i Hr Hi.
  assert (C := c151_cells x ts n w tfr rtfr vec k a H HX Hk). assert (M := c151_rows x ts n w tfr rtfr vec k a H HX Hk RW).
  destruct (c39_mass x ts n w tfr rtfr vec i H Hi) as (_ & E & _). rewrite (E r Hr). rewrite (C r i Hr Hi). set (n' := rp_n x n) in *. set (v := if nth (Z.to_nat i) (rp_ts x ts) 0 =? k + 1 then _ else _) in *.
  assert (U : (forall j, 0 <= j < n' -> vent vec j i <> None) \/ (forall j, 0 <= j < n' -> vent vec j i = None)).
  { apply rpwv_run in H. cbv zeta in H. destruct H as (_ & _ & _ & _ & _ & _ & _ & mn & mx & dh & _ & _ & _ & Hv & _). fold n' in Hv. destruct (above (rp_thr x mn mx) v) eqn:A; [left|right]; intros j Hj; rewrite Hv by auto; rewrite (C j i Hj Hi); fold v; rewrite A; congruence. }
  destruct U as [U|U].
  - rewrite (rsum_single _ ((r + 1) mod n')).
    + assert (Q := Z.mod_pos_bound (r + 1) n' ltac:(lia)). rewrite (M _ i Q Hi) by auto. rewrite Zminus_mod_idemp_l. replace (r + 1 - 1) with r by lia. rewrite Z.mod_small by lia. rewrite Z.eqb_refl. apply C; auto.
    + apply NoDup_arange.
    + apply in_arange. apply Z.mod_pos_bound. lia.
    + intros b Hb N. apply in_arange in Hb. rewrite (M b i Hb Hi) by auto. destruct (Z.eqb_spec ((b - 1) mod n') r) as [Q|Q]; [|reflexivity]. exfalso. apply N. rewrite <- Q. rewrite Zplus_mod_idemp_l. replace (b - 1 + 1) with b by lia. symmetry. apply Z.mod_small. lia.
  - rewrite (rsum_single _ r).
    + unfold rdest. rewrite U by auto. rewrite Z.eqb_refl. apply C; auto.
    + apply NoDup_arange.
    + apply in_arange. lia.
    + intros b Hb N. apply in_arange in Hb. unfold rdest. rewrite U by auto. destruct (Z.eqb_spec b r); [congruence|reflexivity].
Qed.
(** With the default instants the impulse is in column k + 1, every cell of it moves, and at the last sample it is
    nowhere. *)
Lemma c151_default : forall x n w tfr rtfr vec k a, rpwv x None n w = Ok (Some (tfr, rtfr, vec)) -> only_at x k a -> 0 <= k < zlen x -> real_list (rp_w x n w) ->
  forall j i, 0 <= j < rp_n x n -> 0 <= i < zlen x ->
  rent tfr j i = (if i =? k + 1 then (Cmod a ^ 2)%R else 0%R) /\ rent rtfr j i = rent tfr j i /\ (a <> RtoC 0 -> (vent vec j i <> None <-> i = k + 1)).
Proof.
  intros x n w tfr rtfr vec k a H HX Hk RW j i Hj Hi.
  assert (NT : nth (Z.to_nat i) (arange 0 (zlen x)) 0 = i) by (rewrite <- (map_id (arange 0 (zlen x))), nth_map_arange by lia; lia).
  assert (LT : zlen (arange 0 (zlen x)) = zlen x) by (rewrite arange_zlen; lia).
  assert (C := c151_cells x None n w tfr rtfr vec k a H HX Hk j i Hj). cbn [rp_ts] in C. rewrite LT, NT in C. specialize (C Hi). split; [exact C|]. split.
  - apply (c151_same x None n w tfr rtfr vec k a); auto. cbn [rp_ts]. lia.
  - intros A. assert (V := c39_moved x None n w tfr rtfr vec H 0 (zlen x - 1) ltac:(apply in_arange; lia) ltac:(apply in_arange; lia) ltac:(intros t Q; apply in_arange in Q; lia) ltac:(lia) ltac:(lia) j i Hj ltac:(cbn [rp_ts]; lia)). rewrite V. clear V.
    replace (zlen x - 1 + 1 - 0) with (zlen x) by lia. replace (zlen x - 1 + 1) with (zlen x) by lia. rewrite (rsum_single _ k).
    + rewrite HX, Z.eqb_refl, C by lia. assert (P0 : (0 < Cmod a)%R) by (apply Cmod_gt_0; exact A). assert (P2 : (0 < Cmod a ^ 2)%R) by (apply pow_lt; exact P0).
      assert (N1 : (1 <= IZR (zlen x))%R) by (apply IZR_le; lia). assert (D : (0 < Cmod a ^ 2 / IZR (zlen x) <= Cmod a ^ 2)%R).
      { split; [apply Rdiv_lt_0_compat; lra|]. apply Rle_div_l; [lra|]. nra. }
      destruct (Z.eqb_spec i (k + 1)).
      * split; [auto|]. intros _. rewrite Rabs_right by lra. lra.
      * split; [|intros Q; lia]. rewrite Rabs_R0. intros Q. lra.
    + apply NoDup_arange.
    + apply in_arange. lia.
    + intros b Hb N. apply in_arange in Hb. rewrite HX by lia. destruct (Z.eqb_spec b k); [congruence|]. rewrite Cmod_0. ring.
Qed.
(** The value 2 at sample 1 of four, eight bins, window 1, 1, 1: column 2 holds 4 in both outputs, column 1 holds 0. *)
Example c151_example : exists tfr rtfr vec, rpwv [RtoC 0; RtoC 2; RtoC 0; RtoC 0] None (Some 8) (Some [RtoC 1; RtoC 1; RtoC 1]) = Ok (Some (tfr, rtfr, vec)) /\
  rent tfr 5 2 = 4%R /\ rent rtfr 5 2 = 4%R /\ rent tfr 5 1 = 0%R /\ rdest vec 5 2 = 4 /\ rdest vec 0 2 = 7.
Proof.
  set (x := [RtoC 0; RtoC 2; RtoC 0; RtoC 0]). set (w := [RtoC 1; RtoC 1; RtoC 1]). assert (N1 : RtoC 1 <> RtoC 0) by (intros Q; apply RtoC_inj in Q; lra).
  assert (R1 : exists o, rpwv x None (Some 8) (Some w) = Ok (Some o)).
  { destruct (c39_outcome x (arange 0 4) 8 w ltac:(lia)) as (_ & _ & O). cbv zeta in O. specialize (O ltac:(discriminate) ltac:(change (zlen w) with 3; lia) ltac:(discriminate)). destruct (Ceq_dec _ _) as [E|_] in O; [contradiction|]. apply O. intros ti _ [_ Q]. vm_compute in Q. congruence. }
  destruct R1 as [[[tfr rtfr] vec] H]. exists tfr, rtfr, vec. split; [exact H|].
  assert (HX : only_at x 1 (RtoC 2)). { intros t Ht. change (zlen x) with 4 in Ht. assert (t = 0 \/ t = 1 \/ t = 2 \/ t = 3) as [-> | [-> | [-> | ->]]] by lia; reflexivity. }
  assert (RW : real_list (rp_w x (Some 8) (Some w))). { intros t Ht. change (zlen (rp_w x (Some 8) (Some w))) with 3 in Ht. assert (t = 0 \/ t = 1 \/ t = 2) as [-> | [-> | ->]] by lia; reflexivity. }
  assert (D := c151_default x (Some 8) (Some w) tfr rtfr vec 1 (RtoC 2) H HX ltac:(change (zlen x) with 4; lia) RW). change (rp_n x (Some 8)) with 8 in D. change (zlen x) with 4 in D.
  assert (A2 : (Cmod (RtoC 2) ^ 2)%R = 4%R) by (rewrite Cmod_R, Rabs_right by lra; ring). assert (N2 : RtoC 2 <> RtoC 0) by (intros Q; apply RtoC_inj in Q; lra).
  destruct (D 5 2 ltac:(lia) ltac:(lia)) as (E1 & E2 & M1), (D 5 1 ltac:(lia) ltac:(lia)) as (E3 & _), (D 0 2 ltac:(lia) ltac:(lia)) as (_ & _ & M2). change (2 =? 1 + 1) with true in E1. change (1 =? 1 + 1) with false in E3. cbv iota in E1, E3.
  assert (RR := c151_rows x None (Some 8) (Some w) tfr rtfr vec 1 (RtoC 2) H HX ltac:(change (zlen x) with 4; lia) RW). change (rp_n x (Some 8)) with 8 in RR. change (zlen (rp_ts x None)) with 4 in RR.
  rewrite E2, E1, E3, A2. repeat (split; [reflexivity|]). rewrite (RR 5 2 ltac:(lia) ltac:(lia) (proj2 (M1 N2) eq_refl)), (RR 0 2 ltac:(lia) ltac:(lia) (proj2 (M2 N2) eq_refl)). split; reflexivity.
Qed.
