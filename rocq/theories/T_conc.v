(** C107: the reassigned spectrogram of an impulse. *)
From Coq Require Import Reals ZArith List Lia Lra Bool.
From Coquelicot Require Import Coquelicot.
From Flocq Require Import Core.
From Verif Require Import Py Scalars CSum DFT Spec M_base M_stft M_cohen M_putils M_reas P_base P_stft P_spec T_putils T_reas T_reas2.
Import ListNotations.
Local Open Scope Z_scope.

(** Signal x is zero except for the value a at sample k. *)
Definition only_at (x : list C) (k : Z) (a : C) : Prop := forall t, 0 <= t < zlen x -> cnth x t = if t =? k then a else RtoC 0.
Definition real_list (w : list C) : Prop := forall k, 0 <= k < zlen w -> Im (cnth w k) = 0%R.

Lemma Im_plus a b : Im (a + b)%C = (Im a + Im b)%R. Proof. reflexivity. Qed.
Lemma Im_minus a b : Im (a - b)%C = (Im a - Im b)%R. Proof. reflexivity. Qed.
Lemma Im_half (a : C) (r : R) : Im a = 0%R -> r <> 0%R -> Im (a / RtoC r)%C = 0%R.
Proof. destruct a as [p q]. cbn [Im snd]. intros -> H. unfold Cdiv, Cinv, Cmult, RtoC, Im. cbn [fst snd]. field. exact H. Qed.
Lemma real_ratio (a b : C) : Im a = 0%R -> Im b = 0%R -> Im (a / b)%C = 0%R.
Proof. destruct a as [p q], b as [r s]. cbn [Im snd]. intros -> ->. unfold Cdiv, Cinv, Cmult, Im. cbn [fst snd]. unfold Rdiv. ring. Qed.

Lemma derive_real w d : real_list w -> derive_window w = Ok (Some d) -> real_list d.
Proof.
  intros H E. assert (L : 2 <= zlen w).
  { destruct (Z_le_dec 2 (zlen w)); auto. exfalso. destruct (Z.eq_dec (zlen w) 1) as [Q|Q].
    - rewrite (proj1 (c48_short w) Q) in E. discriminate.
    - destruct w; [discriminate E|]. unfold zlen in *. cbn [length] in *. lia. }
  destruct (c48_formula w L) as (d' & E' & L' & F & A & B). assert (d' = d) by congruence. subst d'. clear E'.
  assert (RR : Im (dw_ramp w) = 0%R). { unfold dw_ramp. apply Im_half; [rewrite Im_minus, !H by lia; ring|]. apply not_0_IZR. lia. }
  intros k Hk. destruct (Z.eq_dec k 0) as [->|K0]; [|destruct (Z.eq_dec k (zlen w - 1)) as [->|K1]].
  - rewrite A. apply Im_half; [|lra]. rewrite !Im_plus, !H, RR by lia. ring.
  - rewrite B. apply Im_half; [|lra]. rewrite !Im_minus, !H, RR by lia. ring.
  - rewrite F by lia. apply Im_half; [|lra]. rewrite !Im_minus, !H by lia. ring.
Qed.

(** Largest lag of the window that is read. *)
Definition reach (w : list C) (n : Z) : Z := Z.min (round_half n - 1) ((zlen w - 1) / 2).

Lemma trans_impulse x w v n k a i j : zlen w mod 2 <> 0 -> only_at x k a -> 0 <= k < zlen x - 1 -> 0 <= i < zlen x ->
  trans x w v n i j = if Z.abs (k + 1 - i) <=? reach w n then (a * Cconj (v (k + 1 - i)%Z) * root n (- (j * (k + 1 - i))))%C else RtoC 0.
Proof.
  intros Ho HX Hk Hi. unfold trans. assert (W : win_lh w = (zlen w - 1) / 2) by (apply odd_lh in Ho; Z.to_euclidean_division_equations; lia).
  assert (Z0 : forall t, In t (rs_tau (zlen x) w n i) -> t <> k + 1 - i -> xwrap x (i + t - 1) = RtoC 0).
  { intros t Ht N. apply rs_tau_in in Ht. unfold xwrap. destruct (Z.ltb_spec (i + t - 1) 0); rewrite HX by lia.
    - destruct (Z.eqb_spec (i + t - 1 + zlen x) k); [lia|reflexivity].
    - destruct (Z.eqb_spec (i + t - 1) k); [lia|reflexivity]. }
  destruct (Z.leb_spec (Z.abs (k + 1 - i)) (reach w n)) as [L|L].
  - rewrite (csum_single _ (k + 1 - i)).
    + f_equal. f_equal. unfold xwrap. replace (i + (k + 1 - i) - 1) with k by lia. destruct (Z.ltb_spec k 0); [lia|]. rewrite HX by lia. now rewrite Z.eqb_refl.
    + apply NoDup_arange.
    + unfold rs_tau. apply in_arange. unfold reach in L. rewrite W. lia.
    + intros t Ht N. rewrite Z0 by auto. ring.
  - apply csum_0. intros t Ht. rewrite Z0; [ring|auto|]. intros ->. apply rs_tau_in in Ht. unfold reach in L. rewrite <- W in L. lia.
Qed.

Lemma impulse_dt x w n k a i j : zlen w mod 2 <> 0 -> only_at x k a -> 0 <= k < zlen x - 1 -> 0 <= i < zlen x ->
  trans x w (fun t => cnth w (win_lh w + t)) n i j <> RtoC 0 -> disp_t x w n i j = k + 1 - i.
Proof.
  intros Ho HX Hk Hi NZ. unfold disp_t. cbv zeta. rewrite trans_impulse with (k := k) (a := a) in NZ |- * by auto. rewrite trans_impulse with (k := k) (a := a) by auto.
  destruct (_ <=? _); [|tauto]. set (h := cnth w _) in *. set (r := root _ _) in *. set (t := k + 1 - i) in *.
  assert (a <> RtoC 0) by (intros Q; apply NZ; rewrite Q; ring). assert (Cconj h <> RtoC 0) by (intros Q; apply NZ; rewrite Q; ring). assert (r <> RtoC 0) by (intros Q; apply NZ; rewrite Q; ring).
  replace (a * Cconj (h * RtoC (IZR t)) * r / (a * Cconj h * r))%C with (RtoC (IZR t)).
  - cbn [Re RtoC fst]. apply Zrnd_IZR. apply valid_rnd_N.
  - rewrite Cconj_mult, Cconj_R. field. auto.
Qed.

Lemma impulse_df x w d n k a i j : zlen w mod 2 <> 0 -> only_at x k a -> 0 <= k < zlen x - 1 -> 0 <= i < zlen x ->
  real_list w -> real_list d -> zlen d = zlen w ->
  trans x w (fun t => cnth w (win_lh w + t)) n i j <> RtoC 0 -> disp_f x w d n i j = 0.
Proof.
  intros Ho HX Hk Hi RW RD LD NZ. unfold disp_f. rewrite trans_impulse with (k := k) (a := a) in NZ |- * by auto. rewrite trans_impulse with (k := k) (a := a) by auto.
  assert (W := odd_lh w Ho). assert (W' : win_lh w = (zlen w - 1) / 2) by (Z.to_euclidean_division_equations; lia).
  destruct (Z.leb_spec (Z.abs (k + 1 - i)) (reach w n)) as [L|L]; [|tauto]. unfold reach in L. rewrite <- W' in L. set (t := k + 1 - i) in *.
  assert (RH := RW (win_lh w + t) ltac:(lia)). assert (RG := RD (win_lh w + t) ltac:(lia)).
  set (h := cnth w _) in *. set (g := cnth d _) in *. set (r := root _ _) in *.
  assert (a <> RtoC 0) by (intros Q; apply NZ; rewrite Q; ring). assert (Cconj h <> RtoC 0) by (intros Q; apply NZ; rewrite Q; ring). assert (r <> RtoC 0) by (intros Q; apply NZ; rewrite Q; ring).
  replace (RtoC (IZR n) * (a * Cconj g * r) / (a * Cconj h * r))%C with (RtoC (IZR n) * Cconj g / Cconj h)%C by (field; auto).
  replace (Im _) with (IZR 0); [apply Zrnd_IZR; apply valid_rnd_N|]. symmetry.
  apply Im_half; [|generalize PI_RGT_0; lra]. apply real_ratio.
  - destruct g as [p q]. cbn [Im snd] in RG. subst q. unfold Im, Cmult, Cconj, RtoC. cbn [fst snd]. ring.
  - destruct h as [p q]. cbn [Im snd] in RH. subst q. unfold Im, Cconj. cbn [fst snd]. ring.
Qed.

(** The cells before reassignment: the window's profile, the same in every row. *)
Lemma c107_cells : forall x n w tfr rtfr vec k a j i, rspec x None n w = Ok (Some (tfr, rtfr, vec)) ->
  only_at x k a -> 0 <= k < zlen x - 1 -> let w := rs_w x w in let n := rs_n x n in 0 <= j < n -> 0 <= i < zlen x ->
  rent tfr j i = if Z.abs (k + 1 - i) <=? reach w n then (Cmod a ^ 2 * Cmod (cnth w ((zlen w - 1) / 2 + (k + 1 - i))%Z) ^ 2 / rs_nrm x w n i ^ 2)%R else 0%R.
Proof.
  intros x n w tfr rtfr vec k a j i H HX Hk w' n' Hj Hi. apply rspec_run in H. cbv zeta in H. fold w' n' in H. cbn [rs_ts] in H.
  destruct H as (Hn & Hx & HT & Ho & Hl & Et & _). rewrite Et. assert (W := odd_lh w' Ho). assert (W' : win_lh w' = (zlen w' - 1) / 2) by (Z.to_euclidean_division_equations; lia).
  unfold rent. rewrite nth_map_arange by lia. rewrite Z.add_0_l. unfold rs_sq, rnth. rewrite (nth_indep _ 0%R ((fun z => Cmod z ^ 2)%R (RtoC 0))).
  2:{ rewrite map_length, fft_length. assert (E := rs_mat_zlen x w' w' n' i ltac:(lia)). unfold zlen in E. lia. }
  rewrite (map_nth (fun z => Cmod z ^ 2)%R). fold (cnth (fft (rs_mat x w' w' n' i)) j). rewrite rs_mat_fft by auto. rewrite rS_trans. rewrite trans_impulse with (k := k) (a := a) by auto. rewrite <- W'.
  destruct (Z.leb_spec (Z.abs (k + 1 - i)) (reach w' n')) as [L|L].
  - assert (NZ : rs_nrm x w' n' i <> 0%R).
    { intros Q. destruct (Hl i) as [NN _]; [apply in_arange; lia|]. apply NN. split; auto. unfold reach in L. rewrite <- W' in L. assert (I : In (k + 1 - i) (rs_tau (zlen x) w' n' i)) by (unfold rs_tau; apply in_arange; lia). intros E. rewrite E in I. destruct I. }
    rewrite Cmod_div by (intros E; apply NZ; now apply RtoC_inj). rewrite !Cmod_mult, Cmod_root, Cmod_R, Cmod_conj.
    rewrite <- (pow2_abs (rs_nrm x w' n' i)). field. intros E. apply NZ. destruct (Req_dec (rs_nrm x w' n' i) 0); [auto|]. exfalso. now apply (Rabs_no_R0 _ H).
  - unfold Cdiv. rewrite Cmult_0_l, Cmod_0. ring.
Qed.

Lemma thr_impulse x k a : only_at x k a -> 0 <= k < zlen x - 1 -> rs_thr x 0 (zlen x - 1) = (Cmod a ^ 2 / (1000000 * IZR (zlen x)))%R.
Proof.
  intros HX Hk. unfold rs_thr, mean2. replace (zlen x - 1 + 1) with (zlen x) by lia. rewrite zlen_map, arange_zlen, Z.sub_0_r, Z.max_r by lia. rewrite rsum_map. rewrite (rsum_single _ (k + 1)).
  - unfold xwrap. replace (k + 1 - 1) with k by lia. destruct (Z.ltb_spec k 0); [lia|]. rewrite HX by lia. rewrite Z.eqb_refl. field. apply not_0_IZR. lia.
  - apply NoDup_arange.
  - apply in_arange. lia.
  - intros b Hb N. apply in_arange in Hb. unfold xwrap. destruct (Z.ltb_spec (b - 1) 0); rewrite HX by lia.
    + destruct (Z.eqb_spec (b - 1 + zlen x) k); [lia|]. rewrite Cmod_0. ring.
    + destruct (Z.eqb_spec (b - 1) k); [lia|]. rewrite Cmod_0. ring.
Qed.

(** Every cell above the threshold is sent to the column of the impulse, every
    other cell stays. *)
Lemma c107_vectors : forall x n w tfr rtfr vec k a j i, rspec x None n w = Ok (Some (tfr, rtfr, vec)) ->
  only_at x k a -> 0 <= k < zlen x - 1 -> 3 <= zlen (rs_w x w) -> real_list (rs_w x w) -> 0 <= j < rs_n x n -> 0 <= i < zlen x ->
  dest vec j i = if Rlt_dec (Cmod a ^ 2 / (1000000 * IZR (zlen x))) (rent tfr j i) then ((j - 1) mod rs_n x n, k) else (j, i).
Proof.
  intros x n w tfr rtfr vec k a j i H HX Hk H3 RW Hj Hi.
  assert (V := c37_vectors _ _ _ _ _ _ _ H). cbv zeta in V. cbn [rs_ts] in V. rewrite arange_zlen, Z.sub_0_r, Z.max_r in V by lia. destruct V as [V _]. destruct (V H3) as (d & Ed & V'). clear V.
  assert (NN := proj1 (c36_nonneg _ _ _ _ _ _ _ j i H Hj ltac:(cbn [rs_ts]; rewrite arange_zlen; lia))).
  assert (Q := rspec_run _ _ _ _ _ _ _ H). cbv zeta in Q. cbn [rs_ts] in Q. rewrite arange_zlen, Z.sub_0_r, Z.max_r in Q by lia.
  destruct Q as (Hn & Hx & HT & Ho & Hl & Et & _ & mn & mx & dwin & Hmn & Hmx & Hd & Hv & _).
  assert (mn = 0). { apply zmin_spec in Hmn. destruct Hmn as [A B]. apply in_arange in A. specialize (B 0 ltac:(apply in_arange; lia)). lia. } subst mn.
  assert (mx = zlen x - 1). { apply zmax_spec in Hmx. destruct Hmx as [A B]. apply in_arange in A. specialize (B (zlen x - 1) ltac:(apply in_arange; lia)). lia. } subst mx.
  assert (TH := thr_impulse x k a HX Hk). specialize (Hv j i Hj Hi). unfold dest. destruct (vent vec j i) as [[r c]|] eqn:E.
  - destruct (above _ _) eqn:A; [|discriminate]. unfold above in A. rewrite TH, Rabs_pos_eq in A by auto. destruct (Rlt_dec _ _) as [L|]; [|discriminate].
    destruct (V' j i r c Hj Hi E) as [Er Ec]. assert (NA : nth (Z.to_nat i) (arange 0 (zlen x)) 0 = i) by (rewrite <- (map_id (arange 0 (zlen x))), nth_map_arange by lia; lia). rewrite NA in Er, Ec.
    assert (NZ : trans x (rs_w x w) (fun t => cnth (rs_w x w) (win_lh (rs_w x w) + t)) (rs_n x n) i j <> RtoC 0).
    { intros Q. assert (P : (0 <= Cmod a ^ 2 / (1000000 * IZR (zlen x)))%R) by (apply Rdiv_le_0_compat; [apply pow2_ge_0|]; apply Rmult_lt_0_compat; [lra|apply IZR_lt; lia]).
      rewrite Et in L. unfold rent in L. rewrite nth_map_arange in L by lia. rewrite Z.add_0_l in L. unfold rs_sq, rnth in L. rewrite (nth_indep _ 0%R ((fun z => Cmod z ^ 2)%R (RtoC 0))) in L.
      2:{ rewrite map_length, fft_length. assert (E' := rs_mat_zlen x (rs_w x w) (rs_w x w) (rs_n x n) i ltac:(lia)). unfold zlen in E'. lia. }
      rewrite (map_nth (fun z => Cmod z ^ 2)%R) in L. fold (cnth (fft (rs_mat x (rs_w x w) (rs_w x w) (rs_n x n) i)) j) in L. rewrite rs_mat_fft in L by auto. rewrite rS_trans, Q in L. unfold Cdiv in L. rewrite Cmult_0_l, Cmod_0 in L. cbn [pow] in L. lra. }
    rewrite (impulse_dt x _ _ k a i j Ho HX Hk Hi NZ) in Ec.
    assert (LD : zlen d = zlen (rs_w x w)) by (destruct (c48_formula (rs_w x w) ltac:(lia)) as (d' & E1 & E2 & _); congruence).
    rewrite (impulse_df x _ d _ k a i j Ho HX Hk Hi RW (derive_real _ _ RW Ed) LD NZ) in Er. f_equal; [rewrite Er; f_equal; lia|lia].
  - destruct (above _ _) eqn:A; [discriminate|]. unfold above in A. rewrite TH, Rabs_pos_eq in A by auto. destruct (Rlt_dec _ _) as [L|]; [discriminate|reflexivity].
Qed.

(** So outside the column of the impulse at most the threshold is left in a cell,
    and the column of the impulse holds the rest. *)
Lemma c107_impulse : forall x n w tfr rtfr vec k a, rspec x None n w = Ok (Some (tfr, rtfr, vec)) ->
  only_at x k a -> 0 <= k < zlen x - 1 -> 3 <= zlen (rs_w x w) -> real_list (rs_w x w) ->
  let thr := (Cmod a ^ 2 / (1000000 * IZR (zlen x)))%R in
  (forall r c, 0 <= r < rs_n x n -> 0 <= c < zlen x -> c <> k -> rent rtfr r c = if Rlt_dec thr (rent tfr r c) then 0%R else rent tfr r c) /\
  (forall r c, 0 <= r < rs_n x n -> 0 <= c < zlen x -> c <> k -> (0 <= rent rtfr r c <= thr)%R) /\
  (forall r, 0 <= r < rs_n x n -> rent rtfr r k = rsum (arange 0 (zlen x)) (fun i => if Rlt_dec thr (rent tfr r i) then rent tfr r i else if i =? k then rent tfr r i else 0%R)).
Proof.
  intros x n w tfr rtfr vec k a H HX Hk H3 RW thr. destruct (c36_entries _ _ _ _ _ _ _ H) as (_ & _ & _ & F). cbv zeta in F. cbn [rs_ts] in F. rewrite arange_zlen, Z.sub_0_r, Z.max_r in F by lia.
  assert (T0 : (0 <= thr)%R) by (unfold thr; apply Rdiv_le_0_compat; [apply pow2_ge_0|]; apply Rmult_lt_0_compat; [lra|apply IZR_lt; lia]).
  assert (D : forall j i, 0 <= j < rs_n x n -> 0 <= i < zlen x -> dest vec j i = if Rlt_dec thr (rent tfr j i) then ((j - 1) mod rs_n x n, k) else (j, i)) by (intros; eapply c107_vectors; eauto).
  assert (NN : forall j i, 0 <= j < rs_n x n -> 0 <= i < zlen x -> (0 <= rent tfr j i)%R) by (intros j i Hj Hi; apply (c36_nonneg _ _ _ _ _ _ _ j i H Hj); cbn [rs_ts]; rewrite arange_zlen; lia).
  assert (ROW : forall j j' i, 0 <= j < rs_n x n -> 0 <= j' < rs_n x n -> 0 <= i < zlen x -> rent tfr j i = rent tfr j' i) by (intros j j' i Hj Hj' Hi; now rewrite (c107_cells _ _ _ _ _ _ k a j i H HX Hk Hj Hi), (c107_cells _ _ _ _ _ _ k a j' i H HX Hk Hj' Hi)).
  assert (P1 : forall r c, 0 <= r < rs_n x n -> 0 <= c < zlen x -> c <> k -> rent rtfr r c = if Rlt_dec thr (rent tfr r c) then 0%R else rent tfr r c).
  { intros r c Hr Hc N. rewrite F by auto. rewrite (rsum_single _ c); [|apply NoDup_arange|apply in_arange; lia|].
    - rewrite (rsum_single _ r); [|apply NoDup_arange|apply in_arange; lia|].
      + rewrite D by auto. destruct (Rlt_dec _ _); cbn [fst snd]; [|now rewrite !Z.eqb_refl]. destruct (Z.eqb_spec k c); [lia|]. now rewrite andb_false_r.
      + intros j Hj Nj. apply in_arange in Hj. rewrite D by lia. destruct (Rlt_dec _ _); cbn [fst snd]; [destruct (Z.eqb_spec k c); [lia|]; now rewrite andb_false_r|]. destruct (Z.eqb_spec j r); [lia|reflexivity].
    - intros i Hi Ni. apply in_arange in Hi. apply rsum_0. intros j Hj. apply in_arange in Hj. rewrite D by lia. destruct (Rlt_dec _ _); cbn [fst snd]; [destruct (Z.eqb_spec k c); [lia|]; now rewrite andb_false_r|]. destruct (Z.eqb_spec i c); [lia|]. now rewrite andb_false_r. }
  split; [exact P1|]. split.
  - intros r c Hr Hc N. rewrite P1 by auto. destruct (Rlt_dec _ _); [lra|]. specialize (NN r c Hr Hc). lra.
  - intros r Hr. rewrite F by (auto; lia). apply rsum_ext. intros i Hi. apply in_arange in Hi.
    destruct (Rlt_dec thr (rent tfr r i)) as [L|L].
    + rewrite (rsum_single _ ((r + 1) mod rs_n x n)); [|apply NoDup_arange|apply in_arange; apply Z.mod_pos_bound; lia|].
      * assert (B := Z.mod_pos_bound (r + 1) (rs_n x n) ltac:(lia)). rewrite D by lia. rewrite (ROW _ r i B Hr ltac:(lia)). destruct (Rlt_dec _ _); [|tauto]. cbn [fst snd]. rewrite Zminus_mod_idemp_l. replace (r + 1 - 1) with r by lia. rewrite Z.mod_small by lia. now rewrite !Z.eqb_refl.
      * intros j Hj Nj. apply in_arange in Hj. rewrite D by lia. rewrite (ROW j r i) by lia. destruct (Rlt_dec _ _); [|tauto]. cbn [fst snd]. destruct (Z.eqb_spec ((j - 1) mod rs_n x n) r) as [E|]; [|reflexivity]. exfalso. apply Nj. rewrite <- E. rewrite Zplus_mod_idemp_l. replace (j - 1 + 1) with j by lia. rewrite Z.mod_small; lia.
    + rewrite (rsum_single _ r); [|apply NoDup_arange|apply in_arange; lia|].
      * rewrite D by lia. destruct (Rlt_dec _ _); [tauto|]. cbn [fst snd]. now rewrite Z.eqb_refl.
      * intros j Hj Nj. apply in_arange in Hj. rewrite D by lia. rewrite (ROW j r i) by lia. destruct (Rlt_dec _ _); [tauto|]. cbn [fst snd]. destruct (Z.eqb_spec j r); [lia|reflexivity].
Qed.

(** At the last sample this fails: index -1 is read at the left edge, so the cells
    of the first columns see the impulse too, and are sent to column 0. *)
Lemma trans_wrap x w v n a i j : zlen w mod 2 <> 0 -> only_at x (zlen x - 1) a -> 0 <= i <= reach w n -> i + reach w n < zlen x ->
  trans x w v n i j = (a * Cconj (v (- i)%Z) * root n (j * i))%C.
Proof.
  intros Ho HX Hi Hr. unfold trans. assert (W : win_lh w = (zlen w - 1) / 2) by (apply odd_lh in Ho; Z.to_euclidean_division_equations; lia). unfold reach in *. rewrite <- W in *.
  rewrite (csum_single _ (- i)).
  - f_equal; [f_equal|f_equal; lia]. unfold xwrap. replace (i + - i - 1) with (-1) by lia. cbn [Z.ltb Z.compare]. rewrite HX by lia. replace (-1 + zlen x) with (zlen x - 1) by lia. now rewrite Z.eqb_refl.
  - apply NoDup_arange.
  - unfold rs_tau. apply in_arange. lia.
  - intros t Ht N. unfold rs_tau in Ht. apply in_arange in Ht. unfold xwrap. destruct (Z.ltb_spec (i + t - 1) 0); rewrite HX by lia.
    + destruct (Z.eqb_spec (i + t - 1 + zlen x) (zlen x - 1)); [lia|ring].
    + destruct (Z.eqb_spec (i + t - 1) (zlen x - 1)); [lia|ring].
Qed.
Lemma c107_last : forall x n w tfr rtfr vec a j i r c, rspec x None n w = Ok (Some (tfr, rtfr, vec)) ->
  only_at x (zlen x - 1) a -> 3 <= zlen (rs_w x w) -> a <> RtoC 0 -> 0 <= j < rs_n x n -> 0 <= i <= reach (rs_w x w) (rs_n x n) -> i + reach (rs_w x w) (rs_n x n) < zlen x ->
  cnth (rs_w x w) ((zlen (rs_w x w) - 1) / 2 - i) <> RtoC 0 -> vent vec j i = Some (r, c) -> snd (dest vec j i) = 0.
Proof.
  intros x n w tfr rtfr vec a j i r c H HX H3 A0 Hj Hi Hr W0 E.
  assert (V := c37_vectors _ _ _ _ _ _ _ H). cbv zeta in V. cbn [rs_ts] in V. rewrite arange_zlen, Z.sub_0_r, Z.max_r in V by lia. destruct V as [V _]. destruct (V H3) as (d & Ed & V'). clear V.
  assert (Q := rspec_run _ _ _ _ _ _ _ H). cbv zeta in Q. destruct Q as (Hn & Hx & HT & Ho & _).
  destruct (V' j i r c Hj ltac:(lia) E) as [_ Ec]. assert (NA : nth (Z.to_nat i) (arange 0 (zlen x)) 0 = i) by (rewrite <- (map_id (arange 0 (zlen x))), nth_map_arange by lia; lia). rewrite NA in Ec.
  unfold dest. rewrite E. cbn [snd]. rewrite Ec. assert (W : win_lh (rs_w x w) = (zlen (rs_w x w) - 1) / 2) by (apply odd_lh in Ho; Z.to_euclidean_division_equations; lia).
  assert (DT : disp_t x (rs_w x w) (rs_n x n) i j = - i).
  { unfold disp_t. cbv zeta. rewrite !trans_wrap with (a := a) by auto. rewrite W. replace ((zlen (rs_w x w) - 1) / 2 + - i) with ((zlen (rs_w x w) - 1) / 2 - i) by lia. set (h := cnth _ _) in *. assert (R0 := root_neq_0 (rs_n x n) (j * i)). set (q := root _ _) in *.
    assert (Cconj h <> RtoC 0) by (intros Q; apply W0; rewrite <- (Cconj_invol h), Q; apply Cconj_R).
    replace (a * Cconj (h * RtoC (IZR (- i))) * q / (a * Cconj h * q))%C with (RtoC (IZR (- i))).
    - cbn [Re RtoC fst]. apply Zrnd_IZR. apply valid_rnd_N.
    - rewrite Cconj_mult, Cconj_R. field. auto. }
  rewrite DT. lia.
Qed.

Lemma rspec_ones_ok (x : list C) : zlen x = 4 -> exists tfr rtfr vec, rspec x None None (Some ones3) = Ok (Some (tfr, rtfr, vec)).
Proof.
  intros L. rewrite rspec_defaults. cbn [rs_ts rs_n rs_w]. rewrite L. change (arange 0 4) with [0; 1; 2; 3].
  assert (RG : regular [0; 1; 2; 3] = true) by reflexivity. assert (RR : forall t, In t [0; 1; 2; 3] -> 1 - zlen x <= t <= zlen x) by (intros t [<-|[<-|[<-|[<-|[]]]]]; lia).
  assert (O : zlen ones3 mod 2 <> 0) by (vm_compute; discriminate).
  destruct (c36_outcome x [0; 1; 2; 3] 4 ones3) as [_ Q]. destruct (Q O RG ltac:(lia) ltac:(discriminate)) as [_ Q']. destruct (Q' RR ltac:(vm_compute; discriminate)) as (o & Ho).
  destruct o as [[[tfr rtfr] vec]|]; [exists tfr, rtfr, vec; exact Ho|]. exfalso.
  apply (c36_nan x [0; 1; 2; 3] 4 ones3 O RG ltac:(lia) ltac:(discriminate) RR) in Ho. destruct Ho as (ti & Hi & _ & Z). specialize (Z 0).
  assert (cnth ones3 (win_lh ones3 + 0) = RtoC 0); [apply Z; unfold rs_tau; rewrite L; apply in_arange; change (round_half 4) with 2; change (win_lh ones3) with 1; destruct Hi as [<-|[<-|[<-|[<-|[]]]]]; lia|].
  assert (E : RtoC 1 = RtoC 0) by exact H. apply RtoC_inj in E. lra.
Qed.
(** An impulse at sample 1: spread over three columns before, in column 1 after. *)
Example c107_example : exists tfr rtfr vec, rspec [RtoC 0; RtoC 1; RtoC 0; RtoC 0] None None (Some ones3) = Ok (Some (tfr, rtfr, vec)) /\
  forall r, 0 <= r < 4 -> map (rent tfr r) [0; 1; 2; 3] = [0; 1 / 3; 1 / 3; 1 / 3]%R /\ map (rent rtfr r) [0; 1; 2; 3] = [0; 1; 0; 0]%R.
Proof.
  set (x := [RtoC 0; RtoC 1; RtoC 0; RtoC 0]). destruct (rspec_ones_ok x eq_refl) as (tfr & rtfr & vec & H). exists tfr, rtfr, vec. split; [exact H|]. intros r Hr.
  assert (HX : only_at x 1 (RtoC 1)). { intros t Ht. change (zlen x) with 4 in Ht. assert (t = 0 \/ t = 1 \/ t = 2 \/ t = 3) as [-> | [-> | [-> | ->]]] by lia; reflexivity. }
  assert (RL : real_list ones3). { intros t Ht. change (zlen ones3) with 3 in Ht. assert (t = 0 \/ t = 1 \/ t = 2) as [-> | [-> | ->]] by lia; reflexivity. }
  assert (NR : forall i, 1 <= i <= 3 -> (rs_nrm x ones3 4 i ^ 2 = 3)%R). { intros i Hi. rewrite rs_nrm_ones; [apply pow2_sqrt; lra|]. assert (i = 1 \/ i = 2 \/ i = 3) as [-> | [-> | ->]] by lia; reflexivity. }
  assert (C : forall i, 0 <= i < 4 -> rent tfr r i = if 1 <=? i then (1 / 3)%R else 0%R).
  { intros i Hi. rewrite (c107_cells _ _ _ _ _ _ 1 (RtoC 1) r i H HX ltac:(change (zlen x) with 4; lia) Hr Hi). cbn [rs_w rs_n]. change (zlen x) with 4. change (reach ones3 4) with 1. change (zlen ones3) with 3.
    assert (E : forall t, -1 <= t <= 1 -> cnth ones3 ((3 - 1) / 2 + t) = RtoC 1) by (intros t Ht; assert (t = -1 \/ t = 0 \/ t = 1) as [-> | [-> | ->]] by lia; reflexivity).
    destruct (Z.leb_spec (Z.abs (1 + 1 - i)) 1), (Z.leb_spec 1 i); try lia; [|reflexivity]. rewrite E, NR by lia. rewrite Cmod_1. field. }
  destruct (c107_impulse _ _ _ _ _ _ 1 (RtoC 1) H HX ltac:(change (zlen x) with 4; lia) ltac:(vm_compute; discriminate) RL) as (P1 & _ & P3). change (zlen x) with 4 in *. rewrite Cmod_1 in *.
  split.
  - cbn [map]. rewrite !C by lia. reflexivity.
  - cbn [map]. rewrite (P1 r 0), (P1 r 2), (P1 r 3), (P3 r) by (auto; lia). change (arange 0 4) with [0; 1; 2; 3]. rewrite !rsum_cons, rsum_nil. rewrite !C by lia. cbn [Z.leb Z.compare Z.eqb Pos.eqb Pos.compare Pos.compare_cont].
    repeat match goal with |- context [Rlt_dec ?a ?b] => destruct (Rlt_dec a b); [try lra|try lra] end. all: repeat (f_equal; try lra).
Qed.
(** An impulse at the last sample appears in column 0. *)
Lemma c107_last_refuted : exists x tfr rtfr vec, rspec x None None (Some ones3) = Ok (Some (tfr, rtfr, vec)) /\ only_at x 3 (RtoC 1) /\ zlen x = 4 /\ exists r, 0 <= r < 4 /\ (1 / 3 <= rent rtfr r 0)%R.
Proof.
  set (x := [RtoC 0; RtoC 0; RtoC 0; RtoC 1]). destruct (rspec_ones_ok x eq_refl) as (tfr & rtfr & vec & H). exists x, tfr, rtfr, vec. split; [exact H|].
  assert (HX : only_at x 3 (RtoC 1)). { intros t Ht. change (zlen x) with 4 in Ht. assert (t = 0 \/ t = 1 \/ t = 2 \/ t = 3) as [-> | [-> | [-> | ->]]] by lia; reflexivity. }
  split; [exact HX|]. split; [reflexivity|].
  assert (Q := rspec_run _ _ _ _ _ _ _ H). cbv zeta in Q. cbn [rs_ts rs_n rs_w] in Q. change (zlen x) with 4 in Q. change (arange 0 4) with [0; 1; 2; 3] in Q. change (zlen [0; 1; 2; 3]) with 4 in Q.
  destruct Q as (_ & _ & _ & Ho & _ & Et & _ & mn & mx & dwin & Hmn & Hmx & Hd & Hv & _ & F).
  assert (T01 : rent tfr 0 1 = (1 / 3)%R).
  { rewrite Et. unfold rent. change (Z.to_nat 1) with 1%nat. cbn [map nth]. unfold rs_sq, rnth. rewrite (nth_indep _ 0%R ((fun z => Cmod z ^ 2)%R (RtoC 0))).
    2:{ rewrite map_length, fft_length. assert (E := rs_mat_zlen x ones3 ones3 4 1 ltac:(lia)). unfold zlen in E. lia. }
    rewrite (map_nth (fun z => Cmod z ^ 2)%R). fold (cnth (fft (rs_mat x ones3 ones3 4 1)) 0). rewrite rs_mat_fft by lia. rewrite rS_trans.
    rewrite trans_wrap with (a := RtoC 1); [|exact Ho|exact HX|change (reach ones3 4) with 1; lia|change (reach ones3 4) with 1; change (zlen x) with 4; lia].
    rewrite rs_nrm_ones by reflexivity. assert (S3 : (0 < sqrt 3)%R) by (apply sqrt_lt_R0; lra). rewrite Cmod_div by (intros E; apply RtoC_inj in E; lra). rewrite !Cmod_mult, Cmod_root, Cmod_1, Cmod_conj, Cmod_R. change (cnth ones3 (win_lh ones3 + - (1))) with (RtoC 1). rewrite Cmod_1. rewrite Rabs_pos_eq by lra.
    replace ((1 * 1 * 1 / sqrt 3) ^ 2)%R with (1 / sqrt 3 ^ 2)%R by (field; lra). rewrite pow2_sqrt by lra. reflexivity. }
  assert (mn = 0). { apply zmin_spec in Hmn. destruct Hmn as [A B]. specialize (B 0 ltac:(cbn; auto)). destruct A as [<-|[<-|[<-|[<-|[]]]]]; lia. } subst mn.
  assert (mx = 3). { apply zmax_spec in Hmx. destruct Hmx as [A B]. specialize (B 3 ltac:(cbn; auto)). destruct A as [<-|[<-|[<-|[<-|[]]]]]; lia. } subst mx.
  assert (TH : rs_thr x 0 3 = (1 / 4000000)%R). { unfold rs_thr, mean2. change (map (fun k => xwrap x (k - 1)) (arange 0 (3 + 1))) with [RtoC 1; RtoC 0; RtoC 0; RtoC 0]. rewrite !rsum_cons, rsum_nil, Cmod_1, Cmod_0. change (zlen [RtoC 1; RtoC 0; RtoC 0; RtoC 0]) with 4. field. }
  assert (VV := Hv 0 1 ltac:(lia) ltac:(lia)). unfold above in VV. rewrite TH, T01 in VV. rewrite Rabs_pos_eq in VV by lra. destruct (Rlt_dec _ _) as [_|]; [|lra]. destruct (rs_vec _ _ _ _ _ _ _) as [r c] eqn:EV.
  assert (D0 := c107_last _ _ _ _ _ _ (RtoC 1) 0 1 r c H HX ltac:(vm_compute; discriminate) ltac:(intros E; apply RtoC_inj in E; lra) ltac:(change (rs_n x None) with 4; lia) ltac:(cbn [rs_w rs_n]; change (reach ones3 (zlen x)) with 1; lia) ltac:(cbn [rs_w rs_n]; change (reach ones3 (zlen x)) with 1; change (zlen x) with 4; lia) ltac:(intros E; assert (E' : RtoC 1 = RtoC 0) by exact E; apply RtoC_inj in E'; lra) VV).
  destruct (c36_entries _ _ _ _ _ _ _ H) as (_ & _ & R & _). cbv zeta in R. change (zlen (rs_ts x None)) with 4 in R. change (rs_n x None) with 4 in R. destruct (R 0 1 ltac:(lia) ltac:(lia)) as [R0 _]. clear R.
  exists (fst (dest vec 0 1)). split; [exact R0|]. rewrite F by lia.
  assert (NN : forall j i, 0 <= j < 4 -> 0 <= i < 4 -> (0 <= if (fst (dest vec j i) =? fst (dest vec 0 1)) && (snd (dest vec j i) =? 0) then rent tfr j i else 0)%R).
  { intros j i Hj Hi. destruct (_ && _); [|lra]. apply (c36_nonneg _ _ _ _ _ _ _ j i H Hj Hi). }
  apply Rle_trans with (rsum [1] (fun i => rsum [0] (fun j => if (fst (dest vec j i) =? fst (dest vec 0 1)) && (snd (dest vec j i) =? 0) then rent tfr j i else 0%R))).
  - rewrite !rsum_cons, !rsum_nil. rewrite D0, Z.eqb_refl. cbn [andb Z.eqb]. rewrite T01. lra.
  - change (arange 0 4) with [0; 1; 2; 3]. rewrite !rsum_cons, !rsum_nil.
    assert (A0 := NN 0 0 ltac:(lia) ltac:(lia)). assert (A1 := NN 1 0 ltac:(lia) ltac:(lia)). assert (A2 := NN 2 0 ltac:(lia) ltac:(lia)). assert (A3 := NN 3 0 ltac:(lia) ltac:(lia)).
    assert (B1 := NN 1 1 ltac:(lia) ltac:(lia)). assert (B2 := NN 2 1 ltac:(lia) ltac:(lia)). assert (B3 := NN 3 1 ltac:(lia) ltac:(lia)).
    assert (C0 := NN 0 2 ltac:(lia) ltac:(lia)). assert (C1 := NN 1 2 ltac:(lia) ltac:(lia)). assert (C2 := NN 2 2 ltac:(lia) ltac:(lia)). assert (C3 := NN 3 2 ltac:(lia) ltac:(lia)).
    assert (E0 := NN 0 3 ltac:(lia) ltac:(lia)). assert (E1 := NN 1 3 ltac:(lia) ltac:(lia)). assert (E2 := NN 2 3 ltac:(lia) ltac:(lia)). assert (E3 := NN 3 3 ltac:(lia) ltac:(lia)). lra.
Qed.
