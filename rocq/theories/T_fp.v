(** C114: the dilation grid in double precision. *)
From Coq Require Import Reals ZArith List Lia Lra Bool.
From Coquelicot Require Import Coquelicot.
From Flocq Require Import Core Relative.
From Verif Require Import Py Scalars CSum DFT Spec M_base M_utils M_gen1 M_gen2 M_aff M_fp P_base P_mh T_utils T_aff T_aff2 T_aff3.
Import ListNotations.
Local Open Scope Z_scope.

(** x is a number with a significand of 53 bits. *)
Definition is_double (x : R) : Prop := exists m e, Z.abs m < 2 ^ 53 /\ x = (IZR m * bpow radix2 e)%R.

Lemma double_b64 x : is_double x -> b64 x = x.
Proof. intros (m & e & H & ->). now apply b64_repr. Qed.
Lemma double_scale x k : is_double x -> is_double (x * bpow radix2 k).
Proof. intros (m & e & H & ->). exists m, (e + k). split; auto. rewrite bpow_plus. ring. Qed.
Lemma width_eq umax : is_double umax -> u_width umax = (2 * umax)%R.
Proof.
  intros H. unfold u_width. replace (umax - - umax)%R with (umax * bpow radix2 1)%R by (change (bpow radix2 1) with 2%R; ring). rewrite double_b64 by now apply double_scale. change (bpow radix2 1) with 2%R. ring.
Qed.
Lemma b64_rel x : exists d, (Rabs d <= bpow radix2 (-53))%R /\ b64 x = (x * (1 + d))%R.
Proof.
  destruct (relative_error_N_FLX_ex radix2 53 eq_refl (fun t => negb (Z.even t)) x) as (d & H & E). exists d. split; [|exact E].
  replace (bpow radix2 (-53)) with (/ 2 * bpow radix2 (- (53) + 1))%R; auto. change (- (53) + 1) with (-53 + 1). rewrite bpow_plus. change (bpow radix2 1) with 2%R. field.
Qed.
Lemma step_pos umax m1 : (0 < umax)%R -> is_double umax -> 1 <= m1 -> exists d, (Rabs d <= bpow radix2 (-53))%R /\ u_step umax m1 = (umax / IZR m1 * (1 + d))%R /\ (0 < u_step umax m1)%R.
Proof.
  intros H0 HD Hm. unfold u_step. rewrite width_eq by auto. assert (M0 : (0 < IZR m1)%R) by (apply IZR_lt; lia). rewrite Rabs_right by lra.
  replace (2 * umax / IZR (2 * m1))%R with (umax / IZR m1)%R by (rewrite mult_IZR; field; lra). destruct (b64_rel (umax / IZR m1)) as (d & Hd & ->). exists d. split; auto. split; auto.
  apply Rmult_lt_0_compat; [now apply Rdiv_lt_0_compat|]. apply Rabs_le_inv in Hd. assert (bpow radix2 (-53) < 1)%R by (change 1%R with (bpow radix2 0); apply bpow_lt; lia). lra.
Qed.
Lemma Ztrunc_between a z : (0 <= a)%R -> (IZR z <= a < IZR (z + 1))%R -> Ztrunc a = z.
Proof. intros H0 H. rewrite Ztrunc_floor by auto. now apply Zfloor_imp. Qed.
(** The quotient is within 1/2 of 2 m1. *)
Lemma quotient umax m1 : (0 < umax)%R -> is_double umax -> 1 <= m1 <= 2 ^ 50 ->
  (IZR (2 * m1) - 1 / 2 <= u_width umax / u_step umax m1 <= IZR (2 * m1) + 1 / 2)%R.
Proof.
  intros H0 HD Hm. destruct (step_pos umax m1 H0 HD ltac:(lia)) as (d & Hd & E & P). rewrite width_eq, E by auto. apply Rabs_le_inv in Hd.
  assert (M0 : (1 <= IZR m1 <= IZR (2 ^ 50))%R) by (split; apply IZR_le; lia). assert (B : (bpow radix2 (-53) = / IZR (2 ^ 53))%R) by reflexivity.
  assert (U : (bpow radix2 (-53) * IZR (2 ^ 53) = 1)%R) by (rewrite B; field; apply not_0_IZR; lia). change (IZR (2 ^ 50)) with 1125899906842624%R in M0. change (IZR (2 ^ 53)) with 9007199254740992%R in U. set (u := bpow radix2 (-53)) in *.
  assert (D1 : (0 < 1 + d)%R) by lra.
  replace (2 * umax / (umax / IZR m1 * (1 + d)))%R with (2 * IZR m1 / (1 + d))%R by (field; lra). rewrite mult_IZR.
  split.
  - apply (Rmult_le_reg_r (1 + d)); auto. unfold Rdiv at 2. rewrite Rmult_assoc, Rinv_l by lra. nra.
  - apply (Rmult_le_reg_r (1 + d)); auto. unfold Rdiv at 1. rewrite Rmult_assoc, Rinv_l by lra. nra.
Qed.
Lemma b64_half k : 1 <= k <= 2 ^ 51 -> b64 (IZR k - 1 / 2) = (IZR k - 1 / 2)%R /\ b64 (IZR k + 1 / 2) = (IZR k + 1 / 2)%R.
Proof.
  intros H. split.
  - replace (IZR k - 1 / 2)%R with (IZR (2 * k - 1) * bpow radix2 (-1))%R by (rewrite minus_IZR, mult_IZR; change (bpow radix2 (-1)) with (/ 2)%R; field). apply b64_repr. lia.
  - replace (IZR k + 1 / 2)%R with (IZR (2 * k + 1) * bpow radix2 (-1))%R by (rewrite plus_IZR, mult_IZR; change (bpow radix2 (-1)) with (/ 2)%R; field). apply b64_repr. lia.
Qed.
(** The count is 2 m1 or one less, never anything else. *)
Lemma c114_count : forall umax m1, (0 < umax)%R -> is_double umax -> 1 <= m1 <= 2 ^ 50 ->
  u_count umax m1 = 2 * m1 \/ u_count umax m1 = 2 * m1 - 1.
Proof.
  intros umax m1 H0 HD Hm. destruct (quotient umax m1 H0 HD Hm) as [A B]. apply b64_le in A, B. destruct (b64_half (2 * m1) ltac:(lia)) as [E1 E2]. rewrite E1 in A. rewrite E2 in B. unfold u_count. set (q := b64 _) in *.
  assert (M2 : (2 <= IZR (2 * m1))%R) by (apply IZR_le; lia).
  destruct (Rle_dec (IZR (2 * m1)) q) as [L|L].
  - left. apply Ztrunc_between; [lra|]. rewrite plus_IZR. lra.
  - right. apply Ztrunc_between; [lra|]. rewrite Z.sub_add, minus_IZR. lra.
Qed.
(** It is 2 m1 exactly when the quotient is not below 2 m1 by more than half the distance to
    the next smaller double. *)
Lemma c114_criterion : forall umax m1 e, (0 < umax)%R -> is_double umax -> 1 <= m1 <= 2 ^ 50 -> 2 ^ (e - 1) < 2 * m1 <= 2 ^ e -> 1 <= e ->
  (u_count umax m1 = 2 * m1 <-> (IZR (2 * m1) - bpow radix2 (e - 54) <= 2 * umax / b64 (umax / IZR m1))%R).
Proof.
  intros umax m1 e H0 HD Hm He E1. assert (HC := c114_count umax m1 H0 HD Hm). assert (M0 : (0 < IZR m1)%R) by (apply IZR_lt; lia).
  assert (ES : u_step umax m1 = b64 (umax / IZR m1)). { unfold u_step. rewrite width_eq, Rabs_right by (auto; lra). f_equal. rewrite mult_IZR. field. lra. }
  assert (EQ : (2 * umax / b64 (umax / IZR m1) = u_width umax / u_step umax m1)%R) by now rewrite width_eq, ES.
  rewrite EQ. set (q := (u_width umax / u_step umax m1)%R). destruct (quotient umax m1 H0 HD Hm) as [A B]. fold q in A, B.
  assert (K : (1 < 2 * m1)) by lia. assert (KR : (2 <= IZR (2 * m1))%R) by (apply IZR_le; lia).
  assert (CE : u_count umax m1 = 2 * m1 <-> (IZR (2 * m1) <= b64 q)%R).
  { unfold u_count. fold q. assert (Q1 := b64_le _ _ A). assert (Q2 := b64_le _ _ B). destruct (b64_half (2 * m1) ltac:(lia)) as [F1 F2]. rewrite F1 in Q1. rewrite F2 in Q2. split.
    - intros T. apply Rnot_lt_le. intros L. rewrite (Ztrunc_between _ (2 * m1 - 1)) in T; [lia|lra|]. rewrite Z.sub_add, minus_IZR. lra.
    - intros L. apply Ztrunc_between; [lra|]. rewrite plus_IZR. lra. }
  rewrite CE. clear CE HC. assert (E52 : e <= 52). { destruct (Z_le_gt_dec e 52); auto. exfalso. assert (2 ^ 52 <= 2 ^ (e - 1)) by (apply Z.pow_le_mono_r; lia). lia. }
  assert (PE : IZR (2 ^ e) = bpow radix2 e) by (rewrite <- IZR_Zpower by lia; reflexivity).
  assert (PE1 : IZR (2 ^ (e - 1)) = bpow radix2 (e - 1)) by (rewrite <- IZR_Zpower by lia; reflexivity).
  assert (SM : (0 < bpow radix2 (e - 54) <= / 4)%R) by (split; [apply bpow_gt_0|]; change (/ 4)%R with (bpow radix2 (-2)); apply bpow_le; lia).
  destruct (Rle_dec (IZR (2 * m1)) q) as [G|G].
  { split; intros _; [lra|]. rewrite <- (b64_int (2 * m1)) by lia. now apply b64_le. }
  assert (K1 : (bpow radix2 (e - 1) + 1 <= IZR (2 * m1) <= bpow radix2 e)%R). { rewrite <- PE, <- PE1, <- plus_IZR. split; apply IZR_le; lia. }
  assert (MG : (mag radix2 q : Z) = e) by (apply mag_unique_pos; lra).
  assert (KM : (IZR (2 * m1) * bpow radix2 (53 - e) = IZR (2 * m1 * 2 ^ (53 - e)))%R) by (rewrite mult_IZR with (m := 2 ^ (53 - e)); f_equal; rewrite <- IZR_Zpower by lia; reflexivity).
  set (M := 2 * m1 * 2 ^ (53 - e)) in *.
  assert (BQ : b64 q = (IZR (ZnearestE (q * bpow radix2 (53 - e))) * bpow radix2 (e - 53))%R).
  { unfold b64, round, F2R, scaled_mantissa, cexp. cbn [Fnum Fexp]. rewrite MG. unfold FLX_exp. replace (- (e - 53)) with (53 - e) by lia. reflexivity. }
  assert (SC : (bpow radix2 (53 - e) * bpow radix2 (e - 53) = 1)%R) by (rewrite <- bpow_plus; replace (53 - e + (e - 53)) with 0 by lia; reflexivity).
  assert (P1 := bpow_gt_0 radix2 (53 - e)). assert (P2 := bpow_gt_0 radix2 (e - 53)).
  assert (H54 : (bpow radix2 (e - 54) * bpow radix2 (53 - e) = / 2)%R) by (rewrite <- bpow_plus; replace (e - 54 + (53 - e)) with (-1) by lia; reflexivity).
  assert (Z1 : (IZR (2 * m1) <= b64 q)%R <-> M <= ZnearestE (q * bpow radix2 (53 - e))).
  { rewrite BQ. split; intros L.
    - apply le_IZR. rewrite <- KM. apply (Rmult_le_reg_r (bpow radix2 (e - 53))); auto. rewrite Rmult_assoc, SC. lra.
    - apply IZR_le in L. rewrite <- KM in L. apply (Rmult_le_compat_r (bpow radix2 (e - 53))) in L; [|lra]. rewrite Rmult_assoc, SC in L. lra. }
  rewrite Z1. set (s := (q * bpow radix2 (53 - e))%R) in *.
  assert (SL : (s < IZR M)%R) by (rewrite <- KM; apply Rmult_lt_compat_r; lra).
  assert (TH : (IZR (2 * m1) - bpow radix2 (e - 54) <= q)%R <-> (IZR M - / 2 <= s)%R).
  { rewrite <- KM, <- H54. unfold s. split; intros L; [nra|]. apply (Rmult_le_reg_r (bpow radix2 (53 - e))); auto. lra. }
  rewrite TH. split.
  - intros L. apply IZR_le in L. assert (N := Znearest_half (fun t => negb (Z.even t)) s). apply Rabs_le_inv in N. lra.
  - intros [L|L].
    + rewrite (Znearest_imp _ s M); [lia|]. apply Rabs_lt. lra.
    + assert (EV : Z.even M = true). { unfold M. rewrite !Z.even_mul. reflexivity. }
      assert (FL : Zfloor s = M - 1) by (apply Zfloor_imp; rewrite Z.sub_add, minus_IZR; lra).
      unfold Znearest. rewrite FL, minus_IZR. rewrite Rcompare_Eq by lra. rewrite Z.even_sub, EV. cbn. rewrite Zceil_floor_neq by (rewrite FL, minus_IZR; lra). lia.
Qed.
(** If the division by 2 m1 is exact or rounded down nothing is lost. *)
Lemma c114_down : forall umax m1, (0 < umax)%R -> is_double umax -> 1 <= m1 <= 2 ^ 50 -> (b64 (umax / IZR m1) <= umax / IZR m1)%R -> u_count umax m1 = 2 * m1.
Proof.
  intros umax m1 H0 HD Hm L. destruct (c114_count umax m1 H0 HD Hm) as [E|E]; auto. exfalso. assert (M0 : (0 < IZR m1)%R) by (apply IZR_lt; lia).
  destruct (step_pos umax m1 H0 HD ltac:(lia)) as (_ & _ & _ & P).
  assert (ES : u_step umax m1 = b64 (umax / IZR m1)). { unfold u_step. rewrite width_eq, Rabs_right by (auto; lra). f_equal. rewrite mult_IZR. field. lra. }
  assert (Q : (IZR (2 * m1) <= u_width umax / u_step umax m1)%R).
  { rewrite width_eq by auto. apply (Rmult_le_reg_r (u_step umax m1)); auto. unfold Rdiv. rewrite Rmult_assoc, Rinv_l by lra. rewrite ES, mult_IZR.
    apply (Rmult_le_compat_l (2 * IZR m1)) in L; [|lra]. replace (2 * IZR m1 * (umax / IZR m1))%R with (2 * umax * 1)%R in L by (field; lra). lra. }
  apply b64_le in Q. rewrite b64_int in Q by lia. destruct (quotient umax m1 H0 HD Hm) as [_ B]. apply b64_le in B. rewrite (proj2 (b64_half (2 * m1) ltac:(lia))) in B.
  assert (u_count umax m1 = 2 * m1); [|lia]. unfold u_count. apply Ztrunc_between; [assert (2 <= IZR (2 * m1))%R by (apply IZR_le; lia); lra|]. rewrite plus_IZR. lra.
Qed.
Lemma c114_power_of_two : forall umax j, (0 < umax)%R -> is_double umax -> 0 <= j <= 50 -> u_count umax (2 ^ j) = 2 * 2 ^ j.
Proof.
  intros umax j H0 HD Hj. assert (1 <= 2 ^ j <= 2 ^ 50) by (split; [assert (0 < 2 ^ j) by (apply Z.pow_pos_nonneg; lia); lia|apply Z.pow_le_mono_r; lia]). apply c114_down; auto.
  replace (umax / IZR (2 ^ j))%R with (umax * bpow radix2 (- j))%R; [rewrite double_b64 by (now apply double_scale); lra|]. rewrite bpow_opp. unfold Rdiv. do 2 f_equal. rewrite <- IZR_Zpower by lia. reflexivity.
Qed.
Lemma linspace1_len a b n : 0 <= n -> zlen (linspace1 a b n) = n.
Proof. intros H. unfold linspace1. destruct (Z.eqb_spec n 1) as [->|]; [reflexivity|]. unfold linspace. rewrite zlen_map, arange_zlen. lia. Qed.
(** The loops of the three classes: all points or an IndexError. *)
Lemma c114_loop : forall k umax m1, (0 < umax)%R -> is_double umax -> 1 <= m1 <= 2 ^ 50 ->
  if u_count umax m1 =? 2 * m1 then exists v, u_loop k umax m1 = Ok v else u_loop k umax m1 = Raise IndexError.
Proof.
  intros k umax m1 H0 HD Hm. assert (HC := c114_count umax m1 H0 HD Hm). unfold u_loop, u_grid. destruct (Z.ltb_spec (u_count umax m1) 0); [lia|].
  destruct (Z.eqb_spec (u_count umax m1) (2 * m1)) as [E|E].
  - rewrite set_ok by (rewrite linspace1_len; lia). cbn [bind]. set (u := upd _ _ _). assert (L : zlen u = 2 * m1) by (unfold u; rewrite upd_zlen, linspace1_len; lia).
    destruct (mapM_get_cases u (u_reads k m1)) as [[v ->]|Q]; [eauto|]. exfalso. rewrite (mapM_ok _ (fun i => nth (Z.to_nat i) u 0%R)) in Q; [discriminate|].
    intros i Hi. apply get_ok. rewrite L. destruct k; cbn [u_reads] in Hi; [apply in_app_or in Hi; destruct Hi as [Hi|Hi]| |]; apply in_arange in Hi; lia.
  - assert (M2 : 2 <= m1). { destruct (Z.eq_dec m1 1) as [->|]; [|lia]. exfalso. apply E. exact (c114_power_of_two umax 0 H0 HD ltac:(lia)). }
    rewrite set_ok by (rewrite linspace1_len; lia). cbn [bind]. set (u := upd _ _ _). assert (L : zlen u = 2 * m1 - 1) by (unfold u; rewrite upd_zlen, linspace1_len; lia).
    apply mapM_raise; [intros i _; apply get_cases|]. exists (2 * m1 - 1). split; [|apply get_raise; lia].
    destruct k; cbn [u_reads]; [apply in_or_app; right| |]; apply in_arange; lia.
Qed.
Lemma c114_run : forall spl form o, (0 < a_umax o)%R -> is_double (a_umax o) -> 1 <= a_m1 o <= 2 ^ 50 -> 2 <= a_nv o ->
  aff_run64 spl form o = if u_count (a_umax o) (a_m1 o) =? 2 * a_m1 o then aff_run spl form o else Raise IndexError.
Proof.
  intros spl form o H0 HD Hm Hv. unfold aff_run64. destruct (Z.eqb_spec (a_nv o) 1); [lia|]. destruct (Z.leb_spec (a_nv o) 0); [lia|].
  assert (L := c114_loop (a_kind o) (a_umax o) (a_m1 o) H0 HD Hm). destruct (_ =? _); [destruct L as [v ->]|rewrite L]; reflexivity.
Qed.
(** umax = 2 with 186 points wanted: the step 4/186 is rounded up, and the quotient is rounded
    to the double below 186. *)
Lemma count_93 : u_count 2 93 = 185.
Proof.
  assert (D2 : is_double 2) by (exists 1, 1; split; [lia|change (bpow radix2 1) with 2%R; ring]).
  unfold u_count, u_step. rewrite width_eq by auto. rewrite Rabs_right by lra. change (IZR (2 * 93)) with 186%R.
  assert (S : b64 (2 * 2 / 186) = (6198502712940038 / 288230376151711744)%R).
  { rewrite (b64_round _ (-5) 6198502712940038).
    - change (-5 - 53) with (-58). change (bpow radix2 (-58)) with (/ 288230376151711744)%R. reflexivity.
    - change (-5 - 1) with (-6). change (bpow radix2 (-6)) with (/ 64)%R. change (bpow radix2 (-5)) with (/ 32)%R. lra.
    - change (53 - -5) with 58. change (bpow radix2 58) with 288230376151711744%R. apply Rabs_lt. lra. }
  rewrite S. rewrite (b64_round _ 8 6544293208522751).
  - change (8 - 53) with (-45). change (bpow radix2 (-45)) with (/ 35184372088832)%R. apply Ztrunc_between; [lra|]. change (IZR (185 + 1)) with 186%R. lra.
  - change (8 - 1) with 7. change (bpow radix2 7) with 128%R. change (bpow radix2 8) with 256%R. split; apply (Rmult_le_reg_r 6198502712940038) || apply (Rmult_lt_reg_r 6198502712940038); lra.
  - change (53 - 8) with 45. change (bpow radix2 45) with 35184372088832%R. apply Rabs_lt. split; apply (Rmult_lt_reg_r 6198502712940038); lra.
Qed.
(** A D-Flandrin distribution of 102 samples on the band [1/20, 9/20]: umax = 2, m1 = 93; the
    formula has a value, the program stops with an IndexError. *)
Lemma c114_refuted : forall spl (x : list C), (forall u v w, zlen (spl u v w) = zlen w) -> zlen x = 102 ->
  exists o, aff_new Dfl x None (Some (1 / 20)%R) (Some (45 / 100)%R) (Some 16) = Ok o /\ a_umax o = 2%R /\ a_m1 o = 93 /\
    (exists tfr, aff_run spl true o = Ok (tfr, a_ts o, geo_grid (1 / 20) (45 / 100) 16)) /\ aff_run64 spl true o = Raise IndexError.
Proof.
  intros spl x SL HX. assert (Hf : (0 < 1 / 20 < 45 / 100)%R) by lra.
  assert (RT : umaxdfla (45 / 100 / (1 / 20)) = 2%R). { assert (Q := umax_root Dfl (45 / 100 / (1 / 20))%R ltac:(lra)). cbn [umax_of] in Q. assert (Q' : umaxdfla (45 / 100 / (1 / 20)) = aff_root Dfl (45 / 100 / (1 / 20))) by congruence. rewrite Q'. replace (45 / 100 / (1 / 20))%R with 9%R by field. cbn [aff_root]. replace (sqrt 9) with 3%R by (symmetry; apply sqrt_lem_1; lra). lra. }
  assert (SZ : aff_size Dfl 102 (45 / 100) 2 = Ok (93, Some 185)).
  { unfold aff_size. destruct (Req_EM_T _ 0); [lra|]. change (half_len 102) with 51. cbv zeta. destruct (Rlt_dec _ _) as [_|N]; [|exfalso; apply N; change (IZR (2 * 51)) with 102%R; lra].
    replace (2 * IZR 51 ^ 2 / (IZR 51 / (45 / 100 * 2)) - IZR 51)%R with (408 / 10)%R by field. rewrite (Znearest_imp _ _ 41); [reflexivity|]. apply Rabs_lt. lra. }
  assert (E : aff_new Dfl x None (Some (1 / 20)%R) (Some (45 / 100)%R) (Some 16) = Ok (mkaff Dfl x (arange 0 (zlen x)) (1 / 20) (45 / 100) 2 93 16)).
  { unfold aff_new. cbn [affine_band bind umax_of]. rewrite RT, HX, SZ. reflexivity. }
  eexists. split; [exact E|]. split; [reflexivity|]. split; [reflexivity|]. split.
  - assert (Q := c89_outcome spl true Dfl x None (1 / 20) (45 / 100) (Some 16) _ SL ltac:(lia) Hf E ltac:(cbn [a_nv]; lia) ltac:(cbn [a_ts]; rewrite arange_zlen; lia) ltac:(auto)). cbn [a_m1 a_ts a_nv] in Q. destruct (Rlt_dec _ _) as [L|_] in Q; [|exact Q]. change (2 * 93 - 1) with 185 in L. lra.
  - rewrite c114_run; cbn [a_umax a_m1 a_nv]; try lra; try lia; [rewrite count_93; reflexivity|]. exists 1, 1. split; [lia|change (bpow radix2 1) with 2%R; ring].
Qed.
Example c114_example : u_count 2 93 = 185 /\ u_count 2 64 = 128.
Proof. split; [exact count_93|]. apply (c114_power_of_two 2 6); [lra| |lia]. exists 1, 1. split; [lia|change (bpow radix2 1) with 2%R; ring]. Qed.
