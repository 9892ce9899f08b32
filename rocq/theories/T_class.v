(** C120: which representations are functions of the Wigner-Ville distribution. *)
From Coq Require Import Reals ZArith List Lia Lra Bool.
From Coquelicot Require Import Coquelicot.
From Verif Require Import Py Scalars CSum DFT Spec M_base M_stft M_cohen M_amb P_base P_stft P_wvd P_pwvd P_spec P_mh T_stft T_wvd T_pwvd T_spec T_mh T_amb T_again T_spwv T_dual T_bound.
Import ListNotations.
Local Open Scope Z_scope.

(** Two signals of the same length with the same Wigner-Ville distribution. *)
Definition same_wvd (x y : list C) (n : Z) : Prop := zlen x = zlen y /\ exists tx ty ox oy, wvd x (Some tx) (Some n) = Ok ox /\ wvd y (Some ty) (Some n) = Ok oy /\
  forall f t, 0 <= f < n -> 0 <= t < zlen x -> at2 (r_tfr ox) f t = at2 (r_tfr oy) f t.

Lemma same_products x y n a b : 2 <= n -> same_wvd x y n -> Z.even (a - b) = true -> (sigf x a * Cconj (sigf x b) = sigf y a * Cconj (sigf y b))%C.
Proof.
  intros Hn (L & tx & ty & ox & oy & HX & HY & H) E.
  destruct (Z_lt_dec a 0); [rewrite !(sigf_out _ a) by lia; ring|]. destruct (Z_lt_dec b 0); [rewrite !(sigf_out _ b), !Cconj_R by lia; ring|].
  destruct (Z_le_dec (zlen x) a); [rewrite !(sigf_out _ a) by lia; ring|]. destruct (Z_le_dec (zlen x) b); [rewrite !(sigf_out _ b), !Cconj_R by lia; ring|].
  rewrite !sigf_in by lia. rewrite (c110_lag_products x tx n ox a b Hn HX) by (auto; lia). rewrite (c110_lag_products y ty n oy a b Hn HY) by (auto; lia). f_equal. apply csum_ext. intros f Hf. apply in_arange in Hf. rewrite H; auto.
  Z.to_euclidean_division_equations; lia.
Qed.
Lemma even_diff t tau : Z.even ((t + tau) - (t - tau)) = true.
Proof. replace (t + tau - (t - tau)) with (2 * tau) by lia. now rewrite Z.even_mul. Qed.
Lemma c120_pwvd : forall x y n m ts w ox oy mx my f t, 2 <= n -> same_wvd x y n -> 1 <= m -> (zlen w - 1) / 2 < round_half m ->
  pwvd x (Some ts) (Some m) (Some w) = Ok (ox, mx) -> pwvd y (Some ts) (Some m) (Some w) = Ok (oy, my) -> 0 <= f < m -> 0 <= t < ts_len ts -> at2 mx f t = at2 my f t.
Proof.
  intros x y n m ts w ox oy mx my f t Hn S Hm Hw HX HY Hf Ht. assert (L := proj1 S). destruct (c28_pwvd_closed_form x ts m w ox mx f t Hm Hw HX Hf Ht) as [-> _]. destruct (c28_pwvd_closed_form y ts m w oy my f t Hm Hw HY Hf Ht) as [-> _].
  do 2 f_equal. unfold PWV. rewrite <- L. apply csum_ext. intros k _. rewrite (same_products x y n (t + k) (t - k) Hn S (even_diff t k)). reflexivity.
Qed.
Lemma c120_ambiguity : forall x y n m lag nx ny lx ly ax ay r c, 2 <= n -> same_wvd x y n -> 1 <= m ->
  narrow_band x (Some lag) (Some m) = Ok (nx, lx, ax) -> narrow_band y (Some lag) (Some m) = Ok (ny, ly, ay) -> 0 <= r < m -> 0 <= c < zlen lag -> at2 nx r c = at2 ny r c.
Proof.
  intros x y n m lag nx ny lx ly ax ay r c Hn S Hm HX HY Hr Hc. assert (L := proj1 S).
  destruct (c33_outcome x lag m Hm) as [[_ Q]|[_ (a & b & Q & _ & _ & _ & _ & V)]]; [congruence|]. assert (a = nx) by congruence. subst a.
  destruct (c33_outcome y lag m Hm) as [[_ Q']|[_ (a & b' & Q' & _ & _ & _ & _ & V')]]; [congruence|]. assert (a = ny) by congruence. subst a.
  rewrite V, V' by auto. unfold AF. rewrite <- L. apply csum_ext. intros t _. rewrite (same_products x y n _ _ Hn S (even_diff t _)). reflexivity.
Qed.
Lemma lagavg_same x y n g c tau : 2 <= n -> same_wvd x y n -> lagavg x g c tau = lagavg y g c tau.
Proof.
  intros Hn S. assert (L := proj1 S). unfold lagavg, lagmass. rewrite <- L. f_equal. apply csum_ext. intros s Hs. apply in_arange in Hs. assert (P := same_products x y n (s + tau) (s - tau) Hn S (even_diff s tau)).
  rewrite !sigf_in in P by lia. rewrite <- !Cmult_assoc. now rewrite P.
Qed.
Lemma c120_spwvd : forall x y n m l tw fw ox oy i ti cx cy f, 2 <= n -> same_wvd x y n -> 1 <= m -> zlen tw mod 2 = 1 -> zlen fw mod 2 = 1 ->
  spwv x (Some l) (Some m) (Some tw) (Some fw) = Ok ox -> spwv y (Some l) (Some m) (Some tw) (Some fw) = Ok oy ->
  nth_error l (Z.to_nat i) = Some ti -> nth_error ox (Z.to_nat i) = Some (Some cx) -> nth_error oy (Z.to_nat i) = Some (Some cy) -> 0 <= f < m -> rnth cx f = rnth cy f.
Proof.
  intros x y n m l tw fw ox oy i ti cx cy f Hn S Hm Ht Hf HX HY Hi Hx Hy Hff. assert (L := proj1 S).
  assert (A := c29_spwv_closed_form x l m tw fw ox i ti cx f Hm Ht Hf HX Hi Hx Hff). assert (B := c29_spwv_closed_form y l m tw fw oy i ti cy f Hm Ht Hf HY Hi Hy Hff). cbv zeta in A, B. rewrite A, B, <- L.
  f_equal. rewrite (lagavg_same x y n _ _ 0 Hn S). f_equal. apply csum_ext. intros t _. rewrite !(lagavg_same x y n _ _ _ Hn S). reflexivity.
Qed.
(** Margenau-Hill, Page and Spectrogram are not: [1, 1, 0] and [1, -1, 0] have the same Wigner-Ville
    distribution. *)
Definition wa : list C := [RtoC 1; RtoC 1; RtoC 0].
Definition wb : list C := [RtoC 1; RtoC (-1); RtoC 0].
Lemma c120_twins : same_wvd wa wb 3.
Proof.
  split; [reflexivity|]. exists (TsI (arange 0 3)), (TsI (arange 0 3)). destruct (proj2 (c21_wvd_default wa ltac:(discriminate))) as [o H]; [change (zlen _) with 3; cbn; lia|]. destruct (proj2 (c21_wvd_default wb ltac:(discriminate))) as [o' H']; [change (zlen _) with 3; cbn; lia|].
  exists o, o'. split; [exact H|]. split; [exact H'|]. change (zlen wa) with 3. apply (c110_same_distribution wa wb (TsI (arange 0 3)) (TsI (arange 0 3)) 3 o o' ltac:(lia) eq_refl H H').
  exists (RtoC 1), (RtoC (-1)). split; [apply Cmod_1|]. split; [rewrite Cmod_R; unfold Rabs; destruct (Rcase_abs _); lra|].
  intros k Hk. change (zlen wa) with 3 in Hk. assert (k = 0 \/ k = 1 \/ k = 2) as [-> | [-> | ->]] by lia;
  [change (cnth wb 0) with (RtoC 1); change (cnth wa 0) with (RtoC 1); change (Z.even 0) with true|change (cnth wb 1) with (RtoC (-1)); change (cnth wa 1) with (RtoC 1); change (Z.even 1) with false|change (cnth wb 2) with (RtoC 0); change (cnth wa 2) with (RtoC 0); change (Z.even 2) with true]; cbv iota; rewrite <- RtoC_mult; apply (f_equal RtoC); lra.
Qed.
Lemma c120_mh_refuted : exists x y n ox oy, 2 <= n /\ same_wvd x y n /\ mh x None None = Ok ox /\ mh y None None = Ok oy /\ at2 (r_tfr ox) 0 0 <> at2 (r_tfr oy) 0 0.
Proof.
  exists wa, wb, 3. 
  assert (G : forall z, zlen z = 3 -> exists o, mh z None None = Ok o /\ at2 (r_tfr o) 0 0 = RtoC (Re (cnth z 0 * Cconj (cnth z 1) + cnth z 0 * Cconj (cnth z 2))%C)).
  { intros z L. destruct (c30_mh_outcome z (arange 0 3) 3 ltac:(lia)) as [[_ [o [H _]]]|[[ti [H1 H2]] _]].
    - exists o. split; [change (mh z None None) with (mh z (Some (TsI (arange 0 (zlen z)))) (Some (zlen z))); rewrite L; exact H|]. rewrite (c30_mh_closed_form z (arange 0 3) 3 o 0 0 0 ltac:(lia) H eq_refl ltac:(lia) ltac:(lia)). rewrite L. change (Z.min 3 3) with 3. eval_arange. rewrite !csum_cons, csum_nil.
      change (- (0 * (0 - 1))) with 0. change (- (0 * (0 - 2))) with 0. rewrite root_0. do 2 f_equal. ring.
    - exfalso. apply in_arange in H1. apply H2. rewrite L. lia. }
  destruct (G wa eq_refl) as (ox & HX & EX). destruct (G wb eq_refl) as (oy & HY & EY). exists ox, oy. split; [lia|]. split; [apply c120_twins|]. split; auto. split; auto. rewrite EX, EY.
  change (cnth wa 0) with (RtoC 1). change (cnth wa 1) with (RtoC 1). change (cnth wa 2) with (RtoC 0). change (cnth wb 0) with (RtoC 1). change (cnth wb 1) with (RtoC (-1)). change (cnth wb 2) with (RtoC 0).
  rewrite !Cconj_R, <- !RtoC_mult, <- !RtoC_plus, !Re_R. intros Q. apply RtoC_inj in Q. lra.
Qed.
Lemma c120_page_refuted : exists x y n ox oy, 2 <= n /\ same_wvd x y n /\ page x None None = Ok ox /\ page y None None = Ok oy /\ at2 (r_tfr ox) 0 0 <> at2 (r_tfr oy) 0 0.
Proof.
  exists wa, wb, 3.
  assert (G : forall z, zlen z = 3 -> exists o, page z None None = Ok o /\ at2 (r_tfr o) 0 0 = RtoC (Re (cnth z 0 * Cconj (cnth z 0) + cnth z 0 * Cconj (cnth z 1) + cnth z 0 * Cconj (cnth z 2))%C)).
  { intros z L. destruct (c31_page_outcome z (arange 0 3) 3 ltac:(lia)) as [[_ [o [H _]]]|[[ti [H1 H2]] _]].
    - exists o. split; [change (page z None None) with (page z (Some (TsI (arange 0 (zlen z)))) (Some (zlen z))); rewrite L; exact H|]. rewrite (c31_page_closed_form z (arange 0 3) 3 o 0 0 0 ltac:(lia) H eq_refl ltac:(lia) ltac:(lia)). rewrite L. change (Z.min 3 3) with 3. eval_arange. rewrite !csum_cons, csum_nil.
      change (- (0 * (0 - 1 - 0))) with 0. change (- (0 * (0 - 1 - 1))) with 0. change (- (0 * (0 - 1 - 2))) with 0. rewrite root_0. do 2 f_equal. ring.
    - exfalso. apply in_arange in H1. apply H2. rewrite L. lia. }
  destruct (G wa eq_refl) as (ox & HX & EX). destruct (G wb eq_refl) as (oy & HY & EY). exists ox, oy. split; [lia|]. split; [apply c120_twins|]. split; auto. split; auto. rewrite EX, EY.
  change (cnth wa 0) with (RtoC 1). change (cnth wa 1) with (RtoC 1). change (cnth wa 2) with (RtoC 0). change (cnth wb 0) with (RtoC 1). change (cnth wb 1) with (RtoC (-1)). change (cnth wb 2) with (RtoC 0).
  rewrite !Cconj_R, <- !RtoC_mult, <- !RtoC_plus, !Re_R. intros Q. apply RtoC_inj in Q. lra.
Qed.

Lemma c120_spectrogram_refuted : exists x y n w mx my cx cy, 2 <= n /\ same_wvd x y n /\ spectrogram x None None (Some w) = Ok mx /\ spectrogram y None None (Some w) = Ok my /\
  nth_error mx 1 = Some (Some cx) /\ nth_error my 1 = Some (Some cy) /\ rnth cx 0 = 2%R /\ rnth cy 0 = 0%R.
Proof.
  set (w := [RtoC 1; RtoC 1; RtoC 1]).
  assert (G : forall z, zlen z = 3 -> cnth z 2 = RtoC 0 -> exists m c, spectrogram z None None (Some w) = Ok m /\ nth_error m 1 = Some (Some c) /\ (rnth c 0 * 2 = Cmod (cnth z 0 + cnth z 1)%C ^ 2)%R).
  { intros z L Z2. change (spectrogram z None None (Some w)) with (spectrogram z (Some (TsI (arange 0 (zlen z)))) (Some (zlen z)) (Some w)). rewrite L.
    destruct (c17_spectrogram_total z (arange 0 3) 3 w ltac:(lia)) as (m & H & _ & D). 
    assert (MW : maxlag w 3 = 1). { unfold maxlag. change ((zlen w - 1) / 2) with 1. assert (round_half 3 = 2) as -> by reflexivity || (unfold round_half; cbn; lia). reflexivity. }
    assert (V : forall t, wincut 1 w t = if (-1 <=? t) && (t <=? 1) then RtoC 1 else RtoC 0).
    { intros t. unfold wincut. change (- (1)) with (-1). destruct (_ && _) eqn:E; auto. apply andb_prop in E as [E1 E2]. rewrite Z.leb_le in *. assert (t = -1 \/ t = 0 \/ t = 1) as [-> | [-> | ->]] by lia; reflexivity. }
    assert (W : wenergy z (wincut 1 w) 0 = 2%R). { unfold wenergy. rewrite L. eval_arange. rewrite !rsum_cons, rsum_nil, !V. change (0 - 0) with 0. change (1 - 0) with 1. change (2 - 0) with 2. change ((-1 <=? 0) && (0 <=? 1)) with true. change ((-1 <=? 1) && (1 <=? 1)) with true. change ((-1 <=? 2) && (2 <=? 1)) with false. cbv iota. rewrite Cmod_1, Cmod_0. ring. }
    destruct (D 1%nat 1 eq_refl) as [(_ & Q & _)|(_ & c & Hc & _)].
    - rewrite MW in Q. change (1 - 1) with 0 in Q. rewrite W in Q. lra.
    - exists m, c. split; auto. split; auto. destruct (spec_entry_of z (arange 0 3) 3 w m 1 1 c 0 ltac:(lia) H eq_refl Hc ltac:(lia)) as [E _]. change (spec_m w 3) with (maxlag w 3) in E. rewrite MW in E. change (1 - 1) with 0 in E. rewrite W in E. rewrite E. do 2 f_equal.
      unfold STFTw. rewrite L. eval_arange. rewrite !csum_cons, csum_nil, !V. change (0 - 0) with 0. change (1 - 0) with 1. change (2 - 0) with 2. change ((-1 <=? 0) && (0 <=? 1)) with true. change ((-1 <=? 1) && (1 <=? 1)) with true. change ((-1 <=? 2) && (2 <=? 1)) with false. cbv iota. change (0 * 0) with 0. change (0 * 1) with 0. change (0 * 2) with 0. change (- 0) with 0. rewrite root_0, !Cconj_R, Z2. ring. }
  destruct (G wa eq_refl eq_refl) as (mx & cx & HX & IX & EX). destruct (G wb eq_refl eq_refl) as (my & cy & HY & IY & EY). exists wa, wb, 3, w, mx, my, cx, cy. split; [lia|]. split; [apply c120_twins|]. split; auto. split; auto. split; auto. split; auto.
  change (cnth wa 0) with (RtoC 1) in EX. change (cnth wa 1) with (RtoC 1) in EX. change (cnth wb 0) with (RtoC 1) in EY. change (cnth wb 1) with (RtoC (-1)) in EY. rewrite <- RtoC_plus in EX, EY. rewrite Cmod_R in EX, EY. replace (1 + -1)%R with 0%R in EY by lra. rewrite Rabs_R0 in EY. rewrite (Rabs_pos_eq (1 + 1)) in EX by lra. split; lra.
Qed.
