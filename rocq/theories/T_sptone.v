(** C156: smoothed_pseudo_wigner_ville of a tone. *)
From Coq Require Import Reals ZArith List Lia Lra Bool.
From Coquelicot Require Import Coquelicot.
From Flocq Require Import Core.
From Verif Require Import Py Scalars CSum DFT Spec M_base M_stft M_cohen M_amb M_putils M_reas P_base P_stft P_wvd P_pwvd P_spec P_spwv T_spwv T_red T_key T_noise T_putils T_reas T_reas2 T_conc T_rtone.
Import ListNotations.
Local Open Scope Z_scope.

Lemma lagavg_tone x a nu g c tau : is_tone x a nu -> lagmass x g c (Z.abs tau) <> RtoC 0 -> lagavg x g c tau = (RtoC (Cmod a ^ 2) * cis (4 * PI * nu * IZR tau))%C.
Proof.
  intros T NZ. unfold lagavg. rewrite (csum_ext _ _ (fun s => g (c - s)%Z * (RtoC (Cmod a ^ 2) * cis (4 * PI * nu * IZR tau)))%C).
  - rewrite csum_scal_r. unfold lagmass in *. field. exact NZ.
  - intros s Hs. apply in_arange in Hs. rewrite !T by lia. rewrite Cconj_mult, <- cis_opp, Cmod2_conj. replace (4 * PI * nu * IZR tau)%R with (2 * PI * nu * IZR (s + tau) + - (2 * PI * nu * IZR (s - tau)))%R by (rewrite plus_IZR, minus_IZR; ring). rewrite cis_plus. ring.
Qed.
(** Number of lags used in the column of instant ti, and the weight the code gives lag t. *)
Definition lags_used (x tw fw : list C) (n ti : Z) : Z :=
  Z.min (Z.min (ti + (zlen tw - 1) / 2 - 1) (zlen x - ti + (zlen tw - 1) / 2)) (Z.min (round_half n - 1) ((zlen fw - 1) / 2)).
Definition weight (fw : list C) (t : Z) : R := (Re (winf fw t) + Re (winf fw (2 - t)))%R.

Lemma mass_used x l n tw fw out i ti col tau : 1 <= n <= zlen x -> zlen tw mod 2 = 1 -> zlen fw mod 2 = 1 -> spwv x (Some l) (Some n) (Some tw) (Some fw) = Ok out ->
  nth_error l (Z.to_nat i) = Some ti -> nth_error out (Z.to_nat i) = Some (Some col) -> 1 <= ti <= zlen x -> 0 <= tau < Z.max 1 (lags_used x tw fw n ti) -> lagmass x (winf tw) (ti - 1) tau <> RtoC 0.
Proof.
  intros Hn Ht Hf H Hi Ho Hti HT M. assert (B := c29_nan_iff x l n tw fw out i ti ltac:(lia) Ht Hf H Hi). cbv zeta in B. fold (lags_used x tw fw n ti) in B. destruct B as [_ B].
  rewrite B in Ho; [discriminate|]. exists tau. split; [exact HT|]. split; [|exact M].
  assert (LT : 0 <= (zlen tw - 1) / 2) by (apply Z.div_pos; [|lia]; assert (Q := zlen_nonneg tw); destruct (Z.eq_dec (zlen tw) 0) as [E|]; [rewrite E in Ht; discriminate|lia]).
  assert (RH : 2 * round_half n <= n + 1). { unfold round_half. assert (D := Z.div_mod n 2 ltac:(lia)). rewrite Zmod_odd in D. destruct (Z.even n) eqn:E; rewrite <- Z.negb_even, E in D; cbn [negb] in D; [lia|]. destruct (Z.even (n / 2)); lia. }
  exists (Z.max tau (Z.min (ti - 1) (zlen x - 1 - tau))). unfold lags_used in HT. lia.
Qed.
Lemma winf_real fw t : real_list fw -> winf fw t = RtoC (Re (winf fw t)).
Proof.
  intros RW. apply injective_projections; [reflexivity|]. change (snd (RtoC _)) with 0%R. unfold winf. destruct (Z.leb_spec (- ((zlen fw - 1) / 2)) t), (Z.leb_spec t ((zlen fw - 1) / 2)); cbn [andb]; try reflexivity.
  assert (D := Z.div_mod (zlen fw - 1) 2 ltac:(lia)). assert (B := Z.mod_pos_bound (zlen fw - 1) 2 ltac:(lia)). destruct (Z_lt_dec ((zlen fw - 1) / 2 + t) (zlen fw)) as [L|L]; [apply RW; lia|]. unfold cnth. rewrite nth_overflow by (unfold zlen in *; lia). reflexivity.
Qed.
(** Every entry of every column that is not NaN. *)
Lemma c156_tone : forall x a nu l n tw fw out i ti col f, is_tone x a nu -> 1 <= n <= zlen x -> zlen tw mod 2 = 1 -> zlen fw mod 2 = 1 -> real_list fw ->
  spwv x (Some l) (Some n) (Some tw) (Some fw) = Ok out -> nth_error l (Z.to_nat i) = Some ti -> nth_error out (Z.to_nat i) = Some (Some col) -> 1 <= ti <= zlen x -> 0 <= f < n ->
  rnth col f = (Cmod a ^ 2 * (1 + rsum (arange 1 (lags_used x tw fw n ti + 1)) (fun t => weight fw t * cos (2 * PI * (IZR t * (2 * nu - IZR f / IZR n) - 2 * nu)))))%R.
Proof.
  intros x a nu l n tw fw out i ti col f T Hn Ht Hf RW H Hi Ho Hti Hff. assert (N0 : IZR n <> 0%R) by (apply not_0_IZR; lia).
  assert (MU := fun tau => mass_used x l n tw fw out i ti col tau Hn Ht Hf H Hi Ho Hti).
  rewrite (c29_spwv_closed_form x l n tw fw out i ti col f ltac:(lia) Ht Hf H Hi Ho Hff). fold (lags_used x tw fw n ti). set (m := lags_used x tw fw n ti) in *.
  rewrite (lagavg_tone x a nu) by (auto; apply MU; change (Z.abs 0) with 0; lia). rewrite Rmult_0_r, cis_0. set (A := (Cmod a ^ 2)%R).
  rewrite (csum_ext _ _ (fun t => RtoC (A * weight fw t * cos (2 * PI * (IZR t * (2 * nu - IZR f / IZR n) - 2 * nu))) + Ci * RtoC (A * (Re (winf fw t) - Re (winf fw (2 - t))) * sin (2 * PI * (IZR t * (2 * nu - IZR f / IZR n) - 2 * nu))))%C).
  - assert (RS : forall (l : list Z) (g h : Z -> R), Re (csum l (fun t => RtoC (g t) + Ci * RtoC (h t)))%C = rsum l g) by (intros l0 g h; rewrite Re_csum; apply rsum_ext; intros t _; cbn; ring).
    rewrite Re_plus, RS. replace (Re (RtoC A * RtoC 1)%C) with A by (cbn; ring). rewrite Rmult_plus_distr_l, Rmult_1_r. f_equal. rewrite <- rsum_scal_l. apply rsum_ext. intros t _. ring.
  - intros t It. apply in_arange in It. rewrite !(lagavg_tone x a nu) by (auto; apply MU; lia). fold A. rewrite (winf_real fw t RW), (winf_real fw (2 - t) RW). set (p := (2 * PI * (IZR t * (2 * nu - IZR f / IZR n) - 2 * nu))%R).
    assert (E1 : (cis (4 * PI * nu * IZR (t - 1)) * root n (- (f * t)))%C = cis p) by (unfold root; rewrite <- cis_plus; f_equal; unfold p; rewrite minus_IZR, opp_IZR, mult_IZR; field; exact N0).
    assert (E2 : (cis (4 * PI * nu * IZR (1 - t)) * root n (f * t))%C = cis (- p)) by (unfold root; rewrite <- cis_plus; f_equal; unfold p; rewrite minus_IZR, mult_IZR; field; exact N0).
    rewrite <- !Cmult_assoc, E1, E2. unfold weight. cbn [Re fst]. change (fst (winf fw t)) with (Re (winf fw t)). set (u := Re (winf fw t)). set (v := Re (winf fw (2 - t))). unfold cis. rewrite cos_neg, sin_neg. apply injective_projections; cbn; ring.
Qed.
(** On the row of the tone, cos(4 pi nu) takes the place of 1. *)
Lemma c156_row : forall x a nu l n tw fw out i ti col f q, is_tone x a nu -> 1 <= n <= zlen x -> zlen tw mod 2 = 1 -> zlen fw mod 2 = 1 -> real_list fw ->
  spwv x (Some l) (Some n) (Some tw) (Some fw) = Ok out -> nth_error l (Z.to_nat i) = Some ti -> nth_error out (Z.to_nat i) = Some (Some col) -> 1 <= ti <= zlen x -> 0 <= f < n ->
  (2 * nu = IZR f / IZR n + IZR q)%R -> rnth col f = (Cmod a ^ 2 * (1 + cos (4 * PI * nu) * rsum (arange 1 (lags_used x tw fw n ti + 1)) (weight fw)))%R.
Proof.
  intros x a nu l n tw fw out i ti col f q T Hn Ht Hf RW H Hi Ho Hti Hff Q. rewrite (c156_tone x a nu l n tw fw out i ti col f) by auto. do 2 f_equal. rewrite <- rsum_scal_l. apply rsum_ext. intros t _. rewrite Rmult_comm. f_equal.
  replace (2 * PI * (IZR t * (2 * nu - IZR f / IZR n) - 2 * nu))%R with (- (4 * PI * nu) + 2 * PI * IZR (t * q))%R by (rewrite Q, mult_IZR; replace nu with ((IZR f / IZR n + IZR q) / 2)%R by lra; field; apply not_0_IZR; lia).
  assert (C := cis_2PI_k (t * q)). assert (E := cis_plus (- (4 * PI * nu)) (2 * PI * IZR (t * q))). rewrite C, Cmult_1_r in E. apply (f_equal fst) in E. unfold cis in E. cbn [fst] in E. rewrite E. apply cos_neg.
Qed.
(** At a quarter of the sampling frequency that is the smallest entry of the column, at 0 and at a half the largest. *)
Lemma c156_trough : forall x a nu l n tw fw out i ti col f q, is_tone x a nu -> 1 <= n <= zlen x -> zlen tw mod 2 = 1 -> zlen fw mod 2 = 1 -> real_list fw -> (forall t, (0 <= Re (winf fw t))%R) ->
  spwv x (Some l) (Some n) (Some tw) (Some fw) = Ok out -> nth_error l (Z.to_nat i) = Some ti -> nth_error out (Z.to_nat i) = Some (Some col) -> 1 <= ti <= zlen x -> 0 <= f < n ->
  (2 * nu = IZR f / IZR n + IZR q)%R -> (cos (4 * PI * nu) = -1 -> forall f', (0 <= f' < n)%Z -> rnth col f <= rnth col f')%R /\ (cos (4 * PI * nu) = 1 -> forall f', (0 <= f' < n)%Z -> rnth col f' <= rnth col f)%R.
Proof.
  intros x a nu l n tw fw out i ti col f q T Hn Ht Hf RW W0 H Hi Ho Hti Hff Q. rewrite (c156_row x a nu l n tw fw out i ti col f q) by auto. set (I := arange 1 _). assert (A0 := pow2_ge_0 (Cmod a)).
  assert (B : forall f', (0 <= f' < n)%Z -> (- rsum I (weight fw) <= rsum I (fun t => weight fw t * cos (2 * PI * (IZR t * (2 * nu - IZR f' / IZR n) - 2 * nu))) <= rsum I (weight fw))%R).
  { intros f' _. split.
    - replace (- rsum I (weight fw))%R with (rsum I (fun t => -1 * weight fw t)%R) by (rewrite rsum_scal_l; ring). apply rsum_le. intros t _. assert (C := COS_bound (2 * PI * (IZR t * (2 * nu - IZR f' / IZR n) - 2 * nu))). assert (W1 := W0 t). assert (W2 := W0 (2 - t)). unfold weight. nra.
    - apply rsum_le. intros t _. assert (C := COS_bound (2 * PI * (IZR t * (2 * nu - IZR f' / IZR n) - 2 * nu))). assert (W1 := W0 t). assert (W2 := W0 (2 - t)). unfold weight. nra. }
  split; intros -> f' Hf'; rewrite (c156_tone x a nu l n tw fw out i ti col f') by auto; fold I; specialize (B f' Hf'); apply Rmult_le_compat_l; auto; lra.
Qed.
(** 1, i, -1, -i: the row of the tone holds -1, row 0 holds 3. *)
Example c156_example : exists col, spwv [RtoC 1; Ci; RtoC (-1); (- Ci)%C] (Some [2]) (Some 4) (Some [RtoC 1]) (Some [RtoC 1; RtoC 1; RtoC 1]) = Ok [Some col] /\ rnth col 2 = (-1)%R /\ rnth col 0 = 3%R.
Proof.
  set (x := [RtoC 1; Ci; RtoC (-1); (- Ci)%C]). set (fw := [RtoC 1; RtoC 1; RtoC 1]). assert (N1 : RtoC 1 <> RtoC 0) by (intros Q; apply RtoC_inj in Q; lra).
  assert (C1 : cis (PI / 2) = Ci) by (unfold cis; rewrite cos_PI2, sin_PI2; reflexivity). assert (CP : cis PI = RtoC (-1)) by (unfold cis; rewrite cos_PI, sin_PI; reflexivity).
  assert (T : is_tone x (RtoC 1) (1 / 4)).
  { intros m Hm. change (zlen x) with 4 in Hm. rewrite Cmult_1_l. assert (m = 0 \/ m = 1 \/ m = 2 \/ m = 3) as [-> | [-> | [-> | ->]]] by lia.
    - rewrite Rmult_0_r, cis_0. reflexivity.
    - replace (2 * PI * (1 / 4) * 1)%R with (PI / 2)%R by field. rewrite C1. reflexivity.
    - replace (2 * PI * (1 / 4) * 2)%R with PI by field. rewrite CP. reflexivity.
    - replace (2 * PI * (1 / 4) * 3)%R with (PI + PI / 2)%R by field. rewrite cis_plus, CP, C1. change (cnth x 3) with (- Ci)%C. apply injective_projections; cbn; ring. }
  assert (RW : real_list fw) by (intros m Hm; change (zlen fw) with 3 in Hm; assert (m = 0 \/ m = 1 \/ m = 2) as [-> | [-> | ->]] by lia; reflexivity).
  assert (E : exists out, spwv x (Some [2]) (Some 4) (Some [RtoC 1]) (Some fw) = Ok out /\ zlen out = 1).
  { destruct (c29_spwv_outcome x [2] 4 [RtoC 1] fw ltac:(lia) eq_refl eq_refl) as [[_ (out & H & L & _)]|[(ti & [<-|[]] & (B & _)) _]]; [exists out; split; [exact H|exact L]|]. vm_compute in B. destruct B as [B _]. exfalso. apply B. reflexivity. }
  destruct E as (out & H & L). destruct out as [|c [|]]; try (unfold zlen in L; cbn in L; lia). clear L.
  assert (NN := c29_nan_iff x [2] 4 [RtoC 1] fw [c] 0 2 ltac:(lia) eq_refl eq_refl H eq_refl). destruct c as [col|].
  2:{ exfalso. destruct NN as [NN _]. destruct (NN eq_refl) as (tau & HT & _ & M). assert (tau = 0) by (match type of HT with _ <= _ < ?b => change b with 1 in HT end; lia). subst tau. unfold lagmass in M. change (zlen x - 0) with 4 in M. change (arange 0 4) with [0; 1; 2; 3] in M. unfold csum in M. cbn [fold_right] in M.
    change (winf [RtoC 1] (2 - 1 - 0)) with (RtoC 0) in M. change (winf [RtoC 1] (2 - 1 - 1)) with (RtoC 1) in M. change (winf [RtoC 1] (2 - 1 - 2)) with (RtoC 0) in M. change (winf [RtoC 1] (2 - 1 - 3)) with (RtoC 0) in M. apply (f_equal fst) in M. cbn in M. lra. }
  exists col. split; [exact H|].
  assert (V := fun f => c156_tone x (RtoC 1) (1 / 4) [2] 4 [RtoC 1] fw [Some col] 0 2 col f T ltac:(change (zlen x) with 4; lia) eq_refl eq_refl RW H eq_refl eq_refl ltac:(change (zlen x) with 4; lia)).
  assert (W : weight fw 1 = 2%R) by (unfold weight; change (winf fw 1) with (RtoC 1); change (winf fw (2 - 1)) with (RtoC 1); cbn; lra).
  change (lags_used x [RtoC 1] fw 4 2) with 1 in V. change (arange 1 (1 + 1)) with [1] in V. rewrite !V by lia. unfold rsum. cbn [fold_right]. rewrite W, Cmod_1. split.
  - replace (2 * PI * (1 * (2 * (1 / 4) - 2 / 4) - 2 * (1 / 4)))%R with (- PI)%R by field. rewrite cos_neg, cos_PI. ring.
  - replace (2 * PI * (1 * (2 * (1 / 4) - 0 / 4) - 2 * (1 / 4)))%R with 0%R by field. rewrite cos_0. ring.
Qed.
