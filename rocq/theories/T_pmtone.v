(** C158: PseudoMargenauHillDistribution of a tone and of an impulse. *)
From Coq Require Import Reals ZArith List Lia Lra Bool.
From Coquelicot Require Import Coquelicot.
From Flocq Require Import Core.
From Verif Require Import Py Scalars CSum DFT Spec M_base M_stft M_cohen M_amb M_putils M_reas P_base P_stft P_wvd P_mh P_pwvd P_spec P_spwv T_mh T_spwv T_red T_key T_noise T_putils T_reas T_reas2 T_conc T_rtone T_sptone.
Import ListNotations.
Local Open Scope Z_scope.

Lemma pmh_cols x ts n w o c : 1 <= n -> pmh x (Some ts) (Some n) (Some w) = Ok o -> 0 <= c < ts_len ts -> c < zlen x.
Proof. intros Hn H Hc. destruct (c32_pmh_outcome x ts n w Hn) as [[[R|[R _]] _]|[_ E]]; [lia|lia|congruence]. Qed.

(** Lags of the window, and the transform of the window at u periods per sample. *)
Definition win_lags (w : list C) : list Z := arange (- ((zlen w - 1) / 2)) ((zlen w - 1) / 2 + 1).
Definition win_ft (w : list C) (u : R) : C := csum (win_lags w) (fun t => winf w t * cis (2 * PI * u * IZR t))%C.

(** A tone, columns whose window lies inside the signal. *)
Lemma c158_tone : forall x a nu ts n w o f c, is_tone x a nu -> 1 <= n -> pmh x (Some ts) (Some n) (Some w) = Ok o -> 0 <= f < n -> 0 <= c < ts_len ts ->
  (zlen w - 1) / 2 <= c - 1 -> c + (zlen w - 1) / 2 <= zlen x ->
  at2 (r_tfr o) f c = (RtoC (Cmod a ^ 2) * cis (2 * PI * nu) * win_ft w (nu - IZR f / IZR n))%C.
Proof.
  intros x a nu ts n w o f c T Hn H Hf Hc L1 L2. assert (N0 : IZR n <> 0%R) by (apply not_0_IZR; lia). assert (Cx := pmh_cols x ts n w o c Hn H Hc).
  rewrite (c32_pmh_closed_form x ts n w o f c Hn H Hf Hc). unfold win_ft, win_lags. set (L := (zlen w - 1) / 2) in *.
  set (F := fun k => (winf w (c - 1 - k) * cnth x c * Cconj (cnth x k) * root n (- (f * (c - 1 - k))))%C).
  rewrite (csum_incl (arange (c - 1 - L) (c + L)) (arange 0 (zlen x)) F).
  - rewrite <- csum_scal_l. replace (arange (c - 1 - L) (c + L)) with (arange (c - 1 + 1 - (L + 1)) (c - 1 + 1 - - L)) by (f_equal; lia). rewrite <- (csum_flip (- L) (L + 1) (c - 1) F). apply csum_ext. intros t It. apply in_arange in It. unfold F. replace (c - 1 - (c - 1 - t)) with t by ring.
    rewrite !T by lia. rewrite Cconj_mult, <- cis_opp. transitivity (winf w t * (a * Cconj a) * (cis (2 * PI * nu * IZR c) * cis (- (2 * PI * nu * IZR (c - 1 - t))) * root n (- (f * t))))%C; [ring|]. rewrite <- Cmod2_conj. unfold root. rewrite <- !cis_plus.
    transitivity (RtoC (Cmod a ^ 2) * winf w t * (cis (2 * PI * nu) * cis (2 * PI * (nu - IZR f / IZR n) * IZR t)))%C; [|ring]. rewrite <- cis_plus. transitivity (RtoC (Cmod a ^ 2) * winf w t * cis (2 * PI * nu * IZR c + - (2 * PI * nu * IZR (c - 1 - t)) + 2 * PI * IZR (- (f * t)) / IZR n))%C; [ring|]. do 2 f_equal. rewrite !minus_IZR, opp_IZR, mult_IZR. field. exact N0.
  - apply NoDup_arange.
  - apply NoDup_arange.
  - intros k Hk. apply in_arange in Hk. apply in_arange. lia.
  - intros k _ NK. rewrite in_arange in NK. unfold F. rewrite winf_out; [ring|]. fold L. lia.
Qed.
(** Non-negative windows: the modulus is largest on the row of the tone, but the value there has the phase of the frequency. *)
Lemma c158_row : forall x a nu ts n w o f c q, is_tone x a nu -> 1 <= n -> pmh x (Some ts) (Some n) (Some w) = Ok o -> 0 <= f < n -> 0 <= c < ts_len ts ->
  (zlen w - 1) / 2 <= c - 1 -> c + (zlen w - 1) / 2 <= zlen x -> (nu = IZR f / IZR n + IZR q)%R ->
  at2 (r_tfr o) f c = (RtoC (Cmod a ^ 2) * cis (2 * PI * nu) * csum (win_lags w) (winf w))%C.
Proof.
  intros x a nu ts n w o f c q T Hn H Hf Hc L1 L2 Q. rewrite (c158_tone x a nu ts n w o f c) by auto. f_equal. unfold win_ft. apply csum_ext. intros t _.
  replace (2 * PI * (nu - IZR f / IZR n) * IZR t)%R with (2 * PI * IZR (q * t))%R by (rewrite Q, mult_IZR; ring). rewrite cis_2PI_k. ring.
Qed.
Lemma c158_peak : forall x a nu ts n w o f c q, is_tone x a nu -> 1 <= n -> real_list w -> (forall t, (0 <= Re (winf w t))%R) -> pmh x (Some ts) (Some n) (Some w) = Ok o -> 0 <= f < n -> 0 <= c < ts_len ts ->
  (zlen w - 1) / 2 <= c - 1 -> c + (zlen w - 1) / 2 <= zlen x -> (nu = IZR f / IZR n + IZR q)%R ->
  (forall f', 0 <= f' < n -> (Cmod (at2 (r_tfr o) f' c) <= Cmod (at2 (r_tfr o) f c))%R) /\ at2 (r_tfr o) f c = (RtoC (Cmod a ^ 2 * rsum (win_lags w) (fun t => Re (winf w t))) * cis (2 * PI * nu))%C.
Proof.
  intros x a nu ts n w o f c q T Hn RW W0 H Hf Hc L1 L2 Q.
  assert (S : csum (win_lags w) (winf w) = RtoC (rsum (win_lags w) (fun t => Re (winf w t)))) by (rewrite RtoC_rsum; apply csum_ext; intros t _; apply winf_real, RW).
  assert (P0 : (0 <= rsum (win_lags w) (fun t => Re (winf w t)))%R) by (apply rsum_nonneg; intros t _; apply W0).
  assert (E := c158_row x a nu ts n w o f c q T Hn H Hf Hc L1 L2 Q). rewrite S in E. split; [|rewrite E, RtoC_mult; ring].
  intros f' Hf'. rewrite E, (c158_tone x a nu ts n w o f' c) by auto. rewrite !Cmod_mult. apply Rmult_le_compat_l; [apply Rmult_le_pos; apply Cmod_ge_0|]. rewrite Cmod_R, Rabs_pos_eq by exact P0. unfold win_ft. apply Rle_trans with (1 := Cmod_csum_le _ _). apply rsum_le. intros t _. rewrite Cmod_mult, Cmod_cis, Rmult_1_r, (winf_real w t RW), Cmod_R, Rabs_pos_eq by apply W0. cbn. lra.
Qed.
(** At a quarter of the sampling frequency the real part of the peak is 0. *)
Lemma c158_quarter : forall x a ts n w o f c, is_tone x a (1 / 4) -> 1 <= n -> real_list w -> (forall t, (0 <= Re (winf w t))%R) -> pmh x (Some ts) (Some n) (Some w) = Ok o -> 0 <= c < ts_len ts ->
  (zlen w - 1) / 2 <= c - 1 -> c + (zlen w - 1) / 2 <= zlen x -> n = 4 * f -> Re (at2 (r_tfr o) f c) = 0%R.
Proof.
  intros x a ts n w o f c T Hn RW W0 H Hc L1 L2 F. assert (N0 : IZR n <> 0%R) by (apply not_0_IZR; lia).
  destruct (c158_peak x a (1 / 4) ts n w o f c 0 T Hn RW W0 H ltac:(lia) Hc L1 L2) as [_ E].
  - rewrite Rplus_0_r, F, mult_IZR. field. rewrite F, mult_IZR in N0. intros Q. apply N0. rewrite Q. ring.
  - rewrite E. replace (2 * PI * (1 / 4))%R with (PI / 2)%R by field. unfold cis. rewrite cos_PI2, sin_PI2. cbn. ring.
Qed.
(** An impulse: the weight is that of lag -1, and the column of the impulse turns with the row. *)
Lemma c158_impulse : forall x k a ts n w o f c, only_at x k a -> 0 <= k < zlen x -> 1 <= n -> pmh x (Some ts) (Some n) (Some w) = Ok o -> 0 <= f < n -> 0 <= c < ts_len ts ->
  at2 (r_tfr o) f c = if c =? k then (RtoC (Cmod a ^ 2) * winf w (-1) * cis (2 * PI * IZR f / IZR n))%C else RtoC 0.
Proof.
  intros x k a ts n w o f c HX Hk Hn H Hf Hc. assert (Cx := pmh_cols x ts n w o c Hn H Hc). rewrite (c32_pmh_closed_form x ts n w o f c Hn H Hf Hc). rewrite (HX c) by lia. destruct (Z.eqb_spec c k) as [->|NE].
  - rewrite (csum_single (arange 0 (zlen x)) k).
    + rewrite HX, Z.eqb_refl by lia. replace (k - 1 - k) with (-1) by ring. replace (- (f * -1)) with f by ring. unfold root. rewrite Cmod2_conj. ring.
    + apply NoDup_arange.
    + apply in_arange. lia.
    + intros s Hs NS. apply in_arange in Hs. rewrite HX by lia. destruct (Z.eqb_spec s k); [lia|]. rewrite Cconj_R. ring.
  - apply csum_0. intros s _. ring.
Qed.
(** The rows of the impulse add up to nothing, and a one-point window shows no impulse at all. *)
Lemma c158_lost : forall x k a ts n w o c, only_at x k a -> 0 <= k < zlen x -> 1 <= n -> pmh x (Some ts) (Some n) (Some w) = Ok o -> 0 <= c < ts_len ts ->
  (2 <= n -> csum (arange 0 n) (fun f => at2 (r_tfr o) f c) = RtoC 0) /\ (zlen w <= 2 -> forall f, 0 <= f < n -> at2 (r_tfr o) f c = RtoC 0).
Proof.
  intros x k a ts n w o c HX Hk Hn H Hc. split.
  - intros N2. rewrite (csum_ext _ _ (fun f => (if c =? k then RtoC (Cmod a ^ 2) * winf w (-1) else RtoC 0) * root n (f * 1))%C).
    + rewrite csum_scal_l. replace (csum (arange 0 n) (fun f => root n (f * 1))) with (RtoC 0); [ring|]. symmetry.
      rewrite root_orth, Z.mod_small by lia. reflexivity.
    + intros f If. apply in_arange in If. rewrite (c158_impulse x k a ts n w o f c) by (auto; lia). rewrite Z.mul_1_r. unfold root. destruct (c =? k); ring.
  - intros W f Hf. rewrite (c158_impulse x k a ts n w o f c) by auto. destruct (c =? k); [|reflexivity]. rewrite winf_out; [ring|]. left. assert (D := Z.div_lt_upper_bound (zlen w - 1) 2 1 ltac:(lia) ltac:(lia)). lia.
Qed.
(** 1, i, -1, -i on 8 rows with [1, 1, 1]: 3i on the row of the tone; 0, 0, 2, 0: 4 on row 0, -4 on row 4. *)
Example c158_example : let x := [RtoC 1; Ci; RtoC (-1); (- Ci)%C] in let y := [RtoC 0; RtoC 0; RtoC 2; RtoC 0] in let w := [RtoC 1; RtoC 1; RtoC 1] in let ts := Some (TsI [0; 1; 2; 3]) in
  (exists o, pmh x ts (Some 8) (Some w) = Ok o /\ at2 (r_tfr o) 2 2 = (RtoC 3 * Ci)%C) /\
  (exists o, pmh y ts (Some 8) (Some w) = Ok o /\ at2 (r_tfr o) 0 2 = RtoC 4 /\ at2 (r_tfr o) 4 2 = RtoC (-4)).
Proof.
  cbv zeta. set (x := [RtoC 1; Ci; RtoC (-1); (- Ci)%C]). set (y := [RtoC 0; RtoC 0; RtoC 2; RtoC 0]). set (w := [RtoC 1; RtoC 1; RtoC 1]). set (ts := TsI [0; 1; 2; 3]).
  assert (C1 : cis (PI / 2) = Ci) by (unfold cis; rewrite cos_PI2, sin_PI2; reflexivity). assert (CP : cis PI = RtoC (-1)) by (unfold cis; rewrite cos_PI, sin_PI; reflexivity).
  assert (T : is_tone x (RtoC 1) (1 / 4)).
  { intros m Hm. change (zlen x) with 4 in Hm. rewrite Cmult_1_l. assert (m = 0 \/ m = 1 \/ m = 2 \/ m = 3) as [-> | [-> | [-> | ->]]] by lia.
    - rewrite Rmult_0_r, cis_0. reflexivity.
    - replace (2 * PI * (1 / 4) * 1)%R with (PI / 2)%R by field. rewrite C1. reflexivity.
    - replace (2 * PI * (1 / 4) * 2)%R with PI by field. rewrite CP. reflexivity.
    - replace (2 * PI * (1 / 4) * 3)%R with (PI + PI / 2)%R by field. rewrite cis_plus, CP, C1. change (cnth x 3) with (- Ci)%C. apply injective_projections; cbn; ring. }
  assert (HY : only_at y 2 (RtoC 2)) by (intros m Hm; change (zlen y) with 4 in Hm; assert (m = 0 \/ m = 1 \/ m = 2 \/ m = 3) as [-> | [-> | [-> | ->]]] by lia; reflexivity).
  split.
  - destruct (c32_pmh_outcome x ts 8 w ltac:(lia)) as [[_ (o & H)]|[R _]]; [|exfalso; apply R; right; split; [vm_compute; discriminate|left; apply Z.ltb_lt; reflexivity]]. exists o. split; [exact H|].
    rewrite (c158_row x (RtoC 1) (1 / 4) ts 8 w o 2 2 0 T ltac:(lia) H); [|lia|change (ts_len ts) with 4; lia|vm_compute; discriminate|vm_compute; discriminate|field].
    replace (2 * PI * (1 / 4))%R with (PI / 2)%R by field. rewrite C1, Cmod_1. change (win_lags w) with [-1; 0; 1]. unfold csum. cbn [fold_right]. change (winf w (-1)) with (RtoC 1). change (winf w 0) with (RtoC 1). change (winf w 1) with (RtoC 1). apply injective_projections; cbn; ring.
  - destruct (c32_pmh_outcome y ts 8 w ltac:(lia)) as [[_ (o & H)]|[R _]]; [|exfalso; apply R; right; split; [vm_compute; discriminate|left; apply Z.ltb_lt; reflexivity]]. exists o. split; [exact H|].
    assert (V := fun f Hf => c158_impulse y 2 (RtoC 2) ts 8 w o f 2 HY ltac:(change (zlen y) with 4; lia) ltac:(lia) H Hf ltac:(change (ts_len ts) with 4; lia)). change (2 =? 2) with true in V. cbv iota in V. change (winf w (-1)) with (RtoC 1) in V. rewrite Cmod_R, Rabs_right in V by lra. rewrite !V by lia. split.
    + replace (2 * PI * 0 / 8)%R with 0%R by field. rewrite cis_0. apply injective_projections; cbn; ring.
    + replace (2 * PI * 4 / 8)%R with PI by field. rewrite CP. apply injective_projections; cbn; ring.
Qed.
