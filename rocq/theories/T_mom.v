(** C134: locfreq, inst_freq and group_delay under changes of scale, delays,
    modulations and conjugation. *)
From Coq Require Import Reals ZArith List Lia Lra Bool Permutation.
From Coquelicot Require Import Coquelicot.
From Flocq Require Import Core.
From Verif Require Import Py Scalars CSum DFT Spec M_base M_putils M_dom P_base T_utils T_putils T_dom.
Import ListNotations.
Local Open Scope Z_scope.

Lemma Cmul_cancel_l (c u v : C) : c <> RtoC 0 -> (c * u = c * v)%C -> u = v.
Proof.
  intros Hc E. replace u with (/ c * (c * u))%C by (field; auto). rewrite E. field. auto.
Qed.
(** *** locfreq *)
(** The samples circularly delayed by s. *)
Definition rolled (s : Z) (x : list C) : list C := map (fun k => cnth x ((k - s) mod zlen x)) (arange 0 (zlen x)).
Lemma rolled_zlen s x : zlen (rolled s x) = zlen x.
Proof. unfold rolled. rewrite zlen_map_arange; unfold zlen; lia. Qed.
Lemma locfreq_pw x y : zlen x = zlen y -> (forall f, 0 <= f < zlen x -> Cmod (cnth (fft x) f) = Cmod (cnth (fft y) f)) -> locfreq x = locfreq y.
Proof.
  intros HL H. unfold locfreq. rewrite <- HL. destruct (zlen x =? 0); [reflexivity|]. f_equal.
  rewrite (list_as_map (fft x)), (list_as_map (fft y)), !fft_zlen, <- HL, !map_map. apply map_ext_in. intros f Hf. apply in_arange in Hf. rewrite H by lia. reflexivity.
Qed.
Lemma fft_rolled s x f : 0 <= f < zlen x -> cnth (fft (rolled s x)) f = (root (zlen x) (- (f * s)) * cnth (fft x) f)%C.
Proof.
  intros Hf. rewrite !fft_nth by (rewrite ?rolled_zlen; lia). rewrite rolled_zlen. set (n := zlen x) in *.
  rewrite <- (csum_mod_shift n s (fun k => cnth (rolled s x) k * root n (- (f * k)))%C) by lia. rewrite <- csum_scal_l. apply csum_ext. intros k Hk. apply in_arange in Hk.
  assert (B := Z.mod_pos_bound (k + s) n ltac:(lia)). unfold rolled. fold n. rewrite cnth_map_arange by lia. rewrite Z.add_0_l.
  replace (((k + s) mod n - s) mod n) with k by (rewrite Zminus_mod_idemp_l; replace (k + s - s) with k by lia; symmetry; apply Z.mod_small; lia).
  replace (- (f * ((k + s) mod n))) with (- f * ((k + s) mod n)) by ring. rewrite root_mod_mul_r by lia. replace (- f * (k + s)) with (- (f * s) + - (f * k)) by ring. rewrite root_plus. ring.
Qed.
Lemma c134_locfreq_delay : forall s x, locfreq (rolled s x) = locfreq x.
Proof.
  intros s x. apply locfreq_pw; [apply rolled_zlen|]. intros f Hf. rewrite rolled_zlen in Hf. rewrite fft_rolled by lia. rewrite Cmod_mult, Cmod_root. ring.
Qed.
Lemma fft_scale c x f : 0 <= f < zlen x -> cnth (fft (scale c x)) f = (c * cnth (fft x) f)%C.
Proof.
  intros Hf. rewrite !fft_nth by (rewrite ?scale_zlen; lia). rewrite scale_zlen, <- csum_scal_l. apply csum_ext. intros k Hk. apply in_arange in Hk. rewrite scale_nth by lia. ring.
Qed.
Lemma c134_locfreq_scale : forall c x, c <> RtoC 0 -> locfreq (scale c x) = locfreq x.
Proof.
  intros c x Hc. assert (L := scale_zlen c x). assert (LN := zlen_nonneg x).
  assert (HC : (0 < Cmod c)%R) by (now apply Cmod_gt_0).
  destruct (Z.eq_dec (zlen x) 0) as [E0|N0]; [unfold locfreq; rewrite L, E0; reflexivity|].
  destruct (Z.eq_dec (zlen x) 1) as [E1|N1].
  { destruct x as [|z [|]]; unfold zlen in E1; cbn [length] in E1; try lia. unfold scale. cbn [map]. now rewrite !c50_one_sample. }
  destruct (Z.eq_dec (zlen x mod 4) 1) as [M1|M1].
  { assert (5 <= zlen x) by (Z.to_euclidean_division_equations; lia). rewrite !c50_raises by (rewrite ?L; auto). reflexivity. }
  assert (EE : energy (scale c x) = (Cmod c ^ 2 * energy x)%R).
  { unfold energy, scale. rewrite rsum_map, <- rsum_scal_l. apply rsum_ext. intros z _. rewrite Cmod_mult. ring. }
  assert (PW : forall f, 0 <= f < zlen x -> (Cmod (cnth (fft (scale c x)) f) ^ 2 = Cmod c ^ 2 * Cmod (cnth (fft x) f) ^ 2)%R) by (intros f Hf; rewrite fft_scale, Cmod_mult by lia; ring).
  rewrite !c50_formula by (rewrite ?L; auto; lia). f_equal. rewrite EE. assert (C2 : (0 < Cmod c ^ 2)%R) by (apply pow_lt; auto).
  destruct (Req_EM_T (energy x) 0) as [->|NE]; [rewrite Rmult_0_r; destruct (Req_EM_T 0 0); [reflexivity|lra]|].
  destruct (Req_EM_T (Cmod c ^ 2 * energy x) 0) as [Q|_]; [exfalso; apply Rmult_integral in Q; lra|].
  assert (HN : IZR (zlen x) <> 0%R) by (apply not_0_IZR; lia).
  assert (FC : fcentre (scale c x) = fcentre x).
  { unfold fcentre. rewrite L, EE. rewrite (rsum_ext _ _ (fun k => Cmod c ^ 2 * (flab (zlen x) k * Cmod (cnth (fft x) k) ^ 2))%R) by (intros k Hk; apply in_arange in Hk; rewrite PW by lia; ring). rewrite rsum_scal_l. field. repeat split; lra. }
  do 2 f_equal; [exact FC|]. unfold fspread. rewrite FC, L, EE. do 3 f_equal.
  rewrite (rsum_ext _ _ (fun k => Cmod c ^ 2 * ((flab (zlen x) k - fcentre x) ^ 2 * Cmod (cnth (fft x) k) ^ 2))%R) by (intros k Hk; apply in_arange in Hk; rewrite PW by lia; ring). rewrite rsum_scal_l. field. repeat split; lra.
Qed.
(** Modulation by m bins: when no component passes the end of the axis, the mean moves by
    m/n and the bandwidth stays. *)
Lemma fft_modulate m x f : 0 <= f < zlen x -> cnth (fft (modulate (zlen x) m x)) f = cnth (fft x) ((f - m) mod zlen x).
Proof.
  intros Hf. assert (B := Z.mod_pos_bound (f - m) (zlen x) ltac:(lia)). rewrite !fft_nth by (rewrite ?modulate_zlen; lia). rewrite modulate_zlen. apply csum_ext. intros k Hk. apply in_arange in Hk. rewrite modulate_nth by lia.
  replace (- ((f - m) mod zlen x * k)) with ((f - m) mod zlen x * - k) by ring. rewrite root_mod_mul_l by lia. replace ((f - m) * - k) with (m * k + - (f * k)) by ring. rewrite root_plus. ring.
Qed.
Lemma c134_locfreq_modulate : forall m x fm bw, let n := zlen x in
  n mod 4 <> 1 -> (forall f, 0 <= f < n -> cnth (fft x) f <> RtoC 0 -> flab n ((f + m) mod n) = (flab n f + IZR m / IZR n)%R) ->
  locfreq x = Ok (Some (fm, bw)) -> locfreq (modulate n m x) = Ok (Some ((fm + IZR m / IZR n)%R, bw)).
Proof.
  intros m x fm bw n HM HW H. assert (LN := zlen_nonneg x). fold n in LN.
  destruct (Z.eq_dec n 0) as [E0|N0]; [unfold locfreq in H; fold n in H; rewrite E0 in H; discriminate|].
  rewrite c50_formula in H by (fold n; lia). rewrite c50_formula by (rewrite modulate_zlen; fold n; lia).
  destruct (Req_EM_T (energy x) 0) as [|NE]; [discriminate|]. injection H as <- <-.
  assert (EE : energy (modulate n m x) = energy x).
  { rewrite !energy_nth, modulate_zlen. apply rsum_ext. intros k Hk. apply in_arange in Hk. unfold n. rewrite modulate_nth by lia. rewrite Cmod_mult, Cmod_root. ring. }
  rewrite EE. destruct (Req_EM_T (energy x) 0) as [|_]; [contradiction|].
  assert (HN : IZR n <> 0%R) by (apply not_0_IZR; lia).
  assert (SH : forall g : Z -> R, rsum (arange 0 n) (fun k => g k * Cmod (cnth (fft (modulate n m x)) k) ^ 2)%R = rsum (arange 0 n) (fun k => g ((k + m) mod n) * Cmod (cnth (fft x) k) ^ 2)%R).
  { intros g. rewrite <- (rsum_perm _ _ _ (perm_mod_shift n m ltac:(lia))). rewrite rsum_map. apply rsum_ext. intros k Hk. apply in_arange in Hk.
    assert (B := Z.mod_pos_bound (k + m) n ltac:(lia)). unfold n at 2. rewrite fft_modulate by (fold n; lia). fold n. rewrite Zminus_mod_idemp_l. replace (k + m - m) with k by lia. rewrite (Z.mod_small k) by lia. reflexivity. }
  assert (WT : rsum (arange 0 n) (fun k => Cmod (cnth (fft x) k) ^ 2)%R = (IZR n * energy x)%R) by (unfold n; rewrite <- fft_energy; reflexivity).
  assert (FC : fcentre (modulate n m x) = (fcentre x + IZR m / IZR n)%R).
  { unfold fcentre. rewrite modulate_zlen. fold n. rewrite EE, SH.
    rewrite (rsum_ext _ _ (fun k => flab n k * Cmod (cnth (fft x) k) ^ 2 + IZR m / IZR n * Cmod (cnth (fft x) k) ^ 2)%R).
    - rewrite rsum_plus, rsum_scal_l, WT. field. split; auto.
    - intros k Hk. apply in_arange in Hk. destruct (Ceq_dec (cnth (fft x) k) (RtoC 0)) as [Z0|NZ]; [rewrite Z0, Cmod_0; ring|]. rewrite HW by auto. ring. }
  do 2 f_equal. f_equal; [exact FC|]. unfold fspread. rewrite FC, modulate_zlen. fold n. rewrite EE, SH. do 4 f_equal. apply rsum_ext.
  intros k Hk. apply in_arange in Hk. destruct (Ceq_dec (cnth (fft x) k) (RtoC 0)) as [Z0|NZ]; [rewrite Z0, Cmod_0; ring|]. rewrite HW by auto. ring.
Qed.

(** *** inst_freq *)
(** The signal shifted in frequency by f0: x_k e^(2 pi i f0 k). *)
Definition tuned (f0 : R) (x : list C) : list C := map (fun k => cnth x k * cis (2 * PI * f0 * IZR k))%C (arange 0 (zlen x)).
Lemma tuned_zlen f0 x : zlen (tuned f0 x) = zlen x.
Proof. unfold tuned. rewrite zlen_map_arange; unfold zlen; lia. Qed.
Lemma tuned_nth f0 x k : 0 <= k < zlen x -> cnth (tuned f0 x) k = (cnth x k * cis (2 * PI * f0 * IZR k))%C.
Proof. intros Hk. unfold tuned. now rewrite cnth_map_arange, Z.add_0_l by lia. Qed.
Definition conjd (x : list C) : list C := map Cconj x.
Lemma conjd_zlen x : zlen (conjd x) = zlen x.
Proof. unfold conjd, zlen. now rewrite map_length. Qed.
Lemma conjd_nth x k : cnth (conjd x) k = Cconj (cnth x k).
Proof. unfold conjd, cnth. rewrite <- (map_nth Cconj). f_equal. apply injective_projections; cbn; lra. Qed.
Lemma angle_turn z a th r b : z <> RtoC 0 -> (0 < r)%R -> is_angle z a -> is_angle (RtoC r * (z * cis th))%C b -> exists j : Z, b = (a + th - 2 * PI * IZR j)%R.
Proof.
  intros Hz Hr (_ & Ea & _) (_ & Eb & _). assert (HM : (0 < Cmod z)%R) by now apply Cmod_gt_0.
  assert (MM : Cmod (RtoC r * (z * cis th))%C = (r * Cmod z)%R) by (rewrite !Cmod_mult, Cmod_cis, Cmod_R, Rabs_right by lra; ring).
  rewrite MM in Eb. rewrite Ea in Eb at 1.
  assert (E : (cis (a + th) = cis b)%C).
  { apply (Cmul_cancel_l (RtoC (r * Cmod z))); [intros Q; apply RtoC_inj in Q; nra|]. rewrite <- Eb, cis_plus, RtoC_mult. ring. }
  destruct (cis_1_inv (a + th - b)) as [j Hj]; [|exists j; lra].
  unfold Rminus. rewrite cis_plus, E, cis_opp. apply cis_conj_mul.
Qed.
Lemma angle_conj z a r b : z <> RtoC 0 -> (0 < r)%R -> is_angle z a -> is_angle (RtoC r * Cconj z)%C b -> exists j : Z, b = (- a - 2 * PI * IZR j)%R.
Proof.
  intros Hz Hr (_ & Ea & _) (_ & Eb & _). assert (HM : (0 < Cmod z)%R) by now apply Cmod_gt_0.
  assert (MM : Cmod (RtoC r * Cconj z)%C = (r * Cmod z)%R) by (rewrite Cmod_mult, Cmod_conj, Cmod_R, Rabs_right by lra; ring).
  rewrite MM in Eb. rewrite Ea in Eb at 1.
  assert (E : (cis (- a) = cis b)%C).
  { apply (Cmul_cancel_l (RtoC (r * Cmod z))); [intros Q; apply RtoC_inj in Q; nra|]. rewrite <- Eb, cis_opp, RtoC_mult, Cconj_mult, Cconj_R. ring. }
  destruct (cis_1_inv (- a - b)) as [j Hj]; [|exists j; lra].
  unfold Rminus. rewrite cis_plus, E, cis_opp. apply cis_conj_mul.
Qed.
(** The estimate at the k-th instant as a function of the two samples. *)
Lemma inst_at ang x ts : (forall i, In i ts -> 2 <= i < zlen x) ->
  exists fs, inst_freq ang x (Some ts) = Ok (fs, ts) /\ zlen fs = zlen ts /\
  forall k, 0 <= k < zlen ts -> let t := nth (Z.to_nat k) ts 0 in rnth fs k = inst_entry (ang k (- cnth x t * Cconj (cnth x (t - 2)))%C).
Proof.
  intros HT. destruct (c51_outcome ang x (Some ts)) as [H _]. destruct H as (fs & E & L & V); [intros i Hi; specialize (HT i Hi); lia|].
  exists fs. split; [exact E|split; [exact L|]]. intros k Hk t. destruct (V k Hk) as (u & v & G1 & G2 & ->). fold t in G1, G2.
  assert (B : 2 <= t < zlen x) by (apply HT, nth_In; unfold zlen in Hk; lia). rewrite (get_ok (RtoC 0)) in G1, G2 by lia. injection G1 as <-. injection G2 as <-. reflexivity.
Qed.
Lemma entry_turn a th j : inst_entry (a + th - 2 * PI * IZR j) = (inst_entry a + th / (4 * PI) - IZR j / 2)%R.
Proof. unfold inst_entry. assert (HP := PI_RGT_0). field. lra. Qed.
Lemma entry_conj a j : inst_entry (- a - 2 * PI * IZR j) = (1 / 2 - inst_entry a - IZR j / 2)%R.
Proof. unfold inst_entry. assert (HP := PI_RGT_0). field. lra. Qed.
Lemma Cprod_nz (u v : C) : u <> RtoC 0 -> v <> RtoC 0 -> (- u * Cconj v)%C <> RtoC 0.
Proof.
  intros Hu Hv Q. apply (f_equal Cmod) in Q. rewrite Cmod_mult, Cmod_opp, Cmod_conj, Cmod_0 in Q. apply Cmod_gt_0 in Hu, Hv. nra.
Qed.
(** A change of scale and a shift of frequency by f0 shift every estimate by f0, modulo
    the range 1/2 of the estimates (f0 = 0: a change of scale alone leaves it). *)
Lemma c134_inst_tuned : forall ang c f0 x ts fs us gs vs, (forall k z, is_angle z (ang k z)) -> c <> RtoC 0 -> (forall i, In i ts -> 2 <= i < zlen x) ->
  inst_freq ang x (Some ts) = Ok (fs, us) -> inst_freq ang (scale c (tuned f0 x)) (Some ts) = Ok (gs, vs) ->
  zlen gs = zlen ts /\ forall k, 0 <= k < zlen ts -> cnth x (nth (Z.to_nat k) ts 0) <> RtoC 0 -> cnth x (nth (Z.to_nat k) ts 0 - 2) <> RtoC 0 ->
    exists j : Z, rnth gs k = (rnth fs k + f0 - IZR j / 2)%R.
Proof.
  intros ang c f0 x ts fs us gs vs HA Hc HT Hx Hy. assert (HP := PI_RGT_0).
  destruct (inst_at ang x ts HT) as (fs' & E & _ & V). rewrite E in Hx. injection Hx as -> _.
  destruct (inst_at ang (scale c (tuned f0 x)) ts) as (gs' & E' & L' & V'); [intros i Hi; rewrite scale_zlen, tuned_zlen; auto|]. rewrite E' in Hy. injection Hy as -> _.
  split; [exact L'|]. intros k Hk N1 N2. specialize (V k Hk). specialize (V' k Hk). cbv zeta in V, V'. set (t := nth (Z.to_nat k) ts 0) in *.
  assert (B : 2 <= t < zlen x) by (apply HT, nth_In; unfold zlen in Hk; lia).
  rewrite !scale_nth, !tuned_nth in V' by (rewrite ?tuned_zlen; lia).
  assert (PZ : (- (c * (cnth x t * cis (2 * PI * f0 * IZR t))) * Cconj (c * (cnth x (t - 2) * cis (2 * PI * f0 * IZR (t - 2)))) = RtoC (Cmod c ^ 2) * (- cnth x t * Cconj (cnth x (t - 2)) * cis (4 * PI * f0)))%C).
  { replace (4 * PI * f0)%R with (2 * PI * f0 * IZR t + - (2 * PI * f0 * IZR (t - 2)))%R by (rewrite minus_IZR; ring). rewrite cis_plus, cis_opp, !Cconj_mult, Cmod2_conj. ring. }
  rewrite PZ in V'.
  destruct (angle_turn (- cnth x t * Cconj (cnth x (t - 2)))%C (ang k (- cnth x t * Cconj (cnth x (t - 2)))%C) (4 * PI * f0) (Cmod c ^ 2) (ang k (RtoC (Cmod c ^ 2) * (- cnth x t * Cconj (cnth x (t - 2)) * cis (4 * PI * f0)))%C)) as [j Hj].
  - now apply Cprod_nz.
  - apply pow_lt. now apply Cmod_gt_0.
  - apply HA.
  - apply HA.
  - exists j. rewrite V', Hj, entry_turn, <- V. field. lra.
Qed.
(** Conjugation reverses the frequency axis: f becomes 1/2 - f (modulo 1/2). *)
Lemma c134_inst_conj : forall ang x ts fs us gs vs, (forall k z, is_angle z (ang k z)) -> (forall i, In i ts -> 2 <= i < zlen x) ->
  inst_freq ang x (Some ts) = Ok (fs, us) -> inst_freq ang (conjd x) (Some ts) = Ok (gs, vs) ->
  zlen gs = zlen ts /\ forall k, 0 <= k < zlen ts -> cnth x (nth (Z.to_nat k) ts 0) <> RtoC 0 -> cnth x (nth (Z.to_nat k) ts 0 - 2) <> RtoC 0 ->
    rnth gs k = (1 / 2 - rnth fs k)%R \/ (rnth gs k = rnth fs k /\ (rnth fs k = 0 \/ rnth fs k = 1 / 2)%R).
Proof.
  intros ang x ts fs us gs vs HA HT Hx Hy. assert (HP := PI_RGT_0).
  assert (R1 := c51_range _ _ _ _ _ HA Hx). assert (R2 := c51_range _ _ _ _ _ HA Hy).
  destruct (inst_at ang x ts HT) as (fs' & E & L & V). rewrite E in Hx. injection Hx as -> _.
  destruct (inst_at ang (conjd x) ts) as (gs' & E' & L' & V'); [intros i Hi; rewrite conjd_zlen; auto|]. rewrite E' in Hy. injection Hy as -> _.
  split; [exact L'|]. intros k Hk N1 N2. specialize (V k Hk). specialize (V' k Hk). cbv zeta in V, V'. set (t := nth (Z.to_nat k) ts 0) in *.
  rewrite !conjd_nth in V'.
  assert (PZ : (- Cconj (cnth x t) * Cconj (Cconj (cnth x (t - 2))) = RtoC 1 * Cconj (- cnth x t * Cconj (cnth x (t - 2))))%C).
  { rewrite Cconj_mult, Cconj_opp. ring. }
  rewrite PZ in V'.
  destruct (angle_conj (- cnth x t * Cconj (cnth x (t - 2)))%C (ang k (- cnth x t * Cconj (cnth x (t - 2)))%C) 1 (ang k (RtoC 1 * Cconj (- cnth x t * Cconj (cnth x (t - 2))))%C)) as [j Hj].
  - now apply Cprod_nz.
  - lra.
  - apply HA.
  - apply HA.
  - rewrite Hj, entry_conj, <- V in V'.
    assert (B1 : (0 <= rnth fs k <= 1 / 2)%R) by (apply R1; unfold rnth; apply nth_In; unfold zlen in *; lia).
    assert (B2 : (0 <= rnth gs k <= 1 / 2)%R) by (apply R2; unfold rnth; apply nth_In; unfold zlen in *; lia).
    assert (J : j = -1 \/ j = 0 \/ j = 1).
    { assert (-2 < j) by (apply lt_IZR; lra). assert (j < 2) by (apply lt_IZR; lra). lia. }
    destruct J as [->|[->| ->]]; [right|left|right]; cbn in V'; lra.
Qed.

(** *** group_delay *)
(** Delaying by s samples adds s to every non-zero estimate; a NaN stays a NaN. *)
Lemma csum_zeros s x (g : Z -> C -> C) : 0 <= s -> (forall k, g k (RtoC 0) = RtoC 0) ->
  csum (arange 0 (zlen (delay s x))) (fun k => g k (cnth (delay s x) k)) = csum (arange 0 (zlen x)) (fun k => g (k + s) (cnth x k)).
Proof.
  intros Hs H0. assert (LN := zlen_nonneg x). rewrite delay_zlen by lia. rewrite (arange_app 0 s (s + zlen x)) by lia. rewrite csum_app.
  rewrite (csum_ext (arange 0 s) _ (fun _ => RtoC 0)) by (intros k Hk; apply in_arange in Hk; rewrite delay_lo by lia; apply H0). rewrite csum_0, Cplus_0_l.
  assert (SH := arange_shift 0 (zlen x) s). replace (0 + s) with s in SH by lia. replace (zlen x + s) with (s + zlen x) in SH by lia. rewrite SH, csum_map. apply csum_ext. intros k Hk. apply in_arange in Hk. rewrite delay_hi by lia. replace (k + s - s) with k by lia. reflexivity.
  reflexivity.
Qed.
Lemma gd_delay s x f : 0 <= s -> gd_den (delay s x) f = (cis (- (2 * PI * f * IZR s)) * gd_den x f)%C /\
  gd_num (delay s x) f = (cis (- (2 * PI * f * IZR s)) * (gd_num x f + RtoC (IZR s) * gd_den x f))%C.
Proof.
  intros Hs. split.
  - unfold gd_den. rewrite (csum_zeros s x (fun k u => u * cis (- (2 * PI * f * IZR k)))%C) by (auto; intros; ring). rewrite <- csum_scal_l. apply csum_ext. intros k _.
    replace (- (2 * PI * f * IZR (k + s)))%R with (- (2 * PI * f * IZR s) + - (2 * PI * f * IZR k))%R by (rewrite plus_IZR; ring). rewrite cis_plus. ring.
  - unfold gd_num, gd_den. rewrite (csum_zeros s x (fun k u => RtoC (IZR (k + 1)) * u * cis (- (2 * PI * f * IZR k)))%C) by (auto; intros; ring). rewrite <- csum_scal_l, <- csum_plus, <- csum_scal_l. apply csum_ext. intros k _.
    replace (- (2 * PI * f * IZR (k + s)))%R with (- (2 * PI * f * IZR s) + - (2 * PI * f * IZR k))%R by (rewrite plus_IZR; ring). rewrite cis_plus. replace (k + s + 1) with ((k + 1) + s) by lia. rewrite (plus_IZR (k + 1) s), RtoC_plus. ring.
Qed.
Lemma c134_delay : forall s x fs gs hs, 0 <= s -> group_delay x (Some fs) = Ok gs -> group_delay (delay s x) (Some fs) = Ok hs ->
  zlen hs = zlen gs /\ forall k, 0 <= k < zlen gs ->
    (nth (Z.to_nat k) gs None = None -> nth (Z.to_nat k) hs None = None) /\
    (forall v, nth (Z.to_nat k) gs None = Some v -> v <> 0%R -> nth (Z.to_nat k) hs None = Some (v + IZR s)%R).
Proof.
  intros s x fs gs hs Hs H1 H2. rewrite c52_formula in H1, H2. injection H1 as <-. injection H2 as <-. split; [unfold zlen; now rewrite !map_length|].
  intros k Hk. unfold zlen in Hk. rewrite map_length in Hk. rewrite !(nth_indep (map _ fs) None (gd_value x 0)) by (rewrite map_length; lia). rewrite map_nth.
  rewrite (nth_indep (map (gd_value (delay s x)) fs) _ (gd_value (delay s x) 0)) by (rewrite map_length; lia). rewrite map_nth. set (f := nth _ fs 0%R).
  destruct (gd_delay s x f Hs) as [D N]. unfold gd_value. rewrite D, N. assert (CZ := cis_neq_0 (- (2 * PI * f * IZR s))).
  destruct (Ceq_dec (gd_den x f) (RtoC 0)) as [Z0|NZ].
  - split; [intros _|discriminate]. destruct (Ceq_dec _ _) as [|Q]; [reflexivity|]. exfalso. apply Q. rewrite Z0. ring.
  - destruct (Ceq_dec _ _) as [Q|_]; [exfalso; revert Q; now apply Cmult_neq_0|]. split; [discriminate|]. intros v Hv Nv.
    assert (QQ : (cis (- (2 * PI * f * IZR s)) * (gd_num x f + RtoC (IZR s) * gd_den x f) / (cis (- (2 * PI * f * IZR s)) * gd_den x f) = gd_num x f / gd_den x f + RtoC (IZR s))%C) by (field; auto).
    rewrite QQ. cbv zeta in Hv |- *. set (r := (gd_num x f / gd_den x f)%C) in *. clearbody r. apply (f_equal (fun o => match o with Some w => w | None => 0%R end)) in Hv.
    replace (Re (r + RtoC (IZR s))%C) with (Re r + IZR s)%R by reflexivity. rewrite delay_zlen, plus_IZR by lia. assert (SR : (0 <= IZR s)%R) by (apply IZR_le; lia).
    destruct (Rle_dec 1 (Re r)); [|lra]. destruct (Rle_dec (Re r) _); [|lra]. destruct (Rle_dec 1 _); [|lra]. destruct (Rle_dec _ _); [|lra]. now rewrite Hv.
Qed.
(** A change of scale leaves the estimates, a shift of frequency by f0 shifts their axis,
    and conjugation reverses it. *)
Lemma gd_value_ext x y f g c : zlen x = zlen y -> c <> RtoC 0 -> gd_den y g = (c * gd_den x f)%C -> gd_num y g = (c * gd_num x f)%C -> gd_value y g = gd_value x f.
Proof.
  intros L Hc D N. unfold gd_value. rewrite D, N, <- L. destruct (Ceq_dec (gd_den x f) (RtoC 0)) as [Z0|NZ].
  - destruct (Ceq_dec _ _) as [|Q]; [reflexivity|]. exfalso. apply Q. rewrite Z0. ring.
  - destruct (Ceq_dec _ _) as [Q|_]; [exfalso; revert Q; now apply Cmult_neq_0|]. cbv zeta. replace (c * gd_num x f / (c * gd_den x f))%C with (gd_num x f / gd_den x f)%C by (field; auto). reflexivity.
Qed.
Lemma c134_tuned : forall c f0 x fs, c <> RtoC 0 -> group_delay (scale c (tuned f0 x)) (Some fs) = group_delay x (Some (map (fun f => f - f0)%R fs)).
Proof.
  intros c f0 x fs Hc. rewrite !c52_formula, map_map. f_equal. apply map_ext. intros f.
  assert (CI : forall k, cis (- (2 * PI * (f - f0) * IZR k)) = (cis (2 * PI * f0 * IZR k) * cis (- (2 * PI * f * IZR k)))%C) by (intros k; rewrite <- cis_plus; f_equal; ring).
  apply (gd_value_ext _ _ _ _ c); [now rewrite scale_zlen, tuned_zlen|auto| |]; unfold gd_den, gd_num; rewrite scale_zlen, tuned_zlen, <- csum_scal_l; apply csum_ext; intros k Hk; apply in_arange in Hk; rewrite scale_nth, tuned_nth, CI by (rewrite ?tuned_zlen; lia); ring.
Qed.
Lemma c134_conj : forall x fs, group_delay (conjd x) (Some fs) = group_delay x (Some (map Ropp fs)).
Proof.
  intros x fs. rewrite !c52_formula, map_map. f_equal. apply map_ext. intros f.
  assert (CI : forall k, cis (- (2 * PI * f * IZR k)) = Cconj (cis (- (2 * PI * - f * IZR k)))) by (intros k; rewrite <- cis_opp; f_equal; ring).
  assert (D : gd_den (conjd x) f = Cconj (gd_den x (- f))).
  { unfold gd_den. rewrite conjd_zlen, csum_conj. apply csum_ext. intros k _. rewrite conjd_nth, CI, Cconj_mult. reflexivity. }
  assert (N : gd_num (conjd x) f = Cconj (gd_num x (- f))).
  { unfold gd_num. rewrite conjd_zlen, csum_conj. apply csum_ext. intros k _. rewrite conjd_nth, CI, !Cconj_mult, Cconj_R. reflexivity. }
  unfold gd_value. rewrite D, N, conjd_zlen. destruct (Ceq_dec (gd_den x (- f)) (RtoC 0)) as [Z0|NZ].
  - destruct (Ceq_dec _ _) as [|Q]; [reflexivity|]. exfalso. apply Q. rewrite Z0. apply Cconj_R.
  - destruct (Ceq_dec _ _) as [Q|_]; [exfalso; apply NZ; rewrite <- (Cconj_invol (gd_den x (- f))), Q; apply Cconj_R|].
    cbv zeta. replace (Re (Cconj (gd_num x (- f)) / Cconj (gd_den x (- f)))%C) with (Re (gd_num x (- f) / gd_den x (- f))%C); [reflexivity|].
    set (d := gd_den x (- f)) in *. set (m := gd_num x (- f)). assert (Q : (Cconj m / Cconj d = Cconj (m / d))%C); [|rewrite Q; reflexivity].
    assert (ND : Cconj d <> RtoC 0) by (intros Q; apply NZ; rewrite <- (Cconj_invol d), Q; apply Cconj_R).
    apply (Cmul_cancel_l (Cconj d)); [auto|]. rewrite <- Cconj_mult. replace (d * (m / d))%C with m by (field; auto). field. auto.
Qed.
(** A component that passes the end of the axis wraps: the shift by m/n is not general. *)
Lemma c134_wrap_refuted : exists m x fm bw, locfreq x = Ok (Some (fm, bw)) /\
  locfreq (modulate (zlen x) m x) = Ok (Some ((fm + IZR m / IZR (zlen x) - 1)%R, bw)).
Proof.
  exists 1, (tone 8 3 (RtoC 1)), (3 / 8)%R, 0%R. assert (N1 : RtoC 1 <> RtoC 0) by (intros Q; apply RtoC_inj in Q; lra).
  assert (E : modulate 8 1 (tone 8 3 (RtoC 1)) = tone 8 4 (RtoC 1)).
  { unfold modulate. rewrite tone_zlen by lia. unfold tone. apply map_ext_in. intros k Hk. apply in_arange in Hk. rewrite cnth_map_arange, Z.add_0_l by lia. replace (4 * k) with (3 * k + 1 * k) by ring. rewrite root_plus. ring. }
  rewrite tone_zlen by lia. rewrite E, !c50_tone by (auto; cbn; lia). split; [reflexivity|]. do 3 f_equal. unfold flab. cbn. lra.
Qed.
Example c134_example : group_delay [RtoC 1] (Some [(1 / 10)%R]) = Ok [Some 1%R] /\ group_delay (delay 2 [RtoC 1]) (Some [(1 / 10)%R]) = Ok [Some 3%R] /\
  locfreq (tone 8 1 (RtoC 1)) = Ok (Some ((1 / 8)%R, 0%R)) /\ locfreq (modulate 8 2 (tone 8 1 (RtoC 1))) = Ok (Some ((1 / 8 + 2 / 8)%R, 0%R)).
Proof.
  assert (N1 : RtoC 1 <> RtoC 0) by (intros Q; apply RtoC_inj in Q; lra).
  assert (G1 : group_delay [RtoC 1] (Some [(1 / 10)%R]) = Ok [Some 1%R]) by (destruct (c52_impulse 1 0 (RtoC 1) [(1 / 10)%R] ltac:(lia) N1) as [H _]; exact H).
  assert (G2 := c52_formula (delay 2 [RtoC 1]) [(1 / 10)%R]). destruct (c134_delay 2 _ _ _ _ ltac:(lia) G1 G2) as [_ H]. destruct (H 0 ltac:(cbn; lia)) as [_ H1].
  specialize (H1 1%R eq_refl ltac:(lra)). cbn [map nth Z.to_nat] in H1.
  assert (T1 : locfreq (tone 8 1 (RtoC 1)) = Ok (Some ((1 / 8)%R, 0%R))) by (rewrite c50_tone by (auto; cbn; lia); reflexivity).
  split; [exact G1|split; [|split; [exact T1|]]].
  - rewrite G2. cbn [map]. rewrite H1. replace (1 + IZR 2)%R with 3%R by lra. reflexivity.
  - assert (TL : zlen (tone 8 1 (RtoC 1)) = 8) by (apply tone_zlen; lia).
    assert (HM := c134_locfreq_modulate 2 (tone 8 1 (RtoC 1)) (1 / 8)%R 0%R). cbv zeta in HM. rewrite TL in HM. apply HM; [cbn; lia| |exact T1].
    intros f Hf NZ. rewrite tone_fft in NZ by lia. destruct (Z.eqb_spec f 1) as [->|]; [|contradiction]. unfold flab. cbn. lra.
Qed.
