(** C159: how smoothed_pseudo_wigner_ville follows the signal. *)
From Coq Require Import Reals ZArith List Lia Lra Bool.
From Coquelicot Require Import Coquelicot.
From Flocq Require Import Core.
From Verif Require Import Py Scalars CSum DFT Spec M_base M_stft M_cohen M_amb M_putils M_reas P_base P_stft P_wvd P_pwvd P_spec P_spwv T_spwv T_red T_key T_noise T_putils T_reas T_reas2 T_conc T_rtone T_sptone T_spimp.
Import ListNotations.
Local Open Scope Z_scope.

(** What the columns are made of: averages L of the lag products. *)
Definition from_lags (fw : list C) (n m f : Z) (L : Z -> C) : C :=
  (L 0%Z + csum (arange 1 (m + 1)) (fun t => winf fw t * L (t - 1)%Z * root n (- (f * t)) + winf fw (2 - t)%Z * L (1 - t)%Z * root n (f * t)))%C.
Lemma from_lags_ext fw n m f L K : (forall t, Z.abs t < Z.max 1 m -> L t = K t) -> from_lags fw n m f L = from_lags fw n m f K.
Proof. intros E. unfold from_lags. rewrite (E 0) by (change (Z.abs 0) with 0; lia). f_equal. apply csum_ext. intros t It. apply in_arange in It. rewrite !E by lia. reflexivity. Qed.
Lemma from_lags_lin fw n m f a b L K : from_lags fw n m f (fun t => a * L t + b * K t)%C = (a * from_lags fw n m f L + b * from_lags fw n m f K)%C.
Proof. unfold from_lags. rewrite !Cmult_plus_distr_l, <- !csum_scal_l. transitivity (a * L 0%Z + b * K 0%Z + (csum (arange 1 (m + 1)) (fun t => a * (winf fw t * L (t - 1)%Z * root n (- (f * t)) + winf fw (2 - t)%Z * L (1 - t)%Z * root n (f * t))) + csum (arange 1 (m + 1)) (fun t => b * (winf fw t * K (t - 1)%Z * root n (- (f * t)) + winf fw (2 - t)%Z * K (1 - t)%Z * root n (f * t)))))%C; [|ring]. rewrite <- csum_plus. f_equal. apply csum_ext. intros t _. ring. Qed.
Lemma entry_lags x l n tw fw out i ti col f : 1 <= n -> zlen tw mod 2 = 1 -> zlen fw mod 2 = 1 -> spwv x (Some l) (Some n) (Some tw) (Some fw) = Ok out -> nth_error l (Z.to_nat i) = Some ti ->
  nth_error out (Z.to_nat i) = Some (Some col) -> 0 <= f < n -> rnth col f = Re (from_lags fw n (lags_used x tw fw n ti) f (lagavg x (winf tw) (ti - 1))).
Proof. intros Hn Ht Hf H Hi Ho F. exact (c29_spwv_closed_form x l n tw fw out i ti col f Hn Ht Hf H Hi Ho F). Qed.
Lemma mass_len x y g c tau : zlen x = zlen y -> lagmass x g c tau = lagmass y g c tau.
Proof. intros L. unfold lagmass. now rewrite L. Qed.
Lemma used_len x y tw fw n ti : zlen x = zlen y -> lags_used x tw fw n ti = lags_used y tw fw n ti.
Proof. intros L. unfold lags_used. now rewrite L. Qed.

(** Whether it returns, and which columns are NaN, depends on the length of the signal only. *)
Lemma c159_length : forall x y l n tw fw ox, 1 <= n -> zlen tw mod 2 = 1 -> zlen fw mod 2 = 1 -> zlen x = zlen y -> spwv x (Some l) (Some n) (Some tw) (Some fw) = Ok ox ->
  exists oy, spwv y (Some l) (Some n) (Some tw) (Some fw) = Ok oy /\ forall i ti cx, nth_error l (Z.to_nat i) = Some ti -> nth_error ox (Z.to_nat i) = Some (Some cx) -> exists cy, nth_error oy (Z.to_nat i) = Some (Some cy).
Proof.
  intros x y l n tw fw ox Hn Ht Hf L H.
  destruct (c29_spwv_outcome y l n tw fw Hn Ht Hf) as [[_ (oy & HY & LY & _)]|[(ti & I & B) _]].
  - exists oy. split; [exact HY|]. intros i ti cx Hi Hx. destruct (nth_error oy (Z.to_nat i)) as [[cy|]|] eqn:E; [now exists cy| |].
    + exfalso. assert (A := c29_nan_iff y l n tw fw oy i ti Hn Ht Hf HY Hi). assert (B := c29_nan_iff x l n tw fw ox i ti Hn Ht Hf H Hi). cbv zeta in A, B. rewrite L in B.
      destruct A as [A _]. destruct (A E) as (tau & T1 & T2 & T3). destruct B as [_ B]. rewrite B in Hx; [discriminate|]. exists tau. repeat split; try tauto; try lia. rewrite (mass_len x y) by exact L. exact T3.
    + exfalso. apply nth_error_None in E. assert (Q : (Z.to_nat i < length l)%nat) by (apply nth_error_Some; congruence). unfold zlen in LY. lia.
  - exfalso. destruct (c29_spwv_outcome x l n tw fw Hn Ht Hf) as [[NB _]|[_ E]]; [|congruence]. apply (NB ti I). rewrite L. exact B.
Qed.
(** Scaling the signal by c scales the entries by |c|^2; the phase of c is lost. *)
Lemma lagavg_scale c x g t0 tau : lagavg (scale c x) g t0 tau = (RtoC (Cmod c ^ 2) * lagavg x g t0 tau)%C.
Proof.
  unfold lagavg. rewrite (mass_len (scale c x) x) by apply scale_zlen. rewrite scale_zlen. unfold Cdiv. rewrite Cmult_assoc, <- csum_scal_l. f_equal. apply csum_ext. intros s Hs. apply in_arange in Hs. rewrite !scale_nth by lia. rewrite Cconj_mult, Cmod2_conj. ring.
Qed.
Lemma c159_scale : forall x c l n tw fw ox oy i ti cx cy f, 1 <= n -> zlen tw mod 2 = 1 -> zlen fw mod 2 = 1 -> spwv x (Some l) (Some n) (Some tw) (Some fw) = Ok ox -> spwv (scale c x) (Some l) (Some n) (Some tw) (Some fw) = Ok oy ->
  nth_error l (Z.to_nat i) = Some ti -> nth_error ox (Z.to_nat i) = Some (Some cx) -> nth_error oy (Z.to_nat i) = Some (Some cy) -> 0 <= f < n -> rnth cy f = (Cmod c ^ 2 * rnth cx f)%R.
Proof.
  intros x c l n tw fw ox oy i ti cx cy f Hn Ht Hf HX HY Hi Hx Hy F. rewrite (entry_lags (scale c x) l n tw fw oy i ti cy f) by auto. rewrite (entry_lags x l n tw fw ox i ti cx f) by auto. rewrite (used_len (scale c x) x) by apply scale_zlen.
  rewrite (from_lags_ext _ _ _ _ _ (fun t => RtoC (Cmod c ^ 2) * lagavg x (winf tw) (ti - 1) t + RtoC 0 * RtoC 0)%C) by (intros t _; rewrite lagavg_scale; ring). rewrite (from_lags_lin fw n _ f (RtoC (Cmod c ^ 2)) (RtoC 0) (lagavg x (winf tw) (ti - 1)) (fun _ => RtoC 0)). set (A := from_lags _ _ _ _ _). cbn. ring.
Qed.
(** The parallelogram law. *)
Lemma c159_parallelogram : forall x y l n tw fw ox oy op om i ti cx cy cp cm f, 1 <= n -> zlen tw mod 2 = 1 -> zlen fw mod 2 = 1 -> zlen x = zlen y ->
  spwv x (Some l) (Some n) (Some tw) (Some fw) = Ok ox -> spwv y (Some l) (Some n) (Some tw) (Some fw) = Ok oy -> spwv (lincomb (RtoC 1) (RtoC 1) x y) (Some l) (Some n) (Some tw) (Some fw) = Ok op -> spwv (lincomb (RtoC 1) (RtoC (-1)) x y) (Some l) (Some n) (Some tw) (Some fw) = Ok om ->
  nth_error l (Z.to_nat i) = Some ti -> nth_error ox (Z.to_nat i) = Some (Some cx) -> nth_error oy (Z.to_nat i) = Some (Some cy) -> nth_error op (Z.to_nat i) = Some (Some cp) -> nth_error om (Z.to_nat i) = Some (Some cm) -> 0 <= f < n ->
  (rnth cp f + rnth cm f = 2 * rnth cx f + 2 * rnth cy f)%R.
Proof.
  intros x y l n tw fw ox oy op om i ti cx cy cp cm f Hn Ht Hf L HX HY HP HM Hi Hx Hy Hp Hm F. set (p := lincomb (RtoC 1) (RtoC 1) x y) in *. set (d := lincomb (RtoC 1) (RtoC (-1)) x y) in *.
  assert (LP : zlen p = zlen x) by now apply lincomb_zlen. assert (LD : zlen d = zlen x) by now apply lincomb_zlen.
  rewrite (entry_lags p l n tw fw op i ti cp f), (entry_lags d l n tw fw om i ti cm f), (entry_lags x l n tw fw ox i ti cx f), (entry_lags y l n tw fw oy i ti cy f) by auto. rewrite (used_len p x), (used_len d x), (used_len y x) by auto. set (m := lags_used x tw fw n ti). set (c := ti - 1).
  assert (E : from_lags fw n m f (fun t => RtoC 1 * lagavg p (winf tw) c t + RtoC 1 * lagavg d (winf tw) c t)%C = from_lags fw n m f (fun t => RtoC 2 * lagavg x (winf tw) c t + RtoC 2 * lagavg y (winf tw) c t)%C).
  { apply from_lags_ext. intros t _. unfold lagavg. rewrite (mass_len p x), (mass_len d x), (mass_len y x) by auto. rewrite LP, LD, <- L. unfold Cdiv. set (M := Cinv _). rewrite !Cmult_1_l. rewrite !Cmult_assoc, <- !Cmult_plus_distr_r. f_equal. rewrite <- !csum_scal_l, <- !csum_plus. apply csum_ext. intros s Hs. apply in_arange in Hs. unfold p, d. rewrite !lincomb_nth by (auto; lia). rewrite !Cconj_plus, !Cconj_mult, !Cconj_R. apply injective_projections; cbn; ring. }
  rewrite !from_lags_lin in E. apply (f_equal Re) in E. revert E. set (P := from_lags _ _ _ _ (lagavg p _ _)). set (D := from_lags _ _ _ _ (lagavg d _ _)). set (X := from_lags _ _ _ _ (lagavg x _ _)). set (Y := from_lags _ _ _ _ (lagavg y _ _)). unfold Re. cbn. intros E. lra.
Qed.
(** A real signal: rows f and n - f are equal. *)
Lemma lagavg_even x g c tau : real_list x -> lagavg x g c (- tau) = lagavg x g c tau.
Proof.
  intros RX. unfold lagavg. rewrite Z.abs_opp. f_equal. apply csum_ext. intros s Hs. apply in_arange in Hs. assert (A := RX (s + tau) ltac:(lia)). assert (B := RX (s - tau) ltac:(lia)). replace (s + - tau) with (s - tau) by lia. replace (s - - tau) with (s + tau) by lia.
  assert (V : forall z, Im z = 0%R -> Cconj z = z) by (intros [z1 z2] Z; cbn in Z; subst z2; apply injective_projections; cbn; ring). rewrite (V _ A), (V _ B). ring.
Qed.
Lemma lagavg_conj x g c tau : (forall t, Im (g t) = 0%R) -> lagavg x g c (- tau) = Cconj (lagavg x g c tau).
Proof.
  intros RG. assert (V : forall t, Cconj (g t) = g t) by (intros t; specialize (RG t); destruct (g t) as [z1 z2]; cbn in RG; subst z2; apply injective_projections; cbn; ring).
  assert (M : forall tau, Cconj (lagmass x g c tau) = lagmass x g c tau) by (intros t; unfold lagmass; rewrite csum_conj; apply csum_ext; intros s _; apply V).
  assert (IV : forall z, Cconj z = z -> Cconj (Cinv z) = Cinv z) by (intros [z1 z2] Z; apply (f_equal snd) in Z; cbn in Z; assert (z2 = 0)%R by lra; subst z2; unfold Cinv, Cconj; cbn; f_equal; unfold Rdiv; ring).
  unfold lagavg, Cdiv. rewrite Cconj_mult, IV by apply M. rewrite Z.abs_opp. f_equal. rewrite csum_conj. apply csum_ext. intros s _. rewrite !Cconj_mult, Cconj_invol, V. replace (s + - tau) with (s - tau) by lia. replace (s - - tau) with (s + tau) by lia. ring.
Qed.
Lemma winf_Im w t : real_list w -> Im (winf w t) = 0%R.
Proof. intros RW. rewrite (winf_real w t RW). reflexivity. Qed.
Lemma c159_real : forall x l n tw fw out i ti col f, 1 <= n -> zlen tw mod 2 = 1 -> zlen fw mod 2 = 1 -> real_list x -> real_list tw -> real_list fw -> spwv x (Some l) (Some n) (Some tw) (Some fw) = Ok out ->
  nth_error l (Z.to_nat i) = Some ti -> nth_error out (Z.to_nat i) = Some (Some col) -> 1 <= f < n -> rnth col (n - f) = rnth col f.
Proof.
  intros x l n tw fw out i ti col f Hn Ht Hf RX RT RF H Hi Ho F. rewrite (entry_lags x l n tw fw out i ti col (n - f)), (entry_lags x l n tw fw out i ti col f) by (auto; lia). unfold from_lags. rewrite !Re_plus, !Re_csum. f_equal. apply rsum_ext. intros t _.
  replace (1 - t) with (- (t - 1)) by lia. rewrite lagavg_even by exact RX. set (A := lagavg _ _ _ _).
  assert (IA : Im A = 0%R). { assert (E := lagavg_conj x (winf tw) (ti - 1) (t - 1) ltac:(intros u; now apply winf_Im)). rewrite lagavg_even in E by exact RX. fold A in E. clearbody A. destruct A as [a1 a2]. apply (f_equal snd) in E. cbn in E |- *. lra. }
  assert (R1 : root n (- ((n - f) * t)) = root n (f * t)) by (replace (- ((n - f) * t)) with (n * - t + f * t) by ring; rewrite root_plus, root_n by lia; ring).
  assert (R2 : root n ((n - f) * t) = Cconj (root n (f * t))) by (rewrite root_conj; replace ((n - f) * t) with (n * t + - (f * t)) by ring; rewrite root_plus, root_n by lia; ring).
  assert (R3 : root n (- (f * t)) = Cconj (root n (f * t))) by now rewrite root_conj. rewrite R1, R2, R3. rewrite (winf_real fw t RF), (winf_real fw (2 - t) RF). set (u := Re (winf fw t)). set (v := Re (winf fw (2 - t))). clearbody A. destruct A as [a1 a2]. cbn in IA. subst a2. destruct (root n (f * t)) as [r1 r2]. cbn. ring.
Qed.
(** A non-negative time window: nothing exceeds M^2 times the weights of the lags, M the largest modulus of a sample. *)
Lemma lagavg_bound x g c tau (M : R) : (forall t, Im (g t) = 0%R) -> (forall t, (0 <= Re (g t))%R) -> (forall k, 0 <= k < zlen x -> (Cmod (cnth x k) <= M)%R) -> (Cmod (lagavg x g c tau) <= M ^ 2)%R.
Proof.
  intros RG G0 B. set (I := arange (Z.abs tau) (zlen x - Z.abs tau)).
  assert (GR : forall t, g t = RtoC (Re (g t))) by (intros t; specialize (RG t); destruct (g t) as [z1 z2]; cbn in RG; subst z2; reflexivity).
  assert (ME : lagmass x g c (Z.abs tau) = RtoC (rsum I (fun s => Re (g (c - s)%Z)))) by (unfold lagmass; fold I; rewrite RtoC_rsum; apply csum_ext; intros s _; apply GR).
  assert (NB : (Cmod (csum I (fun s => g (c - s)%Z * cnth x (s + tau)%Z * Cconj (cnth x (s - tau)%Z))%C) <= M ^ 2 * rsum I (fun s => Re (g (c - s)%Z)))%R).
  { apply Rle_trans with (1 := Cmod_csum_le _ _). rewrite <- rsum_scal_l. apply rsum_le. intros s Hs. apply in_arange in Hs. rewrite !Cmod_mult, Cmod_conj. rewrite (GR (c - s)), Cmod_R, Rabs_pos_eq by apply G0. change (Re (RtoC (Re (g (c - s))))) with (Re (g (c - s))). assert (P1 := B (s + tau) ltac:(lia)). assert (P2 := B (s - tau) ltac:(lia)). assert (Q1 := Cmod_ge_0 (cnth x (s + tau))). assert (Q2 := Cmod_ge_0 (cnth x (s - tau))).
    assert (PP : (Cmod (cnth x (s + tau)) * Cmod (cnth x (s - tau)) <= M * M)%R) by (apply Rmult_le_compat; auto). assert (G := G0 (c - s)). replace (M ^ 2)%R with (M * M)%R by ring. rewrite Rmult_assoc, (Rmult_comm (M * M)). apply Rmult_le_compat_l; auto. }
  assert (P0 : (0 <= rsum I (fun s => Re (g (c - s)%Z)))%R) by (apply rsum_nonneg; intros s _; apply G0).
  unfold lagavg. fold I. rewrite ME. set (S := rsum I _) in *. unfold Cdiv. rewrite Cmod_mult. destruct (Req_dec S 0) as [Z0|NZ].
  - rewrite Z0, Rmult_0_r in NB. assert (Q := Cmod_ge_0 (csum I (fun s => g (c - s)%Z * cnth x (s + tau)%Z * Cconj (cnth x (s - tau)%Z))%C)). replace (Cmod (csum I _)) with 0%R by lra. rewrite Rmult_0_l. apply pow2_ge_0.
  - rewrite Cmod_inv by (intros Q; apply RtoC_inj in Q; auto). rewrite Cmod_R, Rabs_pos_eq by exact P0. apply Rmult_le_reg_r with S; [lra|]. rewrite Rmult_assoc, Rinv_l, Rmult_1_r by exact NZ. exact NB.
Qed.
Lemma abs_Re_Cmod z : (Rabs (Re z) <= Cmod z)%R.
Proof. apply Rle_trans with (2 := Rmax_Cmod z). apply Rmax_l. Qed.
Lemma c159_bound : forall x l n tw fw out i ti col f (M : R), 1 <= n -> zlen tw mod 2 = 1 -> zlen fw mod 2 = 1 -> real_list tw -> (forall t, (0 <= Re (winf tw t))%R) -> (forall k, 0 <= k < zlen x -> (Cmod (cnth x k) <= M)%R) -> spwv x (Some l) (Some n) (Some tw) (Some fw) = Ok out ->
  nth_error l (Z.to_nat i) = Some ti -> nth_error out (Z.to_nat i) = Some (Some col) -> 0 <= f < n -> (Rabs (rnth col f) <= M ^ 2 * (1 + rsum (arange 1 (lags_used x tw fw n ti + 1)) (fun t => Cmod (winf fw t) + Cmod (winf fw (2 - t)))))%R.
Proof.
  intros x l n tw fw out i ti col f M Hn Ht Hf RT T0 B H Hi Ho F. rewrite (entry_lags x l n tw fw out i ti col f) by auto. assert (LB := fun tau => lagavg_bound x (winf tw) (ti - 1) tau M ltac:(intros u; now apply winf_Im) T0 B).
  apply Rle_trans with (1 := abs_Re_Cmod _). unfold from_lags. apply Rle_trans with (1 := Cmod_triangle _ _). rewrite Rmult_plus_distr_l, Rmult_1_r. apply Rplus_le_compat; [apply LB|]. apply Rle_trans with (1 := Cmod_csum_le _ _). rewrite <- rsum_scal_l. apply rsum_le. intros t _. apply Rle_trans with (1 := Cmod_triangle _ _). rewrite !Cmod_mult. unfold root. rewrite !Cmod_cis, !Rmult_1_r, Rmult_plus_distr_l, !(Rmult_comm (M ^ 2)). apply Rplus_le_compat; apply Rmult_le_compat_l; auto; apply Cmod_ge_0.
Qed.
(** Delaying the signal delays the columns whose time window, moved over the lags used, does not reach its start. *)
Lemma lagavg_delay x s g c tau : 0 <= s -> 0 <= zlen x - 2 * Z.abs tau -> (forall t, c - Z.abs tau < t -> g t = RtoC 0) -> lagavg (delay s x) g (c + s) tau = lagavg x g c tau.
Proof.
  intros Hs HL G. assert (D : forall k, s <= k < s + zlen x -> cnth (delay s x) k = cnth x (k - s)).
  { intros k Hk. unfold cnth, delay. rewrite app_nth2 by (rewrite repeat_length; lia). rewrite repeat_length. f_equal. lia. }
  unfold lagavg. rewrite delay_zlen by exact Hs. set (u := Z.abs tau) in *.
  assert (SH : forall F, (forall k, u <= k < s + u -> F k = RtoC 0) -> csum (arange u (s + zlen x - u)) F = csum (arange u (zlen x - u)) (fun k => F (k + s))).
  { intros F F0. rewrite <- csum_arange_shift. apply csum_incl.
    - apply NoDup_arange.
    - apply NoDup_arange.
    - intros k Hk. apply in_arange in Hk. apply in_arange. lia.
    - intros k Hk NK. rewrite in_arange in Hk, NK. apply F0. lia. }
  f_equal.
  - rewrite SH.
    + apply csum_ext. intros k Hk. apply in_arange in Hk. rewrite !D by lia. replace (c + s - (k + s)) with (c - k) by lia. replace (k + s + tau - s) with (k + tau) by lia. replace (k + s - tau - s) with (k - tau) by lia. reflexivity.
    + intros k Hk. rewrite G by lia. ring.
  - unfold lagmass. rewrite delay_zlen by exact Hs. rewrite SH.
    + apply csum_ext. intros k _. f_equal. lia.
    + intros k Hk. apply G. lia.
Qed.
Lemma c159_delay : forall x s l l' n tw fw ox oy i j ti cx cy f, 1 <= n -> 0 <= s -> zlen tw mod 2 = 1 -> zlen fw mod 2 = 1 -> spwv x (Some l) (Some n) (Some tw) (Some fw) = Ok ox -> spwv (delay s x) (Some l') (Some n) (Some tw) (Some fw) = Ok oy ->
  nth_error l (Z.to_nat i) = Some ti -> nth_error l' (Z.to_nat j) = Some (ti + s) -> nth_error ox (Z.to_nat i) = Some (Some cx) -> nth_error oy (Z.to_nat j) = Some (Some cy) ->
  (zlen tw - 1) / 2 + lags_used x tw fw n ti <= ti -> (zlen tw - 1) / 2 < ti -> 2 * lags_used x tw fw n ti <= zlen x -> Z.min (round_half n - 1) ((zlen fw - 1) / 2) < ti + (zlen tw - 1) / 2 -> 0 <= f < n -> rnth cy f = rnth cx f.
Proof.
  intros x s l l' n tw fw ox oy i j ti cx cy f Hn Hs Ht Hf HX HY Hi Hj Hx Hy B1 B2 B3 B4 F. rewrite (entry_lags (delay s x) l' n tw fw oy j (ti + s) cy f), (entry_lags x l n tw fw ox i ti cx f) by auto. f_equal.
  assert (U : lags_used (delay s x) tw fw n (ti + s) = lags_used x tw fw n ti) by (unfold lags_used; rewrite delay_zlen by exact Hs; lia). rewrite U. apply from_lags_ext. intros t T. replace (ti + s - 1) with (ti - 1 + s) by lia. assert (X0 := zlen_nonneg x). apply lagavg_delay; [exact Hs|lia|]. intros u Hu. apply winf_out. lia.
Qed.
(** Modulating by exp(i pi m k / n) turns the rows by m and the lag terms by one bin more or less: not a rotation of the rows. *)
Lemma c159_modulation : forall x y d l n tw fw ox oy i ti cx cy f, 1 <= n -> zlen tw mod 2 = 1 -> zlen fw mod 2 = 1 -> zlen x = zlen y -> (forall k, 0 <= k < zlen x -> cnth y k = (cnth x k * cis (PI * IZR (d * k) / IZR n))%C) ->
  spwv x (Some l) (Some n) (Some tw) (Some fw) = Ok ox -> spwv y (Some l) (Some n) (Some tw) (Some fw) = Ok oy -> nth_error l (Z.to_nat i) = Some ti -> nth_error ox (Z.to_nat i) = Some (Some cx) -> nth_error oy (Z.to_nat i) = Some (Some cy) -> 0 <= f < n ->
  rnth cy f = Re (lagavg x (winf tw) (ti - 1) 0 + csum (arange 1 (lags_used x tw fw n ti + 1)) (fun t => root n (- d) * (winf fw t * lagavg x (winf tw) (ti - 1) (t - 1) * root n (- ((f - d) * t))) + root n d * (winf fw (2 - t) * lagavg x (winf tw) (ti - 1) (1 - t) * root n ((f - d) * t))))%C.
Proof.
  intros x y d l n tw fw ox oy i ti cx cy f Hn Ht Hf L HM HX HY Hi Hx Hy F. assert (N0 : IZR n <> 0%R) by (apply not_0_IZR; lia). rewrite (entry_lags y l n tw fw oy i ti cy f) by auto. rewrite (used_len y x) by auto.
  assert (LM : forall tau, lagavg y (winf tw) (ti - 1) tau = (root n (d * tau) * lagavg x (winf tw) (ti - 1) tau)%C).
  { intros tau. unfold lagavg, Cdiv. rewrite (mass_len y x) by auto. rewrite Cmult_assoc. f_equal. rewrite <- L, <- csum_scal_l. apply csum_ext. intros s Hs. apply in_arange in Hs. rewrite !HM by lia. rewrite Cconj_mult, <- cis_opp. unfold root.
    replace (2 * PI * IZR (d * tau) / IZR n)%R with (PI * IZR (d * (s + tau)) / IZR n + - (PI * IZR (d * (s - tau)) / IZR n))%R by (rewrite !mult_IZR, plus_IZR, minus_IZR; field; exact N0). rewrite cis_plus. ring. }
  f_equal. unfold from_lags. rewrite LM, Z.mul_0_r, root_0, Cmult_1_l. f_equal. apply csum_ext. intros t _. rewrite !LM.
  assert (E1 : (root n (d * (t - 1)) * root n (- (f * t)))%C = (root n (- d) * root n (- ((f - d) * t)))%C) by (rewrite <- !root_plus; f_equal; ring).
  assert (E2 : (root n (d * (1 - t)) * root n (f * t))%C = (root n d * root n ((f - d) * t))%C) by (rewrite <- !root_plus; f_equal; ring).
  f_equal.
  - transitivity (winf fw t * lagavg x (winf tw) (ti - 1) (t - 1) * (root n (d * (t - 1)) * root n (- (f * t))))%C; [ring|]. rewrite E1. ring.
  - transitivity (winf fw (2 - t) * lagavg x (winf tw) (ti - 1) (1 - t) * (root n (d * (1 - t)) * root n (f * t)))%C; [ring|]. rewrite E2. ring.
Qed.
(** 0, 0, 2, 0 times 2i: 48 and -16 where C157 has 12 and -4, equal rows 1 and 3; one sample later: 12 and -4 one column later. *)
Example c159_example : let x := [RtoC 0; RtoC 0; RtoC 2; RtoC 0] in let sp x l := spwv x (Some l) (Some 4) (Some [RtoC 1]) (Some [RtoC 1; RtoC 1; RtoC 1]) in
  (exists col, sp (scale (0, 2)%R x) [3] = Ok [Some col] /\ rnth col 0 = 48%R /\ rnth col 2 = (-16)%R) /\ (exists col, sp x [3] = Ok [Some col] /\ rnth col 3 = rnth col 1 /\ (Rabs (rnth col 1) <= 2 ^ 2 * 3)%R) /\
  (exists col, sp (delay 1 x) [4] = Ok [Some col] /\ rnth col 0 = 12%R /\ rnth col 2 = (-4)%R).
Proof.
  cbv zeta. set (x := [RtoC 0; RtoC 0; RtoC 2; RtoC 0]). set (fw := [RtoC 1; RtoC 1; RtoC 1]). destruct c157_example as (cx & HX & E0 & E2). fold x fw in HX.
  assert (RW : real_list [RtoC 1]) by (intros m Hm; change (zlen [RtoC 1]) with 1 in Hm; assert (m = 0) as -> by lia; reflexivity).
  assert (W1 : forall t, winf [RtoC 1] t = if t =? 0 then RtoC 1 else RtoC 0).
  { intros t. destruct (Z.eqb_spec t 0) as [->|NE]; [reflexivity|]. apply winf_out. change ((zlen [RtoC 1] - 1) / 2) with 0. lia. }
  split; [|split].
  - destruct (c159_length x (scale (0, 2)%R x) [3] 4 [RtoC 1] fw [Some cx] ltac:(lia) eq_refl eq_refl eq_refl HX) as (oy & HY & P). destruct (P 0 3 cx eq_refl eq_refl) as (cy & Y).
    assert (LY : zlen oy = 1). { destruct (c29_spwv_outcome (scale (0, 2)%R x) [3] 4 [RtoC 1] fw ltac:(lia) eq_refl eq_refl) as [[_ (o & Ho & Lo & _)]|[_ Ho]]; rewrite HY in Ho; [injection Ho as <-; exact Lo|discriminate]. }
    destruct oy as [|d [|]]; try (unfold zlen in LY; cbn in LY; lia). cbn in Y. injection Y as ->. exists cy. split; [exact HY|].
    assert (V := fun f => c159_scale x (0, 2)%R [3] 4 [RtoC 1] fw [Some cx] [Some cy] 0 3 cx cy f ltac:(lia) eq_refl eq_refl HX HY eq_refl eq_refl eq_refl). rewrite !V, E0, E2 by lia. replace (Cmod (0, 2)%R ^ 2)%R with 4%R; [split; ring|]. rewrite Cmod_sqr. cbn. ring.
  - exists cx. split; [exact HX|].
    assert (RX : real_list x) by (intros m Hm; change (zlen x) with 4 in Hm; assert (m = 0 \/ m = 1 \/ m = 2 \/ m = 3) as [-> | [-> | [-> | ->]]] by lia; reflexivity).
    assert (RF : real_list fw) by (intros m Hm; change (zlen fw) with 3 in Hm; assert (m = 0 \/ m = 1 \/ m = 2) as [-> | [-> | ->]] by lia; reflexivity). split.
    + exact (c159_real x [3] 4 [RtoC 1] fw [Some cx] 0 3 cx 1 ltac:(lia) eq_refl eq_refl RX RW RF HX eq_refl eq_refl ltac:(lia)).
    + assert (Q := c159_bound x [3] 4 [RtoC 1] fw [Some cx] 0 3 cx 1 2 ltac:(lia) eq_refl eq_refl RW). change (lags_used x [RtoC 1] fw 4 3) with 1 in Q. change (arange 1 (1 + 1)) with [1] in Q. unfold rsum in Q. cbn [fold_right] in Q. change (winf fw 1) with (RtoC 1) in Q. change (winf fw (2 - 1)) with (RtoC 1) in Q. rewrite Cmod_1 in Q. replace (2 ^ 2 * 3)%R with (2 ^ 2 * (1 + (1 + 1 + 0)))%R by ring. apply Q; auto; try lia.
      * intros t. rewrite W1. destruct (t =? 0); cbn; lra.
      * intros k Hk. change (zlen x) with 4 in Hk. assert (k = 0 \/ k = 1 \/ k = 2 \/ k = 3) as [-> | [-> | [-> | ->]]] by lia; cbn [x cnth]; unfold cnth; [change (nth (Z.to_nat 0) x (RtoC 0)) with (RtoC 0)|change (nth (Z.to_nat 1) x (RtoC 0)) with (RtoC 0)|change (nth (Z.to_nat 2) x (RtoC 0)) with (RtoC 2)|change (nth (Z.to_nat 3) x (RtoC 0)) with (RtoC 0)]; rewrite Cmod_R, Rabs_pos_eq; lra.
  - set (y := delay 1 x). destruct (c29_spwv_outcome y [4] 4 [RtoC 1] fw ltac:(lia) eq_refl eq_refl) as [[_ (oy & HY & LY & _)]|[(ti & [<-|[]] & (_ & B)) _]]; [|vm_compute in B; exfalso; apply B; reflexivity].
    change (zlen [4]) with 1 in LY. destruct oy as [|d [|]]; try (unfold zlen in LY; cbn in LY; lia). assert (NN := c29_nan_iff y [4] 4 [RtoC 1] fw [d] 0 4 ltac:(lia) eq_refl eq_refl HY eq_refl). destruct d as [cy|].
    2:{ exfalso. destruct NN as [NN _]. destruct (NN eq_refl) as (tau & HT & _ & M). assert (tau = 0) by (match type of HT with _ <= _ < ?b => change b with 1 in HT end; lia). subst tau. unfold lagmass in M. change (zlen y - 0) with 5 in M. change (arange 0 5) with [0; 1; 2; 3; 4] in M. unfold csum in M. cbn [fold_right] in M. rewrite !W1 in M. apply (f_equal fst) in M. cbn in M. lra. }
    exists cy. split; [exact HY|].
    assert (V := fun f => c159_delay x 1 [3] [4] 4 [RtoC 1] fw [Some cx] [Some cy] 0 0 3 cx cy f ltac:(lia) ltac:(lia) eq_refl eq_refl HX HY eq_refl eq_refl eq_refl eq_refl ltac:(vm_compute; discriminate) ltac:(vm_compute; reflexivity) ltac:(vm_compute; discriminate) ltac:(vm_compute; reflexivity)). rewrite !V by lia. split; assumption.
Qed.
