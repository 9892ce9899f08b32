(** C139: the reassigned spectrogram of a pure tone. *)
From Coq Require Import Reals ZArith List Lia Lra Psatz Bool.
From Coquelicot Require Import Coquelicot.
From Flocq Require Import Core.
From Verif Require Import Py Scalars CSum DFT Spec M_base M_stft M_cohen M_putils M_reas P_base T_putils T_reas T_reas2 T_conc.
Import ListNotations.
Local Open Scope Z_scope.

Definition is_tone (x : list C) (a : C) (f : R) : Prop := forall m, 0 <= m < zlen x -> cnth x m = (a * cis (2 * PI * f * IZR m))%C.
Definition symmetric (w : list C) : Prop := forall k, 0 <= k < zlen w -> cnth w k = cnth w (zlen w - 1 - k).
(** The window on its lags -L..L, and its transform at t radians per sample. *)
Definition lagw (w : list C) (t : Z) : R := Re (cnth w ((zlen w - 1) / 2 + t)).
Definition gain (w : list C) (t : R) : R := rsum (arange (- ((zlen w - 1) / 2)) ((zlen w - 1) / 2 + 1)) (fun k => lagw w k * cos (t * IZR k))%R.
(** The window used for the column at ti lies inside the signal and the bins. *)
Definition inside (x w : list C) (n ti : Z) : Prop := let L := (zlen w - 1) / 2 in L <= round_half n - 1 /\ L + 1 <= ti <= zlen x - L.

Lemma lh_eq (w : list C) : zlen w mod 2 <> 0 -> win_lh w = (zlen w - 1) / 2.
Proof. intros H. apply odd_lh in H. Z.to_euclidean_division_equations; lia. Qed.
Lemma tau_inside x w n ti : zlen w mod 2 <> 0 -> inside x w n ti -> rs_tau (zlen x) w n ti = arange (- ((zlen w - 1) / 2)) ((zlen w - 1) / 2 + 1).
Proof. intros Ho (I1 & I2). unfold rs_tau. rewrite lh_eq by auto. f_equal; lia. Qed.
Lemma trans_tone x w g n ti j a f : zlen w mod 2 <> 0 -> 0 < n -> inside x w n ti -> is_tone x a f ->
  trans x w g n ti j = (a * cis (2 * PI * f * IZR (ti - 1)) * csum (arange (- ((zlen w - 1) / 2)) ((zlen w - 1) / 2 + 1)) (fun t => Cconj (g t) * cis (- (2 * PI * (IZR j / IZR n - f) * IZR t))))%C.
Proof.
  intros Ho Hn I T. unfold trans. rewrite tau_inside by auto. rewrite <- csum_scal_l. apply csum_ext. intros t Ht. apply in_arange in Ht. destruct I as (I1 & I2).
  unfold xwrap. destruct (Z.ltb_spec (ti + t - 1) 0); [lia|]. rewrite T by lia. unfold root.
  replace (cis (2 * PI * f * IZR (ti + t - 1)))%C with (cis (2 * PI * f * IZR (ti - 1)) * cis (2 * PI * f * IZR t))%C by (rewrite <- cis_plus; f_equal; rewrite !minus_IZR, plus_IZR; ring).
  replace (cis (- (2 * PI * (IZR j / IZR n - f) * IZR t)))%C with (cis (2 * PI * f * IZR t) * cis (2 * PI * IZR (- (j * t)) / IZR n))%C; [ring|].
  rewrite <- cis_plus. f_equal. rewrite opp_IZR, mult_IZR. field. apply not_0_IZR. lia.
Qed.
(** Even and odd weights. *)
Lemma even_sum L (g : Z -> R) t : (forall k, - L <= k <= L -> g (- k)%Z = g k) ->
  csum (arange (- L) (L + 1)) (fun k => RtoC (g k) * cis (- (t * IZR k)))%C = RtoC (rsum (arange (- L) (L + 1)) (fun k => g k * cos (t * IZR k))%R).
Proof.
  intros E. apply injective_projections.
  - change fst with Re. rewrite Re_csum. cbn [Re RtoC fst]. apply rsum_ext. intros k _. rewrite Re_scal. unfold cis, Re. cbn [fst]. now rewrite cos_neg.
  - change snd with Im. rewrite Im_csum. cbn [Im RtoC snd]. set (S := rsum _ _). assert (Q : S = (- S)%R); [|lra].
    unfold S at 1. rewrite rsum_arange_rev. unfold S. rewrite <- rsum_opp. apply rsum_ext. intros k Hk. apply in_arange in Hk. replace (- L + (L + 1) - 1 - k) with (- k) by lia. rewrite !Im_scal, E by lia. unfold cis, Im. cbn [snd].
    rewrite opp_IZR. replace (- (t * - IZR k))%R with (t * IZR k)%R by ring. rewrite sin_neg. ring.
Qed.
Lemma odd_sum L (g : Z -> R) t : (forall k, - L <= k <= L -> g (- k)%Z = (- g k)%R) ->
  csum (arange (- L) (L + 1)) (fun k => RtoC (g k) * cis (- (t * IZR k)))%C = (RtoC (- rsum (arange (- L) (L + 1)) (fun k => g k * sin (t * IZR k))%R) * Ci)%C.
Proof.
  intros E. apply injective_projections.
  - change fst with Re. rewrite Re_csum. set (S := rsum _ (fun k => Re _)). assert (Q : S = (- S)%R); [|unfold RtoC, Cmult, Ci, Re; cbn [fst snd]; lra].
    unfold S at 1. rewrite rsum_arange_rev. unfold S. rewrite <- rsum_opp. apply rsum_ext. intros k Hk. apply in_arange in Hk. replace (- L + (L + 1) - 1 - k) with (- k) by lia. rewrite !Re_scal, E by lia. unfold cis, Re. cbn [fst].
    rewrite opp_IZR. replace (- (t * - IZR k))%R with (t * IZR k)%R by ring. rewrite cos_neg. ring.
  - set (S := rsum _ (fun k => (g k * sin _)%R)). replace (snd (RtoC (- S) * Ci)%C) with (- S)%R by (unfold RtoC, Cmult, Ci; cbn [fst snd]; ring).
    change snd with Im. rewrite Im_csum. unfold S. rewrite <- rsum_opp. apply rsum_ext. intros k _. rewrite Im_scal. unfold cis, Im. cbn [snd]. rewrite sin_neg. ring.
Qed.
(** The centred difference of a window that is symmetric. *)
Lemma diff_sum L (v d : Z -> R) t : 1 <= L -> v L = v (- L)%Z -> (forall k, - L < k < L -> d k = ((v (k + 1)%Z - v (k - 1)%Z) / 2)%R) ->
  d (- L)%Z = ((v (- L)%Z + v (- L + 1)%Z) / 2)%R -> d L = (- (v (L - 1)%Z + v L) / 2)%R ->
  (- rsum (arange (- L) (L + 1)) (fun k => d k * sin (t * IZR k)))%R =
  (sin t * rsum (arange (- L) (L + 1)) (fun k => v k * cos (t * IZR k)) + v L * (sin (t * IZR L) - sin (t * IZR (L + 1))))%R.
Proof.
  intros HL VS D DL DR. rewrite (arange_cons (- L)) by lia. rewrite (arange_snoc (- L + 1) L) by lia. rewrite !rsum_cons, !rsum_app, !rsum_cons, !rsum_nil. rewrite DL, DR.
  rewrite (rsum_ext _ (fun k => d k * sin (t * IZR k))%R (fun k => / 2 * (v (k + 1)%Z * sin (t * IZR k)) - / 2 * (v (k - 1)%Z * sin (t * IZR k)))%R) by (intros k Hk; apply in_arange in Hk; rewrite D by lia; field).
  rewrite rsum_minus, !rsum_scal_l.
  assert (A : rsum (arange (- L + 1) L) (fun k => v (k + 1)%Z * sin (t * IZR k))%R = (rsum (arange (- L + 1) L) (fun k => v k * sin (t * IZR (k - 1)))%R + v L * sin (t * IZR (L - 1)) - v (- L + 1)%Z * sin (t * IZR (- L)))%R).
  { rewrite (rsum_ext _ _ (fun k => (fun u => v u * sin (t * IZR (u - 1)))%R (k + 1)%Z)) by (intros k _; cbv beta; now replace (k + 1 - 1) with k by lia).
    rewrite <- (rsum_arange_shift (- L + 1) L 1 (fun u => v u * sin (t * IZR (u - 1)))%R). rewrite (arange_snoc (- L + 1 + 1) L) by lia. rewrite (arange_cons (- L + 1) L) by lia. rewrite rsum_app, !rsum_cons, rsum_nil. replace (- L + 1 - 1) with (- L) by lia. ring. }
  assert (B : rsum (arange (- L + 1) L) (fun k => v (k - 1)%Z * sin (t * IZR k))%R = (rsum (arange (- L + 1) L) (fun k => v k * sin (t * IZR (k + 1)))%R + v (- L)%Z * sin (t * IZR (- L + 1)) - v (L - 1)%Z * sin (t * IZR L))%R).
  { replace (arange (- L + 1) L) with (arange (- L + 1) (L - 1 + 1)) at 2 by (f_equal; lia). rewrite (arange_snoc (- L + 1) (L - 1)) by lia.
    replace (arange (- L + 1) L) with (arange (- L + 1) (L - 1 + 1)) by (f_equal; lia). rewrite (arange_cons (- L + 1)) at 1 by lia.
    rewrite !rsum_cons, !rsum_app, !rsum_cons, rsum_nil. replace (arange (- L + 1 + 1) (L - 1 + 1)) with (map (fun k => k + 1) (arange (- L + 1) (L - 1))) by (symmetry; apply arange_shift). rewrite rsum_map.
    rewrite (rsum_ext _ (fun a => (v (a + 1 - 1)%Z * sin (t * IZR (a + 1)))%R) (fun k => v k * sin (t * IZR (k + 1)))%R) by (intros k _; now replace (k + 1 - 1) with k by lia).
    replace (- L + 1 - 1) with (- L) by lia. replace (L - 1 + 1) with L by lia. ring. }
  rewrite A, B.
  assert (P : rsum (arange (- L + 1) L) (fun k => v k * sin (t * IZR (k - 1)))%R = (cos t * rsum (arange (- L + 1) L) (fun k => v k * sin (t * IZR k)) - sin t * rsum (arange (- L + 1) L) (fun k => v k * cos (t * IZR k)))%R).
  { rewrite <- !rsum_scal_l, <- rsum_minus. apply rsum_ext. intros k _. rewrite minus_IZR. replace (t * (IZR k - 1))%R with (t * IZR k - t)%R by ring. rewrite sin_minus. ring. }
  assert (Q : rsum (arange (- L + 1) L) (fun k => v k * sin (t * IZR (k + 1)))%R = (cos t * rsum (arange (- L + 1) L) (fun k => v k * sin (t * IZR k)) + sin t * rsum (arange (- L + 1) L) (fun k => v k * cos (t * IZR k)))%R).
  { rewrite <- !rsum_scal_l, <- rsum_plus. apply rsum_ext. intros k _. rewrite plus_IZR. replace (t * (IZR k + 1))%R with (t * IZR k + t)%R by ring. rewrite sin_plus. ring. }
  rewrite P, Q, <- VS. set (X := rsum _ (fun k => (v k * sin (t * IZR k))%R)). set (Y := rsum _ _). rewrite !plus_IZR, !minus_IZR, !opp_IZR.
  replace (t * (IZR L - 1))%R with (t * IZR L - t)%R by ring. replace (t * (- IZR L + 1))%R with (- (t * IZR L - t))%R by ring. replace (t * (IZR L + 1))%R with (t * IZR L + t)%R by ring. replace (t * - IZR L)%R with (- (t * IZR L))%R by ring.
  rewrite !sin_neg, cos_neg, sin_minus, sin_plus. field.
Qed.
Lemma lag_even w k : symmetric w -> zlen w mod 2 <> 0 -> - ((zlen w - 1) / 2) <= k <= (zlen w - 1) / 2 -> lagw w (- k) = lagw w k.
Proof. intros S Ho Hk. apply odd_lh in Ho. assert (W : zlen w = 2 * ((zlen w - 1) / 2) + 1) by (Z.to_euclidean_division_equations; lia). unfold lagw. rewrite S by lia. do 2 f_equal. lia. Qed.
Lemma real_val w k : real_list w -> 0 <= k < zlen w -> cnth w k = RtoC (Re (cnth w k)).
Proof. intros RW Hk. apply injective_projections; cbn; [reflexivity|]. exact (RW k Hk). Qed.
(** The plain, time-weighted and derivative transforms of a tone. *)
Lemma tone_plain x w n ti j a f : zlen w mod 2 <> 0 -> 0 < n -> inside x w n ti -> is_tone x a f -> real_list w -> symmetric w ->
  trans x w (fun t => cnth w (win_lh w + t)) n ti j = (a * cis (2 * PI * f * IZR (ti - 1)) * RtoC (gain w (2 * PI * (IZR j / IZR n - f))))%C.
Proof.
  intros Ho Hn I T RW S. rewrite trans_tone with (a := a) (f := f) by auto. f_equal. unfold gain. rewrite <- even_sum by (intros; now apply lag_even).
  apply csum_ext. intros t Ht. apply in_arange in Ht. rewrite lh_eq by auto. assert (W := odd_lh w Ho). rewrite lh_eq in W by auto. rewrite real_val by (auto; lia). now rewrite Cconj_R.
Qed.
Lemma tone_time x w n ti j a f : zlen w mod 2 <> 0 -> 0 < n -> inside x w n ti -> is_tone x a f -> real_list w -> symmetric w ->
  exists s, trans x w (fun t => cnth w (win_lh w + t) * RtoC (IZR t))%C n ti j = (a * cis (2 * PI * f * IZR (ti - 1)) * (RtoC s * Ci))%C.
Proof.
  intros Ho Hn I T RW S. rewrite trans_tone with (a := a) (f := f) by auto. eexists. f_equal. rewrite <- (odd_sum ((zlen w - 1) / 2) (fun k => lagw w k * IZR k)%R (2 * PI * (IZR j / IZR n - f))%R).
  - apply csum_ext. intros t Ht. apply in_arange in Ht. rewrite lh_eq by auto. assert (W := odd_lh w Ho). rewrite lh_eq in W by auto. rewrite real_val by (auto; lia). now rewrite <- RtoC_mult, Cconj_R.
  - intros k Hk. rewrite lag_even by auto. rewrite opp_IZR. ring.
Qed.
Lemma derive_lags w d : zlen w mod 2 <> 0 -> 3 <= zlen w -> symmetric w -> real_list w -> derive_window w = Ok (Some d) ->
  let L := (zlen w - 1) / 2 in real_list d /\ zlen d = zlen w /\ (forall k, - L < k < L -> lagw d k = ((lagw w (k + 1) - lagw w (k - 1)) / 2)%R) /\
  lagw d (- L) = ((lagw w (- L) + lagw w (- L + 1)) / 2)%R /\ lagw d L = (- (lagw w (L - 1) + lagw w L) / 2)%R.
Proof.
  intros Ho H3 S RW E L. assert (RD := derive_real w d RW E). split; [exact RD|]. destruct (c48_formula w ltac:(lia)) as (d' & E' & LD & Hi & H0 & Hl). assert (d' = d) by congruence. subst d'.
  split; [exact LD|]. assert (W := odd_lh w Ho). rewrite lh_eq in W by auto. fold L in W. unfold lagw. rewrite LD. fold L.
  assert (R0 : dw_ramp w = RtoC 0) by (unfold dw_ramp; rewrite (S 0) by lia; rewrite Z.sub_0_r; unfold Cdiv; ring).
  assert (HF : forall a b : R, Re ((RtoC a - RtoC b) / RtoC 2)%C = ((a - b) / 2)%R) by (intros; rewrite <- RtoC_minus, <- RtoC_div by lra; reflexivity).
  assert (HP : forall a b : R, Re ((RtoC a + RtoC b) / RtoC 2)%C = ((a + b) / 2)%R) by (intros; rewrite <- RtoC_plus, <- RtoC_div by lra; reflexivity).
  split; [|split].
  - intros k Hk. rewrite Hi by lia. rewrite (real_val w (L + k + 1)), (real_val w (L + k - 1)) by (auto; lia). rewrite HF. cbn [Re RtoC fst]. replace (L + (k + 1)) with (L + k + 1) by lia. now replace (L + (k - 1)) with (L + k - 1) by lia.
  - rewrite Z.add_opp_diag_r. replace (L + (- L + 1)) with 1 by lia. rewrite H0, R0. rewrite (real_val w 0), (real_val w 1) by (auto; lia). rewrite Cplus_0_r, HP. reflexivity.
  - replace (L + L) with (zlen w - 1) by lia. replace (L + (L - 1)) with (zlen w - 2) by lia. rewrite Hl, R0. rewrite (real_val w (zlen w - 2)), (real_val w (zlen w - 1)) by (auto; lia).
    set (p := Re (cnth w (zlen w - 2))). set (q := Re (cnth w (zlen w - 1))). rewrite <- !RtoC_minus, <- RtoC_div by lra. cbn [Re RtoC fst]. field.
Qed.
Lemma tone_deriv x w d n ti j a f : zlen w mod 2 <> 0 -> 3 <= zlen w -> 0 < n -> inside x w n ti -> is_tone x a f -> real_list w -> symmetric w -> derive_window w = Ok (Some d) ->
  let t := (2 * PI * (IZR j / IZR n - f))%R in let L := (zlen w - 1) / 2 in
  trans x w (fun t => cnth d (win_lh w + t)) n ti j = (a * cis (2 * PI * f * IZR (ti - 1)) * (RtoC (sin t * gain w t + lagw w L * (sin (t * IZR L) - sin (t * IZR (L + 1)))) * Ci))%C.
Proof.
  intros Ho H3 Hn I T RW S E t L. destruct (derive_lags w d Ho H3 S RW E) as (RD & LD & D1 & D2 & D3). fold L in D1, D2, D3. rewrite trans_tone with (a := a) (f := f) by auto. f_equal. fold t L.
  assert (W := odd_lh w Ho). rewrite lh_eq in W by auto. fold L in W. unfold gain. fold L.
  rewrite <- (diff_sum L (lagw w) (lagw d) t) by (first [lia | exact D1 | exact D2 | exact D3 | symmetry; apply lag_even; auto; fold L; lia]).
  rewrite <- odd_sum.
  - apply csum_ext. intros k Hk. apply in_arange in Hk. rewrite lh_eq by auto. fold L. unfold lagw. rewrite LD. fold L. rewrite (real_val d) at 1 by (auto; lia). now rewrite Cconj_R.
  - intros k Hk. destruct (c48_symmetric w d ltac:(lia) S E) as (A & _). unfold lagw. rewrite LD. fold L. replace (L + - k) with (zlen w - 1 - (L + k)) by lia. rewrite A by lia. reflexivity.
Qed.
Definition wener (w : list C) : R := rsum (arange (- ((zlen w - 1) / 2)) ((zlen w - 1) / 2 + 1)) (fun k => lagw w k ^ 2)%R.
Lemma nrm_inside x w n ti : zlen w mod 2 <> 0 -> real_list w -> inside x w n ti -> (rs_nrm x w n ti ^ 2 = wener w)%R.
Proof.
  intros Ho RW I. unfold rs_nrm, norm2. rewrite pow2_sqrt by (apply rsum_nonneg; intros; apply pow2_ge_0). rewrite rsum_map, tau_inside by auto. unfold wener. apply rsum_ext. intros k Hk. apply in_arange in Hk.
  assert (W := odd_lh w Ho). rewrite lh_eq in W by auto. rewrite lh_eq by auto. rewrite real_val by (auto; lia). rewrite Cmod_R, pow2_abs. reflexivity.
Qed.
(** The cells before reassignment: the window's transform around the tone. *)
Lemma c139_cells : forall x ts n w tfr rtfr vec a f j i, rspec x ts n w = Ok (Some (tfr, rtfr, vec)) -> is_tone x a f -> real_list (rs_w x w) -> symmetric (rs_w x w) ->
  0 <= j < rs_n x n -> 0 <= i < zlen (rs_ts x ts) -> inside x (rs_w x w) (rs_n x n) (nth (Z.to_nat i) (rs_ts x ts) 0) ->
  rent tfr j i = (Cmod a ^ 2 * gain (rs_w x w) (2 * PI * (IZR j / IZR (rs_n x n) - f)) ^ 2 / wener (rs_w x w))%R.
Proof.
  intros x ts n w tfr rtfr vec a f j i H T RW S Hj Hi I. apply rspec_run in H. cbv zeta in H. destruct H as (Hn & Hx & HT & Ho & Hl & Et & _). set (ti := nth (Z.to_nat i) (rs_ts x ts) 0) in *.
  rewrite Et, rs_sq_nth by auto. fold ti. rewrite rS_trans, tone_plain with (a := a) (f := f) by auto. rewrite <- (nrm_inside x _ (rs_n x n) ti) by auto.
  assert (TI : In ti (rs_ts x ts)) by (unfold ti; apply nth_In; unfold zlen in Hi |- *; lia). destruct (Hl ti TI) as [NN _].
  assert (NZ : rs_nrm x (rs_w x w) (rs_n x n) ti <> 0%R).
  { intros Q. apply NN. split; auto. rewrite tau_inside by auto. intros E. assert (IN : In 0 (arange (- ((zlen (rs_w x w) - 1) / 2)) ((zlen (rs_w x w) - 1) / 2 + 1))) by (apply in_arange; assert (ZN := zlen_nonneg (rs_w x w)); assert (W := odd_lh _ Ho); rewrite lh_eq in W by auto; lia). rewrite E in IN. destruct IN. }
  rewrite Cmod_div by (intros E; apply NZ; now apply RtoC_inj). rewrite !Cmod_mult, Cmod_cis, !Cmod_R. rewrite <- (pow2_abs (gain _ _)), <- (pow2_abs (rs_nrm _ _ _ _)). field. now apply Rabs_no_R0.
Qed.
Lemma thr_tone x a f mn mx : is_tone x a f -> 1 - zlen x <= mn -> mn <= mx -> mx <= zlen x -> rs_thr x mn mx = (Cmod a ^ 2 / 1000000)%R.
Proof.
  intros T H1 H2 H3. unfold rs_thr, mean2. rewrite zlen_map, arange_zlen, rsum_map.
  rewrite (rsum_ext _ _ (fun _ => Cmod a ^ 2)%R).
  - rewrite rsum_const, INR_IZR_INZ, arange_length, Z2Nat.id by lia. rewrite Z.max_r by lia. field. apply not_0_IZR. lia.
  - intros k Hk. apply in_arange in Hk. unfold xwrap. destruct (Z.ltb_spec (k - 1) 0); rewrite T by lia; rewrite Cmod_mult, Cmod_cis; ring.
Qed.
(** Where each cell goes: no displacement in time, in frequency the transform of
    the centred difference over that of the window. *)
Lemma c139_vectors : forall x ts n w tfr rtfr vec a f j i, rspec x ts n w = Ok (Some (tfr, rtfr, vec)) -> is_tone x a f -> a <> RtoC 0 ->
  real_list (rs_w x w) -> symmetric (rs_w x w) -> 3 <= zlen (rs_w x w) ->
  0 <= j < rs_n x n -> 0 <= i < zlen (rs_ts x ts) -> inside x (rs_w x w) (rs_n x n) (nth (Z.to_nat i) (rs_ts x ts) 0) ->
  let t := (2 * PI * (IZR j / IZR (rs_n x n) - f))%R in let L := (zlen (rs_w x w) - 1) / 2 in
  let bend := (sin t + lagw (rs_w x w) L * (sin (t * IZR L) - sin (t * IZR (L + 1))) / gain (rs_w x w) t)%R in
  dest vec j i = if Rlt_dec (Cmod a ^ 2 / 1000000) (rent tfr j i) then ((j - ZnearestE (IZR (rs_n x n) / (2 * PI) * bend) - 1) mod rs_n x n, Z.max 0 (i - 1)) else (j, i).
Proof.
  intros x ts n w tfr rtfr vec a f j i H T A0 RW S H3 Hj Hi I t L bend. assert (V := c37_vectors _ _ _ _ _ _ _ H). cbv zeta in V. destruct V as [V _]. destruct (V H3) as (d & Ed & V'). clear V.
  assert (CE := c139_cells _ _ _ _ _ _ _ a f j i H T RW S Hj Hi I). fold t in CE.
  assert (NN := proj1 (c36_nonneg _ _ _ _ _ _ _ j i H Hj Hi)). assert (Q := rspec_run _ _ _ _ _ _ _ H). cbv zeta in Q.
  destruct Q as (Hn & Hx & HT & Ho & Hl & Et & _ & mn & mx & dwin & Hmn & Hmx & Hd & Hv & _). apply zmin_spec in Hmn. apply zmax_spec in Hmx. destruct Hmn as [In1 M1]. destruct Hmx as [In2 M2].
  assert (TH : rs_thr x mn mx = (Cmod a ^ 2 / 1000000)%R) by (apply (thr_tone x a f); [exact T|apply (Hl mn In1)|now apply M1|apply (Hl mx In2)]).
  specialize (Hv j i Hj Hi). unfold dest. destruct (vent vec j i) as [[r c]|] eqn:E.
  - destruct (above _ _) eqn:A; [|discriminate]. unfold above in A. rewrite TH, Rabs_pos_eq in A by auto. destruct (Rlt_dec _ _) as [LT|]; [|discriminate].
    destruct (V' j i r c Hj Hi E) as [-> ->]. set (ti := nth (Z.to_nat i) (rs_ts x ts) 0) in *.
    assert (A2 : (0 <= Cmod a ^ 2)%R) by apply pow2_ge_0.
    assert (G0 : gain (rs_w x w) t <> 0%R). { intros G. rewrite CE, G in LT. unfold Rdiv in LT. replace (Cmod a ^ 2 * 0 ^ 2 * / wener (rs_w x w))%R with 0%R in LT by ring. lra. }
    assert (P0 : (a * cis (2 * PI * f * IZR (ti - 1)))%C <> RtoC 0) by (apply Cmult_neq_0; [exact A0|apply cis_neq_0]).
    assert (GC : RtoC (gain (rs_w x w) t) <> RtoC 0) by (intros Q; apply G0; now apply RtoC_inj).
    assert (PI0 := PI_RGT_0). assert (PC : RtoC (2 * PI) <> RtoC 0) by (intros Q; apply RtoC_inj in Q; lra).
    assert (DT : disp_t x (rs_w x w) (rs_n x n) ti j = 0).
    { unfold disp_t. cbv zeta. destruct (tone_time x (rs_w x w) (rs_n x n) ti j a f Ho Hn I T RW S) as (s & ->). rewrite tone_plain with (a := a) (f := f) by auto. fold t. set (P := (a * _)%C) in *.
      replace (P * (RtoC s * Ci) / (P * RtoC (gain (rs_w x w) t)))%C with (RtoC (s / gain (rs_w x w) t) * Ci)%C by (rewrite RtoC_div by auto; field; auto).
      rewrite Re_scal. unfold Ci, Re. cbn [fst]. rewrite Rmult_0_r. exact Znearest_0. }
    assert (DF : disp_f x (rs_w x w) d (rs_n x n) ti j = ZnearestE (IZR (rs_n x n) / (2 * PI) * bend)).
    { unfold disp_f. f_equal. rewrite (tone_deriv x (rs_w x w) d (rs_n x n) ti j a f Ho H3 Hn I T RW S Ed). rewrite tone_plain with (a := a) (f := f) by auto. fold t L. set (P := (a * _)%C) in *. set (B := (sin t * _ + _)%R).
      replace (RtoC (IZR (rs_n x n)) * (P * (RtoC B * Ci)) / (P * RtoC (gain (rs_w x w) t)) / RtoC (2 * PI))%C with (RtoC (IZR (rs_n x n) / (2 * PI) * (B / gain (rs_w x w) t)) * Ci)%C by (rewrite RtoC_mult, !RtoC_div by (auto; lra); field; auto).
      rewrite Im_scal. unfold Ci, Im. cbn [snd]. rewrite Rmult_1_r. f_equal. unfold bend, B. field. exact G0. }
    rewrite DT, DF. f_equal. lia.
  - destruct (above _ _) eqn:A; [discriminate|]. unfold above in A. rewrite TH, Rabs_pos_eq in A by auto. destruct (Rlt_dec _ _) as [LT|]; [discriminate|reflexivity].
Qed.
Lemma sin_cubic u : (Rabs u <= PI)%R -> (Rabs (u - sin u) <= Rabs u ^ 3 / 6)%R.
Proof.
  assert (P : forall v, (0 <= v <= PI)%R -> (0 <= v - sin v <= v ^ 3 / 6)%R).
  { intros v Hv. assert (B := SIN_bound v). assert (U : (sin v <= v)%R) by (destruct (Req_dec v 0) as [->|]; [rewrite sin_0; lra|left; apply sin_lt_x; lra]).
    assert (Q := proj1 (sin_bound v 0 (proj1 Hv) (proj2 Hv))). unfold sin_approx, sin_term in Q. cbn in Q. split; [lra|]. unfold pow. lra. }
  intros Hu. destruct (Rle_dec 0 u) as [U|U].
  - rewrite !Rabs_pos_eq in * by (try apply P; lra). apply P. lra.
  - assert (Q := P (- u)%R). rewrite (Rabs_left u) in * by lra. rewrite sin_neg in Q. specialize (Q ltac:(lra)). rewrite Rabs_left1 by lra. lra.
Qed.
Lemma bend_cubic n dlt : 0 < n -> (Rabs dlt <= IZR n / 2)%R -> (Rabs (dlt - IZR n / (2 * PI) * sin (2 * PI * dlt / IZR n)) <= 2 * PI ^ 2 * Rabs dlt ^ 3 / (3 * IZR n ^ 2))%R.
Proof.
  intros Hn Hd. assert (N0 : (0 < IZR n)%R) by (apply IZR_lt; lia). assert (P0 := PI_RGT_0). set (u := (2 * PI * dlt / IZR n)%R).
  assert (U : (Rabs u = 2 * PI / IZR n * Rabs dlt)%R). { unfold u. replace (2 * PI * dlt / IZR n)%R with (2 * PI / IZR n * dlt)%R by (field; lra). rewrite Rabs_mult, (Rabs_pos_eq (2 * PI / IZR n)); [reflexivity|]. apply Rdiv_le_0_compat; lra. }
  replace (dlt - IZR n / (2 * PI) * sin u)%R with (IZR n / (2 * PI) * (u - sin u))%R by (unfold u; field; lra). rewrite Rabs_mult, (Rabs_pos_eq (IZR n / (2 * PI))) by (apply Rdiv_le_0_compat; lra).
  assert (Q : (Rabs (u - sin u) <= Rabs u ^ 3 / 6)%R). { apply sin_cubic. rewrite U. apply (Rmult_le_compat_l (2 * PI / IZR n)) in Hd; [|apply Rdiv_le_0_compat; lra]. replace (2 * PI / IZR n * (IZR n / 2))%R with PI in Hd by (field; lra). exact Hd. }
  apply (Rmult_le_compat_l (IZR n / (2 * PI))) in Q; [|apply Rdiv_le_0_compat; lra]. eapply Rle_trans; [exact Q|]. rewrite U. right. field. lra.
Qed.
Lemma ends_zero_bend x ts n w tfr rtfr vec a f j i q : rspec x ts n w = Ok (Some (tfr, rtfr, vec)) -> is_tone x a f -> a <> RtoC 0 ->
  real_list (rs_w x w) -> symmetric (rs_w x w) -> 3 <= zlen (rs_w x w) -> cnth (rs_w x w) 0 = RtoC 0 ->
  0 <= j < rs_n x n -> 0 <= i < zlen (rs_ts x ts) -> inside x (rs_w x w) (rs_n x n) (nth (Z.to_nat i) (rs_ts x ts) 0) ->
  (Cmod a ^ 2 / 1000000 < rent tfr j i)%R -> let n' := rs_n x n in let dlt := (IZR (j + q * n') - IZR n' * f)%R in
  dest vec j i = ((j - ZnearestE (IZR n' / (2 * PI) * sin (2 * PI * dlt / IZR n')) - 1) mod n', Z.max 0 (i - 1)).
Proof.
  intros H T A0 RW S H3 W0 Hj Hi I LT n' dlt. rewrite (c139_vectors _ _ _ _ _ _ _ a f j i H T A0 RW S H3 Hj Hi I). destruct (Rlt_dec _ _); [|tauto].
  assert (LE : lagw (rs_w x w) ((zlen (rs_w x w) - 1) / 2) = 0%R).
  { assert (Q := rspec_run _ _ _ _ _ _ _ H). cbv zeta in Q. destruct Q as (_ & _ & _ & Ho & _). rewrite <- lag_even by (auto; Z.to_euclidean_division_equations; lia). unfold lagw. rewrite Z.add_opp_diag_r, W0. reflexivity. }
  rewrite LE. fold n'. set (t := (2 * PI * (IZR j / IZR n' - f))%R). replace (sin t + 0 * (sin (t * IZR ((zlen (rs_w x w) - 1) / 2)) - sin (t * IZR ((zlen (rs_w x w) - 1) / 2 + 1))) / gain (rs_w x w) t)%R with (sin t) by (unfold Rdiv; ring).
  replace (sin (2 * PI * dlt / IZR n')) with (sin t); [reflexivity|]. assert (N0 : IZR n' <> 0%R) by (apply not_0_IZR; unfold n'; lia).
  replace (2 * PI * dlt / IZR n')%R with (t + 2 * PI * IZR q)%R by (unfold dlt, t; rewrite plus_IZR, mult_IZR; field; auto).
  assert (Q := cis_2PI_k q). unfold cis in Q. assert (Q1 := f_equal fst Q). assert (Q2 := f_equal snd Q). cbn [fst snd RtoC] in Q1, Q2. rewrite sin_plus, Q1, Q2. ring.
Qed.
(** A window that vanishes at its ends: every cell within n/2 bins of the tone is
    sent next to the tone's row, the better the closer. *)
Lemma c139_rows : forall x ts n w tfr rtfr vec a f j i q, rspec x ts n w = Ok (Some (tfr, rtfr, vec)) -> is_tone x a f -> a <> RtoC 0 ->
  real_list (rs_w x w) -> symmetric (rs_w x w) -> 3 <= zlen (rs_w x w) -> cnth (rs_w x w) 0 = RtoC 0 ->
  0 <= j < rs_n x n -> 0 <= i < zlen (rs_ts x ts) -> inside x (rs_w x w) (rs_n x n) (nth (Z.to_nat i) (rs_ts x ts) 0) ->
  (Cmod a ^ 2 / 1000000 < rent tfr j i)%R -> let n := rs_n x n in let dlt := (IZR (j + q * n) - IZR n * f)%R in (Rabs dlt <= IZR n / 2)%R ->
  exists p, dest vec j i = ((p - 1) mod n, Z.max 0 (i - 1)) /\ (Rabs (IZR p - IZR n * f) <= 1 / 2 + 2 * PI ^ 2 * Rabs dlt ^ 3 / (3 * IZR n ^ 2))%R.
Proof.
  intros x ts n w tfr rtfr vec a f j i q H T A0 RW S H3 W0 Hj Hi I LT n' dlt HD. assert (E := ends_zero_bend x ts n w tfr rtfr vec a f j i q H T A0 RW S H3 W0 Hj Hi I LT). cbv zeta in E. fold n' in E. fold dlt in E.
  set (y := (IZR n' / (2 * PI) * sin (2 * PI * dlt / IZR n'))%R) in *. exists (j + q * n' - ZnearestE y). split.
  - rewrite E. f_equal. replace (j + q * n' - ZnearestE y - 1) with (j - ZnearestE y - 1 + q * n') by lia. rewrite Z.mod_add by (unfold n'; lia). reflexivity.
  - assert (B := bend_cubic n' dlt ltac:(unfold n'; lia) HD). fold y in B. assert (Q := Znearest_half (fun z => negb (Z.even z)) y). fold ZnearestE in Q. rewrite minus_IZR. unfold dlt in *.
    replace (IZR (j + q * n') - IZR (ZnearestE y) - IZR n' * f)%R with ((IZR (j + q * n') - IZR n' * f - y) + (y - IZR (ZnearestE y)))%R by ring.
    eapply Rle_trans; [apply Rabs_triang|]. lra.
Qed.
(** A tone on a bin: all cells up to D bins away are collected in one row, one
    column to the left. *)
Lemma c139_collect : forall x ts n w tfr rtfr vec a k0 D i, rspec x ts n w = Ok (Some (tfr, rtfr, vec)) ->
  let n := rs_n x n in is_tone x a (IZR k0 / IZR n) -> a <> RtoC 0 ->
  real_list (rs_w x w) -> symmetric (rs_w x w) -> 3 <= zlen (rs_w x w) -> cnth (rs_w x w) 0 = RtoC 0 ->
  0 <= i < zlen (rs_ts x ts) -> inside x (rs_w x w) n (nth (Z.to_nat i) (rs_ts x ts) 0) ->
  0 <= D -> (4 * PI ^ 2 * IZR D ^ 3 < 3 * IZR n ^ 2)%R ->
  (forall d, - D <= d <= D -> (Cmod a ^ 2 / 1000000 < rent tfr ((k0 + d) mod n)%Z i)%R -> dest vec ((k0 + d) mod n)%Z i = ((k0 - 1) mod n, Z.max 0 (i - 1))) /\
  (rsum (arange (- D) (D + 1)) (fun d => rent tfr ((k0 + d) mod n)%Z i) - IZR (2 * D + 1) * (Cmod a ^ 2 / 1000000) <= rent rtfr ((k0 - 1) mod n)%Z (Z.max 0 (i - 1)))%R.
Proof.
  intros x ts n w tfr rtfr vec a k0 D i H n' T A0 RW S H3 W0 Hi I HD BD.
  assert (R0 := rspec_run _ _ _ _ _ _ _ H). cbv zeta in R0. destruct R0 as (Hn & _). fold n' in Hn. assert (N0 : (0 < IZR n')%R) by (apply IZR_lt; lia). assert (P3 := PI2_3_2). assert (P4 := PI_4). assert (PP : (9 < PI ^ 2)%R) by (cbn; nra).
  assert (SM : 2 * D + 1 <= n').
  { destruct (Z.eq_dec D 0) as [->|ND]; [lia|]. assert (D1 : (1 <= IZR D)%R) by (apply (IZR_le 1); lia). assert (Q : (36 * IZR D ^ 3 < 3 * IZR n' ^ 2)%R).
    { eapply Rlt_trans; [|exact BD]. apply Rmult_lt_compat_r; [apply pow_lt; lra|lra]. }
    assert (D2 : (0 <= IZR D ^ 2)%R) by apply pow2_ge_0. assert (Q' : (IZR D ^ 2 <= IZR D ^ 3)%R) by (replace (IZR D ^ 3)%R with (IZR D ^ 2 * IZR D)%R by ring; nra). assert (Q2 : (12 * IZR D ^ 2 < IZR n' ^ 2)%R) by lra. rewrite !pow_IZR in Q2. rewrite <- mult_IZR in Q2. apply lt_IZR in Q2. change (Z.of_nat 2) with 2 in Q2. nia. }
  assert (DEST : forall d, - D <= d <= D -> (Cmod a ^ 2 / 1000000 < rent tfr ((k0 + d) mod n')%Z i)%R -> dest vec ((k0 + d) mod n')%Z i = ((k0 - 1) mod n', Z.max 0 (i - 1))).
  { intros d Hd LT. assert (BJ := Z.mod_pos_bound (k0 + d) n' Hn). set (j := (k0 + d) mod n') in *. set (q := (k0 + d) / n').
    assert (EJ : j + q * n' = k0 + d) by (unfold j, q; rewrite Z.add_comm, Z.mul_comm; symmetry; apply Z.div_mod; lia).
    assert (E := ends_zero_bend x ts n w tfr rtfr vec a _ j i q H T A0 RW S H3 W0 BJ Hi I LT). cbv zeta in E. fold n' in E. rewrite EJ in E.
    replace (IZR (k0 + d) - IZR n' * (IZR k0 / IZR n'))%R with (IZR d) in E by (rewrite plus_IZR; field; lra). rewrite E.
    assert (DD : (Rabs (IZR d) <= IZR D)%R) by (rewrite <- abs_IZR; apply IZR_le; lia).
    assert (B := bend_cubic n' (IZR d) Hn). specialize (B ltac:(assert (2 * IZR D + 1 <= IZR n')%R by (change 2%R with (IZR 2); change 1%R with (IZR 1); rewrite <- mult_IZR, <- plus_IZR; apply IZR_le; lia); lra)).
    assert (C3 : (Rabs (IZR d) ^ 3 <= IZR D ^ 3)%R) by (apply pow_incr; split; [apply Rabs_pos|exact DD]).
    assert (LT2 : (2 * PI ^ 2 * Rabs (IZR d) ^ 3 / (3 * IZR n' ^ 2) < / 2)%R).
    { apply (Rmult_lt_reg_r (3 * IZR n' ^ 2)); [assert (0 < IZR n' ^ 2)%R by (apply pow_lt; lra); lra|]. unfold Rdiv. rewrite Rmult_assoc, Rinv_l by (assert (0 < IZR n' ^ 2)%R by (apply pow_lt; lra); lra). nra. }
    rewrite (Znearest_imp (fun z => negb (Z.even z)) _ d); [|rewrite Rabs_minus_sym; lra]. f_equal.
    replace (j - d - 1) with (k0 - 1 + - q * n') by lia. rewrite Z.mod_add by lia. reflexivity. }
  split; [exact DEST|]. destruct (c36_entries _ _ _ _ _ _ _ H) as (_ & _ & _ & F). cbv zeta in F. fold n' in F.
  assert (NN : forall j c, 0 <= j < n' -> 0 <= c < zlen (rs_ts x ts) -> (0 <= rent tfr j c)%R) by (intros j c Hj Hc; apply (c36_nonneg _ _ _ _ _ _ _ j c H Hj Hc)).
  rewrite F by (first [apply Z.mod_pos_bound; lia | lia]). set (r := (k0 - 1) mod n') in *. set (c := Z.max 0 (i - 1)) in *.
  set (G := fun i0 j => (if (fst (dest vec j i0) =? r) && (snd (dest vec j i0) =? c) then rent tfr j i0 else 0)%R).
  assert (GN : forall i0 j, 0 <= i0 < zlen (rs_ts x ts) -> 0 <= j < n' -> (0 <= G i0 j)%R) by (intros i0 j H1 H2; unfold G; destruct (_ && _); [now apply NN|lra]).
  assert (STEP : (rsum (arange 0 n') (G i) <= rsum (arange 0 (zlen (rs_ts x ts))) (fun i0 => rsum (arange 0 n') (G i0)))%R).
  { rewrite (arange_app 0 i (zlen (rs_ts x ts))) by lia. rewrite (arange_cons i (zlen (rs_ts x ts))) by lia. rewrite rsum_app, rsum_cons.
    assert (Q1 : (0 <= rsum (arange 0 i) (fun i0 => rsum (arange 0 n') (G i0)))%R) by (apply rsum_nonneg; intros b Hb; apply in_arange in Hb; apply rsum_nonneg; intros e He; apply in_arange in He; apply GN; lia).
    assert (Q2 : (0 <= rsum (arange (i + 1) (zlen (rs_ts x ts))) (fun i0 => rsum (arange 0 n') (G i0)))%R) by (apply rsum_nonneg; intros b Hb; apply in_arange in Hb; apply rsum_nonneg; intros e He; apply in_arange in He; apply GN; lia). lra. }
  eapply Rle_trans; [|exact STEP]. rewrite <- (rsum_perm _ _ (G i) (perm_mod_shift n' (k0 - D) Hn)). rewrite rsum_map. rewrite (arange_app 0 (2 * D + 1) n') by lia. rewrite rsum_app.
  assert (Q3 : (0 <= rsum (arange (2 * D + 1) n') (fun k => G i ((k + (k0 - D)) mod n')%Z))%R) by (apply rsum_nonneg; intros b _; apply GN; [lia|apply Z.mod_pos_bound; lia]).
  assert (Q4 : rsum (arange 0 (2 * D + 1)) (fun k => G i ((k + (k0 - D)) mod n')%Z) = rsum (arange (- D) (D + 1)) (fun d => G i ((k0 + d) mod n')%Z)).
  { replace (arange 0 (2 * D + 1)) with (arange (- D + D) (D + 1 + D)) by (f_equal; lia). rewrite rsum_arange_shift. apply rsum_ext. intros d _. do 2 f_equal. lia. }
  rewrite Q4. assert (Q5 : (rsum (arange (- D) (D + 1)) (fun d => rent tfr ((k0 + d) mod n')%Z i - Cmod a ^ 2 / 1000000) <= rsum (arange (- D) (D + 1)) (fun d => G i ((k0 + d) mod n')%Z))%R).
  { apply rsum_le. intros d Hd. apply in_arange in Hd. assert (BJ := Z.mod_pos_bound (k0 + d) n' Hn). assert (A2 : (0 <= Cmod a ^ 2)%R) by apply pow2_ge_0. destruct (Rlt_dec (Cmod a ^ 2 / 1000000) (rent tfr ((k0 + d) mod n')%Z i)) as [LT|LT].
    - unfold G. rewrite DEST by (auto; lia). cbn [fst snd]. rewrite !Z.eqb_refl. cbn [andb]. lra.
    - specialize (GN i ((k0 + d) mod n') Hi BJ). lra. }
  rewrite rsum_minus, rsum_const, INR_IZR_INZ, arange_length, Z2Nat.id in Q5 by lia. replace (D + 1 - - D) with (2 * D + 1) in Q5 by lia. lra.
Qed.
(** Eight samples of a tone with two periods, window (0, 1, 0): flat columns; after
    reassignment row 1 of columns 1..6 holds at least three of the eight cells. *)
Example c139_example : exists x tfr rtfr vec, is_tone x (RtoC 1) (2 / 8) /\ zlen x = 8 /\ rspec x None None (Some [RtoC 0; RtoC 1; RtoC 0]) = Ok (Some (tfr, rtfr, vec)) /\
  forall i, 2 <= i < 8 -> (forall j, 0 <= j < 8 -> rent tfr j i = 1%R) /\ (29 / 10 <= rent rtfr 1 (i - 1))%R.
Proof.
  set (w := [RtoC 0; RtoC 1; RtoC 0]). set (x := map (fun m => RtoC 1 * cis (2 * PI * (2 / 8) * IZR m))%C (arange 0 8)). assert (ZX : zlen x = 8) by (unfold x; rewrite zlen_map, arange_zlen; reflexivity).
  assert (T : is_tone x (RtoC 1) (2 / 8)) by (intros m Hm; rewrite ZX in Hm; unfold x, cnth; rewrite nth_map_arange by lia; now rewrite Z.add_0_l).
  assert (ZW : zlen w = 3) by reflexivity. assert (RW : real_list w) by (intros k Hk; rewrite ZW in Hk; assert (k = 0 \/ k = 1 \/ k = 2) as [-> | [-> | ->]] by lia; reflexivity).
  assert (S : symmetric w) by (intros k Hk; rewrite ZW in *; assert (k = 0 \/ k = 1 \/ k = 2) as [-> | [-> | ->]] by lia; reflexivity).
  assert (O : zlen w mod 2 <> 0) by (rewrite ZW; discriminate).
  assert (OK : exists tfr rtfr vec, rspec x None None (Some w) = Ok (Some (tfr, rtfr, vec))).
  { rewrite rspec_defaults. cbn [rs_ts rs_n rs_w]. rewrite ZX. assert (RG : regular (arange 0 8) = true) by apply regular_arange. assert (RR : forall t, In t (arange 0 8) -> 1 - zlen x <= t <= zlen x) by (intros t Ht; apply in_arange in Ht; lia).
    destruct (c36_outcome x (arange 0 8) 8 w) as [_ Q]. destruct (Q O RG ltac:(lia) ltac:(discriminate)) as [_ Q']. destruct (Q' RR ltac:(rewrite ZW; lia)) as (o & Ho).
    destruct o as [[[tfr rtfr] vec]|]; [exists tfr, rtfr, vec; exact Ho|]. exfalso. apply (c36_nan x (arange 0 8) 8 w O RG ltac:(lia) ltac:(discriminate) RR) in Ho. destruct Ho as (ti & Hi & _ & Z). specialize (Z 0).
    apply in_arange in Hi. assert (Q0 : cnth w (win_lh w + 0) = RtoC 0) by (apply Z; unfold rs_tau; rewrite ZX; apply in_arange; change (round_half 8) with 4; change (win_lh w) with 1; lia). assert (E : RtoC 1 = RtoC 0) by exact Q0. apply RtoC_inj in E. lra. }
  destruct OK as (tfr & rtfr & vec & H). exists x, tfr, rtfr, vec. split; [exact T|]. split; [exact ZX|]. split; [exact H|]. intros i Hi.
  assert (NI : nth (Z.to_nat i) (rs_ts x None) 0 = i) by (cbn [rs_ts]; rewrite ZX; rewrite <- (map_id (arange 0 8)), nth_map_arange by lia; lia).
  assert (HI : 0 <= i < zlen (rs_ts x None)) by (cbn [rs_ts]; rewrite arange_zlen, ZX; lia).
  assert (I : inside x (rs_w x (Some w)) (rs_n x None) (nth (Z.to_nat i) (rs_ts x None) 0)) by (rewrite NI; cbn [rs_w rs_n]; unfold inside; rewrite ZX, ZW; change (round_half 8) with 4; change ((3 - 1) / 2) with 1; lia).
  assert (L1 : lagw w (-1) = 0%R) by reflexivity. assert (L2 : lagw w 0 = 1%R) by reflexivity. assert (L3 : lagw w 1 = 0%R) by reflexivity.
  assert (G : forall t, gain w t = 1%R) by (intros t; unfold gain; rewrite ZW; change (arange (- ((3 - 1) / 2)) ((3 - 1) / 2 + 1)) with [-1; 0; 1]; rewrite !rsum_cons, rsum_nil; rewrite L1, L2, L3, !Rmult_0_r, cos_0; ring).
  assert (WE : wener w = 1%R) by (unfold wener; rewrite ZW; change (arange (- ((3 - 1) / 2)) ((3 - 1) / 2 + 1)) with [-1; 0; 1]; rewrite !rsum_cons, rsum_nil; rewrite L1, L2, L3; ring).
  assert (CE : forall j, 0 <= j < 8 -> rent tfr j i = 1%R).
  { intros j Hj. rewrite (c139_cells _ _ _ _ _ _ _ (RtoC 1) (2 / 8) j i H T RW S ltac:(cbn [rs_n]; lia) HI I). cbn [rs_w]. rewrite G, WE, Cmod_1. field. }
  split; [exact CE|]. assert (P4 := PI_4). assert (P0 := PI_RGT_0).
  assert (Q := c139_collect x None None (Some w) tfr rtfr vec (RtoC 1) 2 1 i H). cbv zeta in Q. cbn [rs_n] in Q. rewrite ZX in Q.
  specialize (Q T ltac:(intros E; apply RtoC_inj in E; lra) RW S ltac:(cbn [rs_w]; lia) eq_refl HI). cbn [rs_n] in I. rewrite ZX in I. specialize (Q I ltac:(lia)). destruct Q as [_ Q]; [cbn; nra|].
  change ((2 - 1) mod 8) with 1 in Q. rewrite Z.max_r in Q by lia. change (arange (- (1)) (1 + 1)) with [-1; 0; 1] in Q. rewrite !rsum_cons, rsum_nil in Q. cbn [Z.add Z.pos_sub Pos.add Z.succ] in Q. rewrite !CE in Q by (apply Z.mod_pos_bound; lia). rewrite Cmod_1 in Q. cbn in Q. lra.
Qed.
