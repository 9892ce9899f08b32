(** C99: WignerVilleDistribution.plot with scale="log". *)
From Coq Require Import Reals ZArith List Lia Lra Bool.
From Coquelicot Require Import Coquelicot.
From Verif Require Import Py Scalars CSum DFT Spec M_base P_base M_utils M_putils M_post M_stft M_cohen M_state M_gen1 M_gen2 M_aff M_plot T_gen1 T_putils T_state T_wvd T_aff T_plot T_plot2 T_plot3.
Import ListNotations.
Local Open Scope Z_scope.

(** [lo] and [hi] are the least and the greatest value of the matrix. *)
Definition extremes (tfr : list (list C)) (n t : Z) (lo hi : R) : Prop :=
  (exists f c, 0 <= f < n /\ 0 <= c < t /\ Re (at2 tfr f c) = lo) /\ (exists f c, 0 <= f < n /\ 0 <= c < t /\ Re (at2 tfr f c) = hi) /\
  forall f c, 0 <= f < n -> 0 <= c < t -> (lo <= Re (at2 tfr f c) <= hi)%R.
Definition log_refusal (k : pkind) (tf : bool) (rows cols N : Z) (lo hi th : R) : option exn :=
  match refusal k tf rows cols N with
  | Some e => Some e
  | None => match k, tf with Kcontour, true => if Rlt_dec (Rmax lo (hi * th)) hi then None else Some ValueError | _, _ => None end
  end.

Lemma view_entries o n t v : 1 <= n -> 1 <= t -> shaped (r_tfr o) n t -> In v (concat (v_tfr (rep_view o))) <-> exists f c, 0 <= f < n /\ 0 <= c < t /\ Re (at2 (r_tfr o) f c) = v.
Proof.
  intros Hn Ht [L S]. assert (RR : rep_rows o = n). { unfold rep_rows. destruct (r_tfr o) as [|c l]; [unfold zlen in L; cbn in L; lia|]. apply S. now left. }
  unfold rep_view. cbn [v_tfr]. rewrite RR, L. rewrite in_concat. split.
  - intros (r & Hr & Hv). apply in_map_iff in Hr. destruct Hr as (f & <- & Hf). apply in_map_iff in Hv. destruct Hv as (c & <- & Hc). apply in_arange in Hf, Hc. exists f, c. auto.
  - intros (f & c & Hf & Hc & <-). eexists. split; [apply in_map_iff; exists f; split; [reflexivity|apply in_arange; lia]|]. apply in_map_iff. exists c. split; [reflexivity|apply in_arange; lia].
Qed.
Lemma extremes_levels o n t lo hi th : 1 <= n -> 1 <= t -> shaped (r_tfr o) n t -> extremes (r_tfr o) n t lo hi ->
  log_levels th (v_tfr (rep_view o)) = Ok (logspace (log10 (Rmax lo (hi * th))) (log10 hi) 65).
Proof.
  intros Hn Ht S (A & B & D). unfold log_levels. rewrite (rmax_is _ hi), (rmin_is _ lo).
  - reflexivity.
  - split; [now apply (view_entries o n t)|]. intros v Hv. apply (view_entries o n t) in Hv; auto. destruct Hv as (f & c & Hf & Hc & <-). now apply D.
  - split; [now apply (view_entries o n t)|]. intros v Hv. apply (view_entries o n t) in Hv; auto. destruct Hv as (f & c & Hf & Hc & <-). now apply D.
Qed.
Lemma ln10_pos : (0 < ln 10)%R.
Proof. rewrite <- ln_1. apply ln_increasing; lra. Qed.
(** Entry i of 65 logarithmic levels. *)
Lemma logspace_nth a b i : (0 < a)%R -> (0 < b)%R -> 0 <= i < 65 -> rnth (logspace (log10 a) (log10 b) 65) i = (a * Rpower (b / a) (IZR i / 64))%R.
Proof.
  intros Ha Hb Hi. assert (L10 := ln10_pos). unfold logspace, linspace1. change (65 =? 1) with false. cbv iota. unfold linspace. rewrite map_map, rnth_map_arange by lia. rewrite Z.add_0_l. change (65 - 1) with 64.
  unfold Rpower, log10. rewrite ln_div by auto. transitivity (exp (ln a) * exp (IZR i / 64 * (ln b - ln a)))%R; [rewrite <- exp_plus; f_equal; field; lra|now rewrite exp_ln by exact Ha].
Qed.
Lemma logspace_len a b : zlen (logspace a b 65) = 65.
Proof. unfold logspace, linspace1. change (65 =? 1) with false. cbv iota. unfold linspace. rewrite map_map, zlen_map_arange by lia. reflexivity. Qed.
Lemma logspace_increasing a b : (0 < a)%R -> (0 < b)%R -> increasing (logspace (log10 a) (log10 b) 65) = if Rlt_dec a b then true else false.
Proof.
  intros Ha Hb. assert (L10 := ln10_pos). unfold logspace, linspace1. change (65 =? 1) with false. cbv iota. unfold linspace. rewrite map_map. change (65 - 1) with 64.
  assert (MO : (a < b -> log10 a < log10 b)%R) by (intros H; unfold log10; apply Rmult_lt_compat_r; [now apply Rinv_0_lt_compat|now apply ln_increasing]).
  assert (MN : (b <= a -> log10 b <= log10 a)%R) by (intros H; unfold log10; apply Rmult_le_compat_r; [left; now apply Rinv_0_lt_compat|destruct H as [H | ->]; [left; now apply ln_increasing|right; reflexivity]]).
  destruct (Rlt_dec a b) as [L|L].
  - apply increasing_map. intros k _ _. apply Rpower_lt; [lra|]. specialize (MO L). rewrite plus_IZR. nra.
  - specialize (MN ltac:(lra)). rewrite (arange_cons 0 65) by lia. rewrite (arange_cons (0 + 1) 65) by lia. cbn [map increasing]. destruct (Rlt_dec _ _) as [Q|Q]; [|reflexivity]. exfalso. change (0 + 1) with 1 in Q.
    apply (Rlt_irrefl (Rpower 10 (log10 a + IZR 0 * ((log10 b - log10 a) / 64)))). eapply Rlt_le_trans; [exact Q|]. apply Rle_Rpower; [lra|]. lra.
Qed.
(** Without [show_tf] the levels reach nobody. *)
Lemma levels_ignored k tf th ls v : tf = false \/ k <> Kcontour -> base_plot (mkopts k tf th None None None (Some ls) None None) v = base_plot (defaults k tf th None) v.
Proof. intros H. destruct tf; [destruct H as [|H]; [discriminate|]|]; destruct k; try reflexivity. congruence. Qed.
Lemma c99_ignored : forall k tf sq th o n t, shaped (r_tfr o) n t -> 1 <= n -> 1 <= t -> tf = false \/ k <> Kcontour ->
  wvd_picture_log k tf sq th o = wvd_picture k tf sq th o.
Proof.
  intros k tf sq th o n t S Hn Ht H. unfold wvd_picture_log, wvd_picture, log_levels. assert (NE : concat (v_tfr (rep_view o)) <> []). { intros Q. assert (I : In (Re (at2 (r_tfr o) 0 0)) (concat (v_tfr (rep_view o)))) by (apply (view_entries o n t); auto; exists 0, 0; repeat split; lia). rewrite Q in I. destruct I. }
  destruct (rmax_ok _ NE) as [a ->]. destruct (rmin_ok _ NE) as [b ->]. cbn [bind]. destruct (wvd_plot sq th o); [|reflexivity]. cbn [bind]. now apply levels_ignored.
Qed.
Lemma c99_outcome : forall k tf sq th o n t lo hi, shaped (r_tfr o) n t -> ts_len (r_ts o) = t -> 1 <= n -> 1 <= t -> 1 <= zlen (r_sig o) -> r_freqs o <> [] ->
  extremes (r_tfr o) n t lo hi -> (0 < hi)%R -> (0 < th)%R ->
  outcome (wvd_picture_log k tf sq th o) (log_refusal k tf n t (zlen (r_sig o)) lo hi th).
Proof.
  intros k tf sq th o n t lo hi S LT Hn Ht HN HF X Hp Hth. assert (W := c93_wvd k tf sq th o n t S LT Hn Ht HN HF). unfold log_refusal.
  assert (DEC : (k = Kcontour /\ tf = true) \/ (tf = false \/ k <> Kcontour)) by (destruct k, tf; auto; right; right; discriminate). destruct DEC as [[-> ->]|D].
  - unfold wvd_picture_log. rewrite (extremes_levels o n t lo hi th) by auto. cbn [bind]. unfold wvd_picture in W. destruct (wvd_plot sq th o) as [o1|e] eqn:EO; [|unfold outcome in *; destruct (refusal Kcontour true n t (zlen (r_sig o))); [exact W|destruct W; discriminate]]. cbn [bind] in *.
    assert (SG : r_sig o1 = r_sig o) by (unfold wvd_plot in EO; destruct (threshold _ _); [|discriminate]; cbn [bind] in EO; okeq EO; reflexivity). assert (HS : 1 <= zlen (v_sig (rep_view o1))) by (cbn [rep_view v_sig]; now rewrite SG).
    set (v := rep_view o1) in *. unfold base_plot in *. cbn [o_extent o_tf o_kind defaults] in *. destruct (bind (rmin_list (v_ts v)) _) as [ext|e]; [|unfold outcome in *; destruct (refusal Kcontour true n t (zlen (r_sig o))); [exact W|destruct W; discriminate]]. cbn [bind] in *.
    unfold plot_tfr in *. cbn [o_kind o_contour_x o_contour_y o_levels v_affine defaults] in *. change (v_affine v) with (@None (R * R * Z)) in *. set (y := axis 0 (1 / 2) (zlen (v_sig v))) in *. unfold contour in *.
    assert (LP : (0 < Rmax lo (hi * th))%R) by (apply Rlt_le_trans with (2 := Rmax_r _ _); now apply Rmult_lt_0_compat).
    assert (PS : forall o', o_freq_x o' = None -> o_freq_y o' = None -> plot_spectrum o' v = plot_spectrum (defaults Kcontour true th None) v) by (intros o' F1 F2; unfold plot_spectrum; rewrite F1, F2; reflexivity). rewrite (PS (mkopts _ _ _ _ _ _ _ _ _)) by reflexivity.
    destruct (negb _ || negb _); cbn [bind] in *; [unfold outcome in *; destruct (refusal Kcontour true n t (zlen (r_sig o))); [exact W|destruct W; discriminate]|]. destruct ((zlen y <? 2) || _); cbn [bind] in *; [unfold outcome in *; destruct (refusal Kcontour true n t (zlen (r_sig o))); [exact W|destruct W; discriminate]|].
    rewrite logspace_increasing by auto. rewrite spectrum_ok in * by auto. cbn [bind] in *. unfold outcome in *. destruct (refusal Kcontour true n t (zlen (r_sig o))); [discriminate|]. destruct (Rlt_dec _ _); cbn [bind]; [eauto|reflexivity].
  - rewrite (c99_ignored k tf sq th o n t S Hn Ht D). destruct (refusal k tf n t (zlen (r_sig o))); [exact W|]. destruct k, tf; try exact W. destruct D; congruence.
Qed.
(** The 65 levels are geometric, from the larger of the minimum and the threshold up to the maximum. *)
Lemma c99_levels : forall sq th o n t lo hi p, shaped (r_tfr o) n t -> 1 <= n -> 1 <= t -> extremes (r_tfr o) n t lo hi -> (0 < hi)%R -> (0 < th)%R ->
  wvd_picture_log Kcontour true sq th o = Ok p ->
  exists x y m ls rest, p = Contour x y m (Some ls) :: rest /\ zlen ls = 65 /\
    let a := Rmax lo (hi * th) in (a < hi)%R /\ forall i, 0 <= i < 65 -> rnth ls i = (a * Rpower (hi / a) (IZR i / 64))%R.
Proof.
  intros sq th o n t lo hi p S Hn Ht X Hp Hth H. unfold wvd_picture_log in H. rewrite (extremes_levels o n t lo hi th) in H by auto. cbn [bind] in H. destruct (wvd_plot sq th o) as [o1|]; [|discriminate]. cbn [bind] in H. unfold base_plot in H. destruct (match o_extent _ with Some e => _ | None => _ end); [|discriminate]. cbn [bind o_tf o_kind] in H.
  unfold plot_tfr in H. cbn [o_kind o_contour_x o_contour_y o_levels rep_view v_affine] in H. set (ls := logspace _ _ 65) in H. unfold contour in H. destruct (negb _ || negb _); [discriminate|]. destruct (_ || _); [discriminate|]. destruct (increasing ls) eqn:IL; [|discriminate]. cbn [bind] in H.
  destruct (plot_spectrum _ _); [|discriminate]. cbn [bind app] in H. okeq H. do 5 eexists. split; [reflexivity|]. split; [apply logspace_len|]. cbv zeta. set (aa := Rmax lo (hi * th)) in *.
  assert (LP : (0 < aa)%R) by (apply Rlt_le_trans with (2 := Rmax_r _ _); now apply Rmult_lt_0_compat). unfold ls in IL. rewrite logspace_increasing in IL by auto. destruct (Rlt_dec aa hi); [|discriminate]. split; [auto|]. intros i Hi. now apply logspace_nth.
Qed.
Lemma len_R N : 0 <= N -> INR (length (arange 0 N)) = IZR N.
Proof. intros H. rewrite arange_length, INR_IZR_INZ. f_equal. lia. Qed.
(** The Wigner-Ville distribution of a signal that is not silent is never flat. *)
Lemma even_count N (K : R) p : 0 <= N -> csum (arange 0 N) (fun a => if Bool.eqb (Z.even a) p then RtoC K else RtoC 0) = RtoC (K * IZR (if p then (N + 1) / 2 else N / 2)).
Proof.
  intros H. revert N H. apply natlike_ind.
  - change (arange 0 0) with (@nil Z). rewrite csum_nil. f_equal. destruct p; [change ((0 + 1) / 2) with 0|change (0 / 2) with 0]; ring.
  - intros N H IH. unfold Z.succ. rewrite arange_snoc, csum_app, csum_cons, csum_nil, IH by lia. destruct (Z.even N) eqn:E.
    + apply Z.even_spec in E. destruct E as [c ->]. destruct p; cbn [Bool.eqb].
      * replace ((2 * c + 1 + 1) / 2) with ((2 * c + 1) / 2 + 1) by (Z.to_euclidean_division_equations; lia). rewrite plus_IZR, <- !RtoC_plus. f_equal. ring.
      * replace ((2 * c + 1) / 2) with (2 * c / 2) by (Z.to_euclidean_division_equations; lia). rewrite <- !RtoC_plus. f_equal. ring.
    + assert (O : Z.odd N = true) by (rewrite <- Z.negb_even, E; reflexivity). apply Z.odd_spec in O. destruct O as [c ->]. destruct p; cbn [Bool.eqb].
      * replace ((2 * c + 1 + 1 + 1) / 2) with ((2 * c + 1 + 1) / 2) by (Z.to_euclidean_division_equations; lia). rewrite <- !RtoC_plus. f_equal. ring.
      * replace ((2 * c + 1 + 1) / 2) with ((2 * c + 1) / 2 + 1) by (Z.to_euclidean_division_equations; lia). rewrite plus_IZR, <- !RtoC_plus. f_equal. ring.
Qed.
Lemma wvd_contrast (x : list C) o : 3 <= zlen x -> (exists i, 0 <= i < zlen x /\ cnth x i <> RtoC 0) -> wvd x None None = Ok o ->
  exists lo hi, extremes (r_tfr o) (zlen x) (zlen x) lo hi /\ (0 < hi)%R /\ (lo < hi)%R.
Proof.
  intros HN (i & Hi & NZ) H. set (N := zlen x) in *. set (ts := TsI (arange 0 N)). assert (TL : ts_len ts = N) by (unfold ts; cbn; rewrite arange_zlen; lia).
  change (wvd x None None) with (wvd x (Some ts) (Some N)) in H. destruct (c93_shapes x ts N [] o ltac:(lia) (or_intror (or_introl H))) as (S & _ & _ & _). rewrite TL in S.
  assert (VE := fun v => view_entries o N N v ltac:(lia) ltac:(lia) S). set (L := concat (v_tfr (rep_view o))) in *.
  assert (NE : L <> []). { intros Q. assert (I : In (Re (at2 (r_tfr o) 0 0)) L) by (apply VE; exists 0, 0; repeat split; lia). rewrite Q in I. destruct I. }
  destruct (rmin_ok L NE) as [lo Elo]. destruct (rmax_ok L NE) as [hi Ehi]. apply rmin_list_spec in Elo. apply rmax_list_spec' in Ehi. destruct Elo as [I1 L1]. destruct Ehi as [I2 L2].
  assert (X : extremes (r_tfr o) N N lo hi). { split; [now apply VE|]. split; [now apply VE|]. intros f c Hf Hc. split; [apply L1|apply L2]; apply VE; eauto. }
  exists lo, hi. split; [exact X|]. destruct X as (_ & _ & B). assert (NP : (0 < IZR N)%R) by (apply IZR_lt; lia).
  assert (MG : forall c, 0 <= c < N -> rsum (arange 0 N) (fun f => Re (at2 (r_tfr o) f c)) = (IZR N * Cmod (cnth x c) ^ 2)%R). { intros c Hc. rewrite <- Re_csum. rewrite (c23_wvd_time_marginal x ts N o c ltac:(lia) H Hc). reflexivity. }
  assert (HI : (0 < hi)%R). { destruct (Rlt_dec 0 hi); [assumption|]. exfalso. assert (M := MG i Hi). assert (P : (0 < Cmod (cnth x i))%R) by now apply Cmod_gt_0. assert (SL : (rsum (arange 0 N) (fun f => Re (at2 (r_tfr o) f i)) <= 0)%R). { apply Rle_trans with (rsum (arange 0 N) (fun _ => 0%R)); [|rewrite rsum_const; lra]. apply rsum_le. intros f Hf. apply in_arange in Hf. apply Rle_trans with hi; [apply B; lia|lra]. } assert (0 < IZR N * Cmod (cnth x i) ^ 2)%R by (apply Rmult_lt_0_compat; [auto|now apply pow_lt]). lra. }
  split; [exact HI|]. destruct (Rlt_dec lo hi) as [|FL]; [assumption|exfalso].
  assert (K : forall f c, 0 <= f < N -> 0 <= c < N -> Re (at2 (r_tfr o) f c) = hi) by (intros f c Hf Hc; specialize (B f c Hf Hc); lra).
  assert (MK : forall c, 0 <= c < N -> (Cmod (cnth x c) ^ 2)%R = hi). { intros c Hc. assert (M := MG c Hc). rewrite (rsum_ext _ _ (fun _ => hi)) in M by (intros f Hf; apply in_arange in Hf; apply K; lia). rewrite rsum_const, len_R in M by lia. apply Rmult_eq_reg_l with (IZR N); lra. }
  assert (MO := c26_wvd_moyal x x ts ts N o o ltac:(lia) eq_refl H H). fold N in MO.
  assert (IP : forall p, inner_par p x x = RtoC (hi * IZR (if p then (N + 1) / 2 else N / 2))). { intros p. rewrite <- even_count by lia. unfold inner_par. fold N. apply csum_ext. intros c Hc. apply in_arange in Hc. destruct (Bool.eqb (Z.even c) p); [|reflexivity]. rewrite <- Cmod2_conj, MK by lia. reflexivity. }
  rewrite (csum_ext _ _ (fun _ => RtoC (IZR N * (hi * hi)))) in MO.
  - rewrite csum_const, len_R, !IP, <- RtoC_mult, !Cmod_R in MO by lia. apply RtoC_inj in MO. rewrite !pow2_abs in MO. set (p := (N + 1) / 2) in *. set (q := N / 2) in *. assert (PQ : p + q = N /\ (p = q \/ p = q + 1)) by (unfold p, q; Z.to_euclidean_division_equations; lia).
    assert (E : (IZR N = IZR (p * p + q * q))%R). { rewrite plus_IZR, !mult_IZR. apply Rmult_eq_reg_l with (IZR N * (hi * hi))%R; [lra|]. apply Rmult_integral_contrapositive. split; [lra|]. apply Rmult_integral_contrapositive. lra. }
    apply eq_IZR in E. nia.
  - intros c Hc. apply in_arange in Hc. rewrite (csum_ext _ _ (fun _ => RtoC (hi * hi))); [rewrite csum_const, len_R, <- RtoC_mult by lia; reflexivity|]. intros f Hf. apply in_arange in Hf. assert (RE : at2 (r_tfr o) f c = RtoC hi). { destruct (c22_wvd_closed_form x ts N o f c ltac:(lia) H ltac:(lia) ltac:(fold N; lia)) as [E1 E2]. rewrite <- E1 in E2. assert (K1 := K f c ltac:(lia) ltac:(lia)). destruct (at2 (r_tfr o) f c) as [u v]. cbn in K1, E2. subst. reflexivity. }
    rewrite RE, Cconj_R, <- RtoC_mult. reflexivity.
Qed.
(** So a default object is always drawn, with either scale. *)
Lemma c99_wvd_default : forall x o k tf sq th, 3 <= zlen x -> (exists i, 0 <= i < zlen x /\ cnth x i <> RtoC 0) -> wvd x None None = Ok o -> (0 < th < 1)%R ->
  exists p, wvd_picture_log k tf sq th o = Ok p.
Proof.
  intros x o k tf sq th HN NZ H Hth. destruct (wvd_contrast x o HN NZ H) as (lo & hi & X & HP & LH). set (N := zlen x) in *. set (ts := TsI (arange 0 N)). assert (TL : ts_len ts = N) by (unfold ts; cbn; rewrite arange_zlen; lia).
  assert (H' := H). change (wvd x None None) with (wvd x (Some ts) (Some N)) in H. destruct (c93_shapes x ts N [] o ltac:(lia) (or_intror (or_introl H))) as (S & EN & ET & EX). rewrite TL in S.
  assert (FR : r_freqs o <> []). { unfold wvd, wvd_run in H. cbn [r_sig r_win r_n r_tfr r_ts r_freqs r_real base_init] in H. destruct (wvd_tfr _ _ _ _ _); [|discriminate]. cbn [bind] in H. okeq H. cbn [r_freqs]. apply ne_zlen. unfold wvd_freqs. rewrite zlen_map_arange by lia. lia. }
  assert (O := c99_outcome k tf sq th o N N lo hi S). rewrite ET, EX in O. specialize (O TL ltac:(lia) ltac:(lia) ltac:(lia) FR X HP ltac:(lra)). fold N in O. destruct (c93_wvd_default x o k tf sq th ltac:(fold N; lia) H') as [p0 P0]. assert (W := c93_wvd k tf sq th o N N S). rewrite ET, EX in W. specialize (W TL ltac:(lia) ltac:(lia) ltac:(lia) FR). fold N in W. rewrite P0 in W.
  unfold log_refusal in O. destruct (refusal k tf N N N); [discriminate W|]. assert (D : (Rmax lo (hi * th) < hi)%R) by (apply Rmax_lub_lt; nra). destruct k, tf; try exact O. destruct (Rlt_dec _ _); [exact O|contradiction].
Qed.
(** Two equal samples have a flat distribution: the levels do not increase. *)
Lemma c99_flat : forall x o sq th, zlen x = 2 -> Cmod (cnth x 0) = Cmod (cnth x 1) -> cnth x 0 <> RtoC 0 -> (0 < th < 1)%R -> wvd x None None = Ok o ->
  wvd_picture_log Kcontour true sq th o = Raise ValueError /\ exists p, wvd_picture Kcontour true sq th o = Ok p.
Proof.
  intros x o sq th L2 EQ NZ Hth H. split; [|apply (c93_wvd_default x o Kcontour true sq th ltac:(lia) H)]. set (ts := TsI (arange 0 2)). assert (TL : ts_len ts = 2) by reflexivity.
  assert (H' : wvd x (Some ts) (Some 2) = Ok o) by (rewrite <- H; unfold wvd, ts; rewrite <- L2; reflexivity). destruct (c93_shapes x ts 2 [] o ltac:(lia) (or_intror (or_introl H'))) as (S & EN & ET & EX). rewrite TL in S.
  assert (FR : r_freqs o <> []). { unfold wvd, wvd_run in H'. cbn [r_sig r_win r_n r_tfr r_ts r_freqs r_real base_init] in H'. destruct (wvd_tfr _ _ _ _ _); [|discriminate]. cbn [bind] in H'. okeq H'. cbn [r_freqs]. apply ne_zlen. unfold wvd_freqs. rewrite zlen_map_arange by lia. lia. }
  set (K := (Cmod (cnth x 0) ^ 2)%R). assert (KP : (0 < K)%R) by (apply pow_lt; now apply Cmod_gt_0).
  assert (V : forall f c, 0 <= f < 2 -> 0 <= c < 2 -> Re (at2 (r_tfr o) f c) = K).
  { intros f c Hf Hc. destruct (c22_wvd_closed_form x ts 2 o f c ltac:(lia) H' Hf ltac:(lia)) as [-> _]. unfold WV. rewrite (csum_single _ 0).
    - rewrite Z.add_0_r, Z.sub_0_r, Z.mul_0_r. change (- 0) with 0. rewrite root_0, sigf_in by lia. rewrite Cmult_1_r, <- Cmod2_conj. cbn [Re RtoC fst]. unfold K. assert (C2 : c = 0 \/ c = 1) by lia. destruct C2 as [-> | ->]; [reflexivity|now rewrite EQ].
    - apply NoDup_arange.
    - apply in_arange. lia.
    - intros u _ NU. destruct (Z_lt_dec (c + u) 0) as [|A1]; [rewrite (sigf_out x (c + u)) by lia; ring|]. destruct (Z_le_dec 2 (c + u)) as [|A2]; [rewrite (sigf_out x (c + u)) by lia; ring|].
      rewrite (sigf_out x (c - u)) by lia. change (Cconj (RtoC 0)) with (Cconj (RtoC 0)). rewrite Cconj_R. ring. }
  assert (X : extremes (r_tfr o) 2 2 K K). { split; [exists 0, 0; repeat split; try lia; apply V; lia|]. split; [exists 0, 0; repeat split; try lia; apply V; lia|]. intros f c Hf Hc. rewrite V by auto. lra. }
  assert (O := c99_outcome Kcontour true sq th o 2 2 K K S). rewrite ET, EX, L2 in O. specialize (O TL ltac:(lia) ltac:(lia) ltac:(lia) FR X KP ltac:(lra)). unfold log_refusal in O. change (refusal Kcontour true 2 2 2) with (@None exn) in O. cbv iota in O. destruct (Rlt_dec _ _) as [Q|Q]; [|exact O]. exfalso. rewrite Rmax_left in Q; nra.
Qed.

Example c99_example : exists o, wvd [RtoC 1; RtoC 2; RtoC 3; RtoC 4] None None = Ok o /\ (exists p, wvd_picture_log Kcontour true false (5 / 100) o = Ok p) /\
  wvd_picture_log Kcontour false false (5 / 100) o = wvd_picture Kcontour false false (5 / 100) o.
Proof.
  destruct (c21_wvd_default [RtoC 1; RtoC 2; RtoC 3; RtoC 4] ltac:(discriminate)) as [_ Hx]. destruct Hx as [o Hx]; [cbn; lia|]. exists o. split; [exact Hx|]. split.
  - apply (c99_wvd_default [RtoC 1; RtoC 2; RtoC 3; RtoC 4] o); [cbn; lia| |exact Hx|lra]. exists 0. split; [cbn; lia|]. change (RtoC 1 <> RtoC 0). intros Q. apply RtoC_inj in Q. lra.
  - destruct (c93_shapes [RtoC 1; RtoC 2; RtoC 3; RtoC 4] (TsI (arange 0 4)) 4 [] o ltac:(lia) (or_intror (or_introl Hx))) as (S & _). apply (c99_ignored _ _ _ _ _ _ _ S); [lia|change (1 <= 4); lia|now left].
Qed.
