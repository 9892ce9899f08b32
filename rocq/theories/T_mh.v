(** C30 - C32: Margenau-Hill, Page and their pseudo variants. *)
From Coq Require Import Reals ZArith List Lia Lra Bool.
From Coquelicot Require Import Coquelicot.
From Verif Require Import Py Scalars CSum DFT Spec M_base M_stft M_cohen P_base P_stft P_wvd P_spec P_mh.
Import ListNotations.
Local Open Scope Z_scope.

Lemma mh_unfold x l n : mh x (Some (TsI l)) (Some n) =
  (tfr <- mh_tfr false x (TsI l) n (zeros2 n (zlen l)) ;;
   Ok (mkrep x (TsI l) n (map RtoC (make_window n)) (base_freqs n) tfr true)).
Proof. reflexivity. Qed.
Lemma page_unfold x l n : page x (Some (TsI l)) (Some n) =
  (tfr <- page_tfr false x (TsI l) n (zeros2 n (zlen l)) ;;
   Ok (mkrep x (TsI l) n (map RtoC (make_window n)) (base_freqs n) tfr true)).
Proof. reflexivity. Qed.

Lemma at2_map_list (F : Z -> list C) l f i ti : nth_error l (Z.to_nat i) = Some ti ->
  at2 (map F l) f i = cnth (F ti) f.
Proof.
  intros H. unfold at2. f_equal. apply nth_error_nth. now rewrite nth_error_map, H.
Qed.

Lemma mh_ret x l n o : 0 < n -> mh x (Some (TsI l)) (Some n) = Ok o ->
  r_tfr o = map (fun ti => map nre (fft (mh_raw x n ti))) l.
Proof.
  intros Hn H. rewrite mh_unfold, mh_tfr_cases in H by auto.
  destruct (forallb _ l); cbn [bind] in H; [|discriminate]. now injection H as <-.
Qed.
Lemma page_ret x l n o : 0 < n -> page x (Some (TsI l)) (Some n) = Ok o ->
  r_tfr o = map (fun ti => map nre (fft (page_raw x n ti))) l.
Proof.
  intros Hn H. rewrite page_unfold, page_tfr_cases in H by auto.
  destruct (forallb _ l); cbn [bind] in H; [|discriminate]. now injection H as <-.
Qed.

Lemma forallb_range_false N l : forallb (in_range N) l = false ->
  exists ti, In ti l /\ ~ (- N <= ti < N).
Proof.
  induction l as [|a l IH]; cbn; [discriminate|]. intros H. apply andb_false_iff in H. destruct H as [H|H].
  - exists a. split; auto. apply in_range_false in H. lia.
  - destruct (IH H) as [t [Ht H']]. eauto.
Qed.
Lemma forallb_range_true N l : forallb (in_range N) l = true -> forall ti, In ti l -> - N <= ti < N.
Proof. intros H ti Hti. rewrite forallb_forall in H. apply in_range_spec, H, Hti. Qed.

(** *** C30 *)
(** The run returns exactly when every timestamp is a valid Python index. *)
Lemma c30_mh_outcome : forall x l n, 1 <= n ->
  ((forall ti, In ti l -> - zlen x <= ti < zlen x) /\
   exists o, mh x (Some (TsI l)) (Some n) = Ok o /\ zlen (r_tfr o) = zlen l /\
     forall c, In c (r_tfr o) -> zlen c = n) \/
  ((exists ti, In ti l /\ ~ (- zlen x <= ti < zlen x)) /\
   mh x (Some (TsI l)) (Some n) = Raise IndexError).
Proof.
  intros x l n Hn. rewrite mh_unfold, mh_tfr_cases by lia.
  destruct (forallb (in_range (zlen x)) l) eqn:E; cbn [bind].
  - left. split; [apply forallb_range_true; auto|]. eexists. split; [reflexivity|]. cbn [r_tfr].
    split; [apply zlen_map|]. intros c Hc. apply in_map_iff in Hc. destruct Hc as [ti [<- _]].
    rewrite zlen_map, fft_zlen. apply scatter_zlen. lia.
  - right. split; auto. apply forallb_range_false; auto.
Qed.
(** Timestamps of floating-point type cannot index the signal. *)
Lemma c30_float_timestamps : forall x l n, 1 <= n -> l <> [] -> mh x (Some (TsF l)) (Some n) = Raise IndexError.
Proof. intros x l n Hn H. destruct l; [congruence|reflexivity]. Qed.


(** Closed form: x[t] is correlated with samples 1 .. min(n,N)-1 (never sample 0). *)
Lemma c30_mh_closed_form : forall x l n o i ti f, 1 <= n ->
  mh x (Some (TsI l)) (Some n) = Ok o -> nth_error l (Z.to_nat i) = Some ti -> 0 <= ti ->
  0 <= f < n ->
  at2 (r_tfr o) f i =
  RtoC (Re (csum (arange 1 (Z.min n (zlen x)))
     (fun k => cnth x ti * Cconj (cnth x k) * root n (- (f * (ti - k)))))%C).
Proof.
  intros x l n o i ti f Hn H Hi Ht Hf. apply mh_ret in H; [|lia]. rewrite H.
  rewrite (at2_map_list (fun ti => map nre (fft (mh_raw x n ti))) l f i ti Hi).
  rewrite cnth_map_re by (rewrite fft_zlen; unfold mh_raw; rewrite scatter_zlen; lia).
  rewrite mh_entry by (auto; lia). unfold pyat. now rewrite (proj2 (Z.ltb_ge ti 0)) by lia.
Qed.

Lemma mh_total x l n o i ti : 1 <= n ->
  mh x (Some (TsI l)) (Some n) = Ok o -> nth_error l (Z.to_nat i) = Some ti -> 0 <= ti ->
  csum (arange 0 n) (fun f => at2 (r_tfr o) f i) =
  RtoC (IZR n * Re (if (1 <=? ti mod n) && (ti mod n <? Z.min n (zlen x))
                    then (cnth x ti * Cconj (cnth x (ti mod n)))%C else RtoC 0)).
Proof.
  intros Hn H Hi Ht.
  rewrite (csum_ext _ _ (fun f => RtoC (Re (csum (arange 1 (Z.min n (zlen x)))
     (fun k => cnth x ti * Cconj (cnth x k) * root n (- (f * (ti - k)))))%C))).
  - rewrite <- RtoC_rsum, <- Re_csum, (exp_total n _ ti (fun k => cnth x ti * Cconj (cnth x k))%C) by lia.
    rewrite Re_scal. do 3 f_equal.
    apply (csum_residue n 1 (Z.min n (zlen x)) ti (fun k => cnth x ti * Cconj (cnth x k))%C); lia.
  - intros f Hf. apply in_arange in Hf. eapply c30_mh_closed_form; eauto.
Qed.

Lemma c30_mh_marginal : forall x l n o i ti, 1 <= n ->
  mh x (Some (TsI l)) (Some n) = Ok o -> nth_error l (Z.to_nat i) = Some ti ->
  1 <= ti < zlen x -> ti < n ->
  csum (arange 0 n) (fun f => at2 (r_tfr o) f i) = RtoC (IZR n * Cmod (cnth x ti) ^ 2).
Proof.
  intros x l n o i ti Hn H Hi Ht Htn. rewrite (mh_total x l n o i ti Hn H Hi) by lia.
  rewrite Z.mod_small by lia.
  rewrite (proj2 (Z.leb_le 1 ti)), (proj2 (Z.ltb_lt ti (Z.min n (zlen x)))) by lia. cbn [andb].
  rewrite <- Cmod2_conj, Re_R. reflexivity.
Qed.

(** At time 0 the column always sums to zero. *)
Lemma c30_mh_time0 : forall x l n o i, 1 <= n ->
  mh x (Some (TsI l)) (Some n) = Ok o -> nth_error l (Z.to_nat i) = Some 0 ->
  csum (arange 0 n) (fun f => at2 (r_tfr o) f i) = RtoC 0.
Proof.
  intros x l n o i Hn H Hi. rewrite (mh_total x l n o i 0 Hn H Hi) by lia.
  rewrite Z.mod_0_l by lia. cbn [Z.leb andb Z.compare]. rewrite Re_R, Rmult_0_r. reflexivity.
Qed.

(** Frequency marginal for default arguments: the spectrum times the conjugate
    spectrum of the signal without its first sample. *)
Lemma c30_mh_freq_marginal : forall x o f, x <> [] -> mh x None None = Ok o -> 0 <= f < zlen x ->
  csum (arange 0 (zlen x)) (fun t => at2 (r_tfr o) f t) =
  RtoC (Re (csum (arange 0 (zlen x)) (fun t => cnth x t * root (zlen x) (- (f * t))) *
            Cconj (csum (arange 1 (zlen x)) (fun k => cnth x k * root (zlen x) (- (f * k)))))%C).
Proof.
  intros x o f Hx H Hf.
  change (mh x None None) with (mh x (Some (TsI (arange 0 (zlen x)))) (Some (zlen x))) in H.
  rewrite (csum_ext _ _ (fun t => RtoC (Re (csum (arange 1 (zlen x))
     (fun k => cnth x t * Cconj (cnth x k) * root (zlen x) (- (f * (t - k)))))%C))).
  - rewrite <- RtoC_rsum, <- Re_csum. do 2 f_equal. rewrite csum_conj, csum_mult.
    apply csum_ext. intros t _. apply csum_ext. intros k _. rewrite Cconj_mult, root_conj.
    replace (- (f * (t - k))) with (- (f * t) + - - (f * k)) by ring. rewrite root_plus. ring.
  - intros t Ht. apply in_arange in Ht.
    rewrite (c30_mh_closed_form x _ (zlen x) o t t f ltac:(lia) H); auto; try lia.
    + now rewrite Z.min_id.
    + rewrite nth_error_arange by lia. f_equal. lia.
Qed.

Lemma c30_refuted : exists x o, mh x None None = Ok o /\
  csum (arange 0 (zlen x)) (fun f => at2 (r_tfr o) f 0) <> RtoC (IZR (zlen x) * Cmod (cnth x 0) ^ 2).
Proof.
  exists [RtoC 1; RtoC 1].
  destruct (c30_mh_outcome [RtoC 1; RtoC 1] (arange 0 2) 2 ltac:(lia)) as [[_ [o [H _]]]|[[ti [H1 H2]] _]].
  - exists o. split; [exact H|]. change (zlen [RtoC 1; RtoC 1]) with 2.
    rewrite (c30_mh_time0 _ _ 2 o 0 ltac:(lia) H eq_refl). change (cnth _ 0) with (RtoC 1).
    rewrite Cmod_1. intros E. apply RtoC_inj in E. lra.
  - exfalso. apply in_arange in H1. apply H2. change (zlen _) with 2. lia.
Qed.

Example c30_example : exists o, mh [RtoC 1; Ci; RtoC 2] None None = Ok o /\
  csum (arange 0 3) (fun f => at2 (r_tfr o) f 2) = RtoC 12.
Proof.
  destruct (c30_mh_outcome [RtoC 1; Ci; RtoC 2] (arange 0 3) 3 ltac:(lia)) as [[_ [o [H _]]]|[[ti [H1 H2]] _]].
  - exists o. split; [exact H|].
    rewrite (c30_mh_marginal [RtoC 1; Ci; RtoC 2] (arange 0 3) 3 o 2 2 ltac:(lia) H eq_refl); [|cbn; lia|lia].
    eval_cnth. rewrite Cmod_R, Rabs_right by lra. f_equal. ring.
  - exfalso. apply in_arange in H1. apply H2. change (zlen _) with 3. lia.
Qed.

(** *** C31 *)
Lemma c31_page_outcome : forall x l n, 1 <= n ->
  ((forall ti, In ti l -> - zlen x <= ti < zlen x) /\
   exists o, page x (Some (TsI l)) (Some n) = Ok o /\ zlen (r_tfr o) = zlen l /\
     forall c, In c (r_tfr o) -> zlen c = n) \/
  ((exists ti, In ti l /\ ~ (- zlen x <= ti < zlen x)) /\
   page x (Some (TsI l)) (Some n) = Raise IndexError).
Proof.
  intros x l n Hn. rewrite page_unfold, page_tfr_cases by lia.
  destruct (forallb (in_range (zlen x)) l) eqn:E; cbn [bind].
  - left. split; [apply forallb_range_true; auto|]. eexists. split; [reflexivity|]. cbn [r_tfr].
    split; [apply zlen_map|]. intros c Hc. apply in_map_iff in Hc. destruct Hc as [ti [<- _]].
    rewrite zlen_map, fft_zlen. apply scatter_zlen. lia.
  - right. split; auto. apply forallb_range_false; auto.
Qed.
Lemma c31_float_timestamps : forall x l n, 1 <= n -> l <> [] -> page x (Some (TsF l)) (Some n) = Raise IndexError.
Proof. intros x l n Hn H. destruct l; [congruence|reflexivity]. Qed.


(** Closed form: x[t] is correlated with every sample 0 .. min(n,N)-1, past or
    future, at lags offset by one. *)
Lemma c31_page_closed_form : forall x l n o i ti f, 1 <= n ->
  page x (Some (TsI l)) (Some n) = Ok o -> nth_error l (Z.to_nat i) = Some ti -> 0 <= ti ->
  0 <= f < n ->
  at2 (r_tfr o) f i =
  RtoC (Re (csum (arange 0 (Z.min n (zlen x)))
     (fun k => cnth x ti * Cconj (cnth x k) * root n (- (f * (ti - 1 - k)))))%C).
Proof.
  intros x l n o i ti f Hn H Hi Ht Hf. apply page_ret in H; [|lia]. rewrite H.
  rewrite (at2_map_list (fun ti => map nre (fft (page_raw x n ti))) l f i ti Hi).
  rewrite cnth_map_re by (rewrite fft_zlen; unfold page_raw; rewrite scatter_zlen; lia).
  rewrite page_entry by (auto; lia). unfold pyat. now rewrite (proj2 (Z.ltb_ge ti 0)) by lia.
Qed.

(** Column sum: the lag-one product instead of the energy. *)
Lemma c31_page_marginal : forall x l n o i ti, 1 <= n ->
  page x (Some (TsI l)) (Some n) = Ok o -> nth_error l (Z.to_nat i) = Some ti ->
  1 <= ti < zlen x -> ti <= n ->
  csum (arange 0 n) (fun f => at2 (r_tfr o) f i) =
  RtoC (IZR n * Re (cnth x ti * Cconj (cnth x (ti - 1)%Z))%C).
Proof.
  intros x l n o i ti Hn H Hi Ht Htn.
  rewrite (csum_ext _ _ (fun f => RtoC (Re (csum (arange 0 (Z.min n (zlen x)))
     (fun k => cnth x ti * Cconj (cnth x k) * root n (- (f * (ti - 1 - k)))))%C))).
  - rewrite <- RtoC_rsum, <- Re_csum, (exp_total n _ (ti - 1) (fun k => cnth x ti * Cconj (cnth x k))%C) by lia.
    rewrite Re_scal. do 3 f_equal.
    rewrite (csum_residue n 0 (Z.min n (zlen x)) (ti - 1) (fun k => cnth x ti * Cconj (cnth x k))%C) by lia.
    rewrite Z.mod_small by lia.
    now rewrite (proj2 (Z.leb_le 0 (ti - 1))), (proj2 (Z.ltb_lt (ti - 1) (Z.min n (zlen x)))) by lia.
  - intros f Hf. apply in_arange in Hf. eapply c31_page_closed_form; eauto. lia.
Qed.

(** The column sum is not n |x[t]|^2. *)
Lemma c31_marginal_refuted : exists x o, page x None None = Ok o /\
  csum (arange 0 (zlen x)) (fun f => at2 (r_tfr o) f 1) <> RtoC (IZR (zlen x) * Cmod (cnth x 1) ^ 2).
Proof.
  exists [RtoC 0; RtoC 1].
  destruct (c31_page_outcome [RtoC 0; RtoC 1] (arange 0 2) 2 ltac:(lia)) as [[_ [o [H _]]]|[[ti [H1 H2]] _]].
  - exists o. split; [exact H|]. change (zlen [RtoC 0; RtoC 1]) with 2.
    rewrite (c31_page_marginal [RtoC 0; RtoC 1] _ 2 o 1 1 ltac:(lia) H eq_refl); [|cbn; lia|lia].
    change (1 - 1) with 0. eval_cnth. rewrite Cmod_1, Cconj_R. intros E. apply RtoC_inj in E.
    rewrite Re_scal, Re_R in E. lra.
  - exfalso. apply in_arange in H1. apply H2. change (zlen _) with 2. lia.
Qed.

(** The representation is not causal: two signals equal up to time 0 have
    different values at time 0. *)
Lemma c31_causal_refuted : exists x y ox oy,
  cnth x 0 = cnth y 0 /\ zlen x = zlen y /\
  page x None None = Ok ox /\ page y None None = Ok oy /\
  at2 (r_tfr ox) 0 0 <> at2 (r_tfr oy) 0 0.
Proof.
  exists [RtoC 1; RtoC 0], [RtoC 1; RtoC 1].
  destruct (c31_page_outcome [RtoC 1; RtoC 0] (arange 0 2) 2 ltac:(lia)) as [[_ [ox [Hx _]]]|[[ti [H1 H2]] _]].
  2:{ exfalso. apply in_arange in H1. apply H2. change (zlen _) with 2. lia. }
  destruct (c31_page_outcome [RtoC 1; RtoC 1] (arange 0 2) 2 ltac:(lia)) as [[_ [oy [Hy _]]]|[[ti [H1 H2]] _]].
  2:{ exfalso. apply in_arange in H1. apply H2. change (zlen _) with 2. lia. }
  exists ox, oy. do 2 (split; [reflexivity|]). split; [exact Hx|]. split; [exact Hy|].
  rewrite (c31_page_closed_form _ _ 2 ox 0 0 0 ltac:(lia) Hx eq_refl) by lia.
  rewrite (c31_page_closed_form _ _ 2 oy 0 0 0 ltac:(lia) Hy eq_refl) by lia.
  intros E. apply RtoC_inj in E. revert E.
  change (zlen [RtoC 1; RtoC 0]) with 2. change (zlen [RtoC 1; RtoC 1]) with 2.
  change (Z.min 2 2) with 2. eval_arange. rewrite !csum_cons, !csum_nil. eval_cnth.
  rewrite !Z.mul_0_l. change (- 0) with 0. rewrite !root_0, !Cconj_R, <- !RtoC_mult, <- !RtoC_plus, !Re_R. lra.
Qed.

Example c31_example : exists o, page [RtoC 1; Ci; RtoC 2] None None = Ok o.
Proof.
  destruct (c31_page_outcome [RtoC 1; Ci; RtoC 2] (arange 0 3) 3 ltac:(lia)) as [[_ [o [H _]]]|[[ti [H1 H2]] _]].
  - eauto.
  - exfalso. apply in_arange in H1. apply H2. change (zlen _) with 3. lia.
Qed.

(** *** C32 *)
(** PseudoMargenauHill returns exactly when there are no more timestamps than
    samples and round(n/2)-1 exceeds the window half-length or the signal length. *)
Lemma c32_pmh_outcome : forall x ts n w, 1 <= n ->
  let returns := ts_len ts = 0 \/
    (ts_len ts <= zlen x /\ ((zlen w - 1) / 2 < round_half n - 1 \/ zlen x < round_half n - 1)) in
  (returns /\ exists o, pmh x (Some ts) (Some n) (Some w) = Ok o) \/
  (~ returns /\ pmh x (Some ts) (Some n) (Some w) = Raise IndexError).
Proof.
  intros x ts n w Hn returns.
  assert (HT : 0 <= ts_len ts) by (destruct ts; apply zlen_nonneg).
  unfold pmh. cbn [bind]. unfold pmh_run, base_init. cbn [r_real r_sig r_win r_n r_tfr r_ts r_freqs].
  unfold pmh_tfr. rewrite zeros2_enum, mapM_map.
  set (T := ts_len ts) in *.
  destruct (forallb (pmh_okc (zlen x) w n) (arange 0 T)) eqn:E.
  - left. rewrite forallb_forall in E. split.
    + unfold returns. destruct (Z.eq_dec T 0) as [|NZ]; [left; auto|right].
      assert (E0 := E 0 ltac:(apply in_arange; lia)). assert (E1 := E (T - 1) ltac:(apply in_arange; lia)).
      unfold pmh_okc, win_lh in E0, E1.
      rewrite andb_true_iff, negb_true_iff, andb_false_iff, orb_false_iff, !Z.leb_gt, Z.ltb_lt in E0, E1. lia.
    + rewrite (mapM_ok _ (fun c => scatter n (pmh_taus (zlen x) w c) (pmh_val x w c))).
      * cbn [bind]. eauto.
      * intros c Hc. assert (Hc' := Hc). apply in_arange in Hc'. rewrite pmh_col_cases by lia. now rewrite E.
  - right. split.
    + intros R. assert (forallb (pmh_okc (zlen x) w n) (arange 0 T) = true); [|congruence].
      apply forallb_forall. intros c Hc. apply in_arange in Hc. unfold pmh_okc, win_lh. unfold returns in R.
      rewrite andb_true_iff, negb_true_iff, andb_false_iff, orb_false_iff, !Z.leb_gt, Z.ltb_lt. lia.
    + rewrite (mapM_raise _ _ IndexError); [reflexivity| |].
      * intros c Hc. apply in_arange in Hc. rewrite pmh_col_cases by lia.
        destruct (pmh_okc (zlen x) w n c); eauto.
      * destruct (existsb (fun c => negb (pmh_okc (zlen x) w n c)) (arange 0 T)) eqn:F.
        -- apply existsb_exists in F. destruct F as [c [Hc F]]. exists c. split; auto.
           apply in_arange in Hc. rewrite pmh_col_cases by lia. apply negb_true_iff in F. now rewrite F.
        -- exfalso. assert (forallb (pmh_okc (zlen x) w n) (arange 0 T) = true); [|congruence].
           apply forallb_forall. intros c Hc. destruct (pmh_okc (zlen x) w n c) eqn:G; auto.
           assert (existsb (fun c => negb (pmh_okc (zlen x) w n c)) (arange 0 T) = true); [|congruence].
           apply existsb_exists. exists c. now rewrite G.
Qed.

(** Closed form whenever it returns. *)
Lemma c32_pmh_closed_form : forall x ts n w o f c, 1 <= n ->
  pmh x (Some ts) (Some n) (Some w) = Ok o -> 0 <= f < n -> 0 <= c < ts_len ts ->
  at2 (r_tfr o) f c =
  csum (arange 0 (zlen x)) (fun k =>
    winf w (c - 1 - k) * cnth x c * Cconj (cnth x k) * root n (- (f * (c - 1 - k))))%C.
Proof.
  intros x ts n w o f c Hn H Hf Hc.
  assert (OK : forall c, 0 <= c < ts_len ts -> pmh_okc (zlen x) w n c = true).
  { intros d Hd. destruct (c32_pmh_outcome x ts n w Hn) as [[R _]|[_ E]]; [|congruence].
    unfold pmh_okc, win_lh.
    rewrite andb_true_iff, negb_true_iff, andb_false_iff, !Z.leb_gt, Z.ltb_lt. lia. }
  unfold pmh in H. cbn [bind] in H. unfold pmh_run, base_init in H. cbn [r_real r_sig r_win r_n r_tfr r_ts r_freqs] in H.
  unfold pmh_tfr in H. rewrite zeros2_enum, mapM_map in H.
  rewrite (mapM_ok _ (fun c => scatter n (pmh_taus (zlen x) w c) (pmh_val x w c))) in H.
  2:{ intros d Hd. apply in_arange in Hd. rewrite pmh_col_cases by lia. now rewrite OK. }
  cbn [bind] in H. injection H as <-. cbn [r_tfr]. rewrite map_map, at2_map by auto.
  specialize (OK c Hc). unfold pmh_okc in OK. rewrite andb_true_iff, Z.ltb_lt in OK.
  assert (B := round_half_bounds n).
  rewrite scatter_fft; auto; try lia.
  2:{ apply NoDup_mod_arange; [lia|]. lia. }
  unfold esum.
  rewrite (csum_ext _ _ (fun t => (fun k => winf w (c - 1 - k) * cnth x c * Cconj (cnth x k) * root n (- (f * (c - 1 - k))))%C (c - 1 - t))).
  - unfold pmh_taus. rewrite (csum_flip _ _ (c - 1) (fun k => winf w (c - 1 - k) * cnth x c * Cconj (cnth x k) * root n (- (f * (c - 1 - k))))%C).
    symmetry. apply csum_incl.
    + apply NoDup_arange.
    + apply NoDup_arange.
    + intros k Hk. apply in_arange in Hk. apply in_arange. lia.
    + intros k Hk Hk'. rewrite in_arange in Hk, Hk'. rewrite winf_lh_out; [ring|]. lia.
  - intros t Ht. unfold pmh_taus in Ht. apply in_arange in Ht.
    unfold pmh_val. replace (c - 1 - (c - 1 - t)) with t by lia. rewrite winf_lh_in by lia.
    replace (c - t - 1) with (c - 1 - t) by lia. reflexivity.
Qed.

(** PseudoPage raises on every input with at least one timestamp. *)
Lemma c32_pseudo_page_always_raises : forall x ts n w,
  0 <= (match n with Some n => n | None => zlen x end) ->
  (match ts with Some t => 0 < ts_len t | None => 0 < zlen x end) ->
  ppage x ts n w = Raise IndexError.
Proof.
  intros x ts n w _ H. unfold ppage. destruct w as [w|]; cbn [bind]; [|reflexivity].
  unfold ppage_run, base_init. cbn [r_tfr].
  set (T := ts_len _). assert (HT : 0 < T).
  { unfold T. destruct ts as [t|]; auto. cbn [ts_len]. rewrite arange_zlen. lia. }
  unfold zeros2. destruct (Z.to_nat T) as [|q] eqn:E; [lia|]. reflexivity.
Qed.

(** Without timestamps there is nothing to index: an empty real matrix comes back. *)
Lemma c32_pseudo_page_empty : forall x n w, 1 <= n ->
  exists o, ppage x (Some (TsI [])) (Some n) (Some w) = Ok o /\ r_tfr o = [] /\ r_real o = true.
Proof. intros x n w _. eexists. split; [reflexivity|split; reflexivity]. Qed.

Example c32_example_ok : exists o,
  pmh (repeat (RtoC 1) 16) None None (Some (repeat (RtoC 1) 3)) = Ok o.
Proof.
  change (pmh (repeat (RtoC 1) 16) None None (Some (repeat (RtoC 1) 3))) with
    (pmh (repeat (RtoC 1) 16) (Some (TsI (arange 0 16))) (Some 16) (Some (repeat (RtoC 1) 3))).
  destruct (c32_pmh_outcome (repeat (RtoC 1) 16) (TsI (arange 0 16)) 16 (repeat (RtoC 1) 3) ltac:(lia)) as [[_ H]|[R _]]; auto.
  exfalso. apply R. right. split; [cbn [ts_len]; rewrite arange_zlen; cbn; lia|]. left. apply Z.ltb_lt. reflexivity.
Qed.
Example c32_example_raise :
  pmh (repeat (RtoC 1) 16) None None (Some (repeat (RtoC 1) 15)) = Raise IndexError.
Proof.
  change (pmh (repeat (RtoC 1) 16) None None (Some (repeat (RtoC 1) 15))) with
    (pmh (repeat (RtoC 1) 16) (Some (TsI (arange 0 16))) (Some 16) (Some (repeat (RtoC 1) 15))).
  destruct (c32_pmh_outcome (repeat (RtoC 1) 16) (TsI (arange 0 16)) 16 (repeat (RtoC 1) 15) ltac:(lia)) as [[[R|[_ [R|R]]] _]|[_ H]]; auto.
Qed.
