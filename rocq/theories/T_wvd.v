(** C21 - C27: the Wigner-Ville distribution. *)
From Coq Require Import Reals ZArith List Lia Lra Bool.
From Coquelicot Require Import Coquelicot.
From Verif Require Import Py Scalars CSum DFT Spec M_base M_stft M_cohen P_base P_stft P_wvd.
Import ListNotations.
Local Open Scope Z_scope.

Lemma wvd_unfold x ts n : wvd x (Some ts) (Some n) =
  (tfr <- wvd_tfr false x (ts_len ts) n (zeros2 n (ts_len ts)) ;;
   Ok (mkrep x ts n (map RtoC (make_window n)) (wvd_freqs n) tfr true)).
Proof. reflexivity. Qed.

Lemma wvd_ret x ts n o : 1 <= n -> wvd x (Some ts) (Some n) = Ok o ->
  ts_len ts = zlen x /\ wvd_fails (zlen x) n = false /\
  wvd_tfr false x (zlen x) n (zeros2 n (zlen x)) = Ok (r_tfr o) /\
  r_freqs o = wvd_freqs n /\ r_ts o = ts.
Proof.
  intros Hn H. rewrite wvd_unfold in H.
  destruct (Z.eqb_spec (ts_len ts) (zlen x)) as [E|E].
  - rewrite E in H. destruct (wvd_fails (zlen x) n) eqn:F.
    + apply wvd_fails_spec in F; [|lia|apply zlen_nonneg].
      rewrite wvd_tfr_raise in H by (auto; lia). discriminate.
    + destruct (wvd_tfr _ _ _ _ _) eqn:G; cbn [bind] in H; [|discriminate].
      injection H as <-. cbn [r_tfr r_freqs r_ts]. auto.
  - unfold wvd_tfr, wvd_cplx in H. rewrite (proj2 (Z.eqb_neq _ _) E) in H. discriminate.
Qed.

Lemma wvd_entry x ts n o f t : 2 <= n -> wvd x (Some ts) (Some n) = Ok o ->
  0 <= f < n -> 0 <= t < zlen x -> at2 (r_tfr o) f t = WV x n f t.
Proof.
  intros Hn H Hf Ht. apply wvd_ret in H; [|lia]. destruct H as [_ [_ [H _]]].
  eapply wvd_closed; eauto.
Qed.

(** *** C21 *)
(** A fresh run either returns an n-by-N matrix with frequency labels k/(2n), or
    raises IndexError; it raises exactly when some column lies between
    round(n/2)+1 and N-round(n/2). *)
Lemma c21_wvd_outcome : forall x ts n, 1 <= n -> ts_len ts = zlen x ->
  ((exists c, 0 <= c < zlen x /\ round_half n + 1 <= c <= zlen x - round_half n) /\
   wvd x (Some ts) (Some n) = Raise IndexError) \/
  ((forall c, 0 <= c < zlen x -> ~ (round_half n + 1 <= c <= zlen x - round_half n)) /\
   exists o, wvd x (Some ts) (Some n) = Ok o /\ r_ts o = ts /\
     zlen (r_tfr o) = zlen x /\ (forall col, In col (r_tfr o) -> zlen col = n) /\
     zlen (r_freqs o) = n /\ forall k, 0 <= k < n -> rnth (r_freqs o) k = (IZR k / (2 * IZR n))%R).
Proof.
  intros x ts n Hn E. assert (HN := zlen_nonneg x). rewrite wvd_unfold, E.
  destruct (wvd_fails (zlen x) n) eqn:F.
  - left. apply wvd_fails_spec in F; try lia. split.
    + destruct F as [c [Hc Hb]]. exists c. split; auto.
      unfold wvd_bad in Hb. rewrite andb_true_iff, !Z.leb_le in Hb. lia.
    + rewrite wvd_tfr_raise by (auto; lia). reflexivity.
  - right. split.
    + intros c Hc Hb. apply (wvd_fails_false (zlen x) n) with (c := c) in F; try lia.
      unfold wvd_bad in F. rewrite andb_false_iff, !Z.leb_gt in F. lia.
    + rewrite wvd_tfr_fresh; [|lia|apply wvd_fails_false; auto; lia]. cbn [bind].
      eexists. split; [reflexivity|]. cbn [r_ts r_tfr r_freqs]. repeat split.
      * rewrite zlen_map_arange; lia.
      * intros col Hc. apply in_map_iff in Hc. destruct Hc as [c [<- _]].
        rewrite zlen_map, fft_zlen. unfold wvd_raw. apply scatter_zlen. lia.
      * unfold wvd_freqs. rewrite zlen_map_arange; lia.
      * intros k Hk. unfold rnth, wvd_freqs. rewrite nth_map_arange by lia. rewrite Z.add_0_l.
        assert (IZR n <> 0%R) by (apply not_0_IZR; lia).
        replace 0.5%R with (/ 2)%R by lra. field. auto.
Qed.

(** With the default number of bins (n = N): failure exactly for N = 5, 9, 13, ... *)
Lemma c21_wvd_default : forall x, x <> [] ->
  (wvd x None None = Raise IndexError <-> zlen x mod 4 = 1 /\ 5 <= zlen x) /\
  (~ (zlen x mod 4 = 1 /\ 5 <= zlen x) -> exists o, wvd x None None = Ok o).
Proof.
  intros x Hx. assert (HN : 1 <= zlen x) by (destruct x; [congruence|unfold zlen; cbn [length]; lia]).
  change (wvd x None None) with (wvd x (Some (TsI (arange 0 (zlen x)))) (Some (zlen x))).
  assert (E : ts_len (TsI (arange 0 (zlen x))) = zlen x) by (cbn [ts_len]; rewrite arange_zlen; lia).
  assert (Hh := round_half_bounds (zlen x)). assert (He := round_half_even (zlen x)).
  assert (Ht := round_half_ties (zlen x)).
  assert (Q : (exists c, 0 <= c < zlen x /\ round_half (zlen x) + 1 <= c <= zlen x - round_half (zlen x))
              <-> zlen x mod 4 = 1 /\ 5 <= zlen x).
  { set (N := zlen x) in *. set (h := round_half N) in *. split.
    - intros [c Hc]. assert (A : 2 * h <> N) by lia. specialize (Ht A).
      apply Zeven_bool_iff, Zeven_ex in Ht. destruct Ht as [m Hm].
      assert (N = 2 * h + 1) by lia. split; [|lia]. subst h. rewrite H, Hm.
      Z.to_euclidean_division_equations; lia.
    - intros [H1 H2]. exists (h + 1).
      assert (2 * h <> N) by (Z.to_euclidean_division_equations; lia).
      specialize (Ht H). apply Zeven_bool_iff, Zeven_ex in Ht. destruct Ht as [m Hm].
      Z.to_euclidean_division_equations; lia. }
  destruct (c21_wvd_outcome x _ (zlen x) HN E) as [[H1 H2]|[H1 [o [H2 _]]]].
  - split; [|intros K; exfalso; apply K, Q; auto]. rewrite H2. split; intros; auto. apply Q; auto.
  - split; [|eauto]. rewrite H2. split; [discriminate|]. intros K. apply Q in K.
    destruct K as [c [K1 K2]]. exfalso. eapply H1; eauto.
Qed.

(** Every request for fewer than N-1 bins fails. *)
Lemma c21_wvd_few_bins : forall x n, 1 <= n <= zlen x - 2 ->
  wvd x None (Some n) = Raise IndexError.
Proof.
  intros x n Hn.
  change (wvd x None (Some n)) with (wvd x (Some (TsI (arange 0 (zlen x)))) (Some n)).
  assert (E : ts_len (TsI (arange 0 (zlen x))) = zlen x) by (cbn [ts_len]; rewrite arange_zlen; lia).
  assert (Hh := round_half_bounds n).
  destruct (c21_wvd_outcome x _ n ltac:(lia) E) as [[_ H]|[H _]]; auto.
  exfalso. apply (H (round_half n + 1)); lia.
Qed.

Lemma c21_wvd_timestamps : forall x ts n, ts_len ts <> zlen x ->
  wvd x (Some ts) (Some n) = Raise ValueError.
Proof.
  intros x ts n H. rewrite wvd_unfold. unfold wvd_tfr, wvd_cplx.
  now rewrite (proj2 (Z.eqb_neq _ _) H).
Qed.

Lemma c21_refuted : exists x : list C, wvd x None None = Raise IndexError.
Proof.
  exists (repeat (RtoC 1) 5). apply c21_wvd_default; [discriminate|]. split; [reflexivity|cbn; lia].
Qed.

Example c21_example : exists o, wvd [RtoC 1; Ci; RtoC 2; RtoC 3] None None = Ok o.
Proof. apply c21_wvd_default; [discriminate|]. cbn. lia. Qed.

(** *** C22 *)
(** The complex matrix before np.real is real. *)
Lemma c22_wvd_real : forall x n m f t, 1 <= n ->
  wvd_cplx false x (zlen x) n (zeros2 n (zlen x)) = Ok m ->
  0 <= f < n -> 0 <= t < zlen x -> Im (at2 m f t) = 0%R.
Proof.
  intros x n m f t Hn H Hf Ht.
  destruct (wvd_fails (zlen x) n) eqn:F.
  - exfalso. apply wvd_fails_spec in F; [|lia|lia].
    assert (G := wvd_tfr_raise x n ltac:(lia) F). unfold wvd_tfr in G. rewrite H in G. discriminate.
  - rewrite wvd_cplx_fresh in H by (try lia; apply wvd_fails_false; auto; lia).
    injection H as <-. rewrite at2_map by auto. rewrite wvd_raw_entry by (auto; lia).
    apply conj_Im0. apply wvd_esum_real.
Qed.

(** What is returned is the full Wigner-Ville sum (no part of it is lost). *)
Lemma c22_wvd_closed_form : forall x ts n o f t, 2 <= n ->
  wvd x (Some ts) (Some n) = Ok o -> 0 <= f < n -> 0 <= t < zlen x ->
  at2 (r_tfr o) f t = WV x n f t /\ Im (WV x n f t) = 0%R.
Proof. intros. split; [eapply wvd_entry; eauto|apply WV_real; auto]. Qed.

Example c22_example : exists o, wvd [RtoC 1; Ci] None None = Ok o /\ at2 (r_tfr o) 1 1 = RtoC 1.
Proof.
  assert (T : ts_len (TsI (arange 0 2)) = zlen [RtoC 1; Ci]) by reflexivity.
  destruct (c21_wvd_outcome [RtoC 1; Ci] (TsI (arange 0 2)) 2 ltac:(lia) T) as [[[c H] _]|[_ [o [H _]]]].
  { exfalso. change (round_half 2) with 1 in H. change (zlen [RtoC 1; Ci]) with 2 in H. lia. }
  exists o. split; [exact H|]. rewrite (wvd_entry _ _ 2 o 1 1 ltac:(lia) H); [|lia|cbn; lia].
  unfold WV. change (zlen [RtoC 1; Ci]) with 2. eval_arange. rewrite !csum_cons, csum_nil.
  unfold sigf. change (zlen [RtoC 1; Ci]) with 2. cbn -[Cmult Cplus Cconj root RtoC]. 
  unfold cnth. cbn -[Cmult Cplus Cconj root RtoC].
  rewrite !root_0, !Cconj_R. change (Pos.to_nat 1) with 1%nat. cbn iota.
  replace (Ci * Cconj Ci)%C with (RtoC 1) by lca. ring.
Qed.

(** *** C23 *)
Lemma c23_wvd_time_marginal : forall x ts n o t, 2 <= n ->
  wvd x (Some ts) (Some n) = Ok o -> 0 <= t < zlen x ->
  csum (arange 0 n) (fun f => at2 (r_tfr o) f t) = RtoC (IZR n * Cmod (cnth x t) ^ 2).
Proof.
  intros x ts n o t Hn H Ht.
  rewrite (csum_ext _ _ (fun f => WV x n f t)).
  - apply WV_time_marginal; auto. apply wvd_ret in H; [|lia]. apply H.
  - intros f Hf. apply in_arange in Hf. eapply wvd_entry; eauto.
Qed.

Lemma c23_wvd_energy : forall x ts n o, 2 <= n ->
  wvd x (Some ts) (Some n) = Ok o ->
  csum (arange 0 (zlen x)) (fun t => csum (arange 0 n) (fun f => at2 (r_tfr o) f t))
  = RtoC (IZR n * energy x).
Proof.
  intros x ts n o Hn H. rewrite energy_nth, <- rsum_scal_l, RtoC_rsum. apply csum_ext.
  intros t Ht. apply in_arange in Ht. eapply c23_wvd_time_marginal; eauto.
Qed.

(** One bin: the single sample is lost, so the marginal needs n >= 2. *)
Lemma c23_one_bin_refuted : exists o, wvd [RtoC 1] None None = Ok o /\
  csum (arange 0 1) (fun f => at2 (r_tfr o) f 0) = RtoC 0.
Proof.
  destruct (c21_wvd_default [RtoC 1] ltac:(discriminate)) as [_ H].
  destruct H as [o H]; [cbn; lia|]. exists o. split; auto.
  change (wvd [RtoC 1] None None) with (wvd [RtoC 1] (Some (TsI (arange 0 1))) (Some 1)) in H.
  apply wvd_ret in H; [|lia]. destruct H as [_ [F [H _]]].
  rewrite wvd_tfr_fresh in H by (try lia; apply wvd_fails_false; auto; cbn; lia).
  apply (f_equal (fun r => match r with Ok v => v | Raise _ => [] end)) in H. cbv beta iota in H.
  rewrite <- H. change (@csum Z (arange 0 1)) with (@csum Z [0]). rewrite csum_cons, csum_nil.
  rewrite at2_map by (cbn; lia).
  rewrite cnth_map_re by (rewrite fft_zlen; unfold wvd_raw; rewrite scatter_zlen; lia).
  rewrite wvd_raw_entry by lia. unfold esum, wvd_taus. change (zlen [RtoC 1]) with 1.
  change (arange _ _) with (@nil Z). rewrite csum_nil. cbn [Re fst]. apply Cplus_0_r.
Qed.

Example c23_example : exists o, wvd [RtoC 3; RtoC 1; RtoC 0; RtoC 2] None None = Ok o /\
  csum (arange 0 4) (fun f => at2 (r_tfr o) f 0) = RtoC 36.
Proof.
  destruct (c21_wvd_default [RtoC 3; RtoC 1; RtoC 0; RtoC 2] ltac:(discriminate)) as [_ H].
  destruct H as [o H]; [cbn; lia|]. exists o. split; auto.
  rewrite (c23_wvd_time_marginal _ _ 4 o 0 ltac:(lia) H ltac:(cbn; lia)).
  f_equal. unfold cnth. cbn [nth Z.to_nat]. rewrite Cmod_R, Rabs_right by lra. cbn. ring.
Qed.

(** *** C24 *)
Lemma c24_wvd_freq_marginal : forall x ts n o k, 2 <= n ->
  wvd x (Some ts) (Some n) = Ok o -> 0 <= k < n ->
  csum (arange 0 (zlen x)) (fun t => at2 (r_tfr o) k t)
  = RtoC ((Cmod (DTFT x n k) ^ 2 + Cmod (DTFT x n (k + n)) ^ 2) / 2) /\
  rnth (r_freqs o) k = (IZR k / (2 * IZR n))%R.
Proof.
  intros x ts n o k Hn H Hk. split.
  - rewrite (csum_ext _ _ (fun t => WV x n k t)).
    + apply WV_freq_marginal. lia.
    + intros t Ht. apply in_arange in Ht. eapply wvd_entry; eauto.
  - apply wvd_ret in H; [|lia]. destruct H as [_ [_ [_ [-> _]]]].
    unfold rnth, wvd_freqs. rewrite nth_map_arange by lia. rewrite Z.add_0_l.
    assert (IZR n <> 0%R) by (apply not_0_IZR; lia).
        replace 0.5%R with (/ 2)%R by lra. field. auto.
Qed.

(** A unit impulse at sample 0 of 4: every row sums to 1. *)
Example c24_example : exists o, wvd [RtoC 1; RtoC 0; RtoC 0; RtoC 0] None None = Ok o /\
  csum (arange 0 4) (fun t => at2 (r_tfr o) 3 t) = RtoC 1.
Proof.
  destruct (c21_wvd_default [RtoC 1; RtoC 0; RtoC 0; RtoC 0] ltac:(discriminate)) as [_ H].
  destruct H as [o H]; [cbn; lia|]. exists o. split; auto.
  destruct (c24_wvd_freq_marginal _ _ 4 o 3 ltac:(lia) H ltac:(lia)) as [K _].
  change (zlen [RtoC 1; RtoC 0; RtoC 0; RtoC 0]) with 4 in K. rewrite K. f_equal.
  assert (D : forall k, DTFT [RtoC 1; RtoC 0; RtoC 0; RtoC 0] 4 k = RtoC 1).
  { intros k. unfold DTFT. change (zlen _) with 4. eval_arange. rewrite !csum_cons, csum_nil.
    eval_cnth. rewrite Z.mul_0_r. change (- 0) with 0. rewrite root_0. ring. }
  rewrite !D, Cmod_1. field.
Qed.

(** *** C25 *)
Lemma c25_wvd_support : forall x ts n o f t a b, 2 <= n ->
  wvd x (Some ts) (Some n) = Ok o -> 0 <= f < n -> 0 <= t < zlen x ->
  (forall k, 0 <= k < zlen x -> k < a \/ b <= k -> cnth x k = RtoC 0) ->
  t < a \/ b <= t -> at2 (r_tfr o) f t = RtoC 0.
Proof.
  intros x ts n o f t a b Hn H Hf Ht Hx Hab. erewrite wvd_entry by eauto.
  destruct Hab as [Ha|Hb].
  - apply (WV_support_lo x n f t (Z.min a (zlen x))); [|lia]. intros k Hk. apply Hx; lia.
  - apply (WV_support_hi x n f t (Z.max b 0)); [|lia]. intros k Hk. apply Hx; lia.
Qed.

Example c25_example : exists o, wvd [RtoC 0; RtoC 1; Ci; RtoC 0] None None = Ok o /\
  at2 (r_tfr o) 2 0 = RtoC 0 /\ at2 (r_tfr o) 2 3 = RtoC 0.
Proof.
  destruct (c21_wvd_default [RtoC 0; RtoC 1; Ci; RtoC 0] ltac:(discriminate)) as [_ H].
  destruct H as [o H]; [cbn; lia|]. exists o. split; auto.
  assert (Hx : forall k, 0 <= k < zlen [RtoC 0; RtoC 1; Ci; RtoC 0] -> k < 1 \/ 3 <= k ->
     cnth [RtoC 0; RtoC 1; Ci; RtoC 0] k = RtoC 0).
  { intros k Hk Hk'. change (zlen _) with 4 in Hk. assert (E : k = 0 \/ k = 3) by lia.
    destruct E as [-> | ->]; reflexivity. }
  split; eapply (c25_wvd_support _ _ 4 o 2 _ 1 3); try exact H; try exact Hx; cbn; lia.
Qed.

(** *** C26 *)
Lemma c26_wvd_moyal : forall x y tx ty n ox oy, 2 <= n -> zlen x = zlen y ->
  wvd x (Some tx) (Some n) = Ok ox -> wvd y (Some ty) (Some n) = Ok oy ->
  csum (arange 0 (zlen x)) (fun t => csum (arange 0 n) (fun f =>
     at2 (r_tfr ox) f t * Cconj (at2 (r_tfr oy) f t)))%C
  = RtoC (IZR n * (Cmod (inner_par true x y) ^ 2 + Cmod (inner_par false x y) ^ 2)).
Proof.
  intros x y tx ty n ox oy Hn E Hx Hy.
  rewrite <- WV_moyal; auto.
  - apply csum_ext. intros t Ht. apply in_arange in Ht. apply csum_ext. intros f Hf.
    apply in_arange in Hf. erewrite (wvd_entry x), (wvd_entry y) by (eauto; lia). reflexivity.
  - apply wvd_ret in Hx; [|lia]. apply Hx.
Qed.

Example c26_example : exists ox oy,
  wvd [RtoC 1; RtoC 1] None None = Ok ox /\ wvd [RtoC 2; RtoC 3] None None = Ok oy /\
  csum (arange 0 2) (fun t => csum (arange 0 2) (fun f =>
     at2 (r_tfr ox) f t * Cconj (at2 (r_tfr oy) f t)))%C = RtoC 26.
Proof.
  destruct (c21_wvd_default [RtoC 1; RtoC 1] ltac:(discriminate)) as [_ Hx].
  destruct Hx as [ox Hx]; [cbn; lia|].
  destruct (c21_wvd_default [RtoC 2; RtoC 3] ltac:(discriminate)) as [_ Hy].
  destruct Hy as [oy Hy]; [cbn; lia|].
  exists ox, oy. split; auto. split; auto.
  etransitivity; [exact (c26_wvd_moyal [RtoC 1; RtoC 1] [RtoC 2; RtoC 3] _ _ 2 ox oy ltac:(lia) eq_refl Hx Hy)|].
  f_equal. unfold inner_par. change (zlen [RtoC 1; RtoC 1]) with 2. eval_arange.
  rewrite !csum_cons, !csum_nil. cbn [Z.even Bool.eqb]. eval_cnth.
  rewrite !Cconj_R, <- !RtoC_mult, <- !RtoC_plus, !Cmod_R, !Rabs_right by lra. ring.
Qed.

(** *** C27 *)
(** Multiplication by exp(i pi m k / n) shifts the rows cyclically by m. *)
Lemma c27_wvd_modulation : forall x ts n m ox oy f t, 2 <= n ->
  wvd x (Some ts) (Some n) = Ok ox -> wvd (modulate (2 * n) m x) (Some ts) (Some n) = Ok oy ->
  0 <= f < n -> 0 <= t < zlen x ->
  at2 (r_tfr oy) ((f + m) mod n) t = at2 (r_tfr ox) f t.
Proof.
  intros x ts n m ox oy f t Hn Hx Hy Hf Ht.
  rewrite (wvd_entry _ _ n oy _ _ Hn Hy); [|apply Z.mod_pos_bound; lia|rewrite modulate_zlen; auto].
  rewrite (wvd_entry _ _ n ox _ _ Hn Hx) by auto.
  rewrite WV_modulate by lia.
  rewrite (Z.mod_eq (f + m) n) by lia.
  replace (f + m - n * ((f + m) / n) - m) with (f + n * (- ((f + m) / n))) by ring.
  apply WV_period. lia.
Qed.

Lemma c27_wvd_scale : forall x ts n c ox oy f t, 2 <= n ->
  wvd x (Some ts) (Some n) = Ok ox -> wvd (scale c x) (Some ts) (Some n) = Ok oy ->
  0 <= f < n -> 0 <= t < zlen x ->
  at2 (r_tfr oy) f t = (RtoC (Cmod c ^ 2) * at2 (r_tfr ox) f t)%C.
Proof.
  intros x ts n c ox oy f t Hn Hx Hy Hf Ht.
  rewrite (wvd_entry _ _ n oy _ _ Hn Hy) by (rewrite ?scale_zlen; auto).
  rewrite (wvd_entry _ _ n ox _ _ Hn Hx) by auto. apply WV_scale.
Qed.

Lemma c27_wvd_parallelogram : forall x y ts n ox oy op om f t, 2 <= n -> zlen x = zlen y ->
  wvd x (Some ts) (Some n) = Ok ox -> wvd y (Some ts) (Some n) = Ok oy ->
  wvd (lincomb (RtoC 1) (RtoC 1) x y) (Some ts) (Some n) = Ok op ->
  wvd (lincomb (RtoC 1) (RtoC (-1)) x y) (Some ts) (Some n) = Ok om ->
  0 <= f < n -> 0 <= t < zlen x ->
  (at2 (r_tfr op) f t + at2 (r_tfr om) f t =
   RtoC 2 * at2 (r_tfr ox) f t + RtoC 2 * at2 (r_tfr oy) f t)%C.
Proof.
  intros x y ts n ox oy op om f t Hn E Hx Hy Hp Hm Hf Ht.
  rewrite (wvd_entry _ _ n op _ _ Hn Hp) by (rewrite ?lincomb_zlen; auto).
  rewrite (wvd_entry _ _ n om _ _ Hn Hm) by (rewrite ?lincomb_zlen; auto).
  rewrite (wvd_entry _ _ n ox _ _ Hn Hx) by auto.
  rewrite (wvd_entry _ _ n oy _ _ Hn Hy) by (rewrite <- ?E; auto).
  apply WV_parallelogram; auto.
Qed.

(** Whether a run returns does not depend on the sample values, so the
    hypotheses above are met together. *)
Lemma c27_wvd_returns_by_shape : forall x y ts n ox, 1 <= n -> zlen x = zlen y ->
  wvd x (Some ts) (Some n) = Ok ox -> exists oy, wvd y (Some ts) (Some n) = Ok oy.
Proof.
  intros x y ts n ox Hn E H. assert (K := H). apply wvd_ret in H; auto. destruct H as [T _].
  destruct (c21_wvd_outcome x ts n Hn T) as [[_ H]|[H _]]; [congruence|].
  destruct (c21_wvd_outcome y ts n Hn ltac:(congruence)) as [[[c [H1 H2]] _]|[_ [oy [H1 _]]]]; eauto.
  rewrite <- E in *. exfalso. eapply H; eauto.
Qed.

Example c27_example : exists ox oy,
  wvd [RtoC 1; Ci; RtoC 2; RtoC 3] None None = Ok ox /\
  wvd (modulate 8 3 [RtoC 1; Ci; RtoC 2; RtoC 3]) None None = Ok oy /\
  at2 (r_tfr oy) 1 2 = at2 (r_tfr ox) 2 2.
Proof.
  destruct (c21_wvd_default [RtoC 1; Ci; RtoC 2; RtoC 3] ltac:(discriminate)) as [_ H].
  destruct H as [ox H]; [cbn; lia|].
  destruct (c27_wvd_returns_by_shape [RtoC 1; Ci; RtoC 2; RtoC 3]
              (modulate 8 3 [RtoC 1; Ci; RtoC 2; RtoC 3]) _ 4 ox
              ltac:(lia) ltac:(now rewrite modulate_zlen) H) as [oy H'].
  exists ox, oy. split; auto. split; [exact H'|].
  apply (c27_wvd_modulation _ _ 4 3 ox oy 2 2 ltac:(lia) H H'); cbn; lia.
Qed.
