(** C17 - C20: the spectrogram. *)
From Coq Require Import Reals ZArith List Lia Lra Bool.
From Coquelicot Require Import Coquelicot.
From Verif Require Import Py Scalars CSum DFT Spec M_base M_stft M_cohen P_base P_stft P_spec T_stft.
Import ListNotations.
Local Open Scope Z_scope.

(** Largest lag kept with [n] bins and window [w]. *)
Definition maxlag (w : list C) (n : Z) : Z := Z.min (round_half n - 1) ((zlen w - 1) / 2).

Lemma spec_out_none x w n ti : spec_out x w n ti = None <->
  (exists k, 0 <= k < zlen x /\ - maxlag w n <= k - (ti - 1) <= maxlag w n) /\
  wenergy x (wincut (maxlag w n) w) (ti - 1) = 0%R.
Proof.
  change (maxlag w n) with (spec_m w n). rewrite <- spec_nrm_0. unfold spec_out.
  destruct (spec_taus (zlen x) w n ti) as [|a l] eqn:E.
  - split; [discriminate|]. intros [[k Hk] _]. exfalso.
    assert (In (k - (ti - 1)) (spec_taus (zlen x) w n ti)) by (apply spec_taus_iff; lia).
    rewrite E in *. auto.
  - assert (I : In a (spec_taus (zlen x) w n ti)) by (rewrite E; left; auto).
    apply spec_taus_iff in I.
    destruct (Req_EM_T (spec_nrm x w n ti) 0); split; auto; try discriminate; try tauto.
    intros _. split; auto. exists (a + (ti - 1)). lia.
Qed.

Lemma spec_out_shape x w n ti col : 0 < n -> spec_out x w n ti = Some col ->
  zlen col = n /\ forall v, In v col -> (0 <= v)%R.
Proof.
  intros Hn H. unfold spec_out in H.
  assert (Q : forall c : list C, zlen c = n -> col = map (fun z => Cmod z ^ 2)%R (fft c) ->
     zlen col = n /\ forall v, In v col -> (0 <= v)%R).
  { intros c Hc ->. split; [now rewrite zlen_map, fft_zlen|].
    intros v Hv. apply in_map_iff in Hv. destruct Hv as [z [<- _]]. apply pow2_ge_0. }
  destruct (spec_taus (zlen x) w n ti); [|destruct Req_EM_T; [discriminate|]]; injection H as <-;
    eapply Q; try reflexivity; [apply zeros_zlen; lia|apply scatter_zlen; lia].
Qed.

(** *** C17 *)
(** A column is NaN exactly when the window overlaps the signal but vanishes on
    the overlap; otherwise it has n non-negative entries. *)
Lemma c17_spectrogram_total : forall x l n w, 1 <= n ->
  exists m, spectrogram x (Some (TsI l)) (Some n) (Some w) = Ok m /\ zlen m = zlen l /\
  forall i ti, nth_error l i = Some ti ->
    ((exists k, 0 <= k < zlen x /\ - maxlag w n <= k - (ti - 1) <= maxlag w n) /\
     wenergy x (wincut (maxlag w n) w) (ti - 1) = 0%R /\ nth_error m i = Some None) \/
    (~ ((exists k, 0 <= k < zlen x /\ - maxlag w n <= k - (ti - 1) <= maxlag w n) /\
     wenergy x (wincut (maxlag w n) w) (ti - 1) = 0%R) /\
     exists col, nth_error m i = Some (Some col) /\ zlen col = n /\ forall v, In v col -> (0 <= v)%R).
Proof.
  intros x l n w Hn. exists (map (spec_out x w n) l).
  split; [apply spectrogram_ok; lia|]. split; [apply zlen_map|].
  intros i ti Hi. rewrite nth_error_map, Hi. cbn [option_map].
  destruct (spec_out x w n ti) as [col|] eqn:E.
  - right. split.
    + intros H. apply spec_out_none in H. congruence.
    + exists col. split; auto. eapply spec_out_shape; eauto. lia.
  - left. apply spec_out_none in E. tauto.
Qed.

Lemma make_window_winf n t : 1 <= n -> - win_lh (map RtoC (make_window n)) <= t <= win_lh (map RtoC (make_window n)) ->
  (0 < Cmod (winf (map RtoC (make_window n)) t))%R.
Proof.
  intros Hn Ht. rewrite winf_lh_in by auto.
  destruct (c08_default_window n Hn) as [Ho [Hl [Hr _]]].
  assert (B := win_lh_bounds (map RtoC (make_window n))).
  unfold cnth. rewrite (map_nth RtoC _ 0%R). fold (rnth (make_window n) (win_lh (map RtoC (make_window n)) + t)).
  rewrite zlen_map in B. rewrite Cmod_R.
  assert (O : zlen (make_window n) = 2 * win_lh (map RtoC (make_window n)) + 1).
  { unfold win_lh in *. rewrite zlen_map in *. apply Zodd_bool_iff, Zodd_ex in Ho. destruct Ho as [q Hq].
    rewrite Hq in *. Z.to_euclidean_division_equations; lia. }
  specialize (Hr (win_lh (map RtoC (make_window n)) + t) ltac:(lia)).
  rewrite Rabs_right by lra. lra.
Qed.

(** The default window never produces NaN. *)
Lemma c17_spectrogram_default_window : forall x l n, 1 <= n ->
  exists m, spectrogram x (Some (TsI l)) (Some n) None = Ok m /\ zlen m = zlen l /\
  forall c, In c m -> exists col, c = Some col /\ zlen col = n /\ forall v, In v col -> (0 <= v)%R.
Proof.
  intros x l n Hn. set (w := map RtoC (make_window n)).
  change (spectrogram x (Some (TsI l)) (Some n) None) with (spectrogram x (Some (TsI l)) (Some n) (Some w)).
  exists (map (spec_out x w n) l).
  split; [apply spectrogram_ok; lia|]. split; [apply zlen_map|].
  intros c Hc. apply in_map_iff in Hc. destruct Hc as [ti [<- _]].
  destruct (spec_out x w n ti) as [col|] eqn:E.
  - exists col. split; auto. eapply spec_out_shape; eauto. lia.
  - exfalso. apply spec_out_none in E. destruct E as [[k [Hk Hm]] E].
    unfold wenergy in E. apply rsum_nonneg_0 with (a := k) in E.
    + unfold wincut in E. rewrite !(proj2 (Z.leb_le _ _)) in E by lia. cbn [andb] in E.
      assert (P : (0 < Cmod (winf w (k - (ti - 1))))%R).
      { apply make_window_winf; auto. fold w. unfold maxlag, win_lh in *. lia. }
      revert E. apply pow_nonzero. lra.
    + intros. apply pow2_ge_0.
    + apply in_arange. auto.
Qed.

(** Floating-point timestamps are rejected. *)
Lemma c17_float_timestamps : forall x l n w, 0 <= (match n with Some n => n | None => zlen x end) -> l <> [] ->
  spectrogram x (Some (TsF l)) n w = Raise IndexError.
Proof. intros x l n w _ H. destruct l; [congruence|reflexivity]. Qed.

(** A window of zeros gives a NaN column. *)
Lemma c17_nan_refuted : exists (x w : list C) m,
  spectrogram x None None (Some w) = Ok m /\ In None m.
Proof.
  set (x := repeat (RtoC 1) 4). set (w := [RtoC 0]).
  destruct (c17_spectrogram_total x (arange 0 4) 4 w ltac:(lia)) as [m [H [_ H2]]].
  exists x, w, m. split; [exact H|].
  destruct (H2 1%nat 1 eq_refl) as [[_ [_ E]]|[E _]].
  - eapply nth_error_In; eauto.
  - exfalso. apply E. split.
    + exists 0. split; [cbn; lia|]. split; apply Z.leb_le; reflexivity.
    + assert (Z0 : forall t, winf w t = RtoC 0).
      { intros t. unfold winf. change ((zlen w - 1) / 2) with 0.
        destruct (Z.leb_spec (- 0) t), (Z.leb_spec t 0); auto. assert (t = 0) by lia. subst. reflexivity. }
      unfold wenergy. apply rsum_0. intros k _. unfold wincut. rewrite Z0.
      match goal with |- context [if ?b then _ else _] => destruct b end; rewrite Cmod_0; ring.
Qed.

Example c17_example : exists m, spectrogram [RtoC 1; Ci; RtoC 2] None None None = Ok m /\ zlen m = 3.
Proof.
  destruct (c17_spectrogram_default_window [RtoC 1; Ci; RtoC 2] (arange 0 3) 3 ltac:(lia)) as [m [H [L _]]].
  exists m. split; [exact H|]. rewrite L. reflexivity.
Qed.

(** *** C18 *)
(** Mean over frequency = |w|^2-weighted mean of |x|^2 around sample t-1. *)
Lemma c18_spectrogram_weighted_mean : forall x l n w m i ti col, 1 <= n ->
  spectrogram x (Some (TsI l)) (Some n) (Some w) = Ok m ->
  nth_error l i = Some ti -> nth_error m i = Some (Some col) ->
  (exists k, 0 <= k < zlen x /\ - maxlag w n <= k - (ti - 1) <= maxlag w n) ->
  (wenergy x (wincut (maxlag w n) w) (ti - 1) <> 0 /\
   rsum (arange 0 n) (rnth col) / IZR n =
   xwenergy x (wincut (maxlag w n) w) (ti - 1) / wenergy x (wincut (maxlag w n) w) (ti - 1))%R.
Proof.
  intros x l n w m i ti col Hn H Hi Hm Hk. rewrite spectrogram_ok in H by lia. injection H as <-.
  rewrite nth_error_map, Hi in Hm. cbn [option_map] in Hm. injection Hm as Hm.
  assert (Hw : wenergy x (wincut (maxlag w n) w) (ti - 1) <> 0%R).
  { intros E. assert (spec_out x w n ti = None) by (apply spec_out_none; auto). congruence. }
  split; auto. assert (T := spec_total x w n ti col ltac:(lia) Hm).
  change (spec_m w n) with (maxlag w n) in T.
  assert (Hn0 : IZR n <> 0%R) by (apply not_0_IZR; lia).
  apply (Rmult_eq_reg_r (IZR n * wenergy x (wincut (maxlag w n) w) (ti - 1))).
  - transitivity (rsum (arange 0 n) (rnth col) * wenergy x (wincut (maxlag w n) w) (ti - 1))%R.
    + field. auto.
    + change (rsum (arange 0 n) (rnth col)) with (rsum (arange 0 n) (fun f => rnth col f)). rewrite T. field. auto.
  - apply Rmult_integral_contrapositive. auto.
Qed.

(** Hence the mean lies between any bounds for |x|^2 on the window support. *)
Lemma c18_spectrogram_mean_bounds : forall x l n w m i ti col a b, 1 <= n ->
  spectrogram x (Some (TsI l)) (Some n) (Some w) = Ok m ->
  nth_error l i = Some ti -> nth_error m i = Some (Some col) ->
  (exists k, 0 <= k < zlen x /\ - maxlag w n <= k - (ti - 1) <= maxlag w n) ->
  (forall k, 0 <= k < zlen x -> - maxlag w n <= k - (ti - 1) <= maxlag w n ->
     (a <= Cmod (cnth x k) ^ 2 <= b)%R) ->
  (a <= rsum (arange 0 n) (rnth col) / IZR n <= b)%R.
Proof.
  intros x l n w m i ti col a b Hn H Hi Hm Hk Hab.
  destruct (c18_spectrogram_weighted_mean x l n w m i ti col Hn H Hi Hm Hk) as [W ->].
  assert (P : (0 < wenergy x (wincut (maxlag w n) w) (ti - 1))%R).
  { generalize (wenergy_nonneg x (wincut (maxlag w n) w) (ti - 1)). lra. }
  assert (B : (a * wenergy x (wincut (maxlag w n) w) (ti - 1) <= xwenergy x (wincut (maxlag w n) w) (ti - 1)
              <= b * wenergy x (wincut (maxlag w n) w) (ti - 1))%R).
  { unfold wenergy, xwenergy. rewrite <- !rsum_scal_l.
    split; apply rsum_le; intros k Hk'; apply in_arange in Hk'; unfold wincut;
    destruct (Z.leb_spec (- maxlag w n) (k - (ti - 1))), (Z.leb_spec (k - (ti - 1)) (maxlag w n)); cbn [andb];
      try (rewrite Cmod_0; lra);
    apply Rmult_le_compat_r; try apply pow2_ge_0; apply Hab; lia. }
  split; apply (Rmult_le_reg_r (wenergy x (wincut (maxlag w n) w) (ti - 1))); auto;
   unfold Rdiv; rewrite Rmult_assoc, Rinv_l, Rmult_1_r by lra; lra.
Qed.

Lemma c18_spectrogram_unimodular : forall x l n w m i ti col, 1 <= n ->
  spectrogram x (Some (TsI l)) (Some n) (Some w) = Ok m ->
  nth_error l i = Some ti -> nth_error m i = Some (Some col) ->
  (exists k, 0 <= k < zlen x /\ - maxlag w n <= k - (ti - 1) <= maxlag w n) ->
  (forall k, 0 <= k < zlen x -> Cmod (cnth x k) = 1%R) ->
  (rsum (arange 0 n) (rnth col) / IZR n = 1)%R.
Proof.
  intros x l n w m i ti col Hn H Hi Hm Hk Hx.
  assert (B := c18_spectrogram_mean_bounds x l n w m i ti col 1 1 Hn H Hi Hm Hk).
  assert (B' : (1 <= rsum (arange 0 n) (rnth col) / IZR n <= 1)%R).
  { apply B. intros k Hk' _. rewrite Hx by auto. lra. }
  lra.
Qed.

(** The total over all default columns is not the signal energy: the last
    sample is never the centre of a column. *)
Lemma c18_energy_refuted : exists x m, energy x = 1%R /\
  spectrogram x None None (Some [RtoC 1]) = Ok m /\
  forall c, In c m -> exists col, c = Some col /\ rsum (arange 0 (zlen x)) (rnth col) = 0%R.
Proof.
  set (x := [RtoC 0; RtoC 1]). exists x. eexists. split.
  { unfold energy, x. rewrite !rsum_cons, rsum_nil, Cmod_0, Cmod_1. ring. }
  split. { change (spectrogram x None None (Some [RtoC 1])) with (spectrogram x (Some (TsI (arange 0 2))) (Some 2) (Some [RtoC 1])).
    apply spectrogram_ok. lia. }
  change (zlen x) with 2.
  assert (M : maxlag [RtoC 1] 2 = 0) by reflexivity.
  intros c Hc. apply in_map_iff in Hc. destruct Hc as [ti [<- Hti]]. apply in_arange in Hti.
  assert (E : ti = 0 \/ ti = 1) by lia. destruct E as [-> | ->].
  - unfold spec_out. change (spec_taus (zlen x) [RtoC 1] 2 0) with (@nil Z). eexists. split; [reflexivity|].
    apply rsum_0. intros f Hf. apply in_arange in Hf. unfold rnth.
    assert (F : forall v, In v (map (fun z : C => (Cmod z ^ 2)%R) (fft (zeros (T:=C) 2))) -> v = 0%R).
    { intros v Hv. apply in_map_iff in Hv. destruct Hv as [z [<- Hz]].
      apply In_nth with (d := RtoC 0) in Hz. destruct Hz as [q [Hq <-]].
      rewrite fft_length in Hq. change (length (zeros (T:=C) 2)) with 2%nat in Hq.
      replace (nth q (fft (zeros (T:=C) 2)) (RtoC 0)) with (cnth (fft (scatter 2 [] (fun _ => RtoC 0))) (Z.of_nat q)).
      - rewrite scatter_fft by (try lia; constructor). unfold esum. rewrite csum_nil, Cmod_0. ring.
      - unfold cnth. now rewrite Nat2Z.id. }
    destruct (nth_in_or_default (Z.to_nat f) (map (fun z : C => (Cmod z ^ 2)%R) (fft (zeros (T:=C) 2))) 0%R); auto.
  - assert (Hn : exists k, 0 <= k < zlen x /\ - maxlag [RtoC 1] 2 <= k - (1 - 1) <= maxlag [RtoC 1] 2).
    { exists 0. rewrite M. cbn. lia. }
    destruct (spec_out x [RtoC 1] 2 1) as [col|] eqn:E.
    + exists col. split; auto.
      assert (T := spec_total x [RtoC 1] 2 1 col ltac:(lia) E).
      change (spec_m [RtoC 1] 2) with 0 in T.
      unfold wenergy, xwenergy in T. change (zlen x) with 2 in T.
      change (arange 0 2) with [0; 1] in T at 2 3. rewrite !rsum_cons, !rsum_nil in T.
      unfold wincut, winf in T. change ((zlen [RtoC 1] - 1) / 2) with 0 in T.
      change (1 - (1 - 1)) with 1 in T. change (0 - (1 - 1)) with 0 in T.
      cbn [Z.leb andb Z.opp Z.compare] in T. change (0 + 0) with 0 in T.
      change (cnth [RtoC 1] 0) with (RtoC 1) in T. change (cnth x 0) with (RtoC 0) in T.
      rewrite !Cmod_0, Cmod_1 in T. change (rsum (arange 0 2) (rnth col) = 0)%R.
      change (fun f => rnth col f) with (rnth col) in T. lra.
    + exfalso. apply spec_out_none in E. destruct E as [_ E].
      rewrite M in E. unfold wenergy in E. change (zlen x) with 2 in E. change (arange 0 2) with [0; 1] in E.
      rewrite !rsum_cons, rsum_nil in E. unfold wincut, winf in E. change ((zlen [RtoC 1] - 1) / 2) with 0 in E.
      change (1 - (1 - 1)) with 1 in E. change (0 - (1 - 1)) with 0 in E.
      cbn [Z.leb andb Z.opp Z.compare] in E. change (0 + 0) with 0 in E.
      change (cnth [RtoC 1] 0) with (RtoC 1) in E. rewrite Cmod_0, Cmod_1 in E. lra.
Qed.

Example c18_example : exists m col,
  spectrogram [RtoC 2; Ci; RtoC 3; RtoC 1] (Some (TsI [3])) (Some 4) (Some [RtoC 1]) = Ok m /\
  nth_error m 0 = Some (Some col) /\ (rsum (arange 0 4) (rnth col) / 4 = 9)%R.
Proof.
  set (x := [RtoC 2; Ci; RtoC 3; RtoC 1]). set (w := [RtoC 1]).
  destruct (c17_spectrogram_total x [3] 4 w ltac:(lia)) as [m [H [_ H2]]].
  assert (K : exists k, 0 <= k < zlen x /\ - maxlag w 4 <= k - (3 - 1) <= maxlag w 4).
  { exists 2. split; [cbn; lia|]. split; apply Z.leb_le; reflexivity. }
  destruct (H2 0%nat 3 eq_refl) as [[_ [E _]]|[_ [col [E _]]]].
  - exfalso. change (maxlag w 4) with 0 in E. unfold wenergy in E.
    apply rsum_nonneg_0 with (a := 2) in E; [|intros; apply pow2_ge_0|apply in_arange; cbn; lia].
    change (wincut 0 w (2 - (3 - 1))) with (RtoC 1) in E. rewrite Cmod_1 in E. lra.
  - exists m, col. split; auto. split; auto.
    assert (B := c18_spectrogram_mean_bounds x [3] 4 w m 0 3 col 9 9 ltac:(lia) H eq_refl E K).
    assert ((9 <= rsum (arange 0 4) (rnth col) / 4 <= 9)%R); [|lra].
    apply B. intros k Hk Hm. change (maxlag w 4) with 0 in Hm. assert (k = 2) by lia. subst.
    change (cnth x 2) with (RtoC 3). rewrite Cmod_R, Rabs_right by lra. lra.
Qed.

(** *** C19 *)
Lemma STFTw_scale c x v n f t : STFTw (scale c x) v n f t = (c * STFTw x v n f t)%C.
Proof.
  unfold STFTw. rewrite scale_zlen, <- csum_scal_l. apply csum_ext. intros k Hk. apply in_arange in Hk.
  rewrite scale_nth by auto. ring.
Qed.

Lemma spec_out_empty_0 x w n ti col f : 0 < n -> 0 <= f < n -> spec_out x w n ti = Some col ->
  wenergy x (wincut (maxlag w n) w) (ti - 1) = 0%R -> rnth col f = 0%R.
Proof.
  intros Hn Hf H W. assert (E : spec_taus (zlen x) w n ti = []).
  { destruct (spec_taus (zlen x) w n ti) as [|a l] eqn:E; auto. exfalso.
    assert (I : In a (spec_taus (zlen x) w n ti)) by (rewrite E; left; auto).
    apply spec_taus_iff in I. assert (spec_out x w n ti = None); [|congruence].
    apply spec_out_none. split; auto. exists (a + (ti - 1)). change (maxlag w n) with (spec_m w n). lia. }
  unfold spec_out in H. rewrite E in H. injection H as <-.
  assert (L : (Z.to_nat f < length (fft (zeros (T:=C) n)))%nat).
  { rewrite fft_length. unfold zeros. rewrite repeat_length. lia. }
  unfold rnth. rewrite (nth_indep _ _ ((fun z => Cmod z ^ 2)%R (RtoC 0))) by (now rewrite map_length).
  rewrite (map_nth (fun z => Cmod z ^ 2)%R). fold (cnth (fft (zeros n)) f).
  change (zeros n) with (scatter n [] (fun _ => RtoC 0)).
  rewrite scatter_fft by (auto; constructor). unfold esum. rewrite csum_nil, Cmod_0. ring.
Qed.

(** Multiplying the signal by c multiplies every entry by |c|^2, NaN columns
    staying NaN. *)
Lemma c19_spectrogram_scale : forall x l n w c, 1 <= n ->
  exists m m', spectrogram x (Some (TsI l)) (Some n) (Some w) = Ok m /\
  spectrogram (scale c x) (Some (TsI l)) (Some n) (Some w) = Ok m' /\
  forall i, (nth_error m i = Some None <-> nth_error m' i = Some None) /\
  forall col col', nth_error m i = Some (Some col) -> nth_error m' i = Some (Some col') ->
  forall f, 0 <= f < n -> rnth col' f = (Cmod c ^ 2 * rnth col f)%R.
Proof.
  intros x l n w c Hn. exists (map (spec_out x w n) l), (map (spec_out (scale c x) w n) l).
  split; [apply spectrogram_ok; lia|]. split; [apply spectrogram_ok; lia|].
  intros i. rewrite !nth_error_map. destruct (nth_error l i) as [ti|]; cbn [option_map].
  2:{ split; [tauto|discriminate]. }
  assert (WE : wenergy (scale c x) (wincut (maxlag w n) w) (ti - 1) = wenergy x (wincut (maxlag w n) w) (ti - 1)).
  { unfold wenergy. now rewrite scale_zlen. }
  split.
  - assert (A := spec_out_none x w n ti). assert (B := spec_out_none (scale c x) w n ti).
    rewrite scale_zlen, WE in B. 
    split; intros [= H]; f_equal; [apply B, A|apply A, B]; auto.
  - intros col col' [= H] [= H'] f Hf.
    destruct (Req_dec (wenergy x (wincut (maxlag w n) w) (ti - 1)) 0) as [Z|Z].
    + rewrite (spec_out_empty_0 x w n ti col f), (spec_out_empty_0 (scale c x) w n ti col' f); auto; try lia; try congruence.
      ring.
    + assert (A := spec_entry x w n ti col f ltac:(lia) Hf H).
      assert (B := spec_entry (scale c x) w n ti col' f ltac:(lia) Hf H').
      change (spec_m w n) with (maxlag w n) in *. rewrite WE, STFTw_scale, Cmod_mult in B.
      apply (Rmult_eq_reg_r (wenergy x (wincut (maxlag w n) w) (ti - 1))); auto.
      rewrite B, Rmult_assoc, A. ring.
Qed.

Example c19_example : exists m m',
  spectrogram [RtoC 1; Ci; RtoC 2] None None None = Ok m /\
  spectrogram (scale (RtoC 3 * Ci)%C [RtoC 1; Ci; RtoC 2]) None None None = Ok m'.
Proof.
  destruct (c19_spectrogram_scale [RtoC 1; Ci; RtoC 2] (arange 0 3) 3 (map RtoC (make_window 3))
     (RtoC 3 * Ci)%C ltac:(lia)) as [m [m' [H [H' _]]]]. eauto.
Qed.

(** *** C20 *)
Lemma c20_spectrogram_is_stft : forall x l n w, 1 <= n -> (zlen w - 1) / 2 <= round_half n - 1 ->
  exists o m, stft x (Some (TsI l)) (Some n) (Some w) = Ok o /\
  spectrogram x (Some (TsI l)) (Some n) (Some w) = Ok m /\
  forall c col f, nth_error l (Z.to_nat c) = Some c -> 0 <= c ->
    nth_error m (Z.to_nat c) = Some (Some col) -> 0 <= f < n ->
    (rnth col f * wenergy x (winf w) (c - 1) = Cmod (at2 (r_tfr o) f c) ^ 2)%R.
Proof.
  intros x l n w Hn Hw. assert (Hh := round_half_bounds n).
  destruct (c09_stft_total x (TsI l) n w Hn) as [o [Ho [_ [_ _]]]].
  exists o, (map (spec_out x w n) l). split; auto. split; [apply spectrogram_ok; lia|].
  intros c col f Hl Hc Hm Hf. rewrite nth_error_map, Hl in Hm. cbn [option_map] in Hm. injection Hm as Hm.
  assert (A := spec_entry x w n c col f ltac:(lia) Hf Hm).
  assert (Lc : c < zlen l).
  { assert (K : (Z.to_nat c < length l)%nat) by (apply nth_error_Some; congruence). unfold zlen. lia. }
  destruct (c11_stft_closed_form x (TsI l) n w f c Hn ltac:(lia) Hf ltac:(cbn [ts_len]; lia)) as [o' [Ho' E]].
  rewrite Ho in Ho'. injection Ho' as <-. rewrite E.
  assert (V : forall k, wincut (spec_m w n) w k = winf w k).
  { intros k. unfold spec_m. unfold win_lh at 1. rewrite Z.min_r by lia. unfold wincut, winf.
    match goal with |- context [if ?b then _ else _] => destruct b end; auto. }
  replace (wenergy x (winf w) (c - 1)) with (wenergy x (wincut (spec_m w n) w) (c - 1)).
  - rewrite A. do 2 f_equal. unfold STFTw, STFT. apply csum_ext. intros k Hk. apply in_arange in Hk.
    rewrite V, sigf_in by auto. reflexivity.
  - unfold wenergy. apply rsum_ext. intros k _. now rewrite V.
Qed.

Example c20_example : exists o m,
  stft [RtoC 1; Ci; RtoC 2; RtoC 1] None None (Some [RtoC 1; RtoC 2; RtoC 1]) = Ok o /\
  spectrogram [RtoC 1; Ci; RtoC 2; RtoC 1] None None (Some [RtoC 1; RtoC 2; RtoC 1]) = Ok m /\
  nth_error (arange 0 4) (Z.to_nat 2) = Some 2.
Proof.
  destruct (c20_spectrogram_is_stft [RtoC 1; Ci; RtoC 2; RtoC 1] (arange 0 4) 4 [RtoC 1; RtoC 2; RtoC 1] ltac:(lia))
    as [o [m [H [H' _]]]]; [cbn; lia|]. exists o, m. auto.
Qed.
