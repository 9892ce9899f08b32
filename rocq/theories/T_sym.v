(** C113: representations of a real signal are symmetric in frequency. *)
From Coq Require Import Reals ZArith List Lia Lra Bool.
From Coquelicot Require Import Coquelicot.
From Verif Require Import Py Scalars CSum DFT Spec M_base M_stft M_cohen M_amb P_base P_stft P_wvd P_pwvd P_spec P_mh T_stft T_wvd T_pwvd T_spec T_mh T_amb T_again.
Import ListNotations.
Local Open Scope Z_scope.

Definition real_valued (l : list C) : Prop := forall k, 0 <= k < zlen l -> Im (cnth l k) = 0%R.

Lemma real_cnth l k : real_valued l -> Cconj (cnth l k) = cnth l k.
Proof.
  intros H. assert (E : Im (cnth l k) = 0%R).
  { destruct (Z_lt_dec k 0) as [A|A].
    - unfold cnth. replace (Z.to_nat k) with 0%nat by lia. destruct l as [|v l]; [reflexivity|]. apply (H 0). unfold zlen. cbn [length]. lia.
    - destruct (Z_lt_dec k (zlen l)) as [B|B]; [apply H; lia|]. unfold cnth. rewrite nth_overflow by (unfold zlen in B; lia). reflexivity. }
  apply injective_projections; cbn; auto. unfold Im in E. rewrite E. ring.
Qed.
Lemma fft_hermitian l f : real_valued l -> 1 <= f < zlen l -> cnth (fft l) (zlen l - f) = Cconj (cnth (fft l) f).
Proof.
  intros H Hf. rewrite !fft_nth by lia. rewrite csum_conj. apply csum_ext. intros k _. rewrite Cconj_mult, (real_cnth l k H), root_conj. f_equal.
  replace (- ((zlen l - f) * k)) with (- - (f * k) + zlen l * (- k)) by ring. now rewrite root_period by lia.
Qed.
Lemma puts_real (l : list C) ivs : real_valued l -> (forall i v, In (i, v) ivs -> Im v = 0%R) -> real_valued (puts l ivs).
Proof.
  revert l. induction ivs as [|[i v] ivs IH]; intros l H HV; cbn [puts]; auto. apply IH; [|intros; eapply HV; right; eauto].
  intros k Hk. rewrite upd_zlen in Hk. unfold cnth. destruct (Nat.eq_dec (Z.to_nat k) (Z.to_nat i)) as [E|E].
  - rewrite E, nth_upd_eq by (unfold zlen in Hk; lia). apply (HV i). left. auto.
  - rewrite nth_upd_neq by auto. apply H. auto.
Qed.
Lemma scatter_real n ts g : 0 < n -> (forall t, In t ts -> Im (g t) = 0%R) -> real_valued (scatter n ts g).
Proof.
  intros Hn H. unfold scatter. apply puts_real.
  - intros k _. rewrite cnth_zeros. reflexivity.
  - intros i v I. apply in_map_iff in I. destruct I as (t & E & It). assert (v = g t) by congruence. subst v. auto.
Qed.
Lemma Im_fixed z : Cconj z = z -> Im z = 0%R.
Proof. intros E. apply (f_equal Im) in E. unfold Cconj, Im in *. cbn in E. unfold Im. lra. Qed.
Lemma fft_scatter_hermitian n ts g f : 1 <= f < n -> (forall t, In t ts -> Cconj (g t) = g t) ->
  cnth (fft (scatter n ts g)) (n - f) = Cconj (cnth (fft (scatter n ts g)) f).
Proof.
  intros Hf H. assert (L : zlen (scatter n ts g) = n) by (apply scatter_zlen; lia). assert (R : real_valued (scatter n ts g)); [|assert (Q := fft_hermitian _ f R ltac:(lia)); rewrite L in Q; exact Q].
  apply scatter_real; [lia|]. intros t It. apply Im_fixed. auto.
Qed.

(** Short-time Fourier transform: row n - f is the conjugate of row f. *)
Lemma c113_stft : forall x ts n w o f c, real_valued x -> real_valued w -> stft x (Some ts) (Some n) (Some w) = Ok o -> 1 <= f < n -> 0 <= c < ts_len ts ->
  at2 (r_tfr o) (n - f) c = Cconj (at2 (r_tfr o) f c).
Proof.
  intros x ts n w o f c Hx Hw H Hf Hc. unfold stft, stft_run in H. cbn [r_sig r_win r_n r_tfr r_ts r_freqs r_real base_init] in H. rewrite stft_tfr_fresh in H by lia. cbn [bind] in H.
  match type of H with Ok ?a = Ok _ => assert (E : a = o) by congruence end. rewrite <- E. cbn [r_tfr]. rewrite !at2_map by lia. apply fft_scatter_hermitian; auto.
  intros t _. unfold stft_val. rewrite Cconj_mult, Cconj_invol, !real_cnth by auto. reflexivity.
Qed.
(** Spectrogram: the rows f and n - f are equal. *)
Lemma c113_spectrogram : forall x l n w m i col f, real_valued x -> real_valued w -> spectrogram x (Some (TsI l)) (Some n) (Some w) = Ok m ->
  nth_error m i = Some (Some col) -> 1 <= f < n -> rnth col (n - f) = rnth col f.
Proof.
  intros x l n w m i col f Hx Hw H Hi Hf. rewrite spectrogram_ok in H by lia. assert (E : map (spec_out x w n) l = m) by congruence. rewrite <- E, nth_error_map in Hi. destruct (nth_error l i) as [ti|]; [|discriminate]. cbn [option_map] in Hi.
  assert (O : spec_out x w n ti = Some col) by congruence. clear Hi H E.
  assert (G : forall v, (forall k, 1 <= k < n -> cnth v (n - k) = Cconj (cnth v k)) -> zlen v = n -> rnth (map (fun z => Cmod z ^ 2)%R v) (n - f) = rnth (map (fun z => Cmod z ^ 2)%R v) f).
  { intros v V L. assert (K : forall k, 0 <= k < n -> rnth (map (fun z => Cmod z ^ 2)%R v) k = (Cmod (cnth v k) ^ 2)%R).
    { intros k Hk. unfold rnth, cnth. rewrite (nth_indep _ 0%R (Cmod (RtoC 0) ^ 2)%R) by (rewrite map_length; unfold zlen in L; lia). apply (map_nth (fun z => (Cmod z ^ 2)%R)). }
    rewrite !K by lia. rewrite V by lia. now rewrite Cmod_conj. }
  unfold spec_out in O. destruct (spec_taus (zlen x) w n ti) as [|t0 tl] eqn:ET.
  - assert (E : map (fun z => (Cmod z ^ 2)%R) (fft (zeros n)) = col) by congruence. rewrite <- E. apply G; [|rewrite fft_zlen, zeros_zlen; lia].
    intros k Hk. assert (Z := fft_scatter_hermitian n [] (fun _ => RtoC 0) k Hk). apply Z. intros t [].
  - destruct (Req_EM_T (spec_nrm x w n ti) 0); [discriminate|]. match type of O with Some ?a = Some _ => assert (E : a = col) by congruence end. rewrite <- E. apply G; [|rewrite fft_zlen; apply scatter_zlen; lia].
    intros k Hk. apply fft_scatter_hermitian; auto. intros t _. unfold spec_val. unfold Cdiv. rewrite !Cconj_mult, Cconj_invol, !real_cnth by auto. f_equal. rewrite <- RtoC_inv by auto. apply Cconj_R.
Qed.
(** Wigner-Ville, pseudo Wigner-Ville, Margenau-Hill, Page, pseudo Margenau-Hill. *)
Lemma c113_wvd : forall x ts n o f t, real_valued x -> 2 <= n -> wvd x (Some ts) (Some n) = Ok o -> 1 <= f < n -> 0 <= t < zlen x ->
  at2 (r_tfr o) (n - f) t = at2 (r_tfr o) f t.
Proof.
  intros x ts n o f t Hx Hn H Hf Ht. rewrite !(wvd_entry x ts n o) by (auto; lia). unfold WV.
  rewrite (csum_arange_sym (zlen x) (fun tau => sigf x (t + tau) * Cconj (sigf x (t - tau)) * root n (- (f * tau)))%C). apply csum_ext. intros tau _.
  assert (S : forall k, Cconj (sigf x k) = sigf x k) by (intros k; unfold sigf; destruct (_ && _); [apply real_cnth; auto|apply Cconj_R]).
  rewrite !S. replace (t + - tau) with (t - tau) by lia. replace (t - - tau) with (t + tau) by lia. rewrite (Cmult_comm (sigf x (t - tau))). f_equal.
  replace (- ((n - f) * tau)) with (- (f * - tau) + n * (- tau)) by ring. now rewrite root_period by lia.
Qed.
Lemma c113_pwvd : forall x ts n w o m f c, real_valued x -> real_valued w -> pwvd x (Some ts) (Some n) (Some w) = Ok (o, m) -> 1 <= f < n -> 0 <= c < ts_len ts ->
  at2 m (n - f) c = at2 m f c.
Proof.
  intros x ts n w o m f c Hx Hw H Hf Hc. destruct (pwvd_at2 x ts n w o m f c ltac:(lia) H ltac:(lia) Hc) as [E1 E2]. destruct (pwvd_at2 x ts n w o m (n - f) c ltac:(lia) H ltac:(lia) Hc) as [E3 E4].
  rewrite E2, E4, E1, E3. unfold pwvd_raw. rewrite fft_scatter_hermitian; auto.
  intros t _. unfold pwvd_val. rewrite !Cconj_mult, Cconj_invol, !real_cnth by auto. reflexivity.
Qed.
Lemma pyat_real x k : real_valued x -> Cconj (pyat x k) = pyat x k.
Proof. intros H. unfold pyat. destruct (k <? 0); apply real_cnth; auto. Qed.
Lemma c113_mh : forall x l n o f c, real_valued x -> mh x (Some (TsI l)) (Some n) = Ok o -> 1 <= f < n -> 0 <= c < zlen l ->
  at2 (r_tfr o) (n - f) c = at2 (r_tfr o) f c.
Proof.
  intros x l n o f c Hx H Hf Hc. apply mh_ret in H; [|lia]. rewrite H. destruct (nth_error l (Z.to_nat c)) as [ti|] eqn:E; [|apply nth_error_None in E; unfold zlen in Hc; lia].
  rewrite !(at2_map_list _ l _ c ti) by auto. rewrite !cnth_map_re by (rewrite fft_zlen; unfold mh_raw; rewrite scatter_zlen; lia). unfold mh_raw. rewrite fft_scatter_hermitian; auto.
  intros t _. rewrite !Cconj_mult, Cconj_invol, pyat_real, real_cnth by auto. reflexivity.
Qed.
Lemma c113_page : forall x l n o f c, real_valued x -> page x (Some (TsI l)) (Some n) = Ok o -> 1 <= f < n -> 0 <= c < zlen l ->
  at2 (r_tfr o) (n - f) c = at2 (r_tfr o) f c.
Proof.
  intros x l n o f c Hx H Hf Hc. apply page_ret in H; [|lia]. rewrite H. destruct (nth_error l (Z.to_nat c)) as [ti|] eqn:E; [|apply nth_error_None in E; unfold zlen in Hc; lia].
  rewrite !(at2_map_list _ l _ c ti) by auto. rewrite !cnth_map_re by (rewrite fft_zlen; unfold page_raw; rewrite scatter_zlen; lia). unfold page_raw. rewrite fft_scatter_hermitian; auto.
  intros t _. rewrite !Cconj_mult, Cconj_invol, pyat_real, real_cnth by auto. reflexivity.
Qed.
Lemma c113_pmh : forall x ts n w o f c, real_valued x -> real_valued w -> pmh x (Some ts) (Some n) (Some w) = Ok o -> 1 <= f < n -> 0 <= c < ts_len ts ->
  at2 (r_tfr o) (n - f) c = Cconj (at2 (r_tfr o) f c).
Proof.
  intros x ts n w o f c Hx Hw H Hf Hc. destruct (pmh_first x ts n w o ltac:(lia) H) as [_ ->]. cbn [r_tfr]. rewrite !at2_map by lia. apply fft_scatter_hermitian; auto.
  intros t _. unfold pmh_val. rewrite !Cconj_mult, Cconj_invol, !real_cnth by auto. reflexivity.
Qed.
(** Ambiguity function: opposite Doppler shifts give conjugate values. *)
Lemma c113_ambiguity : forall x lag n naf lag' xi r r' c, real_valued x -> 1 <= n -> narrow_band x (Some lag) (Some n) = Ok (naf, lag', xi) ->
  0 <= r < n -> 0 <= r' < n -> r - n / 2 = - (r' - n / 2) -> 0 <= c < zlen lag -> at2 naf r' c = Cconj (at2 naf r c).
Proof.
  intros x lag n naf lag' xi r r' c Hx Hn H Hr Hr' E Hc.
  destruct (c33_outcome x lag n Hn) as [[_ Q]|[_ (naf' & xi' & Q & _ & _ & _ & _ & V)]]; [congruence|]. assert (naf' = naf) by congruence. subst naf'.
  rewrite !V by auto. unfold AF. rewrite csum_conj. apply csum_ext. intros t _. assert (S : forall k, Cconj (sigf x k) = sigf x k) by (intros k; unfold sigf; destruct (_ && _); [apply real_cnth; auto|apply Cconj_R]).
  rewrite !Cconj_mult, Cconj_invol, !S, root_conj. f_equal. f_equal. rewrite E. ring.
Qed.
Example c113_example : exists o, wvd (map RtoC [1; 2; 0; 3])%R None None = Ok o /\ at2 (r_tfr o) 3 1 = at2 (r_tfr o) 1 1 /\ at2 (r_tfr o) 1 1 = RtoC 4.
Proof.
  set (x := map RtoC [1; 2; 0; 3]%R). destruct (proj2 (c21_wvd_default x ltac:(discriminate))) as [o H]; [change (zlen _) with 4; cbn; lia|]. exists o. split; auto.
  assert (RX : real_valued x). { intros k Hk. change (zlen x) with 4 in Hk. assert (k = 0 \/ k = 1 \/ k = 2 \/ k = 3) as [-> | [-> | [-> | ->]]] by lia; reflexivity. }
  split; [apply (c113_wvd x (TsI (arange 0 4)) 4 o 1 1 RX); auto; try lia; change (zlen x) with 4; lia|].
  rewrite (wvd_entry x (TsI (arange 0 4)) 4 o 1 1 ltac:(lia) H) by (try lia; change (zlen x) with 4; lia). rewrite WV_taus by (change (zlen x) with 4; lia). change (zlen x) with 4. cbv zeta. change (Z.min 1 (4 - 1 - 1)) with 1. eval_arange.
  unfold esum. rewrite !csum_cons, csum_nil. unfold wvd_val. change (cnth x (1 + -1)) with (RtoC 1). change (cnth x (1 - -1)) with (RtoC 0). change (cnth x (1 + 0)) with (RtoC 2). change (cnth x (1 - 0)) with (RtoC 2). change (cnth x (1 + 1)) with (RtoC 0). change (cnth x (1 - 1)) with (RtoC 1).
  rewrite !Cconj_R. change (- (1 * 0)) with 0. rewrite root_0. replace (RtoC 4) with (RtoC 2 * RtoC 2)%C by (rewrite <- RtoC_mult; apply (f_equal RtoC); lra). ring.
Qed.
