(** C122: a signal played backwards, and its complex conjugate. *)
From Coq Require Import Reals ZArith List Lia Lra Bool.
From Coquelicot Require Import Coquelicot.
From Verif Require Import Py Scalars CSum DFT Spec M_base M_stft M_cohen M_amb P_base P_stft P_wvd P_pwvd P_spec P_mh T_stft T_wvd T_pwvd T_spec T_mh T_amb T_ex1.
Import ListNotations.
Local Open Scope Z_scope.

Definition cconj (x : list C) : list C := map Cconj x.

Lemma rev_zlen {A} (x : list A) : zlen (rev x) = zlen x.
Proof. unfold zlen. now rewrite rev_length. Qed.
Lemma cconj_zlen x : zlen (cconj x) = zlen x.
Proof. unfold zlen, cconj. now rewrite map_length. Qed.
Lemma cnth_rev' (l : list C) c : 0 <= c < zlen l -> cnth (rev l) c = cnth l (zlen l - 1 - c).
Proof. intros H. unfold cnth, zlen in *. rewrite rev_nth by lia. f_equal. lia. Qed.
Lemma cnth_cconj x k : cnth (cconj x) k = Cconj (cnth x k).
Proof. unfold cnth, cconj. rewrite <- (map_nth Cconj). f_equal. symmetry. apply Cconj_R. Qed.
Lemma sigf_rev x k : sigf (rev x) k = sigf x (zlen x - 1 - k).
Proof.
  unfold sigf. rewrite rev_zlen. destruct (Z.leb_spec 0 k), (Z.ltb_spec k (zlen x)), (Z.leb_spec 0 (zlen x - 1 - k)), (Z.ltb_spec (zlen x - 1 - k) (zlen x)); cbn [andb]; try lia; auto.
  apply cnth_rev'. lia.
Qed.
Lemma sigf_cconj x k : sigf (cconj x) k = Cconj (sigf x k).
Proof. unfold sigf. rewrite cconj_zlen. destruct (_ && _); [apply cnth_cconj|now rewrite Cconj_R]. Qed.
Lemma root_neg_mod n f t : n <> 0 -> root n (- (((- f) mod n) * t)) = root n (f * t).
Proof. intros Hn. replace (- ((- f) mod n * t)) with (((- f) mod n) * (- t)) by ring. rewrite root_mod_mul_l by auto. f_equal. ring. Qed.

Lemma WV_rev x n f t : n <> 0 -> WV (rev x) n ((- f) mod n) (zlen x - 1 - t) = WV x n f t.
Proof.
  intros Hn. unfold WV. rewrite rev_zlen. rewrite (csum_arange_sym (zlen x) (fun tau => sigf x (t + tau) * Cconj (sigf x (t - tau)) * root n (- (f * tau)))%C).
  apply csum_ext. intros tau _. rewrite !sigf_rev, root_neg_mod by auto. f_equal; [f_equal; [f_equal; lia|do 2 f_equal; lia]|f_equal; ring].
Qed.
Lemma WV_conj x n f t : n <> 0 -> WV (cconj x) n ((- f) mod n) t = WV x n f t.
Proof.
  intros Hn. unfold WV. rewrite cconj_zlen. rewrite (csum_arange_sym (zlen x) (fun tau => sigf x (t + tau) * Cconj (sigf x (t - tau)) * root n (- (f * tau)))%C).
  apply csum_ext. intros tau _. rewrite !sigf_cconj, root_neg_mod, Cconj_invol by auto. replace (t + - tau) with (t - tau) by lia. replace (t - - tau) with (t + tau) by lia. replace (- (f * - tau)) with (f * tau) by ring. ring.
Qed.
Lemma PWV_rev x w n f t : n <> 0 -> (forall k, winf w (- k) = winf w k) -> PWV (rev x) w n ((- f) mod n) (zlen x - 1 - t) = PWV x w n f t.
Proof.
  intros Hn Hw. unfold PWV. rewrite rev_zlen. rewrite (csum_arange_sym (zlen x) (fun tau => winf w tau * (sigf x (t + tau) * Cconj (sigf x (t - tau))) * root n (- (f * tau)))%C).
  apply csum_ext. intros tau _. rewrite !sigf_rev, root_neg_mod, Hw by auto. f_equal; [do 2 f_equal; [f_equal; lia|do 2 f_equal; lia]|f_equal; ring].
Qed.
Lemma PWV_conj x w n f t : n <> 0 -> (forall k, winf w (- k) = winf w k) -> PWV (cconj x) w n ((- f) mod n) t = PWV x w n f t.
Proof.
  intros Hn Hw. unfold PWV. rewrite cconj_zlen. rewrite (csum_arange_sym (zlen x) (fun tau => winf w tau * (sigf x (t + tau) * Cconj (sigf x (t - tau))) * root n (- (f * tau)))%C).
  apply csum_ext. intros tau _. rewrite !sigf_cconj, root_neg_mod, Cconj_invol, Hw by auto. replace (t + - tau) with (t - tau) by lia. replace (t - - tau) with (t + tau) by lia. replace (- (f * - tau)) with (f * tau) by ring. ring.
Qed.
Lemma STFT_rev x w n f c : n <> 0 -> (forall k, winf w (- k) = winf w k) -> STFT (rev x) w n ((- f) mod n) (zlen x - 1 - c) = STFT x w n f c.
Proof.
  intros Hn Hw. unfold STFT. rewrite rev_zlen. rewrite (csum_arange_rev 0 (zlen x) (fun k => sigf (rev x) k * _ * _)%C). apply csum_ext. intros k _.
  rewrite sigf_rev, root_neg_mod by auto. replace (0 + zlen x - 1 - k - (zlen x - 1 - c)) with (- (k - c)) by lia. rewrite Hw. replace (zlen x - 1 - (0 + zlen x - 1 - k)) with k by lia. do 2 f_equal. ring.
Qed.
Lemma STFT_conj x w n f c : n <> 0 -> (forall k, Cconj (winf w k) = winf w k) -> STFT (cconj x) w n ((- f) mod n) c = Cconj (STFT x w n f c).
Proof.
  intros Hn Hw. unfold STFT. rewrite cconj_zlen, csum_conj. apply csum_ext. intros k _. rewrite !Cconj_mult, sigf_cconj, root_neg_mod, !Hw, root_conj by auto. do 2 f_equal. ring.
Qed.
Lemma STFTw_rev x v n f c : n <> 0 -> (forall k, v (- k) = v k) -> STFTw (rev x) v n ((- f) mod n) (zlen x - 1 - c) = STFTw x v n f c.
Proof.
  intros Hn Hw. unfold STFTw. rewrite rev_zlen. rewrite (csum_arange_rev 0 (zlen x) (fun k => cnth (rev x) k * _ * _)%C). apply csum_ext. intros k Hk. apply in_arange in Hk.
  rewrite cnth_rev', root_neg_mod by (auto; lia). replace (0 + zlen x - 1 - k - (zlen x - 1 - c)) with (- (k - c)) by lia. rewrite Hw. replace (zlen x - 1 - (0 + zlen x - 1 - k)) with k by lia. do 2 f_equal. ring.
Qed.
Lemma STFTw_conj x v n f c : n <> 0 -> (forall k, Cconj (v k) = v k) -> STFTw (cconj x) v n ((- f) mod n) c = Cconj (STFTw x v n f c).
Proof.
  intros Hn Hw. unfold STFTw. rewrite cconj_zlen, csum_conj. apply csum_ext. intros k _. rewrite !Cconj_mult, cnth_cconj, root_neg_mod, !Hw, root_conj by auto. do 2 f_equal. ring.
Qed.
Lemma wenergy_rev x v c : (forall k, v (- k) = v k) -> wenergy (rev x) v (zlen x - 1 - c) = wenergy x v c.
Proof.
  intros Hw. unfold wenergy. rewrite rev_zlen. rewrite (rsum_arange_rev 0 (zlen x)). apply rsum_ext. intros k _.
  replace (0 + zlen x - 1 - k - (zlen x - 1 - c)) with (- (k - c)) by lia. now rewrite Hw.
Qed.
Lemma AF_rev x n k tau : AF (rev x) n k tau = (root n (- (k * (zlen x - 1))) * Cconj (AF x n k tau))%C.
Proof.
  unfold AF. rewrite rev_zlen, csum_conj, <- csum_scal_l. rewrite (csum_arange_rev 0 (zlen x) (fun t => sigf (rev x) _ * _ * _)%C). apply csum_ext. intros t _.
  rewrite !sigf_rev, !Cconj_mult, Cconj_invol, root_conj. replace (zlen x - 1 - (0 + zlen x - 1 - t + tau)) with (t - tau) by lia. replace (zlen x - 1 - (0 + zlen x - 1 - t - tau)) with (t + tau) by lia.
  replace (- (k * (0 + zlen x - 1 - t))) with (- (k * (zlen x - 1)) + - - (k * t)) by ring. rewrite root_plus. ring.
Qed.
Lemma AF_conj x n k tau : AF (cconj x) n k tau = Cconj (AF x n (- k) tau).
Proof.
  unfold AF. rewrite cconj_zlen, csum_conj. apply csum_ext. intros t _. rewrite !Cconj_mult, !sigf_cconj, root_conj. do 2 f_equal. ring.
Qed.
Lemma neg_mod_range f n : 0 < n -> 0 <= (- f) mod n < n.
Proof. intros. apply Z.mod_pos_bound. lia. Qed.

(** Wigner-Ville: the reversed signal has the reversed distribution, frequency negated. *)
Lemma c122_wvd_reversal : forall x tx ty n ox oy f t, 2 <= n ->
  wvd x (Some tx) (Some n) = Ok ox -> wvd (rev x) (Some ty) (Some n) = Ok oy -> 0 <= f < n -> 0 <= t < zlen x ->
  at2 (r_tfr oy) ((- f) mod n) (zlen x - 1 - t) = at2 (r_tfr ox) f t.
Proof.
  intros x tx ty n ox oy f t Hn Hx Hy Hf Ht. rewrite (wvd_entry x tx n ox), (wvd_entry (rev x) ty n oy) by (rewrite ?rev_zlen; try apply neg_mod_range; auto; lia). apply WV_rev. lia.
Qed.
Lemma c122_wvd_conj : forall x tx ty n ox oy f t, 2 <= n ->
  wvd x (Some tx) (Some n) = Ok ox -> wvd (cconj x) (Some ty) (Some n) = Ok oy -> 0 <= f < n -> 0 <= t < zlen x ->
  at2 (r_tfr oy) ((- f) mod n) t = at2 (r_tfr ox) f t.
Proof.
  intros x tx ty n ox oy f t Hn Hx Hy Hf Ht. rewrite (wvd_entry x tx n ox), (wvd_entry (cconj x) ty n oy) by (rewrite ?cconj_zlen; try apply neg_mod_range; auto; lia). apply WV_conj. lia.
Qed.
(** Reversed and conjugated: the same picture read from right to left. *)
Lemma c122_wvd_mirror : forall x tx ty n ox oy f t, 2 <= n ->
  wvd x (Some tx) (Some n) = Ok ox -> wvd (cconj (rev x)) (Some ty) (Some n) = Ok oy -> 0 <= f < n -> 0 <= t < zlen x ->
  at2 (r_tfr oy) f (zlen x - 1 - t) = at2 (r_tfr ox) f t.
Proof.
  intros x tx ty n ox oy f t Hn Hx Hy Hf Ht. rewrite (wvd_entry x tx n ox), (wvd_entry (cconj (rev x)) ty n oy) by (rewrite ?cconj_zlen, ?rev_zlen; auto; lia).
  assert (E : (- ((- f) mod n)) mod n = f).
  { rewrite <- (Z.sub_0_l ((- f) mod n)), Zminus_mod_idemp_r. replace (0 - - f) with f by lia. apply Z.mod_small. lia. }
  rewrite <- E at 1. rewrite WV_conj by lia. apply WV_rev. lia.
Qed.
(** Pseudo Wigner-Ville with a symmetric window. *)
Lemma c122_pwvd : forall x tx ty n w ox mx oy my oz mz f t, 1 <= n -> (zlen w - 1) / 2 < round_half n -> (forall k, winf w (- k) = winf w k) ->
  pwvd x (Some tx) (Some n) (Some w) = Ok (ox, mx) -> pwvd (rev x) (Some ty) (Some n) (Some w) = Ok (oy, my) -> pwvd (cconj x) (Some tx) (Some n) (Some w) = Ok (oz, mz) ->
  0 <= f < n -> 0 <= t < ts_len tx -> 0 <= zlen x - 1 - t < ts_len ty ->
  at2 my ((- f) mod n) (zlen x - 1 - t) = at2 mx f t /\ at2 mz ((- f) mod n) t = at2 mx f t.
Proof.
  intros x tx ty n w ox mx oy my oz mz f t Hn Hw Hs Hx Hy Hz Hf Ht Ht'.
  assert (R := neg_mod_range f n ltac:(lia)).
  rewrite (proj1 (c28_pwvd_closed_form x tx n w ox mx f t ltac:(lia) Hw Hx Hf Ht)).
  rewrite (proj1 (c28_pwvd_closed_form (rev x) ty n w oy my _ _ ltac:(lia) Hw Hy R Ht')).
  rewrite (proj1 (c28_pwvd_closed_form (cconj x) tx n w oz mz _ _ ltac:(lia) Hw Hz R Ht)).
  now rewrite PWV_rev, PWV_conj by (auto; lia).
Qed.
(** Short-time Fourier transform: the columns are labelled one late, so the reversal exchanges the columns c and N + 1 - c. *)
Lemma c122_stft_reversal : forall x tx ty n w f c, 1 <= n -> 2 * ((zlen w - 1) / 2) < n -> (forall k, winf w (- k) = winf w k) ->
  0 <= f < n -> 0 <= c < ts_len tx -> 0 <= zlen x + 1 - c < ts_len ty ->
  exists ox oy, stft x (Some tx) (Some n) (Some w) = Ok ox /\ stft (rev x) (Some ty) (Some n) (Some w) = Ok oy /\
  at2 (r_tfr oy) ((- f) mod n) (zlen x + 1 - c) = at2 (r_tfr ox) f c.
Proof.
  intros x tx ty n w f c Hn Hw Hs Hf Hc Hc'.
  destruct (c11_stft_closed_form x tx n w f c ltac:(lia) Hw Hf Hc) as (ox & Hx & Ex).
  destruct (c11_stft_closed_form (rev x) ty n w ((- f) mod n) (zlen x + 1 - c) ltac:(lia) Hw (neg_mod_range f n ltac:(lia)) Hc') as (oy & Hy & Ey).
  exists ox, oy. do 2 (split; [assumption|]). rewrite Ey, Ex. replace (zlen x + 1 - c - 1) with (zlen x - 1 - (c - 1)) by lia. apply STFT_rev; auto. lia.
Qed.
Lemma c122_stft_conj : forall x ts n w f c, 1 <= n -> 2 * ((zlen w - 1) / 2) < n -> (forall k, Cconj (winf w k) = winf w k) ->
  0 <= f < n -> 0 <= c < ts_len ts ->
  exists ox oy, stft x (Some ts) (Some n) (Some w) = Ok ox /\ stft (cconj x) (Some ts) (Some n) (Some w) = Ok oy /\
  at2 (r_tfr oy) ((- f) mod n) c = Cconj (at2 (r_tfr ox) f c).
Proof.
  intros x ts n w f c Hn Hw Hs Hf Hc.
  destruct (c11_stft_closed_form x ts n w f c ltac:(lia) Hw Hf Hc) as (ox & Hx & Ex).
  destruct (c11_stft_closed_form (cconj x) ts n w ((- f) mod n) c ltac:(lia) Hw (neg_mod_range f n ltac:(lia)) Hc) as (oy & Hy & Ey).
  exists ox, oy. do 2 (split; [assumption|]). rewrite Ey, Ex. apply STFT_conj; auto. lia.
Qed.
(** Spectrogram at the timestamps N + 1 - t of the reversed signal: NaN in the same columns, the other columns with frequency negated. *)
Lemma c122_spectrogram_reversal : forall x l n w, 1 <= n -> (forall k, winf w (- k) = winf w k) ->
  exists m m', spectrogram x (Some (TsI l)) (Some n) (Some w) = Ok m /\
  spectrogram (rev x) (Some (TsI (map (fun t => zlen x + 1 - t) l))) (Some n) (Some w) = Ok m' /\ zlen m = zlen l /\ zlen m' = zlen l /\
  forall i, (nth_error m i = Some None <-> nth_error m' i = Some None) /\
  forall col col' f, nth_error m i = Some (Some col) -> nth_error m' i = Some (Some col') -> 0 <= f < n -> rnth col' ((- f) mod n) = rnth col f.
Proof.
  intros x l n w Hn Hw. rewrite !spectrogram_ok by lia. eexists. eexists. do 2 (split; [reflexivity|]). split; [unfold zlen; now rewrite map_length|]. split; [unfold zlen; now rewrite !map_length|].
  assert (Hv : forall k, wincut (maxlag w n) w (- k) = wincut (maxlag w n) w k).
  { intros k. unfold wincut. rewrite Hw. destruct (Z.leb_spec (- maxlag w n) (- k)), (Z.leb_spec (- k) (maxlag w n)), (Z.leb_spec (- maxlag w n) k), (Z.leb_spec k (maxlag w n)); cbn [andb]; auto; lia. }
  intros i. rewrite !nth_error_map. destruct (nth_error l i) as [ti|]; cbn [option_map]; [|split; [split; discriminate|discriminate]].
  assert (W : wenergy (rev x) (wincut (maxlag w n) w) (zlen x + 1 - ti - 1) = wenergy x (wincut (maxlag w n) w) (ti - 1)).
  { replace (zlen x + 1 - ti - 1) with (zlen x - 1 - (ti - 1)) by lia. apply wenergy_rev. auto. }
  assert (Nn : spec_out x w n ti = None <-> spec_out (rev x) w n (zlen x + 1 - ti) = None).
  { rewrite !spec_out_none, W, rev_zlen. split; intros [[k Hk] E]; (split; [exists (zlen x - 1 - k); lia|exact E]). }
  split.
  - split; intros H; f_equal; apply Nn; congruence.
  - intros col col' f Hc Hc' Hf. assert (A : spec_out x w n ti = Some col) by congruence. assert (B : spec_out (rev x) w n (zlen x + 1 - ti) = Some col') by congruence.
    destruct (Req_dec (wenergy x (wincut (maxlag w n) w) (ti - 1)) 0) as [Z0|NZ].
    + rewrite (spec_out_empty_0 x w n ti col f), (spec_out_empty_0 (rev x) w n (zlen x + 1 - ti) col') by (auto; try lia; try apply neg_mod_range; try congruence; lia). reflexivity.
    + assert (P := spec_entry x w n ti col f ltac:(lia) Hf A). assert (Q := spec_entry (rev x) w n (zlen x + 1 - ti) col' ((- f) mod n) ltac:(lia) (neg_mod_range f n ltac:(lia)) B).
      change (spec_m w n) with (maxlag w n) in *. rewrite W in Q. replace (zlen x + 1 - ti - 1) with (zlen x - 1 - (ti - 1)) in Q by lia. rewrite STFTw_rev in Q by (auto; lia). rewrite <- P in Q. now apply Rmult_eq_reg_r in Q.
Qed.
(** Narrow-band ambiguity function of the reversed and of the conjugated signal. *)
Lemma c122_ambiguity : forall x lag n nx lx xx ny ly xy nz lz xz r r' c, 1 <= n ->
  narrow_band x (Some lag) (Some n) = Ok (nx, lx, xx) -> narrow_band (rev x) (Some lag) (Some n) = Ok (ny, ly, xy) -> narrow_band (cconj x) (Some lag) (Some n) = Ok (nz, lz, xz) ->
  0 <= r < n -> 0 <= r' < n -> r - n / 2 = - (r' - n / 2) -> 0 <= c < zlen lag ->
  at2 ny r c = (root n (- ((r - n / 2) * (zlen x - 1))) * Cconj (at2 nx r c))%C /\ Cmod (at2 ny r c) = Cmod (at2 nx r c) /\ at2 nz r' c = Cconj (at2 nx r c).
Proof.
  intros x lag n nx lx xx ny ly xy nz lz xz r r' c Hn Hx Hy Hz Hr Hr' E Hc.
  destruct (c33_outcome x lag n Hn) as [[_ Q]|[_ (n1 & x1 & Q & _ & _ & _ & _ & V1)]]; [congruence|]. assert (n1 = nx) by congruence. subst n1. clear Q.
  destruct (c33_outcome (rev x) lag n Hn) as [[_ Q]|[_ (n1 & x2 & Q & _ & _ & _ & _ & V2)]]; [congruence|]. assert (n1 = ny) by congruence. subst n1. clear Q.
  destruct (c33_outcome (cconj x) lag n Hn) as [[_ Q]|[_ (n1 & x3 & Q & _ & _ & _ & _ & V3)]]; [congruence|]. assert (n1 = nz) by congruence. subst n1. clear Q.
  rewrite V1, V2, V3 by auto. rewrite AF_rev, AF_conj, E. split; [reflexivity|]. split; [|f_equal; f_equal; lia].
  rewrite Cmod_mult, Cmod_root, Cmod_conj. ring.
Qed.
(** Margenau-Hill: the code leaves out the sample 0 of the signal, so the reversal leaves out the other end. *)
Lemma c122_mh : forall x l l' n ox oy i i' t f, zlen x <= n -> 1 <= zlen x ->
  mh x (Some (TsI l)) (Some n) = Ok ox -> mh (rev x) (Some (TsI l')) (Some n) = Ok oy ->
  nth_error l (Z.to_nat i) = Some t -> nth_error l' (Z.to_nat i') = Some (zlen x - 1 - t) -> 0 <= t < zlen x -> 0 <= f < n ->
  (at2 (r_tfr oy) ((- f) mod n) i' - at2 (r_tfr ox) f i =
   RtoC (Re (cnth x t * Cconj (cnth x 0) * root n (- (f * t)))) - RtoC (Re (cnth x t * Cconj (cnth x (zlen x - 1)) * root n (- (f * (t - (zlen x - 1))))%Z)))%C.
Proof.
  intros x l l' n ox oy i i' t f Hn H1 Hx Hy Hi Hi' Ht Hf.
  rewrite (c30_mh_closed_form x l n ox i t f) by (auto; lia). rewrite (c30_mh_closed_form (rev x) l' n oy i' (zlen x - 1 - t) ((- f) mod n)) by (auto; try lia; apply neg_mod_range; lia).
  rewrite rev_zlen, !(Z.min_r n (zlen x)) by lia. set (N := zlen x) in *.
  set (G := fun k => (cnth x t * Cconj (cnth x k) * root n (- (f * (t - k))))%C).
  assert (E : csum (arange 1 N) (fun k => cnth (rev x) (N - 1 - t) * Cconj (cnth (rev x) k) * root n (- ((- f) mod n * (N - 1 - t - k))))%C = csum (arange 0 (N - 1)) G).
  { replace (arange 1 N) with (arange (0 + 1) (N - 1 + 1)) by (f_equal; lia). rewrite csum_arange_shift, (csum_arange_rev 0 (N - 1)). apply csum_ext. intros k Hk. apply in_arange in Hk.
    rewrite !cnth_rev', root_neg_mod by (fold N; lia). fold N. unfold G. replace (N - 1 - (N - 1 - t)) with t by lia. replace (N - 1 - (0 + (N - 1) - 1 - k + 1)) with k by lia. f_equal. f_equal. ring. }
  rewrite E. fold (G : Z -> C).
  assert (S1 : csum (arange 0 N) G = (G 0%Z + csum (arange 1 N) G)%C).
  { rewrite (arange_app 0 1 N) by lia. rewrite csum_app. change (arange 0 1) with [0]. rewrite csum_cons, csum_nil. ring. }
  assert (S2 : csum (arange 0 N) G = (csum (arange 0 (N - 1)) G + G (N - 1)%Z)%C).
  { replace (arange 0 N) with (arange 0 (N - 1 + 1)) by (f_equal; lia). rewrite arange_snoc, csum_app, csum_cons, csum_nil by lia. ring. }
  assert (S : csum (arange 0 (N - 1)) G = (G 0%Z + csum (arange 1 N) G - G (N - 1)%Z)%C) by (rewrite <- S1, S2; ring).
  rewrite S. change (csum (arange 1 N) (fun k : Z => (cnth x t * Cconj (cnth x k) * root n (- (f * (t - k))))%C)) with (csum (arange 1 N) G).
  replace (cnth x t * Cconj (cnth x 0) * root n (- (f * t)))%C with (G 0) by (unfold G; now rewrite Z.sub_0_r).
  change (cnth x t * Cconj (cnth x (N - 1)) * root n (- (f * (t - (N - 1)))))%C with (G (N - 1)).
  apply injective_projections; cbn; unfold Re; cbn; ring.
Qed.
(** An impulse at sample 0 is invisible, the reversed signal, an impulse at the last sample, is not. *)
Lemma c122_mh_refuted : exists x ox oy, mh x None None = Ok ox /\ mh (rev x) None None = Ok oy /\
  at2 (r_tfr ox) 0 0 = RtoC 0 /\ at2 (r_tfr oy) 0 (zlen x - 1 - 0) = RtoC 1.
Proof.
  exists [RtoC 1; RtoC 0]. cbn [rev app].
  destruct (c30_mh_outcome [RtoC 1; RtoC 0] (arange 0 2) 2 ltac:(lia)) as [[_ [ox [Hx _]]]|[[ti [H1 H2]] _]]; [|exfalso; apply in_arange in H1; apply H2; change (zlen _) with 2; lia].
  destruct (c30_mh_outcome [RtoC 0; RtoC 1] (arange 0 2) 2 ltac:(lia)) as [[_ [oy [Hy _]]]|[[ti [H1 H2]] _]]; [|exfalso; apply in_arange in H1; apply H2; change (zlen _) with 2; lia].
  exists ox, oy. do 2 (split; [assumption|]). change (zlen [RtoC 1; RtoC 0] - 1 - 0) with 1.
  rewrite (c30_mh_closed_form _ (arange 0 2) 2 ox 0 0 0 ltac:(lia) Hx eq_refl ltac:(lia) ltac:(lia)), (c30_mh_closed_form _ (arange 0 2) 2 oy 1 1 0 ltac:(lia) Hy eq_refl ltac:(lia) ltac:(lia)).
  change (Z.min 2 (zlen _)) with 2. change (Z.min 2 (zlen [RtoC 0; RtoC 1])) with 2. eval_arange. rewrite !csum_cons, !csum_nil. eval_cnth. rewrite !Z.mul_0_l. change (- 0) with 0. rewrite root_0, !Cconj_R. split; apply injective_projections; cbn; ring.
Qed.
(** Page: two equal samples are their own reversal, and row 1 at the start is not row 3 at the end. *)
Lemma c122_page_refuted : exists x o, rev x = x /\ page x None (Some 4) = Ok o /\
  at2 (r_tfr o) 1 0 = RtoC (-1) /\ at2 (r_tfr o) ((- (1)) mod 4) (zlen x - 1 - 0) = RtoC 1.
Proof.
  exists [RtoC 1; RtoC 1]. destruct (c31_page_outcome [RtoC 1; RtoC 1] (arange 0 2) 4 ltac:(lia)) as [[_ [o [H _]]]|[[ti [H1 H2]] _]]; [|exfalso; apply in_arange in H1; apply H2; change (zlen _) with 2; lia].
  exists o. split; [reflexivity|]. split; [exact H|]. change ((- (1)) mod 4) with 3. change (zlen [RtoC 1; RtoC 1] - 1 - 0) with 1.
  rewrite (c31_page_closed_form _ (arange 0 2) 4 o 0 0 1 ltac:(lia) H eq_refl ltac:(lia) ltac:(lia)), (c31_page_closed_form _ (arange 0 2) 4 o 1 1 3 ltac:(lia) H eq_refl ltac:(lia) ltac:(lia)).
  change (Z.min 4 (zlen [RtoC 1; RtoC 1])) with 2. eval_arange. rewrite !csum_cons, !csum_nil. eval_root4. eval_cnth. rewrite !Cconj_R. split; apply injective_projections; cbn; ring.
Qed.

(** [1, i, 2]: in the middle column, row 1 carries 1 + 2 Re(2 e^(-2i pi/3)), and so does row 2 of the reversed signal. *)
Example c122_example : exists ox oy, wvd [RtoC 1; Ci; RtoC 2] None None = Ok ox /\ wvd [RtoC 2; Ci; RtoC 1] None None = Ok oy /\
  at2 (r_tfr oy) 2 1 = at2 (r_tfr ox) 1 1 /\ at2 (r_tfr ox) 0 1 = RtoC 5.
Proof.
  destruct (proj2 (c21_wvd_default [RtoC 1; Ci; RtoC 2] ltac:(discriminate)) ltac:(cbn; lia)) as (ox & Hx).
  destruct (proj2 (c21_wvd_default [RtoC 2; Ci; RtoC 1] ltac:(discriminate)) ltac:(cbn; lia)) as (oy & Hy). exists ox, oy. do 2 (split; [assumption|]).
  split; [exact (c122_wvd_reversal [RtoC 1; Ci; RtoC 2] (TsI (arange 0 3)) (TsI (arange 0 3)) 3 ox oy 1 1 ltac:(lia) Hx Hy ltac:(lia) ltac:(cbn; lia))|].
  rewrite (wvd_entry [RtoC 1; Ci; RtoC 2] (TsI (arange 0 3)) 3 ox 0 1 ltac:(lia) Hx) by (try lia; change (zlen [RtoC 1; Ci; RtoC 2]) with 3; lia).
  unfold WV, sigf. change (zlen [RtoC 1; Ci; RtoC 2]) with 3. eval_arange. rewrite !csum_cons, !csum_nil.
  repeat match goal with |- context [(?a <=? ?b)] => let v := eval vm_compute in (a <=? b) in change (a <=? b) with v | |- context [(?a <? ?b)] => let v := eval vm_compute in (a <? b) in change (a <? b) with v end. cbn [andb].
  rewrite !Z.mul_0_l. change (- 0) with 0. rewrite root_0. eval_cnth. apply injective_projections; cbn; ring.
Qed.
