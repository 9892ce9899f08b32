(** C128: what modulating and delaying the signal does to the remaining representations. *)
From Coq Require Import Reals ZArith List Lia Lra Bool.
From Coquelicot Require Import Coquelicot.
From Verif Require Import Py Scalars CSum DFT Spec M_base M_stft M_cohen M_amb P_base P_stft P_wvd P_pwvd P_spec P_mh T_stft T_wvd T_pwvd T_spec T_mh T_dual T_long T_ts.
Import ListNotations.
Local Open Scope Z_scope.

Lemma root_row n f m d : n <> 0 -> root n (- (((f + m) mod n) * d)) = (root n (- (f * d)) * root n (- (m * d)))%C.
Proof. intros Hn. rewrite !root_opp, root_mod_mul_l by auto. rewrite Z.mul_add_distr_r, root_plus, Cconj_mult. reflexivity. Qed.
Lemma root_cancel n a : (root n a * root n (- a))%C = RtoC 1.
Proof. rewrite <- root_plus, Z.add_opp_diag_r. apply root_0. Qed.

(** *** Modulation *)
(** Spectrogram: the rows turn by m, and the same columns are NaN. *)
Lemma c128_spectrogram_modulation : forall x l n w m, 1 <= n -> exists mx my,
  spectrogram x (Some (TsI l)) (Some n) (Some w) = Ok mx /\ spectrogram (modulate n m x) (Some (TsI l)) (Some n) (Some w) = Ok my /\
  forall i, (nth_error mx i = Some None <-> nth_error my i = Some None) /\
  forall cx cy f, nth_error mx i = Some (Some cx) -> nth_error my i = Some (Some cy) -> 0 <= f < n -> rnth cy ((f + m) mod n) = rnth cx f.
Proof.
  intros x l n w m Hn. exists (map (spec_out x w n) l), (map (spec_out (modulate n m x) w n) l).
  split; [apply spectrogram_ok; lia|]. split; [apply spectrogram_ok; lia|].
  intros i. rewrite !nth_error_map. destruct (nth_error l i) as [ti|]; cbn [option_map].
  2:{ split; [tauto|discriminate]. }
  assert (WE : wenergy (modulate n m x) (wincut (maxlag w n) w) (ti - 1) = wenergy x (wincut (maxlag w n) w) (ti - 1)) by (unfold wenergy; now rewrite modulate_zlen).
  split.
  - assert (A := spec_out_none x w n ti). assert (B := spec_out_none (modulate n m x) w n ti). rewrite modulate_zlen, WE in B.
    split; intros [= H]; f_equal; [apply B, A|apply A, B]; auto.
  - intros cx cy f [= H] [= H'] Hf. assert (Hf' : 0 <= (f + m) mod n < n) by (apply Z.mod_pos_bound; lia).
    destruct (Req_dec (wenergy x (wincut (maxlag w n) w) (ti - 1)) 0) as [Z|Z].
    + rewrite (spec_out_empty_0 x w n ti cx f), (spec_out_empty_0 (modulate n m x) w n ti cy ((f + m) mod n)); auto; try lia; congruence.
    + assert (A := spec_entry x w n ti cx f ltac:(lia) Hf H). assert (B := spec_entry (modulate n m x) w n ti cy ((f + m) mod n) ltac:(lia) Hf' H').
      change (spec_m w n) with (maxlag w n) in *. rewrite WE in B. set (v := wincut (maxlag w n) w) in *.
      assert (E : STFTw (modulate n m x) v n ((f + m) mod n) (ti - 1) = (root n (m * (ti - 1)) * STFTw x v n f (ti - 1))%C).
      { unfold STFTw. rewrite modulate_zlen, <- csum_scal_l. apply csum_ext. intros k Hk. apply in_arange in Hk. rewrite modulate_nth by lia. rewrite root_row by lia.
        replace (m * k) with (m * (ti - 1) + m * (k - (ti - 1))) by ring. rewrite root_plus.
        transitivity (root n (m * (ti - 1)) * (cnth x k * Cconj (v (k - (ti - 1))%Z) * root n (- (f * (k - (ti - 1))))) * (root n (m * (k - (ti - 1))) * root n (- (m * (k - (ti - 1))))))%C; [ring|]. rewrite root_cancel. ring. }
      rewrite E, Cmod_mult, Cmod_root, Rmult_1_l in B. apply (Rmult_eq_reg_r (wenergy x v (ti - 1))); auto. congruence.
Qed.

(** Pseudo Wigner-Ville: as for the Wigner-Ville distribution, for windows of any length. *)
Lemma c128_pwvd_modulation : forall x ts n w m ox oy mx my f t, 1 <= n ->
  pwvd x (Some ts) (Some n) (Some w) = Ok (ox, mx) -> pwvd (modulate (2 * n) m x) (Some ts) (Some n) (Some w) = Ok (oy, my) ->
  0 <= f < n -> 0 <= t < ts_len ts -> at2 my ((f + m) mod n) t = at2 mx f t.
Proof.
  intros x ts n w m ox oy mx my f t Hn Hx Hy Hf Ht. assert (Hf' : 0 <= (f + m) mod n < n) by (apply Z.mod_pos_bound; lia).
  rewrite (c28_any_window _ ts n w oy my _ t Hn Hy Hf' Ht), (c28_any_window x ts n w ox mx f t Hn Hx Hf Ht). do 2 f_equal.
  unfold PWVw. rewrite modulate_zlen. apply csum_ext. intros tau _. rewrite !sigf_modulate, Cconj_mult, root_conj, root_row by lia.
  replace (root (2 * n) (m * (t + tau))) with (root (2 * n) (m * (t - tau)) * root n (m * tau))%C.
  2:{ rewrite <- (root_double n (m * tau)) by lia. rewrite <- root_plus. f_equal. ring. }
  transitivity (longlag (zlen x) w n t tau * (sigf x (t + tau) * Cconj (sigf x (t - tau))) * root n (- (f * tau)) * (root (2 * n) (m * (t - tau)) * root (2 * n) (- (m * (t - tau)))) * (root n (m * tau) * root n (- (m * tau))))%C; [ring|].
  rewrite !root_cancel. ring.
Qed.

(** Margenau-Hill: the rows turn by m. *)
Lemma c128_mh_modulation : forall x l n m ox oy i ti f, 1 <= n ->
  mh x (Some (TsI l)) (Some n) = Ok ox -> mh (modulate n m x) (Some (TsI l)) (Some n) = Ok oy ->
  nth_error l (Z.to_nat i) = Some ti -> 0 <= ti < zlen x -> 0 <= f < n -> at2 (r_tfr oy) ((f + m) mod n) i = at2 (r_tfr ox) f i.
Proof.
  intros x l n m ox oy i ti f Hn Hx Hy Hi Ht Hf. assert (Hf' : 0 <= (f + m) mod n < n) by (apply Z.mod_pos_bound; lia).
  rewrite (c30_any_timestamp _ l n oy i ti _ Hn Hy Hi Hf'), (c30_any_timestamp x l n ox i ti f Hn Hx Hi Hf). do 2 f_equal.
  rewrite modulate_zlen, Z.mod_small by lia. apply csum_ext. intros k Hk. apply in_arange in Hk. rewrite !modulate_nth by lia. rewrite Cconj_mult, root_conj, root_row by lia.
  replace (m * ti) with (m * k + m * (ti - k)) by ring. rewrite root_plus.
  transitivity (cnth x ti * Cconj (cnth x k) * root n (- (f * (ti - k))) * (root n (m * k) * root n (- (m * k))) * (root n (m * (ti - k)) * root n (- (m * (ti - k)))))%C; [ring|].
  rewrite !root_cancel. ring.
Qed.

(** Page and pseudo Margenau-Hill store each product one lag off: the modulated table is
    the turned one times a phase.  The pseudo Margenau-Hill table is complex and keeps its
    modulus; of Page's only the real part is kept, which the phase mixes. *)
Lemma c128_pmh_modulation : forall x ts n w m ox oy f c, 1 <= n ->
  pmh x (Some ts) (Some n) (Some w) = Ok ox -> pmh (modulate n m x) (Some ts) (Some n) (Some w) = Ok oy ->
  0 <= f < n -> 0 <= c < ts_len ts ->
  at2 (r_tfr oy) ((f + m) mod n) c = (root n m * at2 (r_tfr ox) f c)%C /\ Cmod (at2 (r_tfr oy) ((f + m) mod n) c) = Cmod (at2 (r_tfr ox) f c).
Proof.
  intros x ts n w m ox oy f c Hn Hx Hy Hf Hc. assert (Hf' : 0 <= (f + m) mod n < n) by (apply Z.mod_pos_bound; lia).
  assert (E : at2 (r_tfr oy) ((f + m) mod n) c = (root n m * at2 (r_tfr ox) f c)%C).
  { assert (HR : ts_len ts <= zlen x).
    { destruct (c32_pmh_outcome x ts n w Hn) as [[[R|[R _]] _]|[_ R]]; [lia|exact R|congruence]. }
    rewrite (c32_pmh_closed_form _ ts n w oy _ c Hn Hy Hf' Hc), (c32_pmh_closed_form x ts n w ox f c Hn Hx Hf Hc).
    rewrite modulate_zlen, <- csum_scal_l. apply csum_ext. intros k Hk. apply in_arange in Hk. rewrite !modulate_nth by lia. rewrite Cconj_mult, root_conj, root_row by lia.
    replace (m * c) with (m * k + m * (c - 1 - k) + m) by ring. rewrite !root_plus.
    transitivity (root n m * (winf w (c - 1 - k) * cnth x c * Cconj (cnth x k) * root n (- (f * (c - 1 - k)))) * (root n (m * k) * root n (- (m * k))) * (root n (m * (c - 1 - k)) * root n (- (m * (c - 1 - k)))))%C; [ring|].
    rewrite !root_cancel. ring. }
  split; [exact E|]. rewrite E, Cmod_mult, Cmod_root. ring.
Qed.
Lemma c128_page_modulation : forall x l n m oy i ti f, 1 <= n ->
  page (modulate n m x) (Some (TsI l)) (Some n) = Ok oy -> nth_error l (Z.to_nat i) = Some ti -> 0 <= ti < zlen x -> 0 <= f < n ->
  at2 (r_tfr oy) ((f + m) mod n) i = RtoC (Re (root n m * csum (arange 0 (Z.min n (zlen x))) (fun k => cnth x ti * Cconj (cnth x k) * root n (- (f * (ti - 1 - k)))))%C).
Proof.
  intros x l n m oy i ti f Hn Hy Hi Ht Hf. assert (Hf' : 0 <= (f + m) mod n < n) by (apply Z.mod_pos_bound; lia).
  rewrite (c31_any_timestamp _ l n oy i ti _ Hn Hy Hi Hf'). do 2 f_equal.
  rewrite modulate_zlen, Z.mod_small, <- csum_scal_l by lia. apply csum_ext. intros k Hk. apply in_arange in Hk. rewrite !modulate_nth by lia. rewrite Cconj_mult, root_conj, root_row by lia.
  replace (m * ti) with (m * k + m * (ti - 1 - k) + m) by ring. rewrite !root_plus.
  transitivity (root n m * (cnth x ti * Cconj (cnth x k) * root n (- (f * (ti - 1 - k)))) * (root n (m * k) * root n (- (m * k))) * (root n (m * (ti - 1 - k)) * root n (- (m * (ti - 1 - k)))))%C; [ring|].
  rewrite !root_cancel. ring.
Qed.

(** *** Delay *)
Lemma c128_pwvd_delay : forall x tx ty n w s ox oy mx my f t, 1 <= n -> (zlen w - 1) / 2 < round_half n -> 0 <= s ->
  pwvd x (Some tx) (Some n) (Some w) = Ok (ox, mx) -> pwvd (delay s x) (Some ty) (Some n) (Some w) = Ok (oy, my) ->
  0 <= f < n -> 0 <= t < ts_len tx -> t < zlen x -> t + s < ts_len ty -> at2 my f (t + s) = at2 mx f t.
Proof.
  intros x tx ty n w s ox oy mx my f t Hn Hw Hs Hx Hy Hf Ht HN Hts. assert (N0 := zlen_nonneg x).
  rewrite (proj1 (c28_pwvd_closed_form _ ty n w oy my f (t + s) Hn Hw Hy Hf ltac:(lia))), (proj1 (c28_pwvd_closed_form x tx n w ox mx f t Hn Hw Hx Hf Ht)). do 2 f_equal.
  unfold PWV. rewrite delay_zlen by auto. rewrite (csum_incl (arange (- zlen x) (zlen x + 1))).
  - apply csum_ext. intros tau _. rewrite !sigf_delayed by auto. replace (t + s + tau - s) with (t + tau) by lia. replace (t + s - tau - s) with (t - tau) by lia. reflexivity.
  - apply NoDup_arange.
  - apply NoDup_arange.
  - intros k Hk. apply in_arange in Hk. apply in_arange. lia.
  - intros k Hk Nk. rewrite in_arange in Hk, Nk. rewrite !sigf_delayed by auto.
    assert (D : (t + s + k - s < 0 \/ zlen x <= t + s + k - s) \/ (t + s - k - s < 0 \/ zlen x <= t + s - k - s)) by lia.
    destruct D as [D|D]; rewrite (sigf_out x _ D), ?Cconj_R; ring.
Qed.

Lemma csum_delayed s x (G : Z -> C) b : 0 <= s -> s <= b <= s + zlen x ->
  csum (arange 0 b) (fun k => Cconj (cnth (delay s x) k) * G k)%C = csum (arange 0 (b - s)) (fun k => Cconj (cnth x k) * G (k + s)%Z)%C.
Proof.
  intros Hs Hb. rewrite (arange_app 0 s b), csum_app by lia. rewrite csum_0.
  - rewrite Cplus_0_l. replace (arange s b) with (arange (0 + s) ((b - s) + s)) by (f_equal; lia). rewrite arange_shift, csum_map. apply csum_ext. intros k Hk. apply in_arange in Hk.
    f_equal. rewrite <- !sigf_in by (rewrite ?delay_zlen; lia). rewrite sigf_delayed by auto. f_equal. f_equal. lia.
  - intros k Hk. apply in_arange in Hk. rewrite <- sigf_in by (rewrite delay_zlen; lia). rewrite sigf_delayed, sigf_out, Cconj_R by lia. ring.
Qed.

(** Page, with at least as many bins as delayed samples. *)
Lemma c128_page_delay : forall x lx ly n s ox oy i j ti f, 1 <= n -> 0 <= s -> s + zlen x <= n ->
  page x (Some (TsI lx)) (Some n) = Ok ox -> page (delay s x) (Some (TsI ly)) (Some n) = Ok oy ->
  nth_error lx (Z.to_nat i) = Some ti -> nth_error ly (Z.to_nat j) = Some (ti + s) -> 0 <= ti < zlen x -> 0 <= f < n ->
  at2 (r_tfr oy) f j = at2 (r_tfr ox) f i.
Proof.
  intros x lx ly n s ox oy i j ti f Hn Hs HN Hx Hy Hi Hj Ht Hf.
  rewrite (c31_any_timestamp _ ly n oy j (ti + s) _ Hn Hy Hj Hf), (c31_any_timestamp x lx n ox i ti f Hn Hx Hi Hf). do 2 f_equal.
  rewrite delay_zlen, !Z.mod_small by lia. rewrite !Z.min_r by lia.
  assert (V : cnth (delay s x) (ti + s) = cnth x ti) by (rewrite <- !sigf_in by (rewrite ?delay_zlen; lia); rewrite sigf_delayed by auto; f_equal; lia). rewrite V.
  rewrite (csum_ext _ _ (fun k => Cconj (cnth (delay s x) k) * ((fun k => cnth x ti * root n (- (f * (ti + s - 1 - k)))) k))%C) by (intros; ring).
  rewrite (csum_delayed s x (fun k => cnth x ti * root n (- (f * (ti + s - 1 - k))))%C) by lia. replace (s + zlen x - s) with (zlen x) by lia.
  apply csum_ext. intros k _. replace (ti + s - 1 - (k + s)) with (ti - 1 - k) by lia. ring.
Qed.

(** Margenau-Hill never pairs with sample 0, so a delayed signal gains the pairs with its
    first sample. *)
Lemma c128_mh_delay : forall x lx ly n s ox oy i j ti f, 1 <= n -> 1 <= s -> s + zlen x <= n ->
  mh x (Some (TsI lx)) (Some n) = Ok ox -> mh (delay s x) (Some (TsI ly)) (Some n) = Ok oy ->
  nth_error lx (Z.to_nat i) = Some ti -> nth_error ly (Z.to_nat j) = Some (ti + s) -> 0 <= ti < zlen x -> 0 <= f < n ->
  at2 (r_tfr oy) f j = (at2 (r_tfr ox) f i + RtoC (Re (cnth x ti * Cconj (cnth x 0) * root n (- (f * ti)))))%C.
Proof.
  intros x lx ly n s ox oy i j ti f Hn Hs HN Hx Hy Hi Hj Ht Hf.
  rewrite (c30_any_timestamp _ ly n oy j (ti + s) _ Hn Hy Hj Hf), (c30_any_timestamp x lx n ox i ti f Hn Hx Hi Hf).
  rewrite delay_zlen, !Z.mod_small by lia. rewrite !Z.min_r by lia.
  assert (V : cnth (delay s x) (ti + s) = cnth x ti) by (rewrite <- !sigf_in by (rewrite ?delay_zlen; lia); rewrite sigf_delayed by lia; f_equal; lia). rewrite V.
  assert (E : csum (arange 1 (s + zlen x)) (fun k => cnth x ti * Cconj (cnth (delay s x) k) * root n (- (f * (ti + s - k))))%C =
              csum (arange 0 (s + zlen x)) (fun k => Cconj (cnth (delay s x) k) * ((fun k => cnth x ti * root n (- (f * (ti + s - k)))) k))%C).
  { rewrite (arange_cons 0) by lia. rewrite csum_cons. rewrite <- (sigf_in (delay s x) 0) by (rewrite delay_zlen; lia). rewrite sigf_delayed, sigf_out, Cconj_R, Cmult_0_l, Cplus_0_l by lia. apply csum_ext. intros; ring. }
  rewrite E, (csum_delayed s x (fun k => cnth x ti * root n (- (f * (ti + s - k))))%C) by lia. replace (s + zlen x - s) with (zlen x) by lia.
  rewrite <- RtoC_plus, <- Re_plus. do 2 f_equal. rewrite (arange_cons 0 (zlen x)), csum_cons by lia. rewrite Cplus_comm. f_equal.
  - apply csum_ext. intros k _. replace (ti + s - (k + s)) with (ti - k) by lia. ring.
  - replace (ti + s - (0 + s)) with ti by lia. ring.
Qed.

Lemma c128_pmh_delay : forall x tx ty n w s ox oy f c, 1 <= n -> 0 <= s ->
  pmh x (Some tx) (Some n) (Some w) = Ok ox -> pmh (delay s x) (Some ty) (Some n) (Some w) = Ok oy ->
  0 <= f < n -> 0 <= c < ts_len tx -> c + s < ts_len ty -> at2 (r_tfr oy) f (c + s) = at2 (r_tfr ox) f c.
Proof.
  intros x tx ty n w s ox oy f c Hn Hs Hx Hy Hf Hc Hcs. assert (N0 := zlen_nonneg x).
  assert (HR : ts_len tx <= zlen x) by (destruct (c32_pmh_outcome x tx n w Hn) as [[[R|[R _]] _]|[_ R]]; [lia|exact R|congruence]).
  rewrite (c32_pmh_closed_form _ ty n w oy f (c + s) Hn Hy Hf ltac:(lia)), (c32_pmh_closed_form x tx n w ox f c Hn Hx Hf Hc). rewrite delay_zlen by auto.
  assert (V : cnth (delay s x) (c + s) = cnth x c) by (rewrite <- !sigf_in by (rewrite ?delay_zlen; lia); rewrite sigf_delayed by lia; f_equal; lia). rewrite V.
  rewrite (csum_ext _ _ (fun k => Cconj (cnth (delay s x) k) * ((fun k => winf w (c + s - 1 - k) * cnth x c * root n (- (f * (c + s - 1 - k)))) k))%C) by (intros; ring).
  rewrite (csum_delayed s x (fun k => winf w (c + s - 1 - k) * cnth x c * root n (- (f * (c + s - 1 - k))))%C) by lia. replace (s + zlen x - s) with (zlen x) by lia.
  apply csum_ext. intros k _. replace (c + s - 1 - (k + s)) with (c - 1 - k) by lia. ring.
Qed.

(** Spectrogram: a delayed signal has more room on the left, so the part of the window that
    meets it, by whose energy each column is divided, may grow. *)
Lemma wenergy_delay s x v c : 0 <= s -> wenergy (delay s x) v (c + s) = (wenergy x v c + rsum (arange (- s) 0) (fun k => Cmod (v (k - c)%Z) ^ 2))%R.
Proof.
  intros Hs. assert (N0 := zlen_nonneg x). unfold wenergy. rewrite delay_zlen by auto. replace (arange 0 (s + zlen x)) with (arange (- s + s) (zlen x + s)) by (f_equal; lia). rewrite arange_shift, rsum_map.
  rewrite (arange_app (- s) 0 (zlen x)), rsum_app by lia. rewrite Rplus_comm. f_equal; apply rsum_ext; intros k _; do 3 f_equal; lia.
Qed.
Lemma c128_spectrogram_delay : forall x lx ly n w s mx my i j ti cx cy f, 1 <= n -> 0 <= s ->
  spectrogram x (Some (TsI lx)) (Some n) (Some w) = Ok mx -> spectrogram (delay s x) (Some (TsI ly)) (Some n) (Some w) = Ok my ->
  nth_error lx i = Some ti -> nth_error ly j = Some (ti + s) -> nth_error mx i = Some (Some cx) -> nth_error my j = Some (Some cy) -> 0 <= f < n ->
  let h := Z.min (round_half n - 1) ((zlen w - 1) / 2) in let E := wenergy x (wincut h w) (ti - 1) in
  (rnth cy f * (E + rsum (arange (- s) 0) (fun k => Cmod (wincut h w (k - (ti - 1))%Z) ^ 2)) = rnth cx f * E)%R /\ (h < ti -> rnth cy f = rnth cx f).
Proof.
  intros x lx ly n w s mx my i j ti cx cy f Hn Hs Hx Hy Hi Hj Hmx Hmy Hf h E. assert (N0 := zlen_nonneg x).
  rewrite spectrogram_ok in Hx, Hy by lia. injection Hx as <-. injection Hy as <-. rewrite nth_error_map, Hi in Hmx. rewrite nth_error_map, Hj in Hmy. cbn [option_map] in Hmx, Hmy. injection Hmx as Hmx. injection Hmy as Hmy.
  assert (A := spec_entry x w n ti cx f ltac:(lia) Hf Hmx). assert (B := spec_entry (delay s x) w n (ti + s) cy f ltac:(lia) Hf Hmy).
  change (spec_m w n) with h in *. fold E in A. replace (ti + s - 1) with (ti - 1 + s) in B by lia. rewrite wenergy_delay in B by auto. fold E in B.
  assert (S : STFTw (delay s x) (wincut h w) n f (ti - 1 + s) = STFTw x (wincut h w) n f (ti - 1)).
  { unfold STFTw. rewrite delay_zlen by auto. replace (arange 0 (s + zlen x)) with (arange (- s + s) (zlen x + s)) by (f_equal; lia). rewrite arange_shift, csum_map, (arange_app (- s) 0 (zlen x)), csum_app by lia. rewrite csum_0.
    - rewrite Cplus_0_l. apply csum_ext. intros k Hk. apply in_arange in Hk. replace (k + s - (ti - 1 + s)) with (k - (ti - 1)) by lia. do 2 f_equal. rewrite <- !sigf_in by (rewrite ?delay_zlen; lia). rewrite sigf_delayed by lia. f_equal. lia.
    - intros k Hk. apply in_arange in Hk. rewrite <- sigf_in by (rewrite delay_zlen; lia). rewrite sigf_delayed, sigf_out by lia. ring. }
  rewrite S, <- A in B. split; [exact B|]. intros Hh.
  assert (Z0 : rsum (arange (- s) 0) (fun k => Cmod (wincut h w (k - (ti - 1))%Z) ^ 2)%R = 0%R).
  { transitivity (rsum (arange (- s) 0) (fun _ => 0%R)).
    - apply rsum_ext. intros k Hk. apply in_arange in Hk. unfold wincut. destruct (Z.leb_spec (- h) (k - (ti - 1))); [lia|]. cbn [andb]. rewrite Cmod_0. ring.
    - apply rsum_0. reflexivity. }
  rewrite Z0, Rplus_0_r in B. destruct (Req_dec E 0) as [E0|E0]; [|now apply Rmult_eq_reg_r in B].
  rewrite (spec_out_empty_0 x w n ti cx f), (spec_out_empty_0 (delay s x) w n (ti + s) cy f); auto; try lia. change (maxlag w n) with h. replace (ti + s - 1) with (ti - 1 + s) by lia. rewrite wenergy_delay by auto. fold E. rewrite E0, Z0. ring.
Qed.

(** One sample at the edge under the window 1, 1, 1: delayed by one, its column halves. *)
Lemma c128_spectrogram_edge_refuted : exists x w n s ti mx my cx cy, 0 <= s /\
  spectrogram x (Some (TsI [ti])) (Some n) (Some w) = Ok mx /\ spectrogram (delay s x) (Some (TsI [ti + s])) (Some n) (Some w) = Ok my /\
  nth_error mx 0 = Some (Some cx) /\ nth_error my 0 = Some (Some cy) /\ rnth cx 0 = 1%R /\ rnth cy 0 = (1 / 2)%R.
Proof.
  set (x := [RtoC 1]). set (w := [RtoC 1; RtoC 1; RtoC 1]).
  assert (H1 : Z.min (round_half 4 - 1) ((zlen w - 1) / 2) = 1) by reflexivity. assert (HM : maxlag w 4 = 1) by reflexivity.
  assert (W0 : wincut 1 w 0 = RtoC 1) by reflexivity. assert (W1 : wincut 1 w (-1) = RtoC 1) by reflexivity.
  assert (E1 : wenergy x (wincut 1 w) (1 - 1) = 1%R) by (unfold wenergy; change (arange 0 (zlen x)) with [0]; rewrite rsum_cons, rsum_nil; change (0 - (1 - 1)) with 0; rewrite W0, Cmod_1; ring).
  assert (E2 : wenergy (delay 1 x) (wincut 1 w) (2 - 1) = 2%R).
  { change (2 - 1) with ((1 - 1) + 1). rewrite wenergy_delay, E1 by lia. change (arange (- (1)) 0) with [-1]. rewrite rsum_cons, rsum_nil. change (-1 - (1 - 1)) with (-1). rewrite W1, Cmod_1. ring. }
  destruct (spec_out x w 4 1) as [cx|] eqn:Ex. 2:{ exfalso. apply spec_out_none in Ex. rewrite HM, E1 in Ex. destruct Ex. lra. }
  destruct (spec_out (delay 1 x) w 4 2) as [cy|] eqn:Ey. 2:{ exfalso. apply spec_out_none in Ey. rewrite HM, E2 in Ey. destruct Ey. lra. }
  exists x, w, 4, 1, 1, [Some cx], [Some cy], cx, cy. split; [lia|].
  assert (S1 : spectrogram x (Some (TsI [1])) (Some 4) (Some w) = Ok [Some cx]) by (rewrite spectrogram_ok by lia; cbn [map]; now rewrite Ex).
  assert (S2 : spectrogram (delay 1 x) (Some (TsI [1 + 1])) (Some 4) (Some w) = Ok [Some cy]) by (rewrite spectrogram_ok by lia; change (1 + 1) with 2; cbn [map]; now rewrite Ey).
  split; [exact S1|]. split; [exact S2|]. split; [reflexivity|]. split; [reflexivity|].
  assert (V1 : rnth cx 0 = 1%R).
  { assert (A := spec_entry x w 4 1 cx 0 ltac:(lia) ltac:(lia) Ex). change (spec_m w 4) with 1 in A. rewrite E1, Rmult_1_r in A. rewrite A. unfold STFTw. change (arange 0 (zlen x)) with [0]. rewrite csum_cons, csum_nil. change (0 - (1 - 1)) with 0. rewrite W0. change (- (0 * 0)) with 0. rewrite root_0, Cconj_R. change (cnth x 0) with (RtoC 1). rewrite Cplus_0_r, !Cmult_1_r, Cmod_1. ring. }
  split; [exact V1|].
  destruct (c128_spectrogram_delay x [1] [1 + 1] 4 w 1 _ _ 0 0 1 cx cy 0 ltac:(lia) ltac:(lia) S1 S2 eq_refl eq_refl eq_refl eq_refl ltac:(lia)) as [B _]. rewrite H1, E1, V1 in B.
  change (arange (- (1)) 0) with [-1] in B. rewrite rsum_cons, rsum_nil in B. change (-1 - (1 - 1)) with (-1) in B. rewrite W1, Cmod_1 in B. lra.
Qed.

(** One sample: Page's row 0 holds 1, and after a modulation by one bin row 1 holds 0. *)
Lemma c128_page_modulation_refuted : exists x l n m ox oy, page x (Some (TsI l)) (Some n) = Ok ox /\ page (modulate n m x) (Some (TsI l)) (Some n) = Ok oy /\
  at2 (r_tfr ox) 0 0 = RtoC 1 /\ at2 (r_tfr oy) m 0 = RtoC 0.
Proof.
  set (x := [RtoC 1]).
  destruct (c31_page_outcome x [0] 4 ltac:(lia)) as [[_ (ox & Hx & _)]|[(t & [<-|[]] & B) _]]. 2:{ exfalso. apply B. change (zlen x) with 1. lia. }
  destruct (c31_page_outcome (modulate 4 1 x) [0] 4 ltac:(lia)) as [[_ (oy & Hy & _)]|[(t & [<-|[]] & B) _]]. 2:{ exfalso. apply B. rewrite modulate_zlen. change (zlen x) with 1. lia. }
  exists x, [0], 4, 1, ox, oy. split; [exact Hx|]. split; [exact Hy|].
  assert (S : forall f, csum (arange 0 (Z.min 4 (zlen x))) (fun k => cnth x 0 * Cconj (cnth x k) * root 4 (- (f * (0 - 1 - k))))%C = root 4 f).
  { intros f. change (arange 0 (Z.min 4 (zlen x))) with [0]. rewrite csum_cons, csum_nil. change (cnth x 0) with (RtoC 1). rewrite Cconj_R. change (0 - 1 - 0) with (-1). replace (- (f * -1)) with f by ring. ring. }
  split.
  - rewrite (c31_page_closed_form x [0] 4 ox 0 0 0) by (auto; lia). rewrite S, root_0. reflexivity.
  - change 1 with ((0 + 1) mod 4) at 1. rewrite (c128_page_modulation x [0] 4 1 oy 0 0 0) by (auto; try lia; change (zlen x) with 1; lia). rewrite S, root_0, Cmult_1_r. f_equal.
    unfold root, cis. cbn [Re fst]. replace (2 * PI * IZR 1 / IZR 4)%R with (PI / 2)%R by field. apply cos_PI2.
Qed.

(** One sample, two bins: Margenau-Hill is 0 everywhere; delayed by one sample it is 1. *)
Example c128_mh_delay_example : exists ox oy, mh [RtoC 1] (Some (TsI [0])) (Some 2) = Ok ox /\ mh (delay 1 [RtoC 1]) (Some (TsI [1])) (Some 2) = Ok oy /\
  at2 (r_tfr ox) 0 0 = RtoC 0 /\ at2 (r_tfr oy) 0 0 = RtoC 1.
Proof.
  destruct (c30_mh_outcome [RtoC 1] [0] 2 ltac:(lia)) as [[_ (ox & Hx & _)]|[(t & [<-|[]] & B) _]]. 2:{ exfalso. apply B. change (zlen [RtoC 1]) with 1. lia. }
  destruct (c30_mh_outcome (delay 1 [RtoC 1]) [1] 2 ltac:(lia)) as [[_ (oy & Hy & _)]|[(t & [<-|[]] & B) _]]. 2:{ exfalso. apply B. change (zlen (delay 1 [RtoC 1])) with 2. lia. }
  exists ox, oy. split; [exact Hx|]. split; [exact Hy|].
  assert (V : at2 (r_tfr ox) 0 0 = RtoC 0) by (rewrite (c30_mh_closed_form [RtoC 1] [0] 2 ox 0 0 0) by (auto; lia); reflexivity). split; [exact V|].
  rewrite (c128_mh_delay [RtoC 1] [0] [1] 2 1 ox oy 0 0 0 0) by (auto; try lia; change (zlen [RtoC 1]) with 1; lia). rewrite V. change (cnth [RtoC 1] 0) with (RtoC 1). change (- (0 * 0)) with 0. rewrite root_0, Cconj_R, !Cmult_1_r, Cplus_0_l. reflexivity.
Qed.
