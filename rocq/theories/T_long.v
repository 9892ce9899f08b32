(** C11, C12, C14, C28: the short-time Fourier transform and the pseudo
    Wigner-Ville distribution with windows of any length.
    Where two lags of a column are congruent modulo n_fbins, the later one is kept. *)
From Coq Require Import Reals ZArith List Lia Lra Bool.
From Coquelicot Require Import Coquelicot.
From Verif Require Import Py Scalars CSum DFT Spec M_base M_stft M_cohen P_base P_stft P_wvd P_pwvd T_stft T_pwvd.
Import ListNotations.
Local Open Scope Z_scope.

(** The lags kept of a range are its last [n]. *)
Lemma lastdup_arange n a b : 0 < n -> lastdup n (arange a b) = arange (Z.max a (b - n)) b.
Proof.
  intros Hn. destruct (Z_le_gt_dec b a) as [E|E]; [rewrite !arange_empty by lia; reflexivity|].
  remember (Z.to_nat (b - a)) as k eqn:K. revert a E K. induction k as [|k IH]; intros a E K; [lia|].
  rewrite arange_cons by lia. cbn [lastdup].
  assert (IH' : lastdup n (arange (a + 1) b) = arange (Z.max (a + 1) (b - n)) b).
  { destruct (Z_le_gt_dec b (a + 1)) as [E'|E']; [rewrite !arange_empty by lia; reflexivity|apply IH; lia]. }
  rewrite IH'. destruct (existsb (fun s => s mod n =? a mod n) (arange (a + 1) b)) eqn:X.
  - apply existsb_exists in X. destruct X as (s & Hs & X). apply in_arange in Hs. apply Z.eqb_eq in X.
    assert (n <= s - a).
    { assert (D : (s - a) mod n = 0) by (rewrite Zminus_mod, X, Z.sub_diag; apply Z.mod_0_l; lia). apply Z.mod_divide in D; [|lia]. destruct D as [q D]. assert (1 <= q) by nia. nia. }
    f_equal. lia.
  - destruct (Z_le_gt_dec (b - n) a) as [L|L].
    + replace (Z.max (a + 1) (b - n)) with (a + 1) by lia || idtac. replace (Z.max a (b - n)) with a by lia.
      rewrite (arange_cons a b) by lia. reflexivity.
    + exfalso. assert (Y : existsb (fun s => s mod n =? a mod n) (arange (a + 1) b) = true); [|congruence].
      apply existsb_exists. exists (a + n). split; [apply in_arange; lia|]. apply Z.eqb_eq. rewrite <- (Z.mul_1_l n) at 1. apply Z.mod_add. lia.
Qed.

(** The window as the column around sample [c] of a signal of [N] samples sees
    it: cut at half the number of bins (rounded to the nearest even integer),
    and without the lags t for which lag t + n is also there. *)
Definition maxlag1 (w : list C) (n : Z) : Z := Z.min ((zlen w - 1) / 2) (round_half n).
Definition longwin (N : Z) (w : list C) (n c t : Z) : C :=
  if (Z.abs t <=? maxlag1 w n) && negb ((t + n <=? maxlag1 w n) && (c + t + n <? N)) then winf w t else RtoC 0.

Lemma kept_taus (x : list C) w n c : 0 < n ->
  lastdup n (stft_taus (zlen x) w n c) = arange (Z.max (- Z.min (maxlag1 w n) (c - 1)) (Z.min (maxlag1 w n) (zlen x - c) + 1 - n)) (Z.min (maxlag1 w n) (zlen x - c) + 1).
Proof.
  intros Hn. unfold stft_taus. rewrite lastdup_arange by auto. unfold maxlag1. fold (win_lh w). rewrite (Z.min_comm (win_lh w)). reflexivity.
Qed.
Lemma longwin_in (x : list C) w n c t : In t (lastdup n (stft_taus (zlen x) w n c)) -> 0 < n -> longwin (zlen x) w n (c - 1) t = cnth w (win_lh w + t).
Proof.
  intros Ht Hn. rewrite kept_taus in Ht by auto. apply in_arange in Ht. unfold longwin.
  destruct (Z.leb_spec (Z.abs t) (maxlag1 w n)) as [L|L]; [|lia].
  destruct (Z.leb_spec (t + n) (maxlag1 w n)) as [L1|L1]; cbn [andb negb].
  - destruct (Z.ltb_spec (c - 1 + t + n) (zlen x)) as [L2|L2]; cbn [negb]; [lia|]. apply winf_lh_in. unfold maxlag1 in L. fold (win_lh w) in L. lia.
  - apply winf_lh_in. unfold maxlag1 in L. fold (win_lh w) in L. lia.
Qed.
Lemma longwin_out (x : list C) w n c t : ~ In t (lastdup n (stft_taus (zlen x) w n c)) -> 0 < n -> 0 <= c - 1 + t < zlen x -> longwin (zlen x) w n (c - 1) t = RtoC 0.
Proof.
  intros Ht Hn Hk. rewrite kept_taus, in_arange in Ht by auto. unfold longwin.
  destruct (Z.leb_spec (Z.abs t) (maxlag1 w n)) as [L|L]; [|reflexivity]. cbn [andb].
  destruct (Z.leb_spec (t + n) (maxlag1 w n)); cbn [andb negb]; [|exfalso; apply Ht; lia].
  destruct (Z.ltb_spec (c - 1 + t + n) (zlen x)); cbn [negb]; [reflexivity|exfalso; apply Ht; lia].
Qed.
Lemma kept_csum (x : list C) w n c (F : Z -> C) : 0 < n ->
  (forall k, 0 <= k < zlen x -> ~ In (k - (c - 1)) (lastdup n (stft_taus (zlen x) w n c)) -> F k = RtoC 0) ->
  csum (lastdup n (stft_taus (zlen x) w n c)) (fun t => F (c - 1 + t)) = csum (arange 0 (zlen x)) F.
Proof.
  intros Hn HF. set (L := lastdup n (stft_taus (zlen x) w n c)) in *.
  transitivity (csum (map (fun t => c - 1 + t) L) F); [now rewrite csum_map|]. symmetry. apply csum_incl.
  - apply NoDup_map_inj; [intros; lia|]. unfold L. rewrite kept_taus by auto. apply NoDup_arange.
  - apply NoDup_arange.
  - intros k Hk. apply in_map_iff in Hk. destruct Hk as (t & <- & Ht). apply lastdup_in, stft_taus_ok in Ht. apply in_arange. lia.
  - intros k Hk Hk'. apply in_arange in Hk. apply HF; [exact Hk|]. intros Q. apply Hk'. apply in_map_iff. exists (k - (c - 1)). split; [lia|exact Q].
Qed.

Lemma c11_any_window : forall x ts n w, 1 <= n -> exists o, stft x (Some ts) (Some n) (Some w) = Ok o /\
  forall f c, 0 <= f < n -> 0 <= c < ts_len ts -> at2 (r_tfr o) f c = STFTw x (longwin (zlen x) w n (c - 1)) n f (c - 1).
Proof.
  intros x ts n w Hn. destruct (c09_stft_total x ts n w Hn) as [o [H _]]. exists o. split; auto. intros f c Hf Hc.
  assert (Hn' : 0 < n) by lia. rewrite (stft_entry' _ _ _ _ _ _ _ Hn' Hf Hc (stft_is_tfr _ _ _ _ _ H)). unfold STFTw.
  rewrite <- (kept_csum x w n c); [|lia|intros k Hk Q; rewrite (longwin_out x w n c) by (auto; lia); rewrite Cconj_R; ring].
  unfold esum. apply csum_ext. intros t Ht. replace (c - 1 + t - (c - 1)) with t by lia. rewrite longwin_in by (auto; lia).
  unfold stft_val. replace (c + t - 1) with (c - 1 + t) by lia. reflexivity.
Qed.
(** With 2*lh < n_fbins nothing is lost, and this is the formula of C11. *)
Lemma c11_short_window : forall N w n c t, 1 <= n -> 2 * ((zlen w - 1) / 2) < n -> longwin N w n c t = winf w t.
Proof.
  intros N w n c t Hn Hw. unfold longwin, maxlag1. assert (B := round_half_bounds n). set (h := (zlen w - 1) / 2) in *.
  destruct (Z.leb_spec (Z.abs t) (Z.min h (round_half n))) as [L|L]; cbn [andb].
  - destruct (Z.leb_spec (t + n) (Z.min h (round_half n))); [lia|]. reflexivity.
  - symmetry. apply winf_out. fold h. lia.
Qed.
(** The plain formula fails for longer windows: the two ends of a window of n+1 samples share a bin. *)
Lemma c11_long_window_refuted : exists x n w f c o, 1 <= n /\ 0 <= f < n /\ 0 <= c < zlen x /\ stft x None (Some n) (Some w) = Ok o /\
  at2 (r_tfr o) f c = RtoC 2 /\ STFT x w n f (c - 1) = RtoC 3.
Proof.
  set (l := [RtoC 1; RtoC 1; RtoC 1]). destruct (c11_any_window l (TsI (arange 0 3)) 2 l ltac:(lia)) as (o & H & E). exists l, 2, l, 0, 2, o.
  split; [lia|]. split; [lia|]. split; [change (zlen l) with 3; lia|]. split; [exact H|].
  assert (R0 : forall a, root 2 (- (0 * a)) = RtoC 1) by (intros; rewrite Z.mul_0_l; apply root_0).
  assert (RH : round_half 2 = 1) by (assert (Q := round_half_even 2 eq_refl); lia).
  split.
  - rewrite E by (change (ts_len (TsI (arange 0 3))) with 3; lia). unfold STFTw. change (zlen l) with 3. eval_arange. rewrite !csum_cons, csum_nil, !R0.
    unfold longwin, maxlag1. rewrite RH. change (zlen l) with 3. unfold winf. change (zlen l) with 3. eval_cnth. cbn -[Cmult Cplus Cconj RtoC]. rewrite ?Cconj_R. unfold Cplus, Cmult, RtoC; cbn; f_equal; ring.
  - unfold STFT, sigf, winf. change (zlen l) with 3. eval_arange. rewrite !csum_cons, csum_nil, !R0. eval_cnth. cbn -[Cmult Cplus Cconj RtoC]. rewrite ?Cconj_R. unfold Cplus, Cmult, RtoC; cbn; f_equal; ring.
Qed.

(** Parseval in every column. *)
Lemma c12_parseval_any_window : forall x ts n w c, 1 <= n -> 0 <= c < ts_len ts -> exists o, stft x (Some ts) (Some n) (Some w) = Ok o /\
  rsum (arange 0 n) (fun f => Cmod (at2 (r_tfr o) f c) ^ 2)%R = (IZR n * xwenergy x (longwin (zlen x) w n (c - 1)) (c - 1))%R.
Proof.
  intros x ts n w c Hn Hc. destruct (c09_stft_total x ts n w Hn) as [o [H _]]. exists o. split; auto. assert (Hn' : 0 < n) by lia.
  rewrite (rsum_ext _ _ (fun f => Cmod (esum n (lastdup n (stft_taus (zlen x) w n c)) (stft_val x w c) f) ^ 2)%R).
  - rewrite esum_energy by (auto; apply lastdup_NoDup). f_equal. unfold xwenergy. apply RtoC_inj. rewrite !RtoC_rsum.
    rewrite <- (kept_csum x w n c); [|lia|intros k Hk Q; rewrite (longwin_out x w n c) by (auto; lia); rewrite Cmod_0; f_equal; ring].
    apply csum_ext. intros t Ht. f_equal. replace (c - 1 + t - (c - 1)) with t by lia. rewrite longwin_in by auto.
    unfold stft_val. rewrite Cmod_mult, Cmod_conj. replace (c + t - 1) with (c - 1 + t) by lia. ring.
  - intros f Hf. apply in_arange in Hf. rewrite (stft_entry' _ _ _ _ _ _ _ Hn' Hf Hc (stft_is_tfr _ _ _ _ _ H)). reflexivity.
Qed.
(** A lag kept is recovered from the column. *)
Lemma c12_inversion_any_window : forall x ts n w c t, 1 <= n -> 0 <= c < ts_len ts -> 0 <= c - 1 + t < zlen x -> Z.abs t <= maxlag1 w n ->
  ~ (t + n <= maxlag1 w n /\ c - 1 + t + n < zlen x) ->
  exists o, stft x (Some ts) (Some n) (Some w) = Ok o /\
  csum (arange 0 n) (fun f => at2 (r_tfr o) f c * root n (f * t))%C = (RtoC (IZR n) * (cnth x (c - 1 + t) * Cconj (cnth w ((zlen w - 1) / 2 + t))))%C.
Proof.
  intros x ts n w c t Hn Hc Hk Ht Hd. destruct (c09_stft_total x ts n w Hn) as [o [H _]]. exists o. split; auto. assert (Hn' : 0 < n) by lia.
  set (L := lastdup n (stft_taus (zlen x) w n c)).
  rewrite (csum_ext _ _ (fun f => esum n L (stft_val x w c) f * root n (f * t))%C).
  - rewrite esum_inv by auto. f_equal. rewrite (csum_single _ t).
    + rewrite Z.sub_diag, Z.mod_0_l by lia. cbn [Z.eqb]. unfold stft_val. replace (c + t - 1) with (c - 1 + t) by lia. reflexivity.
    + unfold L. rewrite kept_taus by auto. apply NoDup_arange.
    + unfold L. rewrite kept_taus by auto. apply in_arange. lia.
    + intros s Hs Hne. destruct (Z.eqb_spec ((s - t) mod n) 0) as [E|E]; auto. exfalso. apply Hne. apply Z.mod_divide in E; [|lia]. destruct E as [q E].
      unfold L in Hs. rewrite kept_taus in Hs by auto. apply in_arange in Hs. assert (q = 0) by nia. subst q. lia.
  - intros f Hf. apply in_arange in Hf. rewrite (stft_entry' _ _ _ _ _ _ _ Hn' Hf Hc (stft_is_tfr _ _ _ _ _ H)). reflexivity.
Qed.
(** Lag 0 is never lost, so the sample and the signal are recovered whatever the window. *)
Lemma maxlag1_lt w n : 1 <= n -> maxlag1 w n < n.
Proof.
  intros Hn. unfold maxlag1. destruct (Z.eq_dec n 1) as [->|E]; [|assert (B := round_half_bounds n); lia].
  assert (B := round_half_bounds 1). assert (T := round_half_ties 1). assert (round_half 1 = 0); [|lia].
  assert (C2 : round_half 1 = 0 \/ round_half 1 = 1) by lia. destruct C2 as [Q|Q]; [exact Q|]. rewrite Q in T. specialize (T ltac:(lia)). discriminate.
Qed.
Lemma c12_mean_any_window : forall x ts n w c, 1 <= n -> 1 <= zlen w -> 1 <= c < ts_len ts -> c <= zlen x ->
  exists o, stft x (Some ts) (Some n) (Some w) = Ok o /\
  csum (arange 0 n) (fun f => at2 (r_tfr o) f c) = (RtoC (IZR n) * (cnth x (c - 1) * Cconj (cnth w ((zlen w - 1) / 2))))%C.
Proof.
  intros x ts n w c Hn Hw Hc Hx. assert (M := maxlag1_lt w n Hn). assert (M0 : 0 <= maxlag1 w n).
  { unfold maxlag1. assert (B := round_half_bounds n). assert (0 <= (zlen w - 1) / 2) by (apply Z.div_pos; lia). lia. }
  destruct (c12_inversion_any_window x ts n w c 0 Hn) as (o & H & E); try lia. exists o. split; [exact H|]. rewrite !Z.add_0_r in E. rewrite <- E.
  apply csum_ext. intros f _. rewrite Z.mul_0_r, root_0. ring.
Qed.
Lemma c12_injective_any_window : forall x y n w, 1 <= n -> 1 <= zlen w -> cnth w ((zlen w - 1) / 2) <> RtoC 0 -> zlen x = zlen y ->
  (exists ox oy, stft x None (Some n) (Some w) = Ok ox /\ stft y None (Some n) (Some w) = Ok oy /\ r_tfr ox = r_tfr oy) ->
  forall k, 0 <= k < zlen x - 1 -> cnth x k = cnth y k.
Proof.
  intros x y n w Hn Hw1 Hw0 E (ox & oy & Hx & Hy & Et) k Hk.
  assert (TL : forall N, 0 <= N -> ts_len (TsI (arange 0 N)) = N) by (intros; cbn [ts_len]; rewrite arange_zlen; lia).
  destruct (c12_mean_any_window x (TsI (arange 0 (zlen x))) n w (k + 1) Hn Hw1) as (ox' & Hx' & Mx); [rewrite TL; lia|lia|].
  destruct (c12_mean_any_window y (TsI (arange 0 (zlen y))) n w (k + 1) Hn Hw1) as (oy' & Hy' & My); [rewrite TL; lia|lia|].
  change (stft x None (Some n) (Some w)) with (stft x (Some (TsI (arange 0 (zlen x)))) (Some n) (Some w)) in Hx.
  change (stft y None (Some n) (Some w)) with (stft y (Some (TsI (arange 0 (zlen y)))) (Some n) (Some w)) in Hy.
  assert (ox' = ox) by congruence. assert (oy' = oy) by congruence. subst ox' oy'. rewrite Et, My in Mx. replace (k + 1 - 1) with k in Mx by lia.
  assert (Hc : Cconj (cnth w ((zlen w - 1) / 2)) <> RtoC 0).
  { intros Hc. apply Hw0. rewrite <- (Cconj_invol (cnth w _)), Hc. apply Cconj_R. }
  assert (Hn0 : RtoC (IZR n) <> RtoC 0) by (intros Q; apply RtoC_inj in Q; apply (not_0_IZR n); auto; lia).
  set (a := Cconj (cnth w ((zlen w - 1) / 2))) in *.
  destruct (Ceq_dec (cnth x k - cnth y k)%C (RtoC 0)) as [D|D].
  - replace (cnth x k) with (cnth x k - cnth y k + cnth y k)%C by ring. rewrite D. ring.
  - exfalso. apply (Cmult_neq_0 _ _ (Cmult_neq_0 _ _ Hn0 Hc) D).
    transitivity (RtoC (IZR n) * (cnth x k * a) - RtoC (IZR n) * (cnth y k * a))%C; [ring|]. rewrite Mx. ring.
Qed.

(** Delays, for every window. *)
Lemma c14_any_window : forall x ts ts' n w s, 1 <= n -> 0 <= s ->
  exists ox oy, stft x (Some ts) (Some n) (Some w) = Ok ox /\ stft (delay s x) (Some ts') (Some n) (Some w) = Ok oy /\
  forall f c, 0 <= f < n -> 0 <= c < ts_len ts -> c + s < ts_len ts' -> at2 (r_tfr oy) f (c + s) = at2 (r_tfr ox) f c.
Proof.
  intros x ts ts' n w s Hn Hs. destruct (c11_any_window x ts n w Hn) as (ox & Hx & Ex). destruct (c11_any_window (delay s x) ts' n w Hn) as (oy & Hy & Ey).
  exists ox, oy. split; auto. split; auto. intros f c Hf Hc Hc'. rewrite Ex, Ey by lia.
  assert (L : zlen (delay s x) = s + zlen x) by (unfold delay; rewrite zlen_app; f_equal; unfold zlen; rewrite repeat_length; lia).
  assert (V : forall k, 0 <= k < s -> cnth (delay s x) k = RtoC 0).
  { intros k Hk. unfold cnth, delay. rewrite app_nth1 by (rewrite repeat_length; lia). apply nth_repeat. }
  assert (V' : forall k, 0 <= k -> cnth (delay s x) (k + s) = cnth x k).
  { intros k Hk. unfold cnth, delay. rewrite app_nth2 by (rewrite repeat_length; lia). rewrite repeat_length. f_equal. lia. }
  unfold STFTw. rewrite L. rewrite (arange_app 0 s (s + zlen x)) by (assert (Q := zlen_nonneg x); lia). rewrite csum_app.
  rewrite csum_0 by (intros k Hk; apply in_arange in Hk; rewrite V by lia; ring). rewrite Cplus_0_l.
  replace (arange s (s + zlen x)) with (map (fun k => k + s) (arange 0 (zlen x))) by (rewrite <- arange_shift; f_equal; lia).
  rewrite csum_map. apply csum_ext. intros k Hk. apply in_arange in Hk. rewrite V' by lia. replace (k + s - (c + s - 1)) with (k - (c - 1)) by lia.
  replace (longwin (s + zlen x) w n (c + s - 1) (k - (c - 1))) with (longwin (zlen x) w n (c - 1) (k - (c - 1))); [reflexivity|].
  unfold longwin. replace (c + s - 1 + (k - (c - 1)) + n <? s + zlen x) with (c - 1 + (k - (c - 1)) + n <? zlen x); [reflexivity|].
  destruct (Z.ltb_spec (c - 1 + (k - (c - 1)) + n) (zlen x)), (Z.ltb_spec (c + s - 1 + (k - (c - 1)) + n) (s + zlen x)); reflexivity || lia.
Qed.

(** The pseudo Wigner-Ville distribution with any window: the lags available at
    time [t] are |tau| <= pmax; of two that share a bin the later one is kept. *)
Definition PWVw (x : list C) (v : Z -> C) (n f t : Z) : C :=
  csum (arange (- zlen x) (zlen x + 1)) (fun tau => v tau * (sigf x (t + tau) * Cconj (sigf x (t - tau))) * root n (- (f * tau)))%C.
Definition pmax (N : Z) (w : list C) (n t : Z) : Z := Z.min (Z.min t (N - 1 - t)) (maxlag1 w n).
Definition longlag (N : Z) (w : list C) (n t tau : Z) : C :=
  if (Z.abs tau <=? pmax N w n t) && negb (tau + n <=? pmax N w n t) then winf w tau else RtoC 0.
Lemma c28_any_window : forall x ts n w o m f t, 1 <= n -> pwvd x (Some ts) (Some n) (Some w) = Ok (o, m) -> 0 <= f < n -> 0 <= t < ts_len ts ->
  at2 m f t = RtoC (Re (PWVw x (longlag (zlen x) w n t) n f t)).
Proof.
  intros x ts n w o m f t Hn H Hf Ht. assert (Hn' : 0 < n) by lia.
  destruct (pwvd_at2 x ts n w o m f t Hn' H Hf Ht) as [E1 E2]. rewrite pwvd_entry in E1 by auto. rewrite E2, E1. do 2 f_equal.
  assert (L : lastdup n (pwvd_taus (zlen x) w n t) = arange (Z.max (- pmax (zlen x) w n t) (pmax (zlen x) w n t + 1 - n)) (pmax (zlen x) w n t + 1)).
  { unfold pwvd_taus. cbv zeta. rewrite lastdup_arange by auto. unfold pmax, maxlag1. fold (win_lh w). rewrite (Z.min_comm (win_lh w)). f_equal; lia. }
  rewrite L. unfold esum, PWVw. set (M := pmax (zlen x) w n t) in *.
  set (A := arange (Z.max (- M) (M + 1 - n)) (M + 1)).
  transitivity (csum A (fun tau => longlag (zlen x) w n t tau * (sigf x (t + tau) * Cconj (sigf x (t - tau))) * root n (- (f * tau)))%C).
  - apply csum_ext. intros k Hk. unfold A in Hk. apply in_arange in Hk.
    assert (K : longlag (zlen x) w n t k = cnth w (win_lh w + k)).
    { unfold longlag. fold M. destruct (Z.leb_spec (Z.abs k) M); [|lia]. destruct (Z.leb_spec (k + n) M); [lia|]. cbn [andb negb]. apply winf_lh_in. unfold M, pmax, maxlag1 in *. fold (win_lh w) in *. lia. }
    rewrite K, !sigf_in by (unfold M, pmax in Hk; lia). unfold pwvd_val. ring.
  - symmetry. apply csum_incl; try apply NoDup_arange.
    + intros k Hk. unfold A in Hk. apply in_arange in Hk. apply in_arange. unfold M, pmax in Hk. lia.
    + intros k Hk Hk'. unfold A in Hk'. rewrite in_arange in Hk'. replace (longlag (zlen x) w n t k) with (RtoC 0); [ring|].
      unfold longlag. fold M. destruct (Z.leb_spec (Z.abs k) M); [|reflexivity]. destruct (Z.leb_spec (k + n) M); [reflexivity|lia].
Qed.
(** The plain formula fails with a longer window: the two extreme lags share bin n/2. *)
Lemma c28_long_window_refuted : exists x ts n w o m, 1 <= n /\ pwvd x (Some (TsI ts)) (Some n) (Some w) = Ok (o, m) /\ at2 m 0 1 = RtoC 2 /\ PWV x w n 0 1 = RtoC 3.
Proof.
  set (l := [RtoC 1; RtoC 1; RtoC 1]). assert (RH : round_half 2 = 1) by (assert (Q := round_half_even 2 eq_refl); lia).
  destruct (c28_pwvd_outcome l (TsI [0; 1]) 2 l ltac:(lia)) as [[(c & Hc & Q) _]|[_ (o & m & H & _)]].
  { exfalso. rewrite RH in Q. cbn in Hc. lia. }
  exists l, [0; 1], 2, l, o, m. split; [lia|]. split; [exact H|].
  assert (R0 : forall a, root 2 (- (0 * a)) = RtoC 1) by (intros; rewrite Z.mul_0_l; apply root_0).
  split.
  - rewrite (c28_any_window l (TsI [0; 1]) 2 l o m 0 1) by (exact H || (cbn [ts_len]; unfold zlen; cbn [length]; lia)).
    assert (P : pmax 3 l 2 1 = 1) by (unfold pmax, maxlag1; rewrite RH; reflexivity).
    unfold PWVw, longlag. change (zlen l) with 3. rewrite P. eval_arange. rewrite !csum_cons, csum_nil, !R0.
    unfold sigf, winf. change (zlen l) with 3. eval_cnth. cbn -[Cmult Cplus Cconj RtoC]. rewrite ?Cconj_R. unfold Cplus, Cmult, RtoC, Re; cbn; f_equal; ring.
  - unfold PWV, sigf, winf. change (zlen l) with 3. eval_arange. rewrite !csum_cons, csum_nil, !R0.
    eval_cnth. cbn -[Cmult Cplus Cconj RtoC]. rewrite ?Cconj_R. unfold Cplus, Cmult, RtoC; cbn; f_equal; ring.
Qed.
