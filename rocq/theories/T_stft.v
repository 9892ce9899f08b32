(** C07 - C14: construction and the short-time Fourier transform. *)
From Coq Require Import Reals ZArith List Lia Lra Bool.
From Coquelicot Require Import Coquelicot.
From Verif Require Import Py Scalars CSum DFT Spec M_base M_stft P_base P_stft.
Import ListNotations.
Local Open Scope Z_scope.

Lemma stft_ok x ts n w : 1 <= n ->
  exists tfr, stft x (Some ts) (Some n) (Some w) = Ok (mkrep x ts n w (base_freqs n) tfr false) /\
  forall c, In c tfr -> zlen c = n.
Proof.
  intros Hn. unfold stft, stft_run. cbn [r_sig r_win r_n r_tfr r_ts r_freqs r_real base_init].
  rewrite stft_tfr_fresh by lia. cbn [bind]. eexists. split; [reflexivity|].
  intros c Hc. apply in_map_iff in Hc. destruct Hc as [i [<- _]].
  rewrite fft_zlen. apply scatter_zlen. lia.
Qed.

(** *** C07 *)
Lemma c07_freqs_even : forall x ts n w, 1 <= n -> n mod 2 = 0 ->
  exists o, stft x (Some ts) (Some n) (Some w) = Ok o /\
  zlen (r_freqs o) = n /\ (forall c, In c (r_tfr o) -> zlen c = zlen (r_freqs o)) /\
  (forall k, 0 <= k < n / 2 -> rnth (r_freqs o) k = (IZR k / IZR n)%R) /\
  (forall k, n / 2 <= k < n -> rnth (r_freqs o) k = (IZR (k - n) / IZR n)%R).
Proof.
  intros x ts n w Hn E. destruct (stft_ok x ts n w Hn) as [tfr [H H1]].
  eexists. split; [exact H|]. cbn [r_freqs r_tfr].
  destruct (base_freqs_even n Hn E) as [-> [H3 H4]]. auto.
Qed.

Example c07_even_example : (1 <= 6) /\ 6 mod 2 = 0 /\ rnth (base_freqs 6) 4 = (IZR (-2) / IZR 6)%R.
Proof. split; [lia|]. split; reflexivity. Qed.

(** Odd sizes: one label is missing and the negative half is displaced by 1/n. *)
Lemma c07_freqs_odd_short : forall x ts n w, 1 <= n -> n mod 2 = 1 ->
  exists o, stft x (Some ts) (Some n) (Some w) = Ok o /\
  zlen (r_freqs o) = n - 1 /\ (forall c, In c (r_tfr o) -> zlen c = n) /\
  (forall k, 0 <= k < n / 2 -> rnth (r_freqs o) k = (IZR k / IZR n)%R) /\
  (forall k, n / 2 <= k < n - 1 -> rnth (r_freqs o) k = (IZR (k - (n - 1)) / IZR n)%R).
Proof.
  intros x ts n w Hn E. destruct (stft_ok x ts n w Hn) as [tfr [H H1]].
  eexists. split; [exact H|]. cbn [r_freqs r_tfr].
  destruct (base_freqs_odd n Hn E) as [H2 [H3 H4]]. auto.
Qed.

Lemma c07_refuted : exists x : list C, exists o,
  stft x None None None = Ok o /\ (exists c, In c (r_tfr o) /\ zlen c <> zlen (r_freqs o)).
Proof.
  exists [RtoC 1; RtoC 1; RtoC 1]. unfold stft, stft_run. cbn [r_sig r_win r_n r_tfr r_real base_init].
  rewrite stft_tfr_fresh by (cbn; lia). cbn [bind]. eexists. split; [reflexivity|].
  cbn [r_tfr r_freqs]. change (zlen [RtoC 1; RtoC 1; RtoC 1]) with 3. eexists. split; [left; reflexivity|].
  rewrite fft_zlen, scatter_zlen by (cbn; lia).
  change (r_freqs _) with (base_freqs 3). change (zlen [RtoC 1; RtoC 1; RtoC 1]) with 3.
  rewrite (proj1 (base_freqs_odd 3 ltac:(lia) eq_refl)). lia.
Qed.

(** *** C08 *)
Lemma c08_default_window : forall n, 1 <= n ->
  let w := make_window n in
  Z.odd (zlen w) = true /\ n / 4 <= zlen w <= n / 4 + 1 /\
  (forall k, 0 <= k < zlen w -> (0.08 <= rnth w k <= 1)%R) /\
  (forall k, 0 <= k < zlen w -> rnth w k = rnth w (zlen w - 1 - k)) /\
  rnth w ((zlen w - 1) / 2) = 1%R.
Proof.
  intros n Hn w. destruct (default_winlen_odd n Hn) as [H1 [H2 H3]].
  unfold w, make_window. rewrite hamming_zlen by lia. repeat split; auto; try lia.
  - apply hamming_range; auto.
  - apply hamming_range; auto.
  - apply hamming_sym.
  - apply hamming_centre; auto; lia.
Qed.

Example c08_example : zlen (make_window 128) = 33 /\ zlen (make_window 20) = 5.
Proof. split; reflexivity. Qed.

(** *** C09 *)
Lemma stft_is_tfr x ts n w o : stft x (Some ts) (Some n) (Some w) = Ok o ->
  stft_tfr false x w n (zeros2 n (ts_len ts)) = Ok (r_tfr o).
Proof.
  unfold stft, stft_run. cbn [r_sig r_win r_n r_tfr r_real base_init].
  destruct (stft_tfr _ _ _ _); cbn [bind]; [|discriminate]. intros [= <-]. reflexivity.
Qed.

Lemma c09_stft_total : forall x ts n w, 1 <= n ->
  exists o, stft x (Some ts) (Some n) (Some w) = Ok o /\
  r_ts o = ts /\ zlen (r_tfr o) = ts_len ts /\ (forall c, In c (r_tfr o) -> zlen c = n).
Proof.
  intros x ts n w Hn. unfold stft, stft_run. cbn [r_sig r_win r_n r_tfr r_ts r_freqs r_real base_init].
  rewrite stft_tfr_fresh by lia. cbn [bind]. eexists. split; [reflexivity|].
  cbn [r_ts r_tfr]. repeat split.
  - rewrite zlen_map_arange; [lia|]. destruct ts; apply zlen_nonneg.
  - intros c Hc. apply in_map_iff in Hc. destruct Hc as [i [<- _]].
    rewrite fft_zlen. apply scatter_zlen. lia.
Qed.

Lemma c09_stft_total_default : forall x, x <> [] ->
  exists o, stft x None None None = Ok o /\
  zlen (r_tfr o) = zlen x /\ (forall c, In c (r_tfr o) -> zlen c = zlen x).
Proof.
  intros x Hx. assert (H : 1 <= zlen x) by (destruct x; [congruence|unfold zlen; cbn [length]; lia]).
  destruct (c09_stft_total x (TsI (arange 0 (zlen x))) (zlen x) (map RtoC (make_window (zlen x))) H)
    as [o [H1 [H2 [H3 H4]]]].
  exists o. split; [exact H1|]. split; auto.
  rewrite H3. cbn [ts_len]. rewrite arange_zlen. lia.
Qed.

(** *** C10 *)
Lemma c10_stft_linear : forall a b x y ts n w,
  1 <= n -> zlen x = zlen y ->
  exists ox oy oz,
    stft x (Some ts) (Some n) (Some w) = Ok ox /\ stft y (Some ts) (Some n) (Some w) = Ok oy /\
    stft (lincomb a b x y) (Some ts) (Some n) (Some w) = Ok oz /\
    forall f c, 0 <= f < n -> 0 <= c < ts_len ts ->
    at2 (r_tfr oz) f c = (a * at2 (r_tfr ox) f c + b * at2 (r_tfr oy) f c)%C.
Proof.
  intros a b x y ts n w Hn E.
  destruct (c09_stft_total x ts n w Hn) as [ox [Hx _]].
  destruct (c09_stft_total y ts n w Hn) as [oy [Hy _]].
  destruct (c09_stft_total (lincomb a b x y) ts n w Hn) as [oz [Hz _]].
  exists ox, oy, oz. repeat split; auto.
  apply (stft_linear a b x y w n (ts_len ts)); auto using stft_is_tfr; lia.
Qed.

(** *** C11 *)
Lemma c11_stft_closed_form : forall x ts n w f c,
  1 <= n -> 2 * ((zlen w - 1) / 2) < n -> 0 <= f < n -> 0 <= c < ts_len ts ->
  exists o, stft x (Some ts) (Some n) (Some w) = Ok o /\
  at2 (r_tfr o) f c = STFT x w n f (c - 1).
Proof.
  intros x ts n w f c Hn Hw Hf Hc. destruct (c09_stft_total x ts n w Hn) as [o [H _]].
  exists o. split; auto. apply (stft_closed x w n (ts_len ts)); auto using stft_is_tfr. lia.
Qed.

(** The time origin is one sample early: an impulse at sample 0 peaks in column 1. *)
Example c11_example : exists o,
  stft [RtoC 1; RtoC 0; RtoC 0; RtoC 0] None None (Some [RtoC 1]) = Ok o /\
  at2 (r_tfr o) 0 0 = RtoC 0 /\ at2 (r_tfr o) 0 1 = RtoC 1.
Proof.
  assert (W : 2 * ((zlen [RtoC 1] - 1) / 2) < 4) by (cbn; lia).
  destruct (c11_stft_closed_form [RtoC 1; RtoC 0; RtoC 0; RtoC 0] (TsI (arange 0 4)) 4 [RtoC 1] 0 0
             ltac:(lia) W ltac:(lia) ltac:(cbn [ts_len]; rewrite arange_zlen; lia)) as [o [H0 H1]].
  destruct (c11_stft_closed_form [RtoC 1; RtoC 0; RtoC 0; RtoC 0] (TsI (arange 0 4)) 4 [RtoC 1] 0 1
             ltac:(lia) W ltac:(lia) ltac:(cbn [ts_len]; rewrite arange_zlen; lia)) as [o' [H0' H2]].
  rewrite H0 in H0'. injection H0' as <-.
  exists o. split; [exact H0|]. rewrite H1, H2.
  unfold STFT. eval_arange. unfold sigf, winf, csum, cnth. cbn -[root RtoC Cmult Cplus Cconj].
  rewrite !root_0, !Cconj_R. split; ring.
Qed.

(** *** C12 *)
Lemma c12_stft_parseval : forall x ts n w c,
  1 <= n -> 2 * ((zlen w - 1) / 2) < n -> 0 <= c < ts_len ts ->
  exists o, stft x (Some ts) (Some n) (Some w) = Ok o /\
  rsum (arange 0 n) (fun f => Cmod (at2 (r_tfr o) f c) ^ 2)%R =
  (IZR n * rsum (arange 0 (zlen x)) (fun k => Cmod (cnth x k) ^ 2 * Cmod (winf w (k - (c - 1))) ^ 2))%R.
Proof.
  intros x ts n w c Hn Hw Hc. destruct (c09_stft_total x ts n w Hn) as [o [H _]].
  exists o. split; auto. apply (stft_parseval x w n (ts_len ts)); auto using stft_is_tfr. lia.
Qed.

Lemma c12_stft_inversion : forall x ts n w c t,
  1 <= n -> 2 * ((zlen w - 1) / 2) < n -> 0 <= c < ts_len ts ->
  - ((zlen w - 1) / 2) <= t <= (zlen w - 1) / 2 -> 0 <= c - 1 + t < zlen x ->
  exists o, stft x (Some ts) (Some n) (Some w) = Ok o /\
  csum (arange 0 n) (fun f => at2 (r_tfr o) f c * root n (f * t))%C
  = (RtoC (IZR n) * (cnth x (c - 1 + t) * Cconj (cnth w ((zlen w - 1) / 2 + t))))%C.
Proof.
  intros x ts n w c t Hn Hw Hc Ht Hx. destruct (c09_stft_total x ts n w Hn) as [o [H _]].
  exists o. split; auto. apply (stft_invert x w n (ts_len ts)); auto using stft_is_tfr. lia.
Qed.

Lemma c12_stft_mean : forall x ts n w,
  1 <= n -> 2 * ((zlen w - 1) / 2) < n -> 1 <= zlen w ->
  exists o, stft x (Some ts) (Some n) (Some w) = Ok o /\
  (forall c, 1 <= c < ts_len ts -> c <= zlen x ->
     csum (arange 0 n) (fun f => at2 (r_tfr o) f c)
     = (RtoC (IZR n) * (cnth x (c - 1) * Cconj (cnth w ((zlen w - 1) / 2))))%C) /\
  (0 < ts_len ts -> csum (arange 0 n) (fun f => at2 (r_tfr o) f 0) = RtoC 0).
Proof.
  intros x ts n w Hn Hw Hw1. destruct (c09_stft_total x ts n w Hn) as [o [H _]].
  exists o. split; auto. assert (H' := stft_is_tfr _ _ _ _ _ H). split.
  - intros c Hc Hcx.
    assert (E := stft_invert x w n (ts_len ts) (r_tfr o) c 0 ltac:(lia) Hw ltac:(lia)).
    rewrite !Z.add_0_r in E. fold (win_lh w). rewrite <- E; auto; try lia.
    + apply csum_ext. intros f _. rewrite Z.mul_0_r, root_0. ring.
    + unfold win_lh. Z.to_euclidean_division_equations. lia.
  - intros HT. apply (stft_col0_total x w n (ts_len ts)); auto; lia.
Qed.

(** Two signals with the same default-timestamp STFT agree on all samples but the last. *)
Lemma c12_stft_injective : forall x y n w,
  1 <= n -> 2 * ((zlen w - 1) / 2) < n -> cnth w ((zlen w - 1) / 2) <> RtoC 0 -> 1 <= zlen w ->
  zlen x = zlen y ->
  (exists ox oy, stft x None (Some n) (Some w) = Ok ox /\ stft y None (Some n) (Some w) = Ok oy /\
   r_tfr ox = r_tfr oy) ->
  forall k, 0 <= k < zlen x - 1 -> cnth x k = cnth y k.
Proof.
  intros x y n w Hn Hw Hw0 Hw1 E [ox [oy [Hx [Hy Et]]]] k Hk.
  destruct (c12_stft_mean x (TsI (arange 0 (zlen x))) n w Hn Hw Hw1) as [ox' [Hx' [Mx _]]].
  destruct (c12_stft_mean y (TsI (arange 0 (zlen y))) n w Hn Hw Hw1) as [oy' [Hy' [My _]]].
  change (stft x None (Some n) (Some w)) with (stft x (Some (TsI (arange 0 (zlen x)))) (Some n) (Some w)) in Hx.
  change (stft y None (Some n) (Some w)) with (stft y (Some (TsI (arange 0 (zlen y)))) (Some n) (Some w)) in Hy.
  rewrite Hx in Hx'. rewrite Hy in Hy'. injection Hx' as <-. injection Hy' as <-.
  cbn [ts_len] in Mx, My. rewrite arange_zlen in Mx, My.
  specialize (Mx (k + 1) ltac:(lia) ltac:(lia)). specialize (My (k + 1) ltac:(lia) ltac:(lia)).
  rewrite Et, My in Mx. replace (k + 1 - 1) with k in Mx by lia.
  assert (Hc : Cconj (cnth w ((zlen w - 1) / 2)) <> RtoC 0).
  { intros Hc. apply Hw0. rewrite <- (Cconj_invol (cnth w _)), Hc. apply Cconj_R. }
  assert (Hn0 : RtoC (IZR n) <> RtoC 0).
  { intros Hc'. apply RtoC_inj in Hc'. apply (not_0_IZR n); auto. lia. }
  set (a := Cconj (cnth w ((zlen w - 1) / 2))) in *.
  assert (Z0 : (RtoC (IZR n) * a * (cnth x k - cnth y k))%C = RtoC 0).
  { transitivity (RtoC (IZR n) * (cnth x k * a) - RtoC (IZR n) * (cnth y k * a))%C; [ring|].
    rewrite Mx. ring. }
  destruct (Ceq_dec (cnth x k - cnth y k)%C (RtoC 0)) as [D|D].
  - replace (cnth x k) with (cnth x k - cnth y k + cnth y k)%C by ring. rewrite D. ring.
  - exfalso. exact (Cmult_neq_0 _ _ (Cmult_neq_0 _ _ Hn0 Hc) D Z0).
Qed.

(** *** C13 *)
Lemma c13_stft_modulation : forall x ts n w m,
  1 <= n ->
  exists ox oy, stft x (Some ts) (Some n) (Some w) = Ok ox /\
    stft (modulate n m x) (Some ts) (Some n) (Some w) = Ok oy /\
    forall f c, 0 <= f < n -> 0 <= c < ts_len ts ->
    at2 (r_tfr oy) f c = (root n (m * (c - 1)) * at2 (r_tfr ox) ((f - m) mod n) c)%C /\
    Cmod (at2 (r_tfr oy) f c) = Cmod (at2 (r_tfr ox) ((f - m) mod n) c).
Proof.
  intros x ts n w m Hn.
  destruct (c09_stft_total x ts n w Hn) as [ox [Hx _]].
  destruct (c09_stft_total (modulate n m x) ts n w Hn) as [oy [Hy _]].
  exists ox, oy. do 2 (split; auto). intros f c Hf Hc.
  assert (E := stft_modulate x w n m (ts_len ts) _ _ ltac:(lia) (stft_is_tfr _ _ _ _ _ Hx)
                 (stft_is_tfr _ _ _ _ _ Hy) f c Hf Hc).
  split; auto. rewrite E, Cmod_mult, Cmod_root. ring.
Qed.

(** *** C14 *)
Lemma c14_stft_delay : forall x ts ts' n w s,
  1 <= n -> 2 * ((zlen w - 1) / 2) < n -> 0 <= s ->
  exists ox oy, stft x (Some ts) (Some n) (Some w) = Ok ox /\
    stft (delay s x) (Some ts') (Some n) (Some w) = Ok oy /\
    forall f c, 0 <= f < n -> 0 <= c < ts_len ts -> c + s < ts_len ts' ->
    at2 (r_tfr oy) f (c + s) = at2 (r_tfr ox) f c.
Proof.
  intros x ts ts' n w s Hn Hw Hs.
  destruct (c09_stft_total x ts n w Hn) as [ox [Hx _]].
  destruct (c09_stft_total (delay s x) ts' n w Hn) as [oy [Hy _]].
  exists ox, oy. do 2 (split; auto). intros f c Hf Hc Hc'.
  rewrite (stft_closed (delay s x) w n (ts_len ts') (r_tfr oy) f (c + s)); auto using stft_is_tfr; try lia.
  rewrite (stft_closed x w n (ts_len ts) (r_tfr ox) f c); auto using stft_is_tfr; try lia.
  replace (c + s - 1) with (c - 1 + s) by lia. now apply STFT_delay.
Qed.
