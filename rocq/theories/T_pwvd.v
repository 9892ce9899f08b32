(** C28, C73: the pseudo Wigner-Ville distribution. *)
From Coq Require Import Reals ZArith List Lia Lra Bool.
From Coquelicot Require Import Coquelicot.
From Verif Require Import Py Scalars CSum DFT Spec M_base M_stft M_cohen P_base P_stft P_wvd P_pwvd T_wvd.
Import ListNotations.
Local Open Scope Z_scope.

Lemma ts_len_nonneg ts : 0 <= ts_len ts.
Proof. destruct ts; apply zlen_nonneg. Qed.

Lemma pwvd_unfold x ts n w : pwvd x (Some ts) (Some n) (Some w) =
  (tfr <- pwvd_tfr false x w n (zeros2 n (ts_len ts)) ;;
   Ok (mkrep x ts n w (base_freqs n) tfr false, map (map nre) tfr)).
Proof. reflexivity. Qed.

Lemma pwvd_ret x ts n w o m : 0 < n -> pwvd x (Some ts) (Some n) (Some w) = Ok (o, m) ->
  r_tfr o = map (fun c => fft (pwvd_raw x w n c)) (arange 0 (ts_len ts)) /\
  m = map (map nre) (r_tfr o) /\ r_freqs o = base_freqs n.
Proof.
  intros Hn H. rewrite pwvd_unfold in H.
  destruct (pwvd_tfr_cases x w n (ts_len ts) Hn) as [[_ E]|[_ E]]; rewrite E in H; cbn [bind] in H.
  - discriminate.
  - injection H as <- <-. auto.
Qed.

Lemma pwvd_at2 x ts n w o m f c : 0 < n -> pwvd x (Some ts) (Some n) (Some w) = Ok (o, m) ->
  0 <= f < n -> 0 <= c < ts_len ts ->
  at2 (r_tfr o) f c = cnth (fft (pwvd_raw x w n c)) f /\ at2 m f c = RtoC (Re (at2 (r_tfr o) f c)).
Proof.
  intros Hn H Hf Hc. apply pwvd_ret in H; auto. destruct H as [H1 [-> _]]. rewrite H1.
  rewrite map_map, !at2_map by auto. split; auto.
  rewrite cnth_map_re; auto. rewrite fft_zlen. unfold pwvd_raw. rewrite scatter_zlen; lia.
Qed.

(** *** C28 *)
(** Exact outcome: IndexError as soon as the half-length of the window reaches
    round(n/2) and some column lies between round(n/2)+1 and N-round(n/2). *)
Lemma c28_pwvd_outcome : forall x ts n w, 1 <= n ->
  ((exists c, 0 <= c < ts_len ts /\ round_half n + 1 <= c <= zlen x - round_half n) /\
   round_half n <= (zlen w - 1) / 2 /\
   pwvd x (Some ts) (Some n) (Some w) = Raise IndexError) \/
  (~ ((exists c, 0 <= c < ts_len ts /\ round_half n + 1 <= c <= zlen x - round_half n) /\
      round_half n <= (zlen w - 1) / 2) /\
   exists o m, pwvd x (Some ts) (Some n) (Some w) = Ok (o, m) /\ r_ts o = ts /\
     zlen m = ts_len ts /\ (forall col, In col m -> zlen col = n)).
Proof.
  intros x ts n w Hn. rewrite pwvd_unfold.
  destruct (pwvd_tfr_cases x w n (ts_len ts) ltac:(lia)) as [[[c [Hc B]] E]|[B E]]; rewrite E; cbn [bind].
  - left. unfold pwvd_bad, win_lh in B. rewrite !andb_true_iff, !Z.leb_le in B.
    split; [exists c; lia|]. split; [lia|reflexivity].
  - right. split.
    + intros [[c [Hc Hr]] Hl]. specialize (B c Hc). unfold pwvd_bad, win_lh in B.
      rewrite !andb_false_iff, !Z.leb_gt in B. lia.
    + eexists. eexists. split; [reflexivity|]. cbn [r_ts]. split; auto. split.
      * rewrite zlen_map, zlen_map_arange; [lia|apply ts_len_nonneg].
      * intros col Hcol. apply in_map_iff in Hcol. destruct Hcol as [c1 [<- Hcol]].
        apply in_map_iff in Hcol. destruct Hcol as [c [<- _]].
        rewrite zlen_map, fft_zlen. apply scatter_zlen. lia.
Qed.

Lemma c28_pwvd_short_window_total : forall x ts n w, 1 <= n -> (zlen w - 1) / 2 < round_half n ->
  exists o m, pwvd x (Some ts) (Some n) (Some w) = Ok (o, m).
Proof.
  intros x ts n w Hn Hw. destruct (c28_pwvd_outcome x ts n w Hn) as [[_ [H _]]|[_ [o [m [H _]]]]]; eauto.
  lia.
Qed.

(** Time marginal for every window for which the run returns. *)
Lemma c28_pwvd_marginal : forall x ts n w o m t, 1 <= n -> w <> [] ->
  pwvd x (Some ts) (Some n) (Some w) = Ok (o, m) -> 0 <= t < ts_len ts -> t < zlen x ->
  csum (arange 0 n) (fun f => at2 m f t)
  = RtoC (IZR n * (Re (cnth w ((zlen w - 1) / 2)) * Cmod (cnth x t) ^ 2)).
Proof.
  intros x ts n w o m t Hn Hw H Ht Htx.
  rewrite (csum_ext _ _ (fun f => RtoC (Re (cnth (fft (pwvd_raw x w n t)) f)))).
  - rewrite <- RtoC_rsum, <- Re_csum, pwvd_total by (auto; lia). f_equal.
    rewrite Re_scal, (Cmult_comm (cnth w _)), Re_scal. unfold win_lh. ring.
  - intros f Hf. apply in_arange in Hf.
    destruct (pwvd_at2 x ts n w o m f t ltac:(lia) H Hf Ht) as [E1 E2]. now rewrite E2, E1.
Qed.

(** Closed form; with a Hermitian (in particular real symmetric) window no
    imaginary part is discarded. *)
Lemma c28_pwvd_closed_form : forall x ts n w o m f t, 1 <= n -> (zlen w - 1) / 2 < round_half n ->
  pwvd x (Some ts) (Some n) (Some w) = Ok (o, m) -> 0 <= f < n -> 0 <= t < ts_len ts ->
  at2 m f t = RtoC (Re (PWV x w n f t)) /\
  ((forall k, winf w (- k) = Cconj (winf w k)) -> at2 m f t = PWV x w n f t).
Proof.
  intros x ts n w o m f t Hn Hw H Hf Ht.
  destruct (pwvd_at2 x ts n w o m f t ltac:(lia) H Hf Ht) as [E1 E2].
  rewrite pwvd_closed in E1 by (auto; lia). rewrite E2, E1. split; auto.
  intros Hs. apply injective_projections; auto. cbn. symmetry. apply (PWV_real x w n f t Hs).
Qed.

Example c28_example : exists o m,
  pwvd [RtoC 1; Ci; RtoC 2; RtoC 3; RtoC 4] None None (Some [RtoC 1; RtoC 1; RtoC 1]) = Ok (o, m) /\
  csum (arange 0 5) (fun f => at2 m f 2) = RtoC 20.
Proof.
  destruct (c28_pwvd_short_window_total [RtoC 1; Ci; RtoC 2; RtoC 3; RtoC 4] (TsI (arange 0 5)) 5
    [RtoC 1; RtoC 1; RtoC 1] ltac:(lia)) as [o [m H]]; [cbn; lia|].
  exists o, m. split; [exact H|].
  rewrite (c28_pwvd_marginal _ _ 5 [RtoC 1; RtoC 1; RtoC 1] o m 2 ltac:(lia) ltac:(discriminate) H); [|cbn [ts_len]; rewrite arange_zlen; lia|cbn; lia].
  change (zlen [RtoC 1; RtoC 1; RtoC 1]) with 3. eval_cnth.
  rewrite Cmod_R, Rabs_right by lra. f_equal. cbn [Re fst RtoC]. ring.
Qed.
Example c28_example_raise : exists x w : list C, pwvd x None None (Some w) = Raise IndexError.
Proof.
  exists (repeat (RtoC 1) 5), (repeat (RtoC 1) 5).
  destruct (c28_pwvd_outcome (repeat (RtoC 1) 5) (TsI (arange 0 5)) 5 (repeat (RtoC 1) 5) ltac:(lia))
    as [[_ [_ H]]|[H _]]; [exact H|]. exfalso. apply H. split; [|cbn; lia].
  exists 3. change (zlen (repeat (RtoC 1) 5)) with 5. change (round_half 5) with 2.
  cbn [ts_len]. rewrite arange_zlen. lia.
Qed.

(** *** C73 *)
Lemma winf_rect k t : 0 <= k -> - k <= t <= k -> winf (repeat (RtoC 1) (Z.to_nat (2 * k + 1))) t = RtoC 1.
Proof.
  intros Hk Ht.
  assert (L : zlen (repeat (RtoC 1) (Z.to_nat (2 * k + 1))) = 2 * k + 1).
  { unfold zlen. rewrite repeat_length. lia. }
  unfold winf. rewrite L. replace ((2 * k + 1 - 1) / 2) with k by (Z.to_euclidean_division_equations; lia).
  rewrite !(proj2 (Z.leb_le _ _)) by lia. cbn [andb]. unfold cnth.
  apply nth_error_nth. apply nth_error_repeat. lia.
Qed.

(** With a rectangular window covering all lags the two distributions have the
    same values, yet row k < n/2 is labelled k/(2n) by one and k/n by the other. *)
Lemma c73_pwvd_labels : forall x, x <> [] -> zlen x mod 2 = 0 ->
  let n := zlen x in
  exists o o' m, wvd x None None = Ok o /\
  pwvd x None None (Some (repeat (RtoC 1) (Z.to_nat (n - 1)))) = Ok (o', m) /\
  (forall f t, 0 <= f < n -> 0 <= t < n -> at2 m f t = at2 (r_tfr o) f t) /\
  (forall k, 0 <= k < n / 2 -> rnth (r_freqs o) k = (IZR k / (2 * IZR n))%R /\
                               rnth (r_freqs o') k = (IZR k / IZR n)%R).
Proof.
  intros x Hx He n. assert (HN : 2 <= n).
  { assert (1 <= n) by (destruct x; [congruence|unfold n, zlen; cbn [length]; lia]).
    unfold n in *. destruct (Z.eq_dec (zlen x) 1) as [E|]; [rewrite E in He; discriminate|lia]. }
  assert (Ee : Z.even n = true) by (apply Zeven_bool_iff; apply Zeven_bool_iff; rewrite Zeven_mod; unfold n; rewrite He; reflexivity).
  assert (Hh := round_half_even n Ee).
  set (h := round_half n) in *.
  assert (W : repeat (RtoC 1) (Z.to_nat (n - 1)) = repeat (RtoC 1) (Z.to_nat (2 * (h - 1) + 1))) by (do 2 f_equal; lia).
  rewrite W. set (w := repeat (RtoC 1) (Z.to_nat (2 * (h - 1) + 1))).
  assert (L : zlen w = 2 * (h - 1) + 1) by (unfold w, zlen; rewrite repeat_length; lia).
  destruct (c21_wvd_default x Hx) as [_ Ho].
  destruct Ho as [o Ho]; [fold n; Z.to_euclidean_division_equations; lia|].
  assert (T : ts_len (TsI (arange 0 n)) = n) by (cbn [ts_len]; rewrite arange_zlen; lia).
  destruct (c28_pwvd_short_window_total x (TsI (arange 0 n)) n w ltac:(lia)) as [o' [m Hm]].
  { rewrite L. fold h. Z.to_euclidean_division_equations; lia. }
  exists o, o', m. split; auto. split; auto. split.
  - intros f t Hf Ht.
    change (wvd x None None) with (wvd x (Some (TsI (arange 0 n))) (Some n)) in Ho.
    rewrite (wvd_entry _ _ n o f t HN Ho Hf Ht).
    assert (Lh : (zlen w - 1) / 2 < round_half n) by (rewrite L; fold h; Z.to_euclidean_division_equations; lia).
    destruct (c28_pwvd_closed_form x (TsI (arange 0 n)) n w o' m f t ltac:(lia) Lh Hm Hf ltac:(lia)) as [E _].
    rewrite E, PWV_rect; auto.
    + apply injective_projections; auto. cbn. symmetry. apply WV_real. auto.
    + intros k Hk. apply winf_rect; fold n in Hk; lia.
  - intros k Hk.
    assert (Hk' : 0 <= k < n) by (Z.to_euclidean_division_equations; lia).
    split.
    + change (wvd x None None) with (wvd x (Some (TsI (arange 0 n))) (Some n)) in Ho.
      apply (c24_wvd_freq_marginal x _ n o k HN Ho Hk').
    + apply pwvd_ret in Hm; [|lia]. destruct Hm as [_ [_ ->]].
      apply (base_freqs_even n ltac:(lia) He). auto.
Qed.

Example c73_example : [RtoC 1; Ci; RtoC 2; RtoC 3] <> [] /\ zlen [RtoC 1; Ci; RtoC 2; RtoC 3] mod 2 = 0.
Proof. split; [discriminate|reflexivity]. Qed.
