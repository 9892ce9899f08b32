(** Proofs about the STFT model. *)
From Coq Require Import Reals ZArith List Lia Lra Bool.
From Coquelicot Require Import Coquelicot.
From Verif Require Import Py Scalars CSum DFT Spec M_base M_stft.
Import ListNotations.
Local Open Scope Z_scope.

Definition stft_taus (N : Z) (w : list C) (n c : Z) : list Z :=
  let rm := Z.min (round_half n) (win_lh w) in
  arange (- Z.min rm (c - 1)) (Z.min rm (N - c) + 1).

Definition stft_val (x w : list C) (c t : Z) : C :=
  (cnth x (c + t - 1) * Cconj (cnth w (win_lh w + t)))%C.

Lemma win_lh_bounds {T} (w : list T) : zlen w - 2 <= 2 * win_lh w <= zlen w - 1.
Proof. unfold win_lh. Z.to_euclidean_division_equations. lia. Qed.

Lemma cnth_conj (w : list C) i : cnth (map Cconj w) i = Cconj (cnth w i).
Proof.
  unfold cnth. replace (RtoC 0) with (Cconj (RtoC 0)) at 1 by (apply Cconj_R). apply map_nth.
Qed.

Lemma stft_taus_ok (x : list C) w n c t : In t (stft_taus (zlen x) w n c) ->
  0 <= c + t - 1 < zlen x /\ 0 <= win_lh w + t < zlen w /\
  - round_half n <= t <= round_half n.
Proof.
  unfold stft_taus. rewrite in_arange. intros H.
  generalize (win_lh_bounds w). lia.
Qed.

Lemma stft_col_ok x w n c col : 0 < n -> zlen col = n ->
  stft_col false x w n c col =
  Ok (puts col (map (fun t => ((n + t) mod n, stft_val x w c t)) (stft_taus (zlen x) w n c))).
Proof.
  intros Hn Hc. unfold stft_col.
  fold (stft_taus (zlen x) w n c).
  rewrite (take_ok (RtoC 0)).
  2:{ intros i Hi. apply in_map_iff in Hi. destruct Hi as [t [<- Ht]].
      apply stft_taus_ok in Ht. lia. }
  cbn [bind]. rewrite (take_ok (RtoC 0)).
  2:{ intros i Hi. apply in_map_iff in Hi. destruct Hi as [t [<- Ht]].
      rewrite zlen_map. apply stft_taus_ok in Ht. lia. }
  cbn [bind]. rewrite !map_map, bcast_map. cbn [bind]. rewrite map_map.
  rewrite put_map_ok.
  2:{ intros t _. rewrite Hc. apply Z.mod_pos_bound. lia. }
  do 2 f_equal. apply map_ext. intros t. f_equal. unfold stft_val, ncast. cbn [nmul nconj NumC].
  f_equal. apply (cnth_conj w).
Qed.

Lemma stft_tfr_fresh x w n T : 0 < n ->
  stft_tfr false x w n (zeros2 n T) =
  Ok (map (fun c => fft (scatter n (stft_taus (zlen x) w n c) (stft_val x w c))) (arange 0 T)).
Proof.
  intros Hn. unfold stft_tfr. rewrite zeros2_enum, mapM_map.
  rewrite (mapM_ok _ (fun c => scatter n (stft_taus (zlen x) w n c) (stft_val x w c))).
  - cbn [bind]. now rewrite map_map.
  - intros c _. rewrite stft_col_ok; auto. apply zeros_zlen. lia.
Qed.

(** General closed form (the last of colliding lags wins). *)
Lemma stft_entry x w n T f c : 0 < n -> 0 <= f < n -> 0 <= c < T ->
  exists tfr, stft_tfr false x w n (zeros2 n T) = Ok tfr /\
  at2 tfr f c = esum n (lastdup n (stft_taus (zlen x) w n c)) (stft_val x w c) f.
Proof.
  intros Hn Hf Hc. eexists. split; [apply stft_tfr_fresh; auto|].
  rewrite at2_map by auto. apply scatter_fft_gen; auto.
Qed.

Lemma stft_entry' x w n T tfr f c :
  0 < n -> 0 <= f < n -> 0 <= c < T -> stft_tfr false x w n (zeros2 n T) = Ok tfr ->
  at2 tfr f c = esum n (lastdup n (stft_taus (zlen x) w n c)) (stft_val x w c) f.
Proof.
  intros Hn Hf Hc H. destruct (stft_entry x w n T f c Hn Hf Hc) as [tfr' [E <-]].
  congruence.
Qed.

Lemma stft_taus_nodup (x : list C) w n c : 0 < n -> 2 * win_lh w < n ->
  NoDup (map (fun t => t mod n) (stft_taus (zlen x) w n c)).
Proof.
  intros Hn Hw. apply NoDup_mod_arange; auto. generalize (round_half_bounds n). lia.
Qed.

(** Sum over lags = sum over samples. *)
Lemma stft_csum_samples (x : list C) w n c (F : Z -> C) : 0 < n -> 2 * win_lh w < n -> 0 <= c ->
  (forall k, In k (arange 0 (zlen x)) -> (k - (c - 1) < - win_lh w \/ win_lh w < k - (c - 1)) -> F k = RtoC 0) ->
  csum (stft_taus (zlen x) w n c) (fun t => F (c - 1 + t)) = csum (arange 0 (zlen x)) F.
Proof.
  intros Hn Hw Hc HF.
  transitivity (csum (map (fun t => c - 1 + t) (stft_taus (zlen x) w n c)) F).
  - now rewrite csum_map.
  - symmetry. apply csum_incl.
    + apply NoDup_map_inj; [intros; lia|apply NoDup_arange].
    + apply NoDup_arange.
    + intros k Hk. apply in_map_iff in Hk. destruct Hk as [t [<- Ht]].
      apply stft_taus_ok in Ht. apply in_arange. lia.
    + intros k Hk Hk'. apply HF; auto.
      destruct (Z_lt_le_dec (k - (c - 1)) (- win_lh w)); auto.
      destruct (Z_lt_le_dec (win_lh w) (k - (c - 1))); auto.
      exfalso. apply Hk'. apply in_map_iff. exists (k - (c - 1)). split; [lia|].
      apply in_arange in Hk. apply in_arange. generalize (round_half_bounds n). lia.
Qed.

Lemma winf_lh_in w t : - win_lh w <= t <= win_lh w -> winf w t = cnth w (win_lh w + t).
Proof. apply winf_in. Qed.
Lemma winf_lh_out w t : t < - win_lh w \/ win_lh w < t -> winf w t = RtoC 0.
Proof. apply winf_out. Qed.

Lemma stft_closed x w n T tfr f c :
  0 < n -> 2 * win_lh w < n -> 0 <= f < n -> 0 <= c < T ->
  stft_tfr false x w n (zeros2 n T) = Ok tfr ->
  at2 tfr f c = STFT x w n f (c - 1).
Proof.
  intros Hn Hw Hf Hc H. rewrite (stft_entry' _ _ _ _ _ _ _ Hn Hf Hc H).
  rewrite lastdup_id by (apply stft_taus_nodup; auto).
  unfold STFT. rewrite <- (stft_csum_samples x w n c); auto; [|lia|].
  - unfold esum. apply csum_ext. intros t Ht.
    assert (Ht' := Ht). apply stft_taus_ok in Ht. unfold stft_taus in Ht'. apply in_arange in Ht'.
    rewrite sigf_in by lia.
    replace (c - 1 + t - (c - 1)) with t by lia.
    rewrite winf_lh_in by lia. unfold stft_val. do 3 f_equal. lia.
  - intros k Hk Ho. rewrite winf_lh_out by auto. rewrite Cconj_R. ring.
Qed.

(** Inversion at lag [t]. *)
Lemma stft_invert x w n T tfr c t :
  0 < n -> 2 * win_lh w < n -> 0 <= c < T ->
  - win_lh w <= t <= win_lh w -> 0 <= c - 1 + t < zlen x ->
  stft_tfr false x w n (zeros2 n T) = Ok tfr ->
  csum (arange 0 n) (fun f => at2 tfr f c * root n (f * t))%C
  = (RtoC (IZR n) * (cnth x (c - 1 + t) * Cconj (cnth w (win_lh w + t))))%C.
Proof.
  intros Hn Hw Hc Ht Hx H.
  rewrite (csum_ext _ _ (fun f => esum n (stft_taus (zlen x) w n c) (stft_val x w c) f * root n (f * t))%C).
  - rewrite esum_inv by auto. f_equal.
    rewrite (csum_single _ t).
    + rewrite Z.sub_diag, Z.mod_0_l by lia. cbn [Z.eqb]. unfold stft_val. do 2 f_equal. lia.
    + apply NoDup_arange.
    + unfold stft_taus. apply in_arange. generalize (round_half_bounds n). lia.
    + intros s Hs Hne. destruct (Z.eqb_spec ((s - t) mod n) 0) as [E|E]; auto.
      exfalso. apply Hne. apply Z.mod_divide in E; [|lia]. destruct E as [q E].
      unfold stft_taus in Hs. apply in_arange in Hs.
      assert (q = 0) by nia. subst q. lia.
  - intros f Hf. apply in_arange in Hf.
    rewrite (stft_entry' _ _ _ _ _ _ _ Hn Hf Hc H), lastdup_id; auto.
    apply stft_taus_nodup; auto.
Qed.

Lemma stft_col0_total x w n T tfr :
  0 < n -> 2 * win_lh w < n -> 0 < T -> stft_tfr false x w n (zeros2 n T) = Ok tfr ->
  csum (arange 0 n) (fun f => at2 tfr f 0) = RtoC 0.
Proof.
  intros Hn Hw HT H.
  rewrite (csum_ext _ _ (esum n (stft_taus (zlen x) w n 0) (stft_val x w 0))).
  - rewrite esum_total by auto. rewrite csum_0; [ring|].
    intros t Ht. destruct (Z.eqb_spec (t mod n) 0) as [E|E]; auto.
    exfalso. unfold stft_taus in Ht. apply in_arange in Ht.
    rewrite Z.mod_small in E; lia.
  - intros f Hf. apply in_arange in Hf.
    rewrite (stft_entry' _ _ _ _ _ _ _ Hn Hf (conj (Z.le_refl 0) HT) H), lastdup_id; auto.
    apply stft_taus_nodup; auto.
Qed.

Lemma stft_parseval x w n T tfr c :
  0 < n -> 2 * win_lh w < n -> 0 <= c < T -> stft_tfr false x w n (zeros2 n T) = Ok tfr ->
  rsum (arange 0 n) (fun f => Cmod (at2 tfr f c) ^ 2)%R =
  (IZR n * rsum (arange 0 (zlen x)) (fun k => Cmod (cnth x k) ^ 2 * Cmod (winf w (k - (c - 1))) ^ 2))%R.
Proof.
  intros Hn Hw Hc H.
  rewrite (rsum_ext _ _ (fun f => Cmod (esum n (stft_taus (zlen x) w n c) (stft_val x w c) f) ^ 2)%R).
  - rewrite esum_energy by (auto; apply stft_taus_nodup; auto). f_equal.
    apply RtoC_inj. rewrite !RtoC_rsum.
    rewrite <- (stft_csum_samples x w n c); auto; [|lia|].
    + apply csum_ext. intros t Ht. f_equal.
      assert (Ht' := Ht). apply stft_taus_ok in Ht. unfold stft_taus in Ht'. apply in_arange in Ht'.
      replace (c - 1 + t - (c - 1)) with t by lia. rewrite winf_lh_in by lia.
      unfold stft_val. rewrite Cmod_mult, Cmod_conj. replace (c + t - 1) with (c - 1 + t) by lia. ring.
    + intros k Hk Ho. rewrite winf_lh_out by auto. rewrite Cmod_0. f_equal. ring.
  - intros f Hf. apply in_arange in Hf.
    rewrite (stft_entry' _ _ _ _ _ _ _ Hn Hf Hc H), lastdup_id; auto.
    apply stft_taus_nodup; auto.
Qed.

(** Linearity for every window. *)
Lemma stft_linear a b x y w n T tx ty tz :
  0 < n -> zlen x = zlen y ->
  stft_tfr false x w n (zeros2 n T) = Ok tx -> stft_tfr false y w n (zeros2 n T) = Ok ty ->
  stft_tfr false (lincomb a b x y) w n (zeros2 n T) = Ok tz ->
  forall f c, 0 <= f < n -> 0 <= c < T -> at2 tz f c = (a * at2 tx f c + b * at2 ty f c)%C.
Proof.
  intros Hn E Hx Hy Hz f c Hf Hc.
  rewrite (stft_entry' _ _ _ _ _ _ _ Hn Hf Hc Hx), (stft_entry' _ _ _ _ _ _ _ Hn Hf Hc Hy),
    (stft_entry' _ _ _ _ _ _ _ Hn Hf Hc Hz).
  rewrite lincomb_zlen, <- E by auto. unfold esum.
  rewrite <- !csum_scal_l, <- csum_plus. apply csum_ext. intros t Ht.
  apply lastdup_in, stft_taus_ok in Ht. unfold stft_val. rewrite lincomb_nth by (auto; lia). ring.
Qed.

(** Modulation covariance for every window. *)
Lemma stft_modulate x w n m T tx ty :
  0 < n -> stft_tfr false x w n (zeros2 n T) = Ok tx ->
  stft_tfr false (modulate n m x) w n (zeros2 n T) = Ok ty ->
  forall f c, 0 <= f < n -> 0 <= c < T ->
  at2 ty f c = (root n (m * (c - 1)) * at2 tx ((f - m) mod n) c)%C.
Proof.
  intros Hn Hx Hy f c Hf Hc.
  assert (Hf' : 0 <= (f - m) mod n < n) by (apply Z.mod_pos_bound; auto).
  rewrite (stft_entry' _ _ _ _ _ _ _ Hn Hf Hc Hy), (stft_entry' _ _ _ _ _ _ _ Hn Hf' Hc Hx).
  rewrite esum_mod by auto. rewrite modulate_zlen. unfold esum. rewrite <- csum_scal_l.
  apply csum_ext. intros t Ht. apply lastdup_in, stft_taus_ok in Ht.
  unfold stft_val. rewrite modulate_nth by lia.
  replace (- ((f - m) * t)) with (- (f * t) + m * t) by ring.
  replace (m * (c + t - 1)) with (m * (c - 1) + m * t) by ring.
  rewrite !root_plus. ring.
Qed.

(** Shift covariance. *)
Lemma STFT_delay s x w n f c : 0 <= s -> STFT (delay s x) w n f (c + s) = STFT x w n f c.
Proof.
  intros Hs. unfold STFT. rewrite delay_zlen by auto.
  rewrite (arange_app 0 s (s + zlen x)) by (generalize (zlen_nonneg x); lia).
  rewrite csum_app, csum_0.
  - rewrite Cplus_0_l. replace s with (0 + s) at 1 by lia. rewrite (Z.add_comm s (zlen x)).
    rewrite csum_arange_shift. apply csum_ext. intros k Hk. apply in_arange in Hk.
    rewrite !sigf_in by (rewrite ?delay_zlen; lia).
    rewrite delay_hi by lia. replace (k + s - s) with k by lia.
    replace (k + s - (c + s)) with (k - c) by lia. reflexivity.
  - intros k Hk. apply in_arange in Hk.
    rewrite sigf_in by (rewrite delay_zlen; generalize (zlen_nonneg x); lia).
    rewrite delay_lo by lia. ring.
Qed.
