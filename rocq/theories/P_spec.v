(** Proofs about the spectrogram model. *)
From Coq Require Import Reals ZArith List Lia Lra Bool Permutation.
From Coquelicot Require Import Coquelicot.
From Verif Require Import Py Scalars CSum DFT Spec M_base M_stft M_cohen P_base P_stft.
Import ListNotations.
Local Open Scope Z_scope.

(** Lags kept by Spectrogram.run: cohen.py 24. *)
Definition spec_m (w : list C) (n : Z) : Z := Z.min (round_half n - 1) (win_lh w).
Definition spec_taus (N : Z) (w : list C) (n ti : Z) : list Z :=
  arange (- Z.min (spec_m w n) (ti - 1)) (Z.min (spec_m w n) (N - ti) + 1).
Definition spec_nrm (x w : list C) (n ti : Z) : R :=
  norm2 (map (fun t => cnth w (win_lh w + t)) (spec_taus (zlen x) w n ti)).
Definition spec_val (x w : list C) (n ti t : Z) : C :=
  (cnth x (ti + t - 1) * Cconj (cnth w (win_lh w + t)) / RtoC (spec_nrm x w n ti))%C.

Lemma spec_taus_ok (x : list C) w n ti t : In t (spec_taus (zlen x) w n ti) ->
  0 <= ti + t - 1 < zlen x /\ 0 <= win_lh w + t < zlen w /\ - spec_m w n <= t <= spec_m w n.
Proof.
  unfold spec_taus, spec_m. rewrite in_arange. intros H. generalize (win_lh_bounds w). lia.
Qed.

Lemma spec_taus_iff (x : list C) w n ti t : In t (spec_taus (zlen x) w n ti) <->
  0 <= ti - 1 + t < zlen x /\ - spec_m w n <= t <= spec_m w n.
Proof. unfold spec_taus. rewrite in_arange. lia. Qed.

Lemma spec_taus_nodup (x : list C) w n ti : 0 < n -> NoDup (map (fun t => t mod n) (spec_taus (zlen x) w n ti)).
Proof.
  intros Hn. apply NoDup_mod_arange; auto. unfold spec_m. generalize (round_half_bounds n). lia.
Qed.

Lemma spec_col_ok x w n ti col : 0 < n -> zlen col = n ->
  spec_col false x w n ti col =
  Ok (match spec_taus (zlen x) w n ti with
      | [] => Some col
      | _ => if Req_EM_T (spec_nrm x w n ti) 0 then None
             else Some (puts col (map (fun t => ((n + t) mod n, spec_val x w n ti t)) (spec_taus (zlen x) w n ti)))
      end).
Proof.
  intros Hn Hc. unfold spec_col. fold (spec_m w n). fold (spec_taus (zlen x) w n ti).
  rewrite (take_ok (RtoC 0)).
  2:{ intros i Hi. apply in_map_iff in Hi. destruct Hi as [t [<- Ht]].
      apply spec_taus_ok in Ht. lia. }
  cbn [bind]. rewrite (take_ok (RtoC 0)).
  2:{ intros i Hi. apply in_map_iff in Hi. destruct Hi as [t [<- Ht]].
      rewrite zlen_map. apply spec_taus_ok in Ht. lia. }
  cbn [bind]. rewrite !map_map, bcast_map. cbn [bind]. rewrite (take_ok (RtoC 0)).
  2:{ intros i Hi. apply in_map_iff in Hi. destruct Hi as [t [<- Ht]].
      apply spec_taus_ok in Ht. lia. }
  cbn [bind]. rewrite !map_map. 
  rewrite (put_map_ok col (remainder n)).
  2:{ intros t _. rewrite Hc. apply Z.mod_pos_bound. lia. }
  cbn [bind]. change (norm2 _) with (spec_nrm x w n ti).
  f_equal. destruct (spec_taus (zlen x) w n ti) as [|a l] eqn:E; [reflexivity|].
  destruct (Req_EM_T (spec_nrm x w n ti) 0); auto. f_equal. f_equal. apply map_ext. intros t. unfold remainder. f_equal.
  unfold spec_val, ncast. do 2 f_equal. apply (cnth_conj w).
Qed.

Definition spec_out (x w : list C) (n ti : Z) : option (list R) :=
  match spec_taus (zlen x) w n ti with
  | [] => Some (map (fun z => Cmod z ^ 2)%R (fft (zeros n)))
  | _ => if Req_EM_T (spec_nrm x w n ti) 0 then None
         else Some (map (fun z => Cmod z ^ 2)%R (fft (scatter n (spec_taus (zlen x) w n ti) (spec_val x w n ti))))
  end.

Lemma combine_repeat {A B} (l : list A) (b : B) :
  combine l (repeat b (length l)) = map (fun a => (a, b)) l.
Proof. induction l; cbn; congruence. Qed.

Lemma spectrogram_ok x w l n : 0 < n ->
  spectrogram x (Some (TsI l)) (Some n) (Some w) = Ok (map (spec_out x w n) l).
Proof.
  intros Hn. unfold spectrogram, spectrogram_tfr. cbn [base_init r_real r_sig r_win r_ts r_n r_tfr ts_len].
  unfold zeros2, zlen. rewrite Nat2Z.id, combine_repeat, mapM_map.
  erewrite mapM_ok. 2:{ intros ti _. rewrite spec_col_ok by (auto; apply zeros_zlen; lia). reflexivity. }
  cbn [bind]. rewrite map_map. f_equal. apply map_ext. intros ti. unfold spec_out.
  destruct (spec_taus (zlen x) w n ti); auto. destruct (Req_EM_T (spec_nrm x w n ti) 0); auto.
Qed.

Lemma spec_csum (x : list C) w n ti (G : Z -> C) :
  csum (spec_taus (zlen x) w n ti) G =
  csum (arange 0 (zlen x)) (fun k =>
    if (- spec_m w n <=? k - (ti - 1)) && (k - (ti - 1) <=? spec_m w n) then G (k - (ti - 1)) else RtoC 0).
Proof.
  transitivity (csum (map (fun t => ti - 1 + t) (spec_taus (zlen x) w n ti)) (fun k =>
    if (- spec_m w n <=? k - (ti - 1)) && (k - (ti - 1) <=? spec_m w n) then G (k - (ti - 1)) else RtoC 0)).
  - rewrite csum_map. apply csum_ext. intros t Ht. apply spec_taus_iff in Ht.
    replace (ti - 1 + t - (ti - 1)) with t by lia. rewrite !(proj2 (Z.leb_le _ _)) by lia. reflexivity.
  - symmetry. apply csum_incl.
    + apply NoDup_map_inj; [intros; lia|apply NoDup_arange].
    + apply NoDup_arange.
    + intros k Hk. apply in_map_iff in Hk. destruct Hk as [t [<- Ht]].
      apply spec_taus_iff in Ht. apply in_arange. lia.
    + intros k Hk Hk'. apply in_arange in Hk.
      destruct (Z.leb_spec (- spec_m w n) (k - (ti - 1))), (Z.leb_spec (k - (ti - 1)) (spec_m w n)); auto.
      exfalso. apply Hk'. apply in_map_iff. exists (k - (ti - 1)). split; [lia|].
      apply spec_taus_iff. lia.
Qed.

Lemma spec_rsum (x : list C) w n ti (G : Z -> R) :
  rsum (spec_taus (zlen x) w n ti) G =
  rsum (arange 0 (zlen x)) (fun k =>
    if (- spec_m w n <=? k - (ti - 1)) && (k - (ti - 1) <=? spec_m w n) then G (k - (ti - 1)) else 0%R).
Proof.
  apply RtoC_inj. rewrite !RtoC_rsum, spec_csum. apply csum_ext. intros k _.
  destruct (_ && _); auto.
Qed.

Lemma spec_m_le w n : spec_m w n <= win_lh w.
Proof. unfold spec_m. lia. Qed.

Lemma spec_nrm_sq x w n ti : (spec_nrm x w n ti ^ 2 = wenergy x (wincut (spec_m w n) w) (ti - 1))%R.
Proof.
  unfold spec_nrm, norm2. rewrite pow2_sqrt by (apply rsum_nonneg; intros; apply pow2_ge_0).
  rewrite rsum_map, spec_rsum. unfold wenergy. apply rsum_ext. intros k _. unfold wincut.
  destruct (Z.leb_spec (- spec_m w n) (k - (ti - 1))), (Z.leb_spec (k - (ti - 1)) (spec_m w n)); cbn [andb];
   try (rewrite Cmod_0; ring).
  rewrite winf_lh_in; auto. generalize (spec_m_le w n). lia.
Qed.

Lemma spec_nrm_nonneg x w n ti : (0 <= spec_nrm x w n ti)%R.
Proof. apply sqrt_pos. Qed.

Lemma wenergy_nonneg x v c : (0 <= wenergy x v c)%R.
Proof. apply rsum_nonneg. intros. apply pow2_ge_0. Qed.

Lemma spec_nrm_0 x w n ti : spec_nrm x w n ti = 0%R <-> wenergy x (wincut (spec_m w n) w) (ti - 1) = 0%R.
Proof.
  rewrite <- spec_nrm_sq. split; [intros ->; ring|]. intros H.
  destruct (Req_dec (spec_nrm x w n ti) 0) as [E|E]; auto. exfalso. revert H. apply pow_nonzero. auto.
Qed.

Lemma Cmod_div_R z r : r <> 0%R -> Cmod (z / RtoC r)%C = (Cmod z / Rabs r)%R.
Proof. intros. rewrite Cmod_div by (intros E; apply H; now apply RtoC_inj). now rewrite Cmod_R. Qed.

Lemma spec_entry x w n ti c f : 0 < n -> 0 <= f < n -> spec_out x w n ti = Some c ->
  (rnth c f * wenergy x (wincut (spec_m w n) w) (ti - 1)
   = Cmod (STFTw x (wincut (spec_m w n) w) n f (ti - 1)) ^ 2)%R.
Proof.
  intros Hn Hf H. unfold spec_out in H.
  destruct (spec_taus (zlen x) w n ti) as [|a l] eqn:E.
  - (* empty: both sides are 0 *)
    assert (W : wenergy x (wincut (spec_m w n) w) (ti - 1) = 0%R).
    { rewrite <- spec_nrm_sq. unfold spec_nrm, norm2. rewrite E. cbn [map]. rewrite rsum_nil, sqrt_0. ring. }
    rewrite W, Rmult_0_r. unfold STFTw. rewrite csum_0; [rewrite Cmod_0; ring|].
    intros k Hk. apply in_arange in Hk. unfold wincut.
    destruct (Z.leb_spec (- spec_m w n) (k - (ti - 1))), (Z.leb_spec (k - (ti - 1)) (spec_m w n)); cbn [andb];
      try (rewrite Cconj_R; ring).
    exfalso. assert (In (k - (ti - 1)) (spec_taus (zlen x) w n ti)) by (apply spec_taus_iff; lia).
    rewrite E in *. auto.
  - rewrite <- E in H. destruct (Req_EM_T (spec_nrm x w n ti) 0) as [Z|Z]; [discriminate|].
    injection H as <-. 
    assert (L : (Z.to_nat f < length (fft (scatter n (spec_taus (zlen x) w n ti) (spec_val x w n ti))))%nat).
    { generalize (fft_zlen (scatter n (spec_taus (zlen x) w n ti) (spec_val x w n ti))).
      rewrite scatter_zlen by lia. unfold zlen. lia. }
    unfold rnth. rewrite (nth_indep _ _ ((fun z => Cmod z ^ 2)%R (RtoC 0))) by (now rewrite map_length).
    rewrite (map_nth (fun z => Cmod z ^ 2)%R). fold (cnth (fft (scatter n (spec_taus (zlen x) w n ti) (spec_val x w n ti))) f).
    rewrite scatter_fft by (auto; apply spec_taus_nodup; auto).
    assert (S : esum n (spec_taus (zlen x) w n ti) (spec_val x w n ti) f =
       (STFTw x (wincut (spec_m w n) w) n f (ti - 1) / RtoC (spec_nrm x w n ti))%C).
    { unfold esum, spec_val, Cdiv.
      rewrite (csum_ext _ _ (fun t => cnth x (ti + t - 1) * Cconj (cnth w (win_lh w + t)) * root n (- (f * t)) * / RtoC (spec_nrm x w n ti))%C) by (intros; ring).
      rewrite csum_scal_r. f_equal. rewrite spec_csum. unfold STFTw. apply csum_ext. intros k _.
      unfold wincut.
      destruct (Z.leb_spec (- spec_m w n) (k - (ti - 1))), (Z.leb_spec (k - (ti - 1)) (spec_m w n)); cbn [andb];
        try (rewrite Cconj_R; ring).
      rewrite winf_lh_in by (generalize (spec_m_le w n); lia).
      replace (ti + (k - (ti - 1)) - 1) with k by lia. ring. }
    rewrite S, Cmod_div_R by auto. rewrite <- spec_nrm_sq.
    rewrite (Rabs_right _ (Rle_ge _ _ (spec_nrm_nonneg x w n ti))). field. auto.
Qed.

Lemma spec_total x w n ti c : 0 < n -> spec_out x w n ti = Some c ->
  (rsum (arange 0 n) (fun f => rnth c f) * wenergy x (wincut (spec_m w n) w) (ti - 1)
   = IZR n * xwenergy x (wincut (spec_m w n) w) (ti - 1))%R.
Proof.
  intros Hn H. rewrite <- rsum_scal_r.
  rewrite (rsum_ext _ _ (fun f => Cmod (esum n (spec_taus (zlen x) w n ti)
      (fun t => cnth x (ti + t - 1) * Cconj (cnth w (win_lh w + t)))%C f) ^ 2)%R).
  - rewrite esum_energy by (auto; apply spec_taus_nodup; auto). f_equal.
    rewrite spec_rsum. unfold xwenergy. apply rsum_ext. intros k _. unfold wincut.
    destruct (Z.leb_spec (- spec_m w n) (k - (ti - 1))), (Z.leb_spec (k - (ti - 1)) (spec_m w n)); cbn [andb];
        try (rewrite Cmod_0; ring).
    rewrite winf_lh_in by (generalize (spec_m_le w n); lia).
    replace (ti + (k - (ti - 1)) - 1) with k by lia. rewrite Cmod_mult, Cmod_conj. ring.
  - intros f Hf. apply in_arange in Hf. rewrite (spec_entry x w n ti c f Hn Hf H). do 2 f_equal.
    unfold esum. rewrite spec_csum. unfold STFTw. apply csum_ext. intros k _. unfold wincut.
      destruct (Z.leb_spec (- spec_m w n) (k - (ti - 1))), (Z.leb_spec (k - (ti - 1)) (spec_m w n)); cbn [andb];
        try (rewrite Cconj_R; ring).
      rewrite winf_lh_in by (generalize (spec_m_le w n); lia).
      replace (ti + (k - (ti - 1)) - 1) with k by lia. ring.
Qed.
