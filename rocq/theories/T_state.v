(** C15, C16: calling run() again, and the effects of plot(). *)
From Coq Require Import Reals ZArith List Lia Lra Bool Psatz.
From Coquelicot Require Import Coquelicot.
From Verif Require Import Py Scalars CSum DFT Spec M_base M_stft M_cohen M_utils M_state.
From Verif Require Import P_base P_stft P_wvd P_pwvd T_utils.
Import ListNotations.
Local Open Scope Z_scope.

(** *** C15 *)
Lemma puts_agree {A} (ivs : list (Z * A)) (a b : list A) j d : length a = length b ->
  (nth j a d = nth j b d \/ exists i v, In (i, v) ivs /\ Z.to_nat i = j /\ (j < length a)%nat) ->
  nth j (puts a ivs) d = nth j (puts b ivs) d.
Proof.
  revert a b. induction ivs as [|[i v] ivs IH]; intros a b L H; cbn [puts].
  - destruct H as [H|(i & v & [] & _)]. exact H.
  - apply IH; [now rewrite !upd_length|]. destruct (Nat.eq_dec j (Z.to_nat i)) as [->|N].
    + left. destruct H as [H|(i' & v' & _ & _ & H)].
      * destruct (Nat.lt_ge_cases (Z.to_nat i) (length a)).
        -- rewrite !nth_upd_eq; auto. lia.
        -- rewrite !nth_overflow; auto; rewrite upd_length; lia.
      * rewrite !nth_upd_eq; auto. lia.
    + rewrite !nth_upd_neq by auto. destruct H as [H|(i' & v' & [E|Hi] & E' & H)].
      * left; auto.
      * exfalso. apply N. congruence.
      * right. exists i', v'. rewrite upd_length. auto.
Qed.

Lemma fft_inj (a b : list C) : fft a = fft b -> a = b.
Proof. intros H. rewrite <- (ifft_fft a), <- (ifft_fft b). now rewrite H. Qed.

Lemma list_cnth_ext (a b : list C) : zlen a = zlen b ->
  (forall k, 0 <= k < zlen a -> cnth a k = cnth b k) -> a = b.
Proof.
  intros L H. rewrite (list_as_map a), (list_as_map b), L. apply map_ext_in. intros k Hk.
  apply in_arange in Hk. apply H. lia.
Qed.

(** Writing the same values over the spectrum instead of over zeros. *)
Lemma rewrite_col n ts g : 0 < n ->
  let old := fft (scatter n ts g) in
  (fft (puts old (map (fun t => ((n + t) mod n, g t)) ts)) = old <->
   forall f, 0 <= f < n -> (forall t, In t ts -> (n + t) mod n <> f) -> cnth old f = RtoC 0).
Proof.
  intros Hn old. assert (Lo : zlen old = n) by (unfold old; rewrite fft_zlen; apply scatter_zlen; lia).
  assert (Lz : length old = length (zeros (T:=C) n)).
  { assert (Z1 := zeros_zlen n ltac:(lia)). unfold zlen in *. lia. }
  split.
  - intros E f Hf Hout. apply fft_inj in E.
    assert (E1 := f_equal (fun l => cnth l f) E). cbn beta in E1. unfold cnth in E1 at 1.
    rewrite nth_puts_out in E1.
    2:{ lia. }
    2:{ intros i v Hi. apply in_map_iff in Hi. destruct Hi as [t [Et Ht]].
        assert (i = (n + t) mod n) by congruence. subst i. split; [apply Z.mod_pos_bound; lia|auto]. }
    fold (cnth old f) in E1. rewrite E1. unfold scatter, cnth. rewrite nth_puts_out.
    + apply (cnth_zeros n f).
    + lia.
    + intros i v Hi. apply in_map_iff in Hi. destruct Hi as [t [Et Ht]].
      assert (i = (n + t) mod n) by congruence. subst i. split; [apply Z.mod_pos_bound; lia|auto].
  - intros H. unfold old at 2. f_equal. unfold scatter. apply list_cnth_ext.
    + unfold zlen. rewrite !puts_length. lia.
    + intros k Hk. unfold zlen in Hk. rewrite puts_length in Hk. fold (zlen old) in Hk. rewrite Lo in Hk.
      unfold cnth. apply puts_agree; auto.
      destruct (in_dec Z.eq_dec k (map (fun t => (n + t) mod n) ts)) as [I|I].
      * right. apply in_map_iff in I. destruct I as [t [Et Ht]]. exists k, (g t). split.
        -- apply in_map_iff. exists t. split; auto. now rewrite Et.
        -- split; auto. unfold zlen in Lo. lia.
      * left. fold (cnth old k). rewrite H; auto.
        -- symmetry. apply (cnth_zeros n k).
        -- intros t Ht E. apply I. apply in_map_iff. eauto.
Qed.

Lemma enum_map_arange {A} (F : Z -> A) T : enum (map F (arange 0 T)) = map (fun c => (c, F c)) (arange 0 T).
Proof.
  apply list_nth_ext. intros k. rewrite nth_error_map.
  destruct (Nat.lt_ge_cases k (Z.to_nat T)) as [H|H].
  - rewrite (enum_nth _ k (F (Z.of_nat k))).
    + rewrite nth_error_arange by lia. cbn [option_map]. now rewrite Z.add_0_l.
    + rewrite nth_error_map, nth_error_arange by lia. cbn [option_map]. now rewrite Z.add_0_l.
  - rewrite (proj2 (nth_error_None (enum _) k)) by (rewrite enum_length, map_length, arange_length; lia).
    rewrite (proj2 (nth_error_None (arange 0 T) k)) by (rewrite arange_length; lia). reflexivity.
Qed.

Lemma map_arange_eq_iff {A} (F G : Z -> A) T : map F (arange 0 T) = map G (arange 0 T) <->
  forall c, 0 <= c < T -> F c = G c.
Proof.
  split.
  - intros E c Hc. assert (E' := f_equal (fun l => nth_error l (Z.to_nat c)) E). cbn beta in E'.
    rewrite !nth_error_map, nth_error_arange in E' by lia. cbn [option_map] in E'.
    replace (0 + Z.of_nat (Z.to_nat c)) with c in E' by lia. congruence.
  - intros H. apply map_ext_in. intros c Hc. apply in_arange in Hc. auto.
Qed.

(** A second [run] of a short-time Fourier transform always succeeds, and gives
    the same matrix exactly when the first result vanishes at every frequency
    bin that is not the residue of a lag of that column. *)
Lemma c15_stft_second_run : forall x ts n w, 1 <= n ->
  exists o1 o2, stft x (Some ts) (Some n) (Some w) = Ok o1 /\ stft_run o1 = Ok o2 /\
  (r_tfr o2 = r_tfr o1 <->
   forall c f, 0 <= c < ts_len ts -> 0 <= f < n ->
     (forall t, let m := Z.min (round_half n) ((zlen w - 1) / 2) in
        - Z.min m (c - 1) <= t <= Z.min m (zlen x - c) -> t mod n <> f) ->
     at2 (r_tfr o1) f c = RtoC 0).
Proof.
  intros x ts n w Hn. unfold stft, stft_run. cbn [r_sig r_win r_n r_tfr r_ts r_freqs r_real base_init].
  rewrite stft_tfr_fresh by lia. cbn [bind]. eexists. 
  set (F := fun c => fft (scatter n (stft_taus (zlen x) w n c) (stft_val x w c))).
  set (G := fun c => fft (puts (F c) (map (fun t => ((n + t) mod n, stft_val x w c t)) (stft_taus (zlen x) w n c)))).
  exists (mkrep x ts n w (base_freqs n) (map G (arange 0 (ts_len ts))) false).
  split; [reflexivity|]. cbn [r_sig r_win r_n r_tfr r_ts r_freqs r_real].
  split.
  - unfold stft_tfr. fold F. rewrite enum_map_arange, mapM_map.
    rewrite (mapM_ok _ (fun c => puts (F c) (map (fun t => ((n + t) mod n, stft_val x w c t)) (stft_taus (zlen x) w n c)))).
    + cbn [bind]. rewrite map_map. reflexivity.
    + intros c Hc. apply stft_col_ok; [lia|]. unfold F. rewrite fft_zlen. apply scatter_zlen. lia.
  - fold F. rewrite map_arange_eq_iff. split.
    + intros H c f Hc Hf Hout. rewrite at2_map by auto. specialize (H c Hc). unfold G in H.
      destruct (rewrite_col n (stft_taus (zlen x) w n c) (stft_val x w c) ltac:(lia)) as [Q _].
      apply (Q H); auto.
      intros t Ht. rewrite mod_add_n by lia. apply Hout. unfold stft_taus, win_lh in Ht. apply in_arange in Ht. cbn zeta. lia.
    + intros H c Hc. unfold G. apply (rewrite_col n (stft_taus (zlen x) w n c) (stft_val x w c) ltac:(lia)).
      intros f Hf Hout. specialize (H c f Hc Hf). rewrite at2_map in H by auto. apply H.
      cbn zeta. intros t Ht. rewrite <- (mod_add_n n t) by lia. apply Hout. unfold stft_taus, win_lh. apply in_arange. lia.
Qed.

(** For a one-sample window this is never the case (signal not starting with 0). *)
Lemma c15_stft_refuted : forall x ts n, 2 <= n -> 2 <= ts_len ts -> 1 <= zlen x -> cnth x 0 <> RtoC 0 ->
  exists o1 o2, stft x (Some ts) (Some n) (Some [RtoC 1]) = Ok o1 /\ stft_run o1 = Ok o2 /\
  r_tfr o2 <> r_tfr o1.
Proof.
  intros x ts n Hn HT HN H0. destruct (c15_stft_second_run x ts n [RtoC 1] ltac:(lia)) as (o1 & o2 & H1 & H2 & H3).
  exists o1, o2. split; auto. split; auto. intros E0. destruct H3 as [H3 _]. assert (E := H3 E0). clear H3 E0.
  assert (A : at2 (r_tfr o1) 1 1 = RtoC 0).
  - apply E; try lia. change (zlen [RtoC 1]) with 1. change ((1 - 1) / 2) with 0.
    assert (R := round_half_bounds n). rewrite Z.min_r by lia. cbn zeta. intros t Ht. replace t with 0 by lia.
    rewrite Z.mod_0_l by lia. lia.
  - unfold stft, stft_run in H1. cbn [r_sig r_win r_n r_tfr r_ts r_freqs r_real base_init] in H1.
    destruct (stft_tfr false x [RtoC 1] n (zeros2 n (ts_len ts))) as [tfr|] eqn:Et; [|discriminate].
    cbn [bind] in H1. assert (Eo : r_tfr o1 = tfr) by (injection H1 as <-; reflexivity). rewrite Eo in A.
    rewrite (stft_closed x [RtoC 1] n (ts_len ts) tfr 1 1) in A; auto; try lia; [|change (win_lh [RtoC 1]) with 0; lia].
    revert A. unfold STFT. rewrite (csum_single _ 0); [|apply NoDup_arange|apply in_arange; lia|].
    + change (1 - 1) with 0. replace (winf [RtoC 1] (0 - 0)) with (RtoC 1) by reflexivity.
      intros A. apply H0. rewrite Cconj_R in A. rewrite Z.sub_diag, Z.mul_0_r in A.
      change (- 0) with 0 in A. rewrite root_0, !Cmult_1_r in A. rewrite sigf_in in A by lia. exact A.
    + intros k Hk Nk. apply in_arange in Hk. rewrite winf_out; [rewrite Cconj_R; ring|].
      change (zlen [RtoC 1]) with 1. change ((1 - 1) / 2) with 0. lia.
Qed.

(** The Wigner-Ville distribution: whenever the first run succeeds, the second
    one does too, and it is different unless the first sample is 0: in the first
    column every entry is |x[0]|^2 after the first run, while after the second
    run the column is (n |x[0]|^2, 0, ..., 0). *)
Lemma wvd_col_real (x : list C) n c col : 0 < n -> zlen col = n -> 0 <= c < zlen x ->
  wvd_col true x n c col =
  if wvd_bad (zlen x) n c then Raise IndexError
  else Ok (puts col (map (fun t => ((n + t) mod n, RtoC (Re (wvd_val x c t)))) (wvd_taus (zlen x) n c))).
Proof.
  intros Hn Hc Hi. unfold wvd_col. fold (wvd_taus (zlen x) n c).
  rewrite (take_ok (RtoC 0)).
  2:{ intros i Hi'. apply in_map_iff in Hi'. destruct Hi' as [t [<- Ht]].
      unfold wvd_taus in Ht. apply in_arange in Ht. lia. }
  cbn [bind]. rewrite (take_ok (RtoC 0)).
  2:{ intros i Hi'. apply in_map_iff in Hi'. destruct Hi' as [t [<- Ht]].
      rewrite zlen_map. unfold wvd_taus in Ht. apply in_arange in Ht. lia. }
  cbn [bind]. rewrite !map_map, bcast_map. cbn [bind]. rewrite map_map.
  rewrite put_map_ok.
  2:{ intros t _. rewrite Hc. apply Z.mod_pos_bound. lia. }
  cbn [bind]. fold (wvd_bad (zlen x) n c). destruct (wvd_bad (zlen x) n c); auto.
  do 2 f_equal. apply map_ext. intros t. f_equal. unfold wvd_val, ncast. cbn [nmul nconj nre NumC].
  do 2 f_equal. f_equal. apply (cnth_conj x).
Qed.

(** FFT of a column that holds the same value everywhere. *)
Lemma fft_const (col : list C) v f : (forall k, 0 <= k < zlen col -> cnth col k = v) -> 0 <= f < zlen col ->
  cnth (fft col) f = if f =? 0 then (RtoC (IZR (zlen col)) * v)%C else RtoC 0.
Proof.
  intros H Hf. rewrite fft_nth by auto.
  rewrite (csum_ext _ _ (fun k => v * root (zlen col) (k * (- f))%Z)%C).
  2:{ intros k Hk. apply in_arange in Hk. rewrite H by auto. do 2 f_equal. ring. }
  rewrite csum_scal_l, root_orth by lia.
  destruct (Z.eqb_spec f 0) as [->|N].
  - change (- 0) with 0. rewrite Z.mod_0_l by lia. cbn [Z.eqb]. ring.
  - destruct (Z.eqb_spec (- f mod zlen col) 0) as [E|E]; [|ring].
    exfalso. apply Z.mod_divide in E; [|lia]. destruct E as [q E]. assert (q = 0) by nia. lia.
Qed.

Lemma wvd_raw0 (x : list C) n : 2 <= n -> 1 <= zlen x -> wvd_taus (zlen x) n 0 = [0].
Proof.
  intros Hn HN. unfold wvd_taus. assert (R := round_half_bounds n).
  replace (Z.min (Z.min 0 (zlen x - 0 - 1)) (round_half n - 1)) with 0 by lia. reflexivity.
Qed.

Lemma c15_wvd_refuted : forall x ts n o1, 2 <= n -> cnth x 0 <> RtoC 0 ->
  wvd x (Some ts) (Some n) = Ok o1 ->
  exists o2, wvd_run o1 = Ok o2 /\ r_tfr o2 <> r_tfr o1 /\
  (forall f, 0 <= f < n -> at2 (r_tfr o1) f 0 = RtoC (Cmod (cnth x 0) ^ 2)) /\
  at2 (r_tfr o2) 0 0 = RtoC (IZR n * Cmod (cnth x 0) ^ 2) /\
  (forall f, 1 <= f < n -> at2 (r_tfr o2) f 0 = RtoC 0).
Proof.
  intros x ts n o1 Hn H0 H.
  assert (HN : 1 <= zlen x). { destruct x; [exfalso; apply H0; reflexivity|unfold zlen; cbn [length]; lia]. }
  unfold wvd, wvd_run in H. cbn [r_sig r_win r_n r_tfr r_ts r_freqs r_real base_init] in H.
  destruct (wvd_tfr false x (ts_len ts) n (zeros2 n (ts_len ts))) as [tfr|] eqn:Et; [|discriminate].
  assert (HT : ts_len ts = zlen x).
  { unfold wvd_tfr, wvd_cplx in Et. destruct (Z.eqb_spec (ts_len ts) (zlen x)); auto. discriminate. }
  rewrite HT in Et.
  assert (Hb : forall c, 0 <= c < zlen x -> wvd_bad (zlen x) n c = false).
  { intros c Hc. destruct (wvd_bad (zlen x) n c) eqn:E; auto. rewrite wvd_tfr_raise in Et; [discriminate|lia|eauto]. }
  rewrite wvd_tfr_fresh in Et by (auto; lia).
  set (F := fun c => map nre (fft (wvd_raw x n c))) in *.
  set (G := fun c => map nre (fft (puts (F c) (map (fun t => ((n + t) mod n, RtoC (Re (wvd_val x c t)))) (wvd_taus (zlen x) n c))))).
  assert (LF : forall c, zlen (F c) = n) by (intros c; unfold F; rewrite zlen_map, fft_zlen; apply scatter_zlen; lia).
  exists (mkrep x ts n (map RtoC (make_window n)) (wvd_freqs n) (map G (arange 0 (zlen x))) true).
  assert (Eo : o1 = mkrep x ts n (map RtoC (make_window n)) (wvd_freqs n) (map F (arange 0 (zlen x))) true).
  { cbn [bind] in H. congruence. }
  rewrite Eo. clear H Et Eo. cbn [r_tfr].
  assert (V0 : RtoC (Cmod (cnth x 0) ^ 2) = wvd_val x 0 0).
  { unfold wvd_val. change (0 + 0) with 0. change (0 - 0) with 0. apply Cmod2_conj. }
  assert (F0 : forall f, 0 <= f < n -> cnth (F 0) f = RtoC (Cmod (cnth x 0) ^ 2)).
  { intros f Hf. unfold F. rewrite cnth_map_re by (rewrite fft_zlen; unfold wvd_raw; rewrite scatter_zlen; lia).
    rewrite wvd_raw_entry by lia. rewrite wvd_raw0 by auto. unfold esum. rewrite csum_cons, csum_nil, Cplus_0_r.
    rewrite Z.mul_0_r. change (- 0) with 0. rewrite root_0, Cmult_1_r, <- V0. reflexivity. }
  assert (P0 : forall k, 0 <= k < n -> cnth (puts (F 0) (map (fun t => ((n + t) mod n, RtoC (Re (wvd_val x 0 t)))) (wvd_taus (zlen x) n 0))) k
     = RtoC (Cmod (cnth x 0) ^ 2)).
  { intros k Hk. rewrite wvd_raw0 by auto. cbn [map puts]. rewrite mod_add_n, Z.mod_0_l by lia.
    unfold cnth at 1. destruct (Z.eq_dec k 0) as [->|N].
    - rewrite nth_upd_eq; [now rewrite <- V0|]. specialize (LF 0). unfold zlen in LF. lia.
    - rewrite nth_upd_neq by lia. apply F0. auto. }
  assert (LP : zlen (puts (F 0) (map (fun t => ((n + t) mod n, RtoC (Re (wvd_val x 0 t)))) (wvd_taus (zlen x) n 0))) = n).
  { unfold zlen. rewrite puts_length. apply LF. }
  assert (G0 : forall f, 0 <= f < n -> cnth (G 0) f = if f =? 0 then RtoC (IZR n * Cmod (cnth x 0) ^ 2) else RtoC 0).
  { intros f Hf. unfold G. rewrite cnth_map_re by (rewrite fft_zlen; lia).
    rewrite (fft_const _ (RtoC (Cmod (cnth x 0) ^ 2))) by (rewrite LP; auto). rewrite LP.
    destruct (f =? 0); [|reflexivity]. now rewrite <- RtoC_mult. }
  split; [|split; [|split; [|split]]].
  - unfold wvd_run. cbn [r_sig r_win r_n r_tfr r_ts r_freqs r_real]. unfold wvd_tfr, wvd_cplx.
    rewrite HT, Z.eqb_refl, enum_map_arange, mapM_map.
    rewrite (mapM_ok _ (fun c => puts (F c) (map (fun t => ((n + t) mod n, RtoC (Re (wvd_val x c t)))) (wvd_taus (zlen x) n c)))).
    + cbn [bind]. rewrite !map_map. reflexivity.
    + intros c Hc. apply in_arange in Hc. rewrite wvd_col_real by (auto; lia). now rewrite Hb.
  - intros E. rewrite map_arange_eq_iff in E. specialize (E 0 ltac:(lia)).
    assert (E1 := f_equal (fun l => cnth l 1) E). cbn beta in E1. rewrite G0, F0 in E1 by lia. cbn [Z.eqb] in E1.
    apply RtoC_inj in E1. apply H0. apply Cmod_eq_0. nra.
  - intros f Hf. rewrite at2_map by lia. auto.
  - rewrite at2_map by lia. rewrite G0 by lia. reflexivity.
  - intros f Hf. rewrite at2_map by lia. rewrite G0 by lia. destruct (Z.eqb_spec f 0); [lia|reflexivity].
Qed.

(** The pseudo Wigner-Ville distribution: the same, with the window's centre. *)
Lemma pwvd_raw0 (x w : list C) n : 1 <= n -> 1 <= zlen x -> w <> [] -> pwvd_taus (zlen x) w n 0 = [0].
Proof.
  intros Hn HN Hw. unfold pwvd_taus. assert (R := round_half_bounds n). assert (B := win_lh_bounds w).
  assert (1 <= zlen w) by (destruct w; [congruence|unfold zlen; cbn [length]; lia]).
  replace (Z.min (Z.min 0 (zlen x - 0 - 1)) (Z.min (round_half n) (win_lh w))) with 0 by lia. reflexivity.
Qed.

Lemma c15_pwvd_refuted : forall x ts n w o1 m1, 2 <= n -> 1 <= ts_len ts -> cnth x 0 <> RtoC 0 ->
  w <> [] -> Re (cnth w ((zlen w - 1) / 2)) <> 0%R ->
  pwvd x (Some ts) (Some n) (Some w) = Ok (o1, m1) ->
  exists o2 m2, pwvd_run o1 = Ok (o2, m2) /\ m2 <> m1.
Proof.
  intros x ts n w o1 m1 Hn HT H0 Hw Hw0 H.
  assert (HN : 1 <= zlen x). { destruct x; [exfalso; apply H0; reflexivity|unfold zlen; cbn [length]; lia]. }
  unfold pwvd, pwvd_run in H. cbn [r_sig r_win r_n r_tfr r_ts r_freqs r_real base_init] in H.
  destruct (pwvd_tfr_cases x w n (ts_len ts) ltac:(lia)) as [[_ E]|[Hb E]]; rewrite E in H; cbn [bind] in H; [discriminate|].
  set (F := fun c => fft (pwvd_raw x w n c)) in *.
  set (G := fun c => fft (puts (F c) (map (fun t => ((n + t) mod n, pwvd_val x w c t)) (pwvd_taus (zlen x) w n c)))).
  assert (LF : forall c, zlen (F c) = n) by (intros c; unfold F; rewrite fft_zlen; apply scatter_zlen; lia).
  assert (Eo : o1 = mkrep x ts n w (base_freqs n) (map F (arange 0 (ts_len ts))) false) by congruence.
  assert (Em : m1 = map (map nre) (map F (arange 0 (ts_len ts)))) by congruence.
  clear H E. subst o1 m1.
  exists (mkrep x ts n w (base_freqs n) (map G (arange 0 (ts_len ts))) false), (map (map nre) (map G (arange 0 (ts_len ts)))).
  split.
  - unfold pwvd_run. cbn [r_sig r_win r_n r_tfr r_ts r_freqs r_real]. unfold pwvd_tfr.
    rewrite enum_map_arange, mapM_map.
    rewrite (mapM_ok _ (fun c => puts (F c) (map (fun t => ((n + t) mod n, pwvd_val x w c t)) (pwvd_taus (zlen x) w n c)))).
    + cbn [bind]. rewrite !map_map. reflexivity.
    + intros c Hc. apply in_arange in Hc. rewrite pwvd_col_ok by (auto; lia). now rewrite Hb.
  - rewrite !map_map. intros E. rewrite map_arange_eq_iff in E. specialize (E 0 ltac:(lia)).
    set (v := (cnth w (win_lh w) * RtoC (Cmod (cnth x 0) ^ 2))%C).
    assert (V0 : pwvd_val x w 0 0 = v).
    { unfold pwvd_val, v. rewrite Z.add_0_r. change (0 + 0) with 0. change (0 - 0) with 0. rewrite Cmod2_conj. ring. }
    assert (F0 : forall f, 0 <= f < n -> cnth (F 0) f = v).
    { intros f Hf. unfold F. rewrite pwvd_entry by lia. rewrite pwvd_raw0 by (auto; lia). 
      rewrite lastdup_id by (constructor; [intros []|constructor]).
      unfold esum. rewrite csum_cons, csum_nil, Cplus_0_r.
      rewrite Z.mul_0_r. change (- 0) with 0. rewrite root_0, Cmult_1_r. exact V0. }
    assert (LP : zlen (puts (F 0) (map (fun t => ((n + t) mod n, pwvd_val x w 0 t)) (pwvd_taus (zlen x) w n 0))) = n).
    { unfold zlen. rewrite puts_length. apply LF. }
    assert (G1 : cnth (G 0) 1 = RtoC 0).
    { unfold G. rewrite (fft_const _ v); [reflexivity| |lia].
      intros k Hk. rewrite LP in Hk. rewrite pwvd_raw0 by (auto; lia). cbn [map puts]. rewrite mod_add_n, Z.mod_0_l by lia.
      unfold cnth at 1. destruct (Z.eq_dec k 0) as [->|N].
      - rewrite nth_upd_eq; [exact V0|]. specialize (LF 0). unfold zlen in LF. lia.
      - rewrite nth_upd_neq by lia. apply F0. auto. }
    assert (E1 := f_equal (fun l => cnth l 1) E). cbn beta in E1.
    rewrite !cnth_map_re in E1; [|rewrite LF; lia|unfold G; rewrite fft_zlen, LP; lia].
    rewrite G1, F0 in E1 by lia. apply RtoC_inj in E1. unfold v in E1. rewrite Cmult_comm, Re_scal in E1.
    change (Re (RtoC 0)) with 0%R in E1. symmetry in E1. apply Rmult_integral in E1. destruct E1 as [E1|E1].
    + apply H0. apply Cmod_eq_0. nra.
    + apply Hw0. exact E1.
Qed.

(** A concrete case of each hypothesis: x = [1, 1], two bins. *)
Example c15_example : exists o1, wvd [RtoC 1; RtoC 1] (Some (TsI [0; 1])) (Some 2) = Ok o1 /\
  cnth [RtoC 1; RtoC 1] 0 <> RtoC 0.
Proof.
  destruct (wvd [RtoC 1; RtoC 1] (Some (TsI [0; 1])) (Some 2)) as [o1|e] eqn:E.
  - exists o1. split; auto. intros H. apply RtoC_inj in H. lra.
  - exfalso. unfold wvd, wvd_run in E. cbn [r_sig r_win r_n r_tfr r_ts r_freqs r_real base_init] in E.
    change (ts_len (TsI [0; 1])) with (zlen [RtoC 1; RtoC 1]) in E.
    rewrite wvd_tfr_fresh in E; [discriminate|lia|]. intros c Hc. change (zlen [RtoC 1; RtoC 1]) with 2 in *.
    unfold wvd_bad. change (round_half 2) with 1. destruct (Z.leb_spec c (2 - 1)); destruct (Z.leb_spec (1 + 1) c); auto. lia.
Qed.

(** *** C16 *)
Definition nonneg_tfr (tfr : list (list C)) := forall c z, In c tfr -> In z c -> exists r, z = RtoC r /\ (0 <= r)%R.

Lemma fold_rmax_ge l a : (a <= fold_left (fun m v => Rmax m (Re v)) l a)%R /\
  forall v, In v l -> (Re v <= fold_left (fun m v => Rmax m (Re v)) l a)%R.
Proof.
  revert a. induction l as [|b l IH]; intros a; cbn [fold_left].
  - split; [lra|]. intros v [].
  - destruct (IH (Rmax a (Re b))) as [H1 H2]. split.
    + eapply Rle_trans; [apply Rmax_l|exact H1].
    + intros v [<-|Hv]; auto. eapply Rle_trans; [apply Rmax_r|exact H1].
Qed.
Lemma fold_rmax_in l a : fold_left (fun m v => Rmax m (Re v)) l a = a \/
  exists v, In v l /\ fold_left (fun m v => Rmax m (Re v)) l a = Re v.
Proof.
  revert a. induction l as [|b l IH]; intros a; cbn [fold_left]; [left; auto|].
  destruct (IH (Rmax a (Re b))) as [H|[v [Hv H]]].
  - rewrite H. unfold Rmax. destruct (Rle_dec a (Re b)); [right; exists b; split; [left|]; auto|left; auto].
  - right. exists v. split; [right|]; auto.
Qed.
Lemma amax_spec tfr m : amax tfr = Ok m ->
  (exists c z, In c tfr /\ In z c /\ Re z = m) /\ forall c z, In c tfr -> In z c -> (Re z <= m)%R.
Proof.
  unfold amax. destruct (concat tfr) as [|z0 l] eqn:E; [discriminate|]. intros H.
  assert (Em : m = fold_left (fun m v => Rmax m (Re v)) l (Re z0)) by congruence. clear H.
  assert (I : forall c z, In c tfr -> In z c -> In z (z0 :: l)).
  { intros c z Hc Hz. rewrite <- E. apply in_concat. eauto. }
  destruct (fold_rmax_ge l (Re z0)) as [G1 G2]. split.
  - assert (X : exists z, In z (z0 :: l) /\ Re z = m).
    { destruct (fold_rmax_in l (Re z0)) as [Q|[v [Hv Q]]].
      - exists z0. split; [left; auto|congruence].
      - exists v. split; [right; auto|congruence]. }
    destruct X as [z [Hz Ez]]. rewrite <- E in Hz. apply in_concat in Hz. destruct Hz as [c [Hc Hz]]. eauto.
  - intros c z Hc Hz. rewrite Em. destruct (I c z Hc Hz) as [<-|Hl]; auto.
Qed.
Lemma amax_raise_iff tfr : amax tfr = Raise ValueError <-> concat tfr = [].
Proof. unfold amax. destruct (concat tfr); split; auto; discriminate. Qed.
Lemma amax_cases tfr : (exists m, amax tfr = Ok m) \/ (amax tfr = Raise ValueError /\ concat tfr = []).
Proof. unfold amax. destruct (concat tfr); eauto. Qed.

Lemma amax_unique tfr m : concat tfr <> [] -> (exists c z, In c tfr /\ In z c /\ Re z = m) ->
  (forall c z, In c tfr -> In z c -> (Re z <= m)%R) -> amax tfr = Ok m.
Proof.
  intros N [c [z [Hc [Hz E]]]] H. destruct (amax_cases tfr) as [[m' Em]|[_ Em]]; [|congruence].
  rewrite Em. f_equal. apply amax_spec in Em. destruct Em as [[c' [z' [Hc' [Hz' E']]]] H'].
  apply Rle_antisym; [rewrite <- E'; eauto|rewrite <- E; eauto].
Qed.

(** Thresholding a non-negative matrix twice is thresholding it once. *)
Lemma threshold_idem th tfr t1 : nonneg_tfr tfr -> (0 <= th)%R -> threshold th tfr = Ok t1 ->
  threshold th t1 = Ok t1 /\ nonneg_tfr t1.
Proof.
  intros Hnn Hth H. unfold threshold in H. destruct (amax tfr) as [m|] eqn:Em; [|discriminate].
  cbn [bind] in H. assert (E1 : t1 = cut (m * th) tfr) by congruence. subst t1. clear H.
  assert (N : concat tfr <> []) by (intros Q; apply amax_raise_iff in Q; congruence).
  apply amax_spec in Em. destruct Em as [[c0 [z0 [Hc0 [Hz0 Ez0]]]] Hm].
  assert (Hm0 : (0 <= m)%R). { destruct (Hnn c0 z0 Hc0 Hz0) as [r [-> Hr]]. rewrite <- Ez0. exact Hr. }
  assert (In1 : forall c z, In c (cut (m * th) tfr) -> In z c -> exists c' z', In c' tfr /\ In z' c' /\
     z = if Rle_dec (Re z') (m * th) then RtoC 0 else z').
  { intros c z Hc Hz. unfold cut in Hc. apply in_map_iff in Hc. destruct Hc as [c' [<- Hc']].
    apply in_map_iff in Hz. destruct Hz as [z' [<- Hz']]. eauto. }
  assert (NN : nonneg_tfr (cut (m * th) tfr)).
  { intros c z Hc Hz. destruct (In1 c z Hc Hz) as (c' & z' & Hc' & Hz' & ->).
    destruct (Rle_dec _ _); [exists 0%R; split; [auto|lra]|eauto]. }
  split; auto.
  assert (N1 : concat (cut (m * th) tfr) <> []).
  { intros Q. unfold cut in Q. rewrite <- concat_map in Q. apply map_eq_nil in Q. congruence. }
  unfold threshold. destruct (Rle_dec m (m * th)) as [Z|Z].
  - (* everything was cut *)
    assert (A0 : forall c z, In c (cut (m * th) tfr) -> In z c -> z = RtoC 0).
    { intros c z Hc Hz. destruct (In1 c z Hc Hz) as (c' & z' & Hc' & Hz' & ->).
      destruct (Rle_dec (Re z') (m * th)); auto. exfalso. assert (Q := Hm c' z' Hc' Hz'). lra. }
    rewrite (amax_unique _ 0%R); auto.
    + cbn [bind]. f_equal. rewrite Rmult_0_l. set (M := cut (m * th) tfr) in *. unfold cut.
      transitivity (map (fun c : list C => c) M); [|apply map_id]. apply map_ext_in. intros c Hc.
      transitivity (map (fun z : C => z) c); [|apply map_id]. apply map_ext_in. intros z Hz.
      rewrite (A0 c z Hc Hz). destruct (Rle_dec _ _); auto.
    + destruct (concat (cut (m * th) tfr)) as [|z l] eqn:Q; [congruence|].
      assert (Iz : In z (concat (cut (m * th) tfr))) by (rewrite Q; left; auto).
      apply in_concat in Iz. destruct Iz as [c [Hc Hz]]. exists c, z. split; auto. split; auto.
      rewrite (A0 c z Hc Hz). reflexivity.
    + intros c z Hc Hz. rewrite (A0 c z Hc Hz). cbn. lra.
  - rewrite (amax_unique _ m); auto.
    + cbn [bind]. f_equal. unfold cut. rewrite map_map. apply map_ext. intros c. rewrite map_map. apply map_ext. intros z.
      destruct (Rle_dec (Re z) (m * th)) as [L|L].
      * destruct (Rle_dec _ _); auto.
      * destruct (Rle_dec (Re z) (m * th)); auto. contradiction.
    + exists (map (fun z => if Rle_dec (Re z) (m * th) then RtoC 0 else z) c0), z0. split; [now apply in_map|]. split; auto.
      apply in_map_iff. exists z0. split; auto. destruct (Rle_dec _ _); auto. exfalso. lra.
    + intros c z Hc Hz. destruct (In1 c z Hc Hz) as (c' & z' & Hc' & Hz' & ->).
      destruct (Rle_dec (Re z') (m * th)); [cbn; lra|eauto].
Qed.

Lemma abs_nonneg tfr : nonneg_tfr (abs_tfr tfr).
Proof.
  intros c z Hc Hz. unfold abs_tfr in Hc. apply in_map_iff in Hc. destruct Hc as [c' [<- _]].
  apply in_map_iff in Hz. destruct Hz as [z' [<- _]]. exists (Cmod z'). split; auto. apply Cmod_ge_0.
Qed.
Lemma abs_id tfr : nonneg_tfr tfr -> abs_tfr tfr = tfr.
Proof.
  intros H. unfold abs_tfr. transitivity (map (fun c : list C => c) tfr); [|apply map_id]. apply map_ext_in. intros c Hc.
  transitivity (map (fun z : C => z) c); [|apply map_id]. apply map_ext_in. intros z Hz.
  destruct (H c z Hc Hz) as [r [-> Hr]]. rewrite Cmod_R, Rabs_right; auto. lra.
Qed.

(** Plotting a Wigner-Ville distribution twice (default sqmod=False) displays the
    same data; the stored matrix has become the thresholded modulus. *)
Lemma c16_wvd_plot_idempotent : forall th o o1, (0 <= th)%R -> wvd_plot false th o = Ok o1 ->
  wvd_plot false th o1 = Ok o1 /\
  (forall c z, In c (r_tfr o1) -> In z c -> exists r, z = RtoC r /\ (0 <= r)%R).
Proof.
  intros th o o1 Hth H. unfold wvd_plot in *. destruct (threshold th (abs_tfr (r_tfr o))) as [t|] eqn:E; [|discriminate].
  cbn [bind] in H. assert (Eo : o1 = with_tfr o (r_freqs o) t true) by congruence. subst o1. clear H.
  destruct (threshold_idem th _ t (abs_nonneg _) Hth E) as [I N]. unfold with_tfr. cbn [r_tfr r_freqs r_sig r_ts r_n r_win].
  split; [|exact N]. rewrite abs_id by auto. rewrite I. reflexivity.
Qed.

(** What is stored afterwards is not the distribution any more: signs are lost. *)
Lemma c16_wvd_plot_destroys_refuted : exists o o1 : rep C, wvd_plot false 0 o = Ok o1 /\ r_tfr o1 <> r_tfr o /\
  r_tfr o = [[RtoC (-1); RtoC 3]].
Proof.
  set (o := mkrep [] (TsI [0]) 2 [] [] [[RtoC (-1); RtoC 3]] true).
  assert (Q : exists m, amax (abs_tfr (r_tfr o)) = Ok m).
  { destruct (amax_cases (abs_tfr (r_tfr o))) as [Q|[_ Q]]; auto. discriminate. }
  destruct Q as [m Em]. exists o. eexists. split; [|split; [|reflexivity]].
  - unfold wvd_plot, threshold. rewrite Em. cbn [bind]. reflexivity.
  - unfold with_tfr. cbn [r_tfr o abs_tfr map cut]. intros E.
    assert (E1 := f_equal (fun l => cnth (nth 0 l []) 0) E). unfold cnth in E1. cbn [nth Z.to_nat] in E1.
    destruct (Rle_dec _ _).
    + apply RtoC_inj in E1. lra.
    + apply RtoC_inj in E1. assert (P := Cmod_ge_0 (RtoC (-1))). lra.
Qed.

(** Spectrogram: plotting twice displays the same data ... *)
Lemma firstn_firstn_same {A} k (l : list A) : firstn k (firstn k l) = firstn k l.
Proof. rewrite firstn_firstn. f_equal. lia. Qed.

Lemma cut_first_rows h t tfr : first_rows h (cut_first h t tfr) = cut t (first_rows h tfr).
Proof.
  unfold first_rows, cut_first, cut, prefix. rewrite !map_map. apply map_ext. intros c.
  rewrite firstn_app, map_length, firstn_length.
  destruct (Nat.le_gt_cases (Z.to_nat h) (length c)).
  - rewrite Nat.min_l by auto. rewrite Nat.sub_diag. cbn [firstn]. rewrite app_nil_r.
    rewrite firstn_all2; auto. rewrite map_length, firstn_length. lia.
  - rewrite Nat.min_r by lia. rewrite skipn_all2, firstn_nil, app_nil_r by lia.
    rewrite firstn_all2; auto. rewrite map_length, firstn_length. lia.
Qed.

Lemma first_rows_nonneg h tfr : nonneg_tfr tfr -> nonneg_tfr (first_rows h tfr).
Proof.
  intros H c z Hc Hz. unfold first_rows in Hc. apply in_map_iff in Hc. destruct Hc as [c' [<- Hc']].
  apply (H c'); auto. unfold prefix in Hz. rewrite <- (firstn_skipn (Z.to_nat h) c'). apply in_or_app. auto.
Qed.

Lemma first_rows_idem h tfr : first_rows h (first_rows h tfr) = first_rows h tfr.
Proof. unfold first_rows, prefix. rewrite map_map. apply map_ext. intros c. apply firstn_firstn_same. Qed.

Lemma c16_spectrogram_plot_twice : forall th o o1 a1, (0 <= th)%R -> nonneg_tfr (r_tfr o) ->
  spec_plot th o = Ok (o1, a1) -> exists a2, spec_plot th o1 = Ok (o1, a2).
Proof.
  intros th o o1 a1 Hth Hnn H. unfold spec_plot in *. set (h := r_n o / 2) in *.
  destruct (amax (first_rows h (r_tfr o))) as [m|] eqn:Em; [|discriminate]. cbn [bind] in H.
  assert (Eo : o1 = with_tfr o (prefix (r_freqs o) h) (first_rows h (cut_first h (m * th) (r_tfr o))) true) by congruence.
  assert (ET : threshold th (first_rows h (r_tfr o)) = Ok (cut (m * th) (first_rows h (r_tfr o)))).
  { unfold threshold. rewrite Em. reflexivity. }
  destruct (threshold_idem th _ _ (first_rows_nonneg h _ Hnn) Hth ET) as [I _].
  rewrite <- cut_first_rows in I. subst o1. clear H. unfold with_tfr. cbn [r_tfr r_freqs r_sig r_ts r_n r_win]. fold h.
  set (T := first_rows h (cut_first h (m * th) (r_tfr o))) in *.
  assert (FT : first_rows h T = T) by (unfold T; apply first_rows_idem).
  unfold threshold in I. rewrite FT. destruct (amax T) as [m'|]; [|discriminate]. cbn [bind] in *.
  assert (I' : cut (m' * th) T = T) by congruence. eexists. do 2 f_equal.
  rewrite cut_first_rows, FT, I'. f_equal. unfold prefix. apply firstn_firstn_same.
Qed.

(** ... with the default threshold 0 the array returned by [run] is not changed ... *)
Lemma c16_spectrogram_default_keeps_array : forall o o1 a1, nonneg_tfr (r_tfr o) ->
  spec_plot 0 o = Ok (o1, a1) -> a1 = r_tfr o.
Proof.
  intros o o1 a1 Hnn H. unfold spec_plot in H. destruct (amax _) as [m|]; [|discriminate]. cbn [bind] in H.
  assert (Ea : a1 = cut_first (r_n o / 2) (m * 0) (r_tfr o)) by congruence. subst a1. rewrite Rmult_0_r.
  unfold cut_first. transitivity (map (fun c : list C => c) (r_tfr o)); [|apply map_id]. apply map_ext_in. intros c Hc.
  transitivity (firstn (Z.to_nat (r_n o / 2)) c ++ skipn (Z.to_nat (r_n o / 2)) c); [|apply firstn_skipn]. f_equal.
  transitivity (map (fun z : C => z) (firstn (Z.to_nat (r_n o / 2)) c)); [|apply map_id].
  apply map_ext_in. intros z Hz.
  assert (Iz : In z c) by (rewrite <- (firstn_skipn (Z.to_nat (r_n o / 2)) c); apply in_or_app; auto).
  destruct (Hnn c z Hc Iz) as [r [-> Hr]]. destruct (Rle_dec _ _) as [L|L]; auto. cbn in L. f_equal. lra.
Qed.

(** ... but with a positive threshold plotting rewrites the caller's array. *)
Lemma c16_spectrogram_mutates_refuted : exists o o1 a1, nonneg_tfr (r_tfr o) /\
  spec_plot (/ 2) o = Ok (o1, a1) /\ a1 <> r_tfr o /\ zlen (nth 0 a1 []) = r_n o.
Proof.
  set (o := mkrep [] (TsI [0]) 4 [] [] [[RtoC 1; RtoC 3; RtoC 7; RtoC 9]] true).
  assert (Em : amax (first_rows 2 (r_tfr o)) = Ok 3%R).
  { apply amax_unique.
    - discriminate.
    - exists [RtoC 1; RtoC 3], (RtoC 3). cbn. auto.
    - intros c z Hc Hz. cbn in Hc. destruct Hc as [<-|[]]. cbn in Hz. destruct Hz as [<-|[<-|[]]]; cbn; lra. }
  exists o. eexists. eexists. split.
  { intros c z Hc Hz. cbn in Hc. destruct Hc as [<-|[]]. cbn in Hz.
    destruct Hz as [<-|[<-|[<-|[<-|[]]]]]; eexists; split; try reflexivity; lra. }
  split; [unfold spec_plot; change (r_n o / 2) with 2; rewrite Em; cbn [bind]; reflexivity|].
  split; [|reflexivity]. intros E.
  assert (E1 := f_equal (fun l => cnth (nth 0 l []) 0) E). unfold cnth in E1. cbn [cut_first map nth Z.to_nat r_tfr o] in E1. change (Pos.to_nat 2) with 2%nat in E1. cbn [firstn map app nth] in E1.
  destruct (Rle_dec _ _) as [L|L]; [apply RtoC_inj in E1; lra|]. apply L. cbn. lra.
Qed.

(** STFT: after [plot] only half the rows are left and running again raises
    IndexError (windows of at least 3 samples). *)
Lemma c16_stft_plot_rows : forall th o o1, stft_plot th o = Ok o1 ->
  (forall c, In c (r_tfr o) -> zlen c = r_n o) -> 0 <= r_n o ->
  (forall c, In c (r_tfr o1) -> zlen c = r_n o / 2) /\ zlen (r_tfr o1) = zlen (r_tfr o) /\
  r_freqs o1 = firstn (Z.to_nat (r_n o / 2)) (r_freqs o) /\
  r_sig o1 = r_sig o /\ r_win o1 = r_win o /\ r_n o1 = r_n o /\ r_ts o1 = r_ts o.
Proof.
  intros th o o1 H Hrows Hn. unfold stft_plot, threshold in H. set (h := r_n o / 2) in *.
  destruct (amax _) as [m|]; [|discriminate]. cbn [bind] in H.
  assert (Eo : o1 = with_tfr o (prefix (r_freqs o) h) (cut (m * th) (sqmod_tfr (first_rows h (r_tfr o)))) true) by congruence.
  subst o1. unfold with_tfr. cbn [r_tfr r_freqs r_sig r_ts r_n r_win]. repeat split; auto.
  - intros c Hc. unfold cut, sqmod_tfr, first_rows in Hc. rewrite !map_map in Hc. apply in_map_iff in Hc.
    destruct Hc as [c' [<- Hc']]. rewrite !zlen_map. unfold prefix, zlen. rewrite firstn_length. 
    specialize (Hrows c' Hc'). unfold zlen in Hrows. assert (h <= r_n o) by (unfold h; Z.to_euclidean_division_equations; lia).
    assert (0 <= h) by (apply Z.div_pos; lia). lia.
  - unfold cut, sqmod_tfr, first_rows. rewrite !zlen_map. reflexivity.
Qed.

(** Every outcome of one column of the loop, on a column of any length. *)
Lemma stft_col_any real x w n c col : 0 < n ->
  stft_col real x w n c col =
  put_aux col (map (fun t => ((n + t) mod n, ncast real (stft_val x w c t))) (stft_taus (zlen x) w n c)).
Proof.
  intros Hn. unfold stft_col. fold (stft_taus (zlen x) w n c).
  rewrite (take_ok (RtoC 0)).
  2:{ intros i Hi'. apply in_map_iff in Hi'. destruct Hi' as [t [<- Ht]].
      apply stft_taus_ok in Ht. lia. }
  cbn [bind]. rewrite (take_ok (RtoC 0)).
  2:{ intros i Hi'. apply in_map_iff in Hi'. destruct Hi' as [t [<- Ht]].
      rewrite zlen_map. apply stft_taus_ok in Ht. lia. }
  cbn [bind]. rewrite !map_map, bcast_map. cbn [bind]. rewrite map_map.
  unfold put. rewrite !map_length, Nat.eqb_refl.
  generalize (stft_taus (zlen x) w n c). intros ts. clear Hn.
  f_equal. induction ts as [|t ts IH]; cbn [map combine]; [reflexivity|]. f_equal; auto.
  f_equal. f_equal. unfold stft_val. cbn [nmul NumC]. f_equal. apply (cnth_conj w).
Qed.

Lemma put_aux_raise {A} (l : list A) ivs : (exists i v, In (i, v) ivs /\ zlen l <= i) -> put_aux l ivs = Raise IndexError.
Proof.
  revert l. induction ivs as [|[i v] ivs IH]; intros l [i' [v' [H Hi]]]; [destruct H|]. destruct H as [E|H].
  - assert (i = i') by congruence. subst i'. cbn [put_aux]. rewrite set_raise by lia. reflexivity.
  - cbn [put_aux]. unfold set at 1. destruct (pyidx (zlen l) i); cbn [bind]; auto.
    apply IH. exists i', v'. rewrite upd_zlen. auto.
Qed.
Lemma put_aux_exn {A} (l : list A) ivs e : put_aux l ivs = Raise e -> e = IndexError.
Proof.
  revert l. induction ivs as [|[i v] ivs IH]; intros l; cbn [put_aux]; [discriminate|].
  unfold set at 1. destruct (pyidx (zlen l) i); cbn [bind]; [apply IH|congruence].
Qed.

Lemma c16_stft_run_after_plot_refuted : forall th x ts n w o o1, 2 <= n -> 3 <= ts_len ts -> 1 <= zlen x -> 3 <= zlen w ->
  stft x (Some ts) (Some n) (Some w) = Ok o -> stft_plot th o = Ok o1 -> stft_run o1 = Raise IndexError.
Proof.
  intros th x ts n w o o1 Hn HT HN Hw H H1.
  unfold stft, stft_run in H. cbn [r_sig r_win r_n r_tfr r_ts r_freqs r_real base_init] in H.
  rewrite stft_tfr_fresh in H by lia. cbn [bind] in H.
  set (T := map _ (arange 0 (ts_len ts))) in H.
  assert (LT : zlen T = ts_len ts) by (unfold T; rewrite zlen_map_arange; lia).
  assert (Eo : o = mkrep x ts n w (base_freqs n) T false) by congruence. clear H.
  assert (Hc : forall c, In c (r_tfr o) -> zlen c = r_n o).
  { subst o. cbn [r_tfr r_n]. intros c Hc. unfold T in Hc. apply in_map_iff in Hc. destruct Hc as [i [<- _]].
    rewrite fft_zlen. apply scatter_zlen. lia. }
  assert (Hn0 : 0 <= r_n o) by (subst o; cbn; lia).
  destruct (c16_stft_plot_rows th o o1 H1 Hc Hn0) as (R1 & R2 & _ & R4 & R5 & R6 & R7).
  subst o. cbn [r_tfr r_n r_sig r_win r_ts] in *. clear Hc Hn0.
  unfold stft_run. rewrite R4, R5, R6. unfold stft_tfr.
  rewrite (mapM_raise _ _ IndexError); [reflexivity| |].
  - intros [icol col] _. rewrite stft_col_any by lia.
    destruct (put_aux _ _) as [a|e] eqn:E; [left; eauto|right]. apply put_aux_exn in E. now subst.
  - destruct (nth_error (r_tfr o1) 2) as [col|] eqn:E2.
    2:{ apply nth_error_None in E2. unfold zlen in R2, LT. lia. }
    exists (2, col). split.
    { apply (nth_error_In _ 2). now apply (enum_nth (r_tfr o1) 2 col). }
    rewrite stft_col_any by lia. apply put_aux_raise.
    exists (n - 1), (ncast (r_real o1) (stft_val x w 2 (-1))). split.
    + apply in_map_iff. exists (-1). split.
      * f_equal. replace (n + -1) with (n - 1) by lia. apply Z.mod_small. lia.
      * unfold stft_taus. apply in_arange. assert (B := win_lh_bounds w). assert (Q := round_half_bounds n). lia.
    + apply nth_error_In in E2. rewrite (R1 col E2). Z.to_euclidean_division_equations. lia.
Qed.

(** Plotting an STFT twice displays the squares of what the first plot showed. *)
Lemma sqmod_first h tfr : first_rows h (sqmod_tfr tfr) = sqmod_tfr (first_rows h tfr).
Proof.
  unfold first_rows, sqmod_tfr, prefix. rewrite !map_map. apply map_ext. intros c. apply firstn_map.
Qed.
Lemma cut_first' h t tfr : first_rows h (cut t tfr) = cut t (first_rows h tfr).
Proof.
  unfold first_rows, cut, prefix. rewrite !map_map. apply map_ext. intros c. apply firstn_map.
Qed.

Lemma c16_stft_second_plot : forall o o1 o2, stft_plot 0 o = Ok o1 -> stft_plot 0 o1 = Ok o2 ->
  forall f c, at2 (r_tfr o2) f c = (at2 (r_tfr o1) f c * at2 (r_tfr o1) f c)%C.
Proof.
  intros o o1 o2 H1 H2 f c. unfold stft_plot, threshold in H1, H2. set (h := r_n o / 2) in *.
  destruct (amax (sqmod_tfr (first_rows h (r_tfr o)))) as [m|] eqn:E1; [|discriminate]. cbn [bind] in H1.
  assert (Eo1 : o1 = with_tfr o (prefix (r_freqs o) h) (cut (m * 0) (sqmod_tfr (first_rows h (r_tfr o)))) true) by congruence.
  clear H1. assert (En : r_n o1 = r_n o) by (subst o1; reflexivity). rewrite En in H2. fold h in H2.
  assert (ET : r_tfr o1 = cut (m * 0) (sqmod_tfr (first_rows h (r_tfr o)))) by (subst o1; reflexivity).
  clear Eo1. destruct (amax (sqmod_tfr (first_rows h (r_tfr o1)))) as [m2|]; [|discriminate]. cbn [bind] in H2.
  assert (ET2 : r_tfr o2 = cut (m2 * 0) (sqmod_tfr (first_rows h (r_tfr o1)))).
  { assert (Q : o2 = with_tfr o1 (prefix (r_freqs o1) h) (cut (m2 * 0) (sqmod_tfr (first_rows h (r_tfr o1)))) true) by congruence.
    rewrite Q. reflexivity. }
  assert (Eh : first_rows h (r_tfr o1) = r_tfr o1).
  { rewrite ET, cut_first', sqmod_first, first_rows_idem. reflexivity. }
  rewrite Eh in ET2. rewrite ET2, Rmult_0_r in *.
  assert (Hr : forall col, In col (r_tfr o1) -> forall z, In z col -> exists r, z = RtoC r /\ (0 <= r)%R).
  { intros col Hc z Hz. rewrite ET in Hc. unfold cut, sqmod_tfr in Hc. rewrite map_map in Hc. apply in_map_iff in Hc.
    destruct Hc as [c' [<- _]]. rewrite map_map in Hz. apply in_map_iff in Hz. destruct Hz as [z' [<- _]].
    destruct (Rle_dec _ _); eexists; split; try reflexivity; [lra|apply pow2_ge_0]. }
  clear - Hr. unfold cut, sqmod_tfr. rewrite map_map. unfold at2.
  rewrite <- (map_nth (fun x => map (fun z : C => if Rle_dec (Re z) 0 then RtoC 0 else z) (map (fun z : C => RtoC (Cmod z ^ 2)) x)) (r_tfr o1) [] (Z.to_nat c)) at 1 || idtac.
  change (@nil C) with (map (fun z : C => if Rle_dec (Re z) 0 then RtoC 0 else z) (map (fun z : C => RtoC (Cmod z ^ 2)) [])) at 1.
  rewrite (map_nth (fun x => map (fun z : C => if Rle_dec (Re z) 0 then RtoC 0 else z) (map (fun z : C => RtoC (Cmod z ^ 2)) x)) (r_tfr o1) [] (Z.to_nat c)).
  set (col := nth (Z.to_nat c) (r_tfr o1) []).
  assert (Hcol : forall z, In z col -> exists r, z = RtoC r /\ (0 <= r)%R).
  { destruct (nth_in_or_default (Z.to_nat c) (r_tfr o1) []) as [I|I]; [intros z Hz; eapply Hr; eauto|].
    unfold col. rewrite I. intros z []. }
  rewrite map_map. unfold cnth.
  set (g := fun z : C => if Rle_dec (Re (RtoC (Cmod z ^ 2))) 0 then RtoC 0 else RtoC (Cmod z ^ 2)).
  assert (g0 : g (RtoC 0) = RtoC 0) by (unfold g; destruct (Rle_dec _ _); auto; rewrite Cmod_0; f_equal; ring).
  rewrite <- g0 at 1. rewrite (map_nth g).
  assert (HV : exists r, nth (Z.to_nat f) col (RtoC 0) = RtoC r /\ (0 <= r)%R).
  { destruct (nth_in_or_default (Z.to_nat f) col (RtoC 0)) as [I|I]; [auto|]. exists 0%R. rewrite I. split; [auto|lra]. }
  destruct HV as [r [-> Hr0]]. unfold g. rewrite Cmod_R, <- RtoC_mult.
  rewrite Rabs_right by lra. destruct (Rle_dec _ _) as [L|L]; cbn in L; f_equal; nra.
Qed.

(** Margenau-Hill: each plot drops half of the rows that are left, until there
    are none and plot raises ValueError. *)
Fixpoint mh_plots (th : R) (k : nat) (o : rep C) : res (rep C) :=
  match k with O => Ok o | S k' => o' <- mh_plots th k' o ;; mh_plot th o' end.

Lemma c16_mh_plot_history : forall th k o r, r_tfr o <> [] -> 0 <= r ->
  (forall c, In c (r_tfr o) -> zlen c = r) ->
  (1 <= r / 2 ^ Z.of_nat k -> exists o', mh_plots th k o = Ok o' /\ r_tfr o' <> [] /\
     forall c, In c (r_tfr o') -> zlen c = r / 2 ^ Z.of_nat k) /\
  (r / 2 ^ Z.of_nat k = 0 -> (0 < k)%nat -> mh_plots th k o = Raise ValueError).
Proof.
  intros th k o r Hne Hr Hrows.
  assert (Step : forall o, r_tfr o <> [] -> forall q, 0 <= q -> (forall c, In c (r_tfr o) -> zlen c = q) ->
    (1 <= q / 2 -> exists o', mh_plot th o = Ok o' /\ r_tfr o' <> [] /\ forall c, In c (r_tfr o') -> zlen c = q / 2) /\
    (q / 2 = 0 -> mh_plot th o = Raise ValueError)).
  { clear. intros o Hne q Hq Hrows. unfold mh_plot.
    assert (Er : match r_tfr o with c :: _ => zlen c | [] => r_n o end = q).
    { destruct (r_tfr o) as [|c l]; [congruence|]. apply Hrows. left; auto. }
    rewrite Er. unfold threshold. set (M := sqmod_tfr (first_rows (q / 2) (r_tfr o))).
    assert (LM : forall c, In c M -> zlen c = q / 2).
    { intros c Hc. unfold M, sqmod_tfr, first_rows in Hc. rewrite map_map in Hc. apply in_map_iff in Hc.
      destruct Hc as [c' [<- Hc']]. rewrite zlen_map. unfold prefix, zlen. rewrite firstn_length.
      specialize (Hrows c' Hc'). unfold zlen in Hrows. Z.to_euclidean_division_equations. lia. }
    assert (NM : M <> []). { unfold M, sqmod_tfr, first_rows. rewrite map_map. destruct (r_tfr o); [congruence|discriminate]. }
    split.
    - intros H1. destruct (amax_cases M) as [[m E]|[_ E]].
      + rewrite E. cbn [bind]. eexists. split; [reflexivity|]. unfold with_tfr. cbn [r_tfr]. split.
        * unfold cut. destruct M; [congruence|discriminate].
        * intros c Hc. unfold cut in Hc. apply in_map_iff in Hc. destruct Hc as [c' [<- Hc']]. rewrite zlen_map. auto.
      + exfalso. destruct M as [|c M']; [congruence|]. cbn [concat] in E. apply app_eq_nil in E. destruct E as [E _].
        assert (Q := LM c (or_introl eq_refl)). subst c. change (zlen (@nil C)) with 0 in Q. lia.
    - intros H0. destruct (amax_cases M) as [[m E]|[E _]].
      + apply amax_spec in E. destruct E as [(c & z & Hc & Hz & _) _]. specialize (LM c Hc).
        destruct c; [destruct Hz|]. unfold zlen in LM. cbn [length] in LM. lia.
      + rewrite E. reflexivity. }
  induction k as [|k [IH1 IH2]].
  - change (2 ^ Z.of_nat 0) with 1. rewrite Z.div_1_r. split; [|lia]. intros _. exists o. split; [reflexivity|auto].
  - assert (D : r / 2 ^ Z.of_nat (S k) = r / 2 ^ Z.of_nat k / 2).
    { rewrite Nat2Z.inj_succ, Z.pow_succ_r by lia. rewrite Z.mul_comm. symmetry. apply Z.div_div; [apply Z.pow_nonzero; lia|lia]. }
    rewrite D. set (q := r / 2 ^ Z.of_nat k) in *.
    assert (Hq : 0 <= q) by (apply Z.div_pos; [lia|apply Z.pow_pos_nonneg; lia]).
    split.
    + intros H. destruct (IH1 ltac:(Z.to_euclidean_division_equations; lia)) as (o' & E & N & R').
      cbn [mh_plots]. rewrite E. cbn [bind]. apply (Step o' N q); auto.
    + intros H _. cbn [mh_plots]. destruct (Z.eq_dec q 0) as [Q|Q].
      * destruct k as [|k].
        -- cbn [mh_plots bind]. apply (Step o Hne q); auto. intros c Hc. rewrite Hrows by auto. unfold q. cbn. now rewrite Z.div_1_r.
        -- rewrite IH2 by (auto; lia). reflexivity.
      * destruct (IH1 ltac:(lia)) as (o' & E & N & R'). rewrite E. cbn [bind]. apply (Step o' N q); auto.
Qed.

(** With 8 rows the fourth plot raises. *)
Example c16_mh_example : forall th, let o := mkrep [] (TsI [0]) 8 [] [] [repeat (RtoC 1) 8] true in
  (exists o', mh_plots th 3 o = Ok o') /\ mh_plots th 4 o = Raise ValueError.
Proof.
  intros th o. split.
  - destruct (c16_mh_plot_history th 3 o 8) as [H _]; try lia; try discriminate.
    { intros c [<-|[]]. reflexivity. }
    destruct H as [o' [H _]]; [cbn; lia|]. eauto.
  - destruct (c16_mh_plot_history th 4 o 8) as [_ H]; try lia; try discriminate.
    { intros c [<-|[]]. reflexivity. }
    apply H; [reflexivity|lia].
Qed.

(** The Page representation cannot be plotted at all. *)
Lemma c16_page_plot_refuted : forall o, page_plot o = Raise TypeError.
Proof. reflexivity. Qed.

(** What is displayed: the modulus [v] of every entry of the displayed rows, and
    zero where it does not exceed the fraction [th] of the largest. *)
Definition displays (v : C -> R) (th : R) (rows : list C -> list C) (tfr shown : list (list C)) : Prop :=
  exists m, (exists c z, In c tfr /\ In z (rows c) /\ v z = m) /\ (forall c z, In c tfr -> In z (rows c) -> (v z <= m)%R) /\
    shown = map (fun c => map (fun z => if Rle_dec (v z) (m * th) then RtoC 0 else RtoC (v z)) (rows c)) tfr.
Lemma displays_of v th rows tfr t : threshold th (map (fun c => map (fun z => RtoC (v z)) (rows c)) tfr) = Ok t -> displays v th rows tfr t.
Proof.
  unfold threshold. destruct (amax _) as [m|] eqn:E; [|discriminate]. cbn [bind]. intros H. assert (Q : t = cut (m * th) (map (fun c => map (fun z => RtoC (v z)) (rows c)) tfr)) by congruence. subst t. clear H.
  apply amax_spec in E. destruct E as [(c & z & Hc & Hz & Em) Hm]. exists m. split; [|split].
  - apply in_map_iff in Hc. destruct Hc as (c' & <- & Hc'). apply in_map_iff in Hz. destruct Hz as (z' & <- & Hz'). exists c', z'. auto.
  - intros c' z' Hc' Hz'. specialize (Hm (map (fun z => RtoC (v z)) (rows c')) (RtoC (v z'))). apply Hm; [apply in_map_iff; eauto|apply in_map_iff; eauto].
  - unfold cut. rewrite map_map. apply map_ext. intros c'. rewrite map_map. reflexivity.
Qed.
Lemma c16_wvd_displays : forall sq th o o1, wvd_plot sq th o = Ok o1 -> displays (fun z => if sq then Cmod z ^ 2 else Cmod z)%R th (fun c => c) (r_tfr o) (r_tfr o1).
Proof.
  intros sq th o o1 H. unfold wvd_plot in H. match type of H with bind ?e _ = _ => destruct e as [t|] eqn:E; [|discriminate] end. cbn [bind] in H.
  assert (Q : o1 = with_tfr o (r_freqs o) t true) by congruence. subst o1. cbn [with_tfr r_tfr]. apply displays_of. rewrite <- E. destruct sq; reflexivity.
Qed.
Lemma c16_stft_displays : forall th o o1, stft_plot th o = Ok o1 -> displays (fun z => Cmod z ^ 2)%R th (fun c => firstn (Z.to_nat (r_n o / 2)) c) (r_tfr o) (r_tfr o1).
Proof.
  intros th o o1 H. unfold stft_plot in H. match type of H with bind ?e _ = _ => destruct e as [t|] eqn:E; [|discriminate] end. cbn [bind] in H.
  assert (Q : o1 = with_tfr o (prefix (r_freqs o) (r_n o / 2)) t true) by congruence. subst o1. cbn [with_tfr r_tfr]. apply displays_of. rewrite <- E. unfold sqmod_tfr, first_rows. now rewrite map_map.
Qed.
Lemma c16_mh_displays : forall th o o1 r, mh_plot th o = Ok o1 -> r_tfr o <> [] -> (forall c, In c (r_tfr o) -> zlen c = r) ->
  displays (fun z => Cmod z ^ 2)%R th (fun c => firstn (Z.to_nat (r / 2)) c) (r_tfr o) (r_tfr o1).
Proof.
  intros th o o1 r H Hne Hr. unfold mh_plot in H. assert (RW : match r_tfr o with c :: _ => zlen c | [] => r_n o end = r) by (destruct (r_tfr o) as [|c l]; [easy|apply Hr; now left]). rewrite RW in H.
  match type of H with bind ?e _ = _ => destruct e as [t|] eqn:E; [|discriminate] end. cbn [bind] in H.
  assert (Q : o1 = with_tfr o (r_freqs o) t true) by congruence. subst o1. cbn [with_tfr r_tfr]. apply displays_of. rewrite <- E. unfold sqmod_tfr, first_rows. now rewrite map_map.
Qed.
