(** C15: calling run() again, for the Margenau-Hill, pseudo Margenau-Hill and Page classes. *)
From Coq Require Import Reals ZArith List Lia Lra Bool Psatz.
From Coquelicot Require Import Coquelicot.
From Verif Require Import Py Scalars CSum DFT Spec M_base M_stft M_cohen M_utils M_state.
From Verif Require Import P_base P_stft P_wvd P_pwvd P_mh T_utils T_state T_mh.
Import ListNotations.
Local Open Scope Z_scope.

Lemma pmh_col_any x w n c col : 0 < n -> 0 <= c -> zlen col = n -> pmh_okc (zlen x) w n c = true ->
  pmh_col false x w n c col = Ok (puts col (map (fun t => ((n + t) mod n, pmh_val x w c t)) (pmh_taus (zlen x) w c))).
Proof.
  intros Hn Hc HL. unfold pmh_col, pmh_okc. rewrite !pymin3. set (h := round_half n) in *.
  assert (B := win_lh_bounds w). intros OK. rewrite andb_true_iff, Z.ltb_lt, negb_true_iff, andb_false_iff, orb_false_iff, !Z.leb_gt in OK.
  assert (E : (h - 1 <=? win_lh w) && (h - 1 <=? zlen x - c) = false /\ (h - 1 <=? win_lh w) && (h - 1 <=? c - 1) = false) by (rewrite !andb_false_iff, !Z.leb_gt; lia).
  destruct E as [-> ->]. cbn [isfloat orb nval]. fold (pmh_taus (zlen x) w c).
  rewrite (take_ok (RtoC 0)).
  2:{ intros i Hi. apply in_map_iff in Hi. destruct Hi as [t [<- Ht]]. unfold pmh_taus in Ht. apply in_arange in Ht. lia. }
  cbn [bind]. rewrite (get_ok (RtoC 0)) by lia. cbn [bind]. rewrite (take_ok (RtoC 0)).
  2:{ intros i Hi. apply in_map_iff in Hi. destruct Hi as [t [<- Ht]]. unfold pmh_taus in Ht. apply in_arange in Ht. lia. }
  cbn [bind]. rewrite !map_map, bcast_map. cbn [bind]. rewrite map_map. rewrite put_map_ok; [reflexivity|].
  intros t _. rewrite HL. apply Z.mod_pos_bound. lia.
Qed.
Lemma pmh_first x ts n w o : 1 <= n -> pmh x (Some ts) (Some n) (Some w) = Ok o ->
  (forall c, 0 <= c < ts_len ts -> pmh_okc (zlen x) w n c = true) /\
  o = mkrep x ts n w (base_freqs n) (map (fun c => fft (scatter n (pmh_taus (zlen x) w c) (pmh_val x w c))) (arange 0 (ts_len ts))) false.
Proof.
  intros Hn H. assert (HT : 0 <= ts_len ts) by (destruct ts; apply zlen_nonneg).
  assert (OK : forall c, 0 <= c < ts_len ts -> pmh_okc (zlen x) w n c = true).
  { intros d Hd. destruct (c32_pmh_outcome x ts n w Hn) as [[R _]|[_ E]]; [|congruence].
    unfold pmh_okc, win_lh. rewrite andb_true_iff, negb_true_iff, andb_false_iff, orb_false_iff, !Z.leb_gt, Z.ltb_lt. lia. }
  split; auto. unfold pmh in H. cbn [bind] in H. unfold pmh_run, base_init in H. cbn [r_real r_sig r_win r_n r_tfr r_ts r_freqs] in H.
  unfold pmh_tfr in H. rewrite zeros2_enum, mapM_map in H.
  rewrite (mapM_ok _ (fun c => scatter n (pmh_taus (zlen x) w c) (pmh_val x w c))) in H.
  2:{ intros d Hd. apply in_arange in Hd. rewrite pmh_col_cases by lia. now rewrite OK. }
  cbn [bind] in H. rewrite map_map in H. congruence.
Qed.

(** Pseudo Margenau-Hill: the second run succeeds when the first did, and gives the same matrix exactly
    when the first result is 0 at every bin that is not the residue of a lag of its column. *)
Lemma c15_pmh_second_run : forall x ts n w o1, 1 <= n -> pmh x (Some ts) (Some n) (Some w) = Ok o1 ->
  exists o2, pmh_run o1 = Ok o2 /\
  (r_tfr o2 = r_tfr o1 <->
   forall c f, 0 <= c < ts_len ts -> 0 <= f < n ->
     (forall t, let m := (zlen w - 1) / 2 in
        - Z.min m (zlen x - c) <= t <= Z.min m (c - 1) -> t mod n <> f) ->
     at2 (r_tfr o1) f c = RtoC 0).
Proof.
  intros x ts n w o1 Hn H. destruct (pmh_first x ts n w o1 Hn H) as [OK ->]. clear H.
  set (F := fun c => fft (scatter n (pmh_taus (zlen x) w c) (pmh_val x w c))).
  set (G := fun c => fft (puts (F c) (map (fun t => ((n + t) mod n, pmh_val x w c t)) (pmh_taus (zlen x) w c)))).
  exists (mkrep x ts n w (base_freqs n) (map G (arange 0 (ts_len ts))) false).
  unfold pmh_run. cbn [r_sig r_win r_n r_tfr r_ts r_freqs r_real].
  split.
  - unfold pmh_tfr. rewrite enum_map_arange, mapM_map.
    rewrite (mapM_ok _ (fun c => puts (F c) (map (fun t => ((n + t) mod n, pmh_val x w c t)) (pmh_taus (zlen x) w c)))).
    + cbn [bind]. rewrite map_map. reflexivity.
    + intros c Hc. apply in_arange in Hc. apply pmh_col_any; [lia|lia| |apply OK; lia]. unfold F. rewrite fft_zlen. apply scatter_zlen. lia.
  - rewrite map_arange_eq_iff. split.
    + intros H c f Hc Hf Hout. rewrite at2_map by auto. specialize (H c Hc). unfold G in H.
      destruct (rewrite_col n (pmh_taus (zlen x) w c) (pmh_val x w c) ltac:(lia)) as [Q _].
      apply (Q H); auto.
      intros t Ht. rewrite mod_add_n by lia. apply Hout. unfold pmh_taus, win_lh in Ht. apply in_arange in Ht. cbn zeta. lia.
    + intros H c Hc. unfold G. apply (rewrite_col n (pmh_taus (zlen x) w c) (pmh_val x w c) ltac:(lia)).
      intros f Hf Hout. specialize (H c f Hc Hf). rewrite at2_map in H by auto. apply H.
      cbn zeta. intros t Ht. rewrite <- (mod_add_n n t) by lia. apply Hout. unfold pmh_taus, win_lh. apply in_arange. lia.
Qed.

(** With a one-sample window: column c goes from the constant w x[c] conj(x[c-1]) to n times it at bin 0. *)
Lemma c15_pmh_refuted : forall x ts n w0 o1, 1 <= n -> pmh x (Some ts) (Some n) (Some [w0]) = Ok o1 ->
  exists o2, pmh_run o1 = Ok o2 /\
  (forall c f, 1 <= c < ts_len ts -> 0 <= f < n -> let v := (w0 * cnth x c * Cconj (cnth x (c - 1)))%C in
   at2 (r_tfr o1) f c = v /\ at2 (r_tfr o2) f c = if f =? 0 then (RtoC (IZR n) * v)%C else RtoC 0).
Proof.
  intros x ts n w0 o1 Hn H. destruct (pmh_first x ts n [w0] o1 Hn H) as [OK ->]. clear H.
  set (F := fun c => fft (scatter n (pmh_taus (zlen x) [w0] c) (pmh_val x [w0] c))).
  set (P := fun c => puts (F c) (map (fun t => ((n + t) mod n, pmh_val x [w0] c t)) (pmh_taus (zlen x) [w0] c))).
  exists (mkrep x ts n [w0] (base_freqs n) (map (fun c => fft (P c)) (arange 0 (ts_len ts))) false).
  assert (LF : forall c, zlen (F c) = n) by (intros c; unfold F; rewrite fft_zlen; apply scatter_zlen; lia).
  assert (LP : forall c, zlen (P c) = n) by (intros c; unfold P, zlen; rewrite puts_length; apply LF).
  unfold pmh_run. cbn [r_sig r_win r_n r_tfr r_ts r_freqs r_real]. split.
  - unfold pmh_tfr. rewrite enum_map_arange, mapM_map. rewrite (mapM_ok _ P).
    + cbn [bind]. rewrite map_map. reflexivity.
    + intros c Hc. apply in_arange in Hc. apply pmh_col_any; [lia|lia|apply LF|apply OK; lia].
  - intros c f Hc Hf. set (v := (w0 * cnth x c * Cconj (cnth x (c - 1)))%C). rewrite !at2_map by lia.
    assert (T0 : pmh_taus (zlen x) [w0] c = [0]).
    { assert (Q := OK c ltac:(lia)). unfold pmh_okc in Q. rewrite andb_true_iff, Z.ltb_lt in Q. unfold pmh_taus, win_lh. change ((zlen [w0] - 1) / 2) with 0. rewrite !Z.min_l by lia. reflexivity. }
    assert (V0 : pmh_val x [w0] c 0 = v). { unfold pmh_val, v, win_lh. change ((zlen [w0] - 1) / 2 + 0) with 0. rewrite Z.sub_0_r. reflexivity. }
    assert (F0 : forall f, 0 <= f < n -> cnth (F c) f = v).
    { intros g Hg. unfold F. rewrite T0. rewrite scatter_fft; auto; try lia.
      2:{ cbn [map]. constructor; [intros []|constructor]. }
      unfold esum. rewrite csum_cons, csum_nil, Cplus_0_r, Z.mul_0_r. change (- 0) with 0. rewrite root_0, Cmult_1_r. exact V0. }
    split; [apply F0; lia|].
    rewrite (fft_const _ v); rewrite ?LP; auto.
    intros k Hk. unfold P. rewrite T0. cbn [map puts]. rewrite mod_add_n, Z.mod_0_l by lia.
    unfold cnth at 1. destruct (Z.eq_dec k 0) as [->|N].
    + rewrite nth_upd_eq; [exact V0|]. specialize (LF c). unfold zlen in LF. lia.
    + rewrite nth_upd_neq by lia. apply F0. auto.
Qed.

(** Margenau-Hill and Page: the matrix kept by the object is real, so the second run writes real parts. *)
Lemma mh_col_real x n ti col : 0 < n -> zlen col = n -> - zlen x <= ti < zlen x ->
  mh_col true x n ti col = Ok (puts col (map (fun t => ((n + t) mod n, RtoC (Re (pyat x ti * Cconj (cnth x (ti - t)))%C)))
     (arange (ti + 1 - Z.min n (zlen x)) ti))).
Proof.
  intros Hn Hc Hi. unfold mh_col. replace (- Z.min (n - ti) (zlen x - ti) + 1) with (ti + 1 - Z.min n (zlen x)) by lia.
  rewrite get_pyat by auto. cbn [bind]. rewrite (take_ok (RtoC 0)).
  2:{ intros i Hi'. apply in_map_iff in Hi'. destruct Hi' as [t [<- Ht]]. apply in_arange in Ht. lia. }
  cbn [bind]. rewrite !map_map. rewrite put_map_ok; [reflexivity|]. intros t _. rewrite Hc. apply Z.mod_pos_bound. lia.
Qed.
Lemma page_col_real x n ti col : 0 < n -> zlen col = n -> - zlen x <= ti < zlen x ->
  page_col true x n ti col = Ok (puts col (map (fun t => ((n + t) mod n, RtoC (Re (pyat x ti * Cconj (cnth x (ti - t - 1)))%C)))
     (arange (ti - Z.min n (zlen x)) ti))).
Proof.
  intros Hn Hc Hi. unfold page_col. replace (- Z.min (n - ti) (zlen x - ti)) with (ti - Z.min n (zlen x)) by lia.
  rewrite get_pyat by auto. cbn [bind]. rewrite (take_ok (RtoC 0)).
  2:{ intros i Hi'. apply in_map_iff in Hi'. destruct Hi' as [t [<- Ht]]. apply in_arange in Ht. lia. }
  cbn [bind]. rewrite !map_map. rewrite put_map_ok; [reflexivity|]. intros t _. rewrite Hc. apply Z.mod_pos_bound. lia.
Qed.
Lemma combine_map {A B} (f : A -> B) l : combine l (map f l) = map (fun a => (a, f a)) l.
Proof. induction l as [|a l IH]; cbn; auto. now rewrite IH. Qed.

Lemma c15_mh_refuted : forall a b l n o1, 2 <= n -> mh [a; b] (Some (TsI l)) (Some n) = Ok o1 ->
  exists o2, mh_run o1 = Ok o2 /\
  (forall c f, nth_error l (Z.to_nat c) = Some 1 -> 0 <= f < n ->
   at2 (r_tfr o1) f c = RtoC (Cmod b ^ 2) /\ at2 (r_tfr o2) f c = if f =? 0 then RtoC (IZR n * Cmod b ^ 2) else RtoC 0).
Proof.
  intros a b l n o1 Hn H. rewrite mh_unfold, mh_tfr_cases in H by lia. destruct (forallb _ l) eqn:E; cbn [bind] in H; [|discriminate].
  rewrite forallb_forall in E. set (F := fun ti => map nre (fft (mh_raw [a; b] n ti))) in *.
  assert (Eo : o1 = mkrep [a; b] (TsI l) n (map RtoC (make_window n)) (base_freqs n) (map F l) true) by congruence. clear H. subst o1.
  set (P := fun ti => puts (F ti) (map (fun t => ((n + t) mod n, RtoC (Re (pyat [a; b] ti * Cconj (cnth [a; b] (ti - t)))%C))) (arange (ti + 1 - Z.min n (zlen [a; b])) ti))).
  exists (mkrep [a; b] (TsI l) n (map RtoC (make_window n)) (base_freqs n) (map (fun ti => map nre (fft (P ti))) l) true).
  assert (LF : forall t, zlen (F t) = n) by (intros t; unfold F; rewrite zlen_map, fft_zlen; apply scatter_zlen; lia).
  assert (LP : forall t, zlen (P t) = n) by (intros t; unfold P, zlen; rewrite puts_length; apply LF).
  split.
  - unfold mh_run. cbn [r_sig r_win r_n r_tfr r_ts r_freqs r_real]. unfold mh_tfr, ts_loop. rewrite combine_map, mapM_map. rewrite (mapM_ok _ P).
    + cbn [bind]. rewrite map_map. reflexivity.
    + intros t Ht. apply mh_col_real; [lia|apply LF|]. apply in_range_spec. auto.
  - intros c f Hc Hf. cbn [r_tfr]. rewrite !(at2_map_list _ l f c 1) by auto.
    assert (T0 : arange (1 + 1 - Z.min n (zlen [a; b])) 1 = [0]) by (change (zlen [a; b]) with 2; rewrite Z.min_r by lia; reflexivity).
    assert (V0 : (pyat [a; b] 1 * Cconj (cnth [a; b] (1 - 0)))%C = RtoC (Cmod b ^ 2)). { rewrite Cmod2_conj. reflexivity. }
    assert (F0 : forall f, 0 <= f < n -> cnth (F 1) f = RtoC (Cmod b ^ 2)).
    { intros g Hg. unfold F. rewrite cnth_map_re by (rewrite fft_zlen; unfold mh_raw; rewrite scatter_zlen; lia). unfold mh_raw. rewrite T0. rewrite scatter_fft; auto; try lia.
      2:{ cbn [map]. constructor; [intros []|constructor]. }
      unfold esum. rewrite csum_cons, csum_nil, Cplus_0_r, Z.mul_0_r. change (- 0) with 0. rewrite root_0, Cmult_1_r, V0. reflexivity. }
    split; [apply F0; lia|].
    rewrite cnth_map_re by (rewrite fft_zlen, LP; lia). rewrite (fft_const _ (RtoC (Cmod b ^ 2))); rewrite ?LP; auto.
    { destruct (f =? 0); [rewrite <- RtoC_mult|]; reflexivity. }
    intros k Hk. unfold P. rewrite T0. cbn [map puts]. rewrite mod_add_n, Z.mod_0_l by lia. rewrite V0.
    unfold cnth at 1. destruct (Z.eq_dec k 0) as [->|N].
    + rewrite nth_upd_eq; [reflexivity|]. specialize (LF 1). unfold zlen in LF. lia.
    + rewrite nth_upd_neq by lia. apply F0. auto.
Qed.

Lemma c15_page_refuted : forall a o1, page [a] (Some (TsI [0])) (Some 2) = Ok o1 ->
  exists o2, page_run o1 = Ok o2 /\
  at2 (r_tfr o1) 0 0 = RtoC (Cmod a ^ 2) /\ at2 (r_tfr o1) 1 0 = RtoC (- Cmod a ^ 2) /\
  at2 (r_tfr o2) 0 0 = RtoC (2 * Cmod a ^ 2) /\ at2 (r_tfr o2) 1 0 = RtoC 0.
Proof.
  intros a o1 H. rewrite page_unfold, page_tfr_cases in H by lia. change (forallb (in_range (zlen [a])) [0]) with true in H. cbn [bind] in H.
  set (F := fun ti => map nre (fft (page_raw [a] 2 ti))) in *.
  assert (Eo : o1 = mkrep [a] (TsI [0]) 2 (map RtoC (make_window 2)) (base_freqs 2) (map F [0]) true) by congruence. clear H. subst o1.
  set (P := fun ti => puts (F ti) (map (fun t => ((2 + t) mod 2, RtoC (Re (pyat [a] ti * Cconj (cnth [a] (ti - t - 1)))%C))) (arange (ti - Z.min 2 (zlen [a])) ti))).
  exists (mkrep [a] (TsI [0]) 2 (map RtoC (make_window 2)) (base_freqs 2) (map (fun ti => map nre (fft (P ti))) [0]) true).
  assert (LF : forall t, zlen (F t) = 2) by (intros t; unfold F; rewrite zlen_map, fft_zlen; apply scatter_zlen; lia).
  assert (LP : forall t, zlen (P t) = 2) by (intros t; unfold P, zlen; rewrite puts_length; apply LF).
  assert (T0 : arange (0 - Z.min 2 (zlen [a])) 0 = [-1]) by reflexivity.
  assert (V0 : (pyat [a] 0 * Cconj (cnth [a] (0 - -1 - 1)))%C = RtoC (Cmod a ^ 2)). { rewrite Cmod2_conj. reflexivity. }
  assert (R1 : root 2 1 = RtoC (-1)). { apply (root_half 1). lia. }
  assert (FV : forall f, 0 <= f < 2 -> cnth (F 0) f = RtoC (Re (RtoC (Cmod a ^ 2) * root 2 f)%C)).
  { intros g Hg. unfold F. rewrite cnth_map_re by (rewrite fft_zlen; unfold page_raw; rewrite scatter_zlen; lia). unfold page_raw. rewrite T0. rewrite scatter_fft; auto; try lia.
    2:{ cbn [map]. constructor; [intros []|constructor]. }
    unfold esum. rewrite csum_cons, csum_nil, Cplus_0_r, V0. do 4 f_equal. ring. }
  assert (F0 : cnth (F 0) 0 = RtoC (Cmod a ^ 2)) by (rewrite FV by lia; rewrite root_0, Cmult_1_r; reflexivity).
  assert (F1 : cnth (F 0) 1 = RtoC (- Cmod a ^ 2)) by (rewrite FV by lia; rewrite R1, <- RtoC_mult, Re_R; f_equal; ring).
  assert (PC : forall k, 0 <= k < zlen (P 0) -> cnth (P 0) k = RtoC (Cmod a ^ 2)).
  { intros k Hk. rewrite LP in Hk. unfold P. rewrite T0. cbn [map puts]. change ((2 + -1) mod 2) with 1. rewrite V0, Re_R. unfold cnth at 1. destruct (Z.eq_dec k 1) as [->|N].
    - rewrite nth_upd_eq; [reflexivity|]. specialize (LF 0). unfold zlen in LF. lia.
    - rewrite nth_upd_neq by lia. replace k with 0 by lia. apply F0. }
  split; [|split; [|split; [|split]]].
  - unfold page_run. cbn [r_sig r_win r_n r_tfr r_ts r_freqs r_real]. unfold page_tfr, ts_loop. rewrite combine_map, mapM_map. rewrite (mapM_ok _ P).
    + cbn [bind]. rewrite map_map. reflexivity.
    + intros t [<-|[]]. apply page_col_real; [lia|apply LF|]. change (zlen [a]) with 1. lia.
  - exact F0.
  - exact F1.
  - cbn [r_tfr]. rewrite (at2_map_list _ [0] 0 0 0) by auto. rewrite cnth_map_re by (rewrite fft_zlen, LP; lia). rewrite (fft_const _ (RtoC (Cmod a ^ 2)) 0 PC) by (rewrite LP; lia). rewrite LP. cbn [Z.eqb]. rewrite <- RtoC_mult, Re_R. reflexivity.
  - cbn [r_tfr]. rewrite (at2_map_list _ [0] 1 0 0) by auto. rewrite cnth_map_re by (rewrite fft_zlen, LP; lia). rewrite (fft_const _ (RtoC (Cmod a ^ 2)) 1 PC) by (rewrite LP; lia). reflexivity.
Qed.

(** A case: one sample in the window, four bins, two samples. *)
Example c15_pmh_example : exists o1 o2, pmh [RtoC 1; Ci] (Some (TsI [0; 1])) (Some 4) (Some [RtoC 1]) = Ok o1 /\ pmh_run o1 = Ok o2 /\
  at2 (r_tfr o1) 1 1 = Ci /\ at2 (r_tfr o2) 1 1 = RtoC 0.
Proof.
  destruct (c32_pmh_outcome [RtoC 1; Ci] (TsI [0; 1]) 4 [RtoC 1] ltac:(lia)) as [[_ [o1 H]]|[N _]].
  2:{ exfalso. apply N. right. change (round_half 4) with 2. change ((zlen [RtoC 1] - 1) / 2) with 0. change (ts_len (TsI [0; 1])) with 2. change (zlen [RtoC 1; Ci]) with 2. lia. }
  destruct (c15_pmh_refuted [RtoC 1; Ci] (TsI [0; 1]) 4 (RtoC 1) o1 ltac:(lia) H) as (o2 & H2 & V). exists o1, o2. do 2 (split; [assumption|]).
  destruct (V 1 1 ltac:(change (ts_len (TsI [0; 1])) with 2; lia) ltac:(lia)) as [V1 V2]. rewrite V1, V2. split; [|reflexivity].
  change (cnth [RtoC 1; Ci] 1) with Ci. change (cnth [RtoC 1; Ci] (1 - 1)) with (RtoC 1). rewrite Cconj_R. ring.
Qed.
