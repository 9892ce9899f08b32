(** Properties of the number of bins (C129). *)
From Coq Require Import Reals ZArith List Lia Lra Bool.
From Coquelicot Require Import Coquelicot.
From Flocq Require Import Core.
From Verif Require Import Py Scalars CSum DFT M_base M_stft M_cohen M_bins.
Import ListNotations.
Local Open Scope Z_scope.

Lemma with_bins_pos {A} n (r : res A) : 1 <= n -> with_bins n r = r.
Proof.
  intros H. unfold with_bins. destruct (Z.ltb_spec n 0); [lia|]. destruct r; cbn [bind]; auto.
  destruct (Z.eqb_spec n 0); [lia|auto].
Qed.
Lemma with_bins_neg {A} n (r : res A) : n < 0 -> with_bins n r = Raise ValueError.
Proof. intros H. unfold with_bins. destruct (Z.ltb_spec n 0); [auto|lia]. Qed.
Lemma with_bins_0 {A} (r : res A) e : r = Raise e -> with_bins 0 r = Raise e.
Proof. intros ->. reflexivity. Qed.
Lemma with_bins_0_ok {A} (r : res A) a : r = Ok a -> with_bins 0 r = Raise ValueError.
Proof. intros ->. reflexivity. Qed.

Lemma c129_positive : forall x ts l n w tw fw, 1 <= bins_of x n ->
  stft_b x ts n w = stft x ts n w /\ spectrogram_b x ts n w = spectrogram x ts n w /\
  wvd_b x ts n = wvd x ts n /\ pwvd_b x ts n w = pwvd x ts n w /\ mh_b x ts n = mh x ts n /\
  page_b x ts n = page x ts n /\ pmh_b x ts n w = pmh x ts n w /\ ppage_b x ts n w = ppage x ts n w /\
  spwv_b x l n tw fw = spwv x l n tw fw.
Proof.
  intros x ts l n w tw fw H. repeat split; try (apply with_bins_pos; exact H).
  unfold spwv_b. destruct (Z.eqb_spec (bins_of x n) 0); [lia|]. cbn [andb]. now apply with_bins_pos.
Qed.

Lemma c129_negative : forall x ts l n w tw fw, bins_of x n < 0 ->
  stft_b x ts n w = Raise ValueError /\ spectrogram_b x ts n w = Raise ValueError /\
  wvd_b x ts n = Raise ValueError /\ pwvd_b x ts n w = Raise ValueError /\ mh_b x ts n = Raise ValueError /\
  page_b x ts n = Raise ValueError /\ pmh_b x ts n w = Raise ValueError /\ ppage_b x ts n w = Raise ValueError /\
  spwv_b x l n tw fw = Raise ValueError.
Proof.
  intros x ts l n w tw fw H. repeat split; try (apply with_bins_neg; exact H).
  unfold spwv_b. destruct (Z.eqb_spec (bins_of x n) 0); [lia|]. cbn [andb]. now apply with_bins_neg.
Qed.

Lemma mapM_one_raise {A B} (f : A -> res B) l e a :
  In a l -> f a = Raise e -> (forall b, In b l -> f b = Raise e \/ exists v, f b = Ok v) -> mapM f l = Raise e.
Proof.
  induction l as [|b l IH]; intros Ha Hf Hall; [destruct Ha|]. cbn [mapM].
  destruct (Hall b (or_introl eq_refl)) as [->|[v Hv]]; [reflexivity|]. rewrite Hv. cbn [bind].
  destruct Ha as [->|Ha]; [congruence|]. rewrite (IH Ha Hf); [reflexivity|]. intros c Hc. apply Hall. now right.
Qed.
Lemma mapM_all_ok {A B} (f : A -> res B) l : (forall a, In a l -> exists v, f a = Ok v) -> exists r, mapM f l = Ok r.
Proof.
  induction l as [|a l IH]; intros H; [eexists; reflexivity|]. cbn [mapM].
  destruct (H a (or_introl eq_refl)) as [v ->]. destruct IH as [r ->]; [intros; apply H; now right|]. eexists; reflexivity.
Qed.
Lemma get_ok {A} (l : list A) i : - zlen l <= i < zlen l -> exists v, get l i = Ok v.
Proof.
  intros H. unfold get, pyidx.
  assert (G : forall k, 0 <= k < zlen l -> exists v, nth_error l (Z.to_nat k) = Some v).
  { intros k Hk. destruct (nth_error l (Z.to_nat k)) eqn:E; [eauto|]. apply nth_error_None in E. unfold zlen in Hk. lia. }
  destruct (Z.leb_spec 0 i); destruct (Z.ltb_spec i (zlen l)); cbn [andb]; try lia.
  - destruct (G i) as [v ->]; [lia|eauto].
  - destruct (Z.leb_spec (- zlen l) i); destruct (Z.ltb_spec i 0); cbn [andb]; try lia.
    destruct (G (i + zlen l)) as [v ->]; [lia|eauto].
Qed.
Lemma get_raise {A} (l : list A) i : ~ (- zlen l <= i < zlen l) -> get l i = Raise IndexError.
Proof.
  intros H. unfold get, pyidx.
  destruct (Z.leb_spec 0 i); destruct (Z.ltb_spec i (zlen l)); cbn [andb]; try lia;
  destruct (Z.leb_spec (- zlen l) i); destruct (Z.ltb_spec i 0); cbn [andb]; try lia; auto.
Qed.
Lemma in_zeros2_0 {T} `{Num T} t a : In a (enum (zeros2 (T:=T) 0 t)) -> exists i, a = (i, []) /\ 0 <= i < t.
Proof.
  destruct a as [i c]. intros Ha. apply in_enum in Ha. destruct Ha as [Hi Hc].
  assert (L : zlen (zeros2 (T:=T) 0 t) = Z.max 0 t) by (unfold zlen, zeros2; rewrite repeat_length; lia).
  exists i. split; [|lia]. f_equal. apply nth_error_In in Hc. unfold zeros2 in Hc. now apply repeat_spec in Hc.
Qed.
Lemma at_zeros2_0 i t : 0 <= i < t -> In (i, []) (enum (zeros2 (T:=C) 0 t)).
Proof. intros H. rewrite zeros2_enum. apply in_map_iff. exists i. split; [reflexivity|]. now apply in_arange. Qed.

Lemma ts_len_nonneg ts : 0 <= ts_len ts.
Proof. destruct ts; cbn; unfold zlen; lia. Qed.
Lemma arange_none a b : b <= a -> arange a b = [].
Proof. intros H. unfold arange. replace (Z.to_nat (b - a)) with 0%nat by lia. reflexivity. Qed.
Lemma arange_one a b : b = a + 1 -> arange a b = [a].
Proof. intros ->. unfold arange. replace (Z.to_nat (a + 1 - a)) with 1%nat by lia. cbn. f_equal. lia. Qed.
Lemma round_half_0 : round_half 0 = 0.
Proof. reflexivity. Qed.
Lemma win_lh_nonneg {T} (w : list T) : 1 <= zlen w -> 0 <= win_lh w < zlen w.
Proof. intros H. unfold win_lh. pose proof (Z.div_mod (zlen w - 1) 2). pose proof (Z.mod_pos_bound (zlen w - 1) 2). lia. Qed.
Lemma win_lh_none {T} (w : list T) : zlen w < 1 -> win_lh w = -1.
Proof. intros H. assert (E : zlen w = 0) by (unfold zlen in *; lia). unfold win_lh. rewrite E. reflexivity. Qed.

Lemma take_one {A} (l : list A) i : - zlen l <= i < zlen l -> exists v, take l [i] = Ok [v].
Proof. intros H. unfold take. cbn [mapM]. destruct (get_ok l i H) as [v ->]. cbn [bind]. eauto. Qed.
Lemma put_empty_one i (v : C) : put (@nil C) [i] [v] = Raise IndexError.
Proof. unfold put. cbn. unfold set, pyidx. cbn. destruct (Z.leb_spec 0 i); destruct (Z.ltb_spec i 0); cbn; try lia; auto. Qed.

Definition stft0 (x w : list C) (t : Z) : exn :=
  if (2 <=? t) && (1 <=? zlen x) && (1 <=? zlen w) then IndexError else ValueError.

Lemma stft_col_0 (x w : list C) icol : 0 <= icol ->
  (1 <= icol <= zlen x -> 1 <= zlen w -> stft_col false x w 0 icol [] = Raise IndexError) /\
  (icol = 0 \/ zlen x < icol \/ zlen w < 1 -> exists v, stft_col false x w 0 icol [] = Ok v).
Proof.
  intros Hi. unfold stft_col. rewrite round_half_0. split.
  - intros H1 H2. pose proof (win_lh_nonneg w H2) as Hw.
    rewrite (Z.min_l 0 (win_lh w)) by lia. rewrite (Z.min_l 0 (icol - 1)) by lia. rewrite (Z.min_l 0 (zlen x - icol)) by lia.
    change (arange (- 0) (0 + 1)) with [0]. cbn [map].
    destruct (take_one x (icol + 0 - 1)) as [a ->]; [lia|]. cbn [bind].
    destruct (take_one (map nconj w) (win_lh w + 0)) as [b ->]; [unfold zlen in *; rewrite map_length; lia|]. cbn [bind].
    change (bcast nmul [a] [b]) with (@Ok (list C) [nmul a b]). cbn [bind map]. apply put_empty_one.
  - intros H. rewrite arange_none; [cbn; eauto|].
    destruct (Z.lt_ge_cases (zlen w) 1) as [W|W]; [rewrite (win_lh_none w W); lia|]. pose proof (win_lh_nonneg w W). lia.
Qed.

Lemma c129_zero_stft : forall x ts w, stft_b x (Some ts) (Some 0) (Some w) = Raise (stft0 x w (ts_len ts)).
Proof.
  intros x ts w. unfold stft_b, bins_of, stft, stft_run, stft_tfr, base_init. cbn [r_sig r_ts r_n r_win r_tfr r_real].
  pose proof (ts_len_nonneg ts) as Hts. unfold stft0.
  destruct (Z.leb_spec 2 (ts_len ts)); [destruct (Z.leb_spec 1 (zlen x)); [destruct (Z.leb_spec 1 (zlen w))|]|]; cbn [andb].
  - apply with_bins_0. rewrite (mapM_one_raise _ _ IndexError (1, [])); [reflexivity| | |].
    + apply at_zeros2_0. lia.
    + apply stft_col_0; lia.
    + intros b Hb. apply in_zeros2_0 in Hb. destruct Hb as [i [-> Hi]].
      destruct (Z.eq_dec i 0) as [E|E]; [right; apply stft_col_0; lia|].
      destruct (Z.le_gt_cases i (zlen x)); [left|right]; apply stft_col_0; lia.
  - edestruct (mapM_all_ok (fun '(icol, col) => stft_col false x w 0 icol col)) as [r Hr];
      [|rewrite Hr; cbn [bind]; reflexivity].
    intros b Hb. apply in_zeros2_0 in Hb. destruct Hb as [i [-> Hi]]. apply stft_col_0; lia.
  - edestruct (mapM_all_ok (fun '(icol, col) => stft_col false x w 0 icol col)) as [r Hr];
      [|rewrite Hr; cbn [bind]; reflexivity].
    intros b Hb. apply in_zeros2_0 in Hb. destruct Hb as [i [-> Hi]]. apply stft_col_0; lia.
  - edestruct (mapM_all_ok (fun '(icol, col) => stft_col false x w 0 icol col)) as [r Hr];
      [|rewrite Hr; cbn [bind]; reflexivity].
    intros b Hb. apply in_zeros2_0 in Hb. destruct Hb as [i [-> Hi]]. apply stft_col_0; lia.
Qed.

Lemma spec_col_0 (x w : list C) ti : exists v, spec_col false x w 0 ti [] = Ok v.
Proof.
  unfold spec_col. rewrite round_half_0.
  rewrite arange_none; [cbn; eauto|].
  assert (Hw : -1 <= win_lh w) by (destruct (Z.lt_ge_cases (zlen w) 1) as [W|W]; [rewrite (win_lh_none w W); lia|pose proof (win_lh_nonneg w W); lia]).
  lia.
Qed.

Lemma c129_zero_spectrogram : forall x l w,
  spectrogram_b x (Some (TsI l)) (Some 0) (Some w) = Raise ValueError.
Proof.
  intros x l w. unfold spectrogram_b, bins_of, spectrogram, spectrogram_tfr, base_init. cbn [r_sig r_ts r_n r_win r_tfr r_real].
  edestruct (mapM_all_ok (fun '(ti, col) => spec_col false x w 0 ti col)) as [r Hr]; [|rewrite Hr; reflexivity].
  intros [ti c] H. apply in_combine_r in H. apply repeat_spec in H. subst c. apply spec_col_0.
Qed.

Lemma wvd_col_0 (x : list C) icol : 0 <= icol ->
  wvd_col false x 0 icol [] = if (1 <=? icol) && (icol <=? zlen x) then Raise IndexError else Ok [].
Proof.
  intros Hi. unfold wvd_col. rewrite round_half_0. rewrite arange_none by lia. cbn [map take mapM bind].
  change (bcast nmul (@nil C) []) with (@Ok (list C) []). cbn [bind map].
  change (put (@nil C) [] []) with (@Ok (list C) []). cbn [bind].
  rewrite Z.sub_0_r, andb_comm. reflexivity.
Qed.

Lemma c129_zero_wvd : forall x ts,
  wvd_b x (Some ts) (Some 0) = Raise (if (ts_len ts =? zlen x) && (2 <=? zlen x) then IndexError else ValueError).
Proof.
  intros x ts. unfold wvd_b, bins_of, wvd, wvd_run, wvd_tfr, wvd_cplx, base_init. cbn [r_sig r_ts r_n r_win r_tfr r_real].
  destruct (Z.eqb_spec (ts_len ts) (zlen x)) as [E|E]; cbn [andb]; [|reflexivity].
  destruct (Z.leb_spec 2 (zlen x)).
  - apply with_bins_0. rewrite (mapM_one_raise _ _ IndexError (1, [])); [reflexivity| | |].
    + apply at_zeros2_0. lia.
    + rewrite wvd_col_0 by lia. destruct (Z.leb_spec 1 (zlen x)); [reflexivity|lia].
    + intros b Hb. apply in_zeros2_0 in Hb. destruct Hb as [i [-> Hi]]. rewrite wvd_col_0 by lia.
      destruct ((1 <=? i) && (i <=? zlen x)); [left|right]; eauto.
  - edestruct (mapM_all_ok (fun '(icol, col) => wvd_col false x 0 icol col)) as [r Hr]; [|rewrite Hr; reflexivity].
    intros b Hb. apply in_zeros2_0 in Hb. destruct Hb as [i [-> Hi]]. rewrite wvd_col_0 by lia.
    destruct (Z.leb_spec 1 i); [lia|]. cbn [andb]. eauto.
Qed.

Lemma pwvd_col_0 (x w : list C) icol : 0 <= icol ->
  (1 <= zlen x -> 1 <= zlen w -> icol = 0 -> pwvd_col false x w 0 icol [] = Raise IndexError) /\
  (zlen x < 1 \/ zlen w < 1 -> exists v, pwvd_col false x w 0 icol [] = Ok v).
Proof.
  intros Hi. unfold pwvd_col. rewrite round_half_0. split.
  - intros Hx H2 ->. pose proof (win_lh_nonneg w H2) as Hw.
    rewrite (Z.min_l 0 (win_lh w)), (Z.min_l 0 (zlen x - 0 - 1)), (Z.min_l 0 0) by lia.
    change (arange (- 0) (0 + 1)) with [0]. cbn [map].
    destruct (take_one w (win_lh w + 0)) as [b ->]; [lia|]. cbn [bind].
    destruct (take_one x (0 + 0)) as [a ->]; [lia|]. cbn [bind].
    change (bcast nmul [b] [a]) with (@Ok (list C) [nmul b a]). cbn [bind].
    destruct (take_one x (0 - 0)) as [c ->]; [lia|]. cbn [bind map].
    change (bcast nmul [nmul b a] [nconj c]) with (@Ok (list C) [nmul (nmul b a) (nconj c)]). cbn [bind map].
    now rewrite put_empty_one.
  - intros H. rewrite arange_none.
    + cbn [map take mapM bind]. change (bcast nmul (@nil C) []) with (@Ok (list C) []). cbn [bind map].
      change (bcast nmul (@nil C) []) with (@Ok (list C) []). cbn [bind map].
      change (put (@nil C) [] []) with (@Ok (list C) []). cbn [bind].
      assert (F : (icol <=? zlen x - 0) && (0 + 1 <=? icol) && (0 <=? win_lh w) = false).
      { destruct (Z.lt_ge_cases (zlen w) 1) as [W|W].
        - rewrite (win_lh_none w W). cbn. now rewrite andb_false_r.
        - destruct (Z.leb_spec icol (zlen x - 0)); destruct (Z.leb_spec (0 + 1) icol); cbn [andb]; auto. lia. }
      rewrite F. eauto.
    + destruct (Z.lt_ge_cases (zlen w) 1) as [W|W]; [rewrite (win_lh_none w W); lia|]. pose proof (win_lh_nonneg w W). lia.
Qed.

Lemma c129_zero_pwvd : forall x ts w,
  pwvd_b x (Some ts) (Some 0) (Some w)
  = Raise (if (1 <=? ts_len ts) && (1 <=? zlen x) && (1 <=? zlen w) then IndexError else ValueError).
Proof.
  intros x ts w. unfold pwvd_b, bins_of, pwvd, pwvd_run, pwvd_tfr, base_init. cbn [r_sig r_ts r_n r_win r_tfr r_real].
  pose proof (ts_len_nonneg ts) as Hts.
  destruct (Z.leb_spec 1 (ts_len ts)) as [Ht|Ht].
  - destruct ((1 <=? zlen x) && (1 <=? zlen w)) eqn:E; cbn [andb]; rewrite ?E.
    + apply andb_prop in E. destruct E as [E1 E2]. apply Z.leb_le in E1, E2.
      apply with_bins_0. rewrite zeros2_enum. rewrite (arange_cons 0) by lia. cbn [map mapM].
      destruct (pwvd_col_0 x w 0 ltac:(lia)) as [F _].
      change (zeros (T:=C) 0) with (@nil C). rewrite (F E1 E2 eq_refl). reflexivity.
    + edestruct (mapM_all_ok (fun '(icol, col) => pwvd_col false x w 0 icol col)) as [r Hr]; [|rewrite Hr; reflexivity].
      intros b Hb. apply in_zeros2_0 in Hb. destruct Hb as [i [-> Hi]]. apply pwvd_col_0; [lia|].
      apply andb_false_iff in E. rewrite !Z.leb_gt in E. lia.
  - cbn [andb]. replace (ts_len ts) with 0 by lia. reflexivity.
Qed.

Lemma mh_col_0 (x : list C) ti :
  mh_col false x 0 ti [] = (_ <- get x ti ;; Ok []).
Proof.
  unfold mh_col. rewrite arange_none by (unfold zlen; lia). cbn [map take mapM].
  destruct (get x ti); reflexivity.
Qed.
Lemma page_col_0 (x : list C) ti :
  page_col false x 0 ti [] = (_ <- get x ti ;; Ok []).
Proof.
  unfold page_col. rewrite arange_none by (unfold zlen; lia). cbn [map take mapM].
  destruct (get x ti); reflexivity.
Qed.
Lemma in_combine_zeros2 (l : list Z) a : In a (combine l (zeros2 (T:=C) 0 (zlen l))) -> exists ti, a = (ti, []) /\ In ti l.
Proof.
  destruct a as [ti c]. intros H. pose proof (in_combine_l _ _ _ _ H). apply in_combine_r in H. apply repeat_spec in H.
  exists ti. split; [now subst|auto].
Qed.
Lemma combine_zeros2_in (l : list Z) ti : In ti l -> In (ti, []) (combine l (zeros2 (T:=C) 0 (zlen l))).
Proof.
  unfold zeros2. change (zeros (T:=C) 0) with (@nil C). unfold zlen. rewrite Nat2Z.id.
  induction l as [|a l IH]; intros H; [destruct H|]. cbn. destruct H as [->|H]; [now left|right; auto].
Qed.

Lemma c129_zero_mh_page : forall x l,
  ((forall ti, In ti l -> - zlen x <= ti < zlen x) ->
     mh_b x (Some (TsI l)) (Some 0) = Raise ValueError /\ page_b x (Some (TsI l)) (Some 0) = Raise ValueError) /\
  ((exists ti, In ti l /\ ~ (- zlen x <= ti < zlen x)) ->
     mh_b x (Some (TsI l)) (Some 0) = Raise IndexError /\ page_b x (Some (TsI l)) (Some 0) = Raise IndexError).
Proof.
  intros x l. unfold mh_b, page_b, bins_of, mh, page, mh_run, page_run, mh_tfr, page_tfr, ts_loop, base_init.
  cbn [r_sig r_ts r_n r_win r_tfr r_real ts_len].
  assert (K : forall ti, get x ti = Raise IndexError \/ exists v, get x ti = Ok v).
  { intros ti. destruct (Z.le_gt_cases (- zlen x) ti) as [A|A]; [|left; apply get_raise; lia].
    destruct (Z.lt_ge_cases ti (zlen x)) as [B|B]; [right; apply get_ok; lia|left; apply get_raise; lia]. }
  split.
  - intros H. split.
    + edestruct (mapM_all_ok (fun '(ti, col) => mh_col false x 0 ti col)) as [r Hr]; [|rewrite Hr; reflexivity].
      intros b Hb. apply in_combine_zeros2 in Hb. destruct Hb as [ti [-> Hi]]. rewrite mh_col_0.
      destruct (get_ok x ti (H ti Hi)) as [v ->]. cbn. eauto.
    + edestruct (mapM_all_ok (fun '(ti, col) => page_col false x 0 ti col)) as [r Hr]; [|rewrite Hr; reflexivity].
      intros b Hb. apply in_combine_zeros2 in Hb. destruct Hb as [ti [-> Hi]]. rewrite page_col_0.
      destruct (get_ok x ti (H ti Hi)) as [v ->]. cbn. eauto.
  - intros [ti [Hi Hb]]. split; apply with_bins_0.
    + rewrite (mapM_one_raise _ _ IndexError (ti, [])); [reflexivity|now apply combine_zeros2_in| |].
      * rewrite mh_col_0, get_raise by auto. reflexivity.
      * intros b H. apply in_combine_zeros2 in H. destruct H as [tj [-> Hj]]. rewrite mh_col_0.
        destruct (K tj) as [->|[v ->]]; cbn; eauto.
    + rewrite (mapM_one_raise _ _ IndexError (ti, [])); [reflexivity|now apply combine_zeros2_in| |].
      * rewrite page_col_0, get_raise by auto. reflexivity.
      * intros b H. apply in_combine_zeros2 in H. destruct H as [tj [-> Hj]]. rewrite page_col_0.
        destruct (K tj) as [->|[v ->]]; cbn; eauto.
Qed.

Lemma pmh_col_0 (x w : list C) icol : 0 <= icol -> pmh_col false x w 0 icol [] = Raise IndexError.
Proof.
  intros Hi. unfold pmh_col. rewrite round_half_0. change (0 - 1) with (-1).
  assert (Hw : -1 <= win_lh w) by (destruct (Z.lt_ge_cases (zlen w) 1) as [W|W]; [rewrite (win_lh_none w W); lia|pose proof (win_lh_nonneg w W); lia]).
  assert (E : isfloat (pymin (F (-1)) [I (win_lh w); I (icol - 1)]) = true).
  { cbn. destruct (Z.ltb_spec (win_lh w) (-1)); [lia|]. cbn. destruct (Z.ltb_spec (icol - 1) (-1)); [lia|]. reflexivity. }
  rewrite E, orb_true_r. reflexivity.
Qed.

Lemma c129_zero_pmh : forall x ts w, pmh_b x (Some ts) (Some 0) w = Raise (if 1 <=? ts_len ts then IndexError else ValueError).
Proof.
  intros x ts w. unfold pmh_b, bins_of, pmh.
  assert (W : exists w', match w with Some w => Ok w | None => pmh_window 0 end = Ok w').
  { destruct w as [w|]; [eauto|]. unfold pmh_window. change (hamming (pmh_winlen 0)) with [1%R]. eexists. reflexivity. }
  destruct W as [w' ->]. cbn [bind]. unfold pmh_run, pmh_tfr, base_init. cbn [r_sig r_ts r_n r_win r_tfr r_real].
  pose proof (ts_len_nonneg ts) as Hts. destruct (Z.leb_spec 1 (ts_len ts)) as [H|H].
  - apply with_bins_0. rewrite zeros2_enum, (arange_cons 0) by lia. cbn [map mapM].
    change (zeros (T:=C) 0) with (@nil C). rewrite pmh_col_0 by lia. reflexivity.
  - replace (ts_len ts) with 0 by lia. reflexivity.
Qed.

Lemma c129_zero_ppage : forall x ts w,
  ppage_b x (Some ts) (Some 0) w
  = Raise (match w with None => IndexError | Some _ => if 1 <=? ts_len ts then IndexError else ValueError end).
Proof.
  intros x ts [w|]; [|reflexivity]. unfold ppage_b, bins_of, ppage. cbn [bind].
  unfold ppage_run, base_init. cbn [r_sig r_ts r_n r_win r_tfr r_real].
  pose proof (ts_len_nonneg ts) as Hts. destruct (Z.leb_spec 1 (ts_len ts)) as [H|H].
  - apply with_bins_0. unfold zeros2. destruct (Z.to_nat (ts_len ts)) eqn:E; [lia|]. reflexivity.
  - replace (ts_len ts) with 0 by lia. reflexivity.
Qed.

Lemma c129_zero_spwv : forall x l tw fw, zlen tw mod 2 = 1 -> zlen fw mod 2 = 1 ->
  spwv_b x (Some l) (Some 0) (Some tw) (Some fw) = Raise (if 1 <=? zlen l then IndexError else ValueError).
Proof.
  intros x l tw fw Ht Hf. unfold spwv_b, bins_of. rewrite Ht, Hf. cbn.
  destruct l as [|a l]; [reflexivity|]. destruct (Z.leb_spec 1 (zlen (a :: l))) as [|H]; [reflexivity|].
  exfalso. unfold zlen in H. cbn [length] in H. lia.
Qed.

Lemma c129_zero_spwv_default : forall x tw fw, zlen tw mod 2 = 1 -> zlen fw mod 2 = 1 ->
  spwv_b x None (Some 0) (Some tw) (Some fw) = Raise (if 1 <=? zlen x then IndexError else ValueError).
Proof.
  intros x tw fw Ht Hf. unfold spwv_b, bins_of. rewrite Ht, Hf. cbn [Z.eqb negb andb]. destruct (Z.leb_spec 1 (zlen x)) as [H|H].
  - rewrite arange_cons by lia. reflexivity.
  - rewrite arange_empty by lia. reflexivity.
Qed.

Lemma c129_float : forall n, float_bins n true = TypeError /\
  ((n < 0)%R -> float_bins n false = ValueError) /\ ((0 <= n)%R -> float_bins n false = TypeError).
Proof.
  intros n. unfold float_bins. split; [reflexivity|].
  pose proof (Zfloor_lb (n / 4)) as L. pose proof (Zfloor_ub (n / 4)) as U.
  set (h := Zfloor (n / 4)) in *. pose proof (Z.mod_pos_bound h 2 ltac:(lia)) as M. split; intros H.
  - assert (Hh : h < 0) by (apply lt_IZR; lra). pose proof (Z.div_mod h 2 ltac:(lia)).
    destruct (Z.ltb_spec (h + (1 - h mod 2)) 0); [reflexivity|]. lia.
  - assert (Hh : -1 < h) by (apply lt_IZR; lra). destruct (Z.ltb_spec (h + (1 - h mod 2)) 0); [lia|reflexivity].
Qed.

(** An empty signal has no bins by default: every representation raises. *)
Lemma c129_empty_signal :
  stft_b [] None None None = Raise ValueError /\ spectrogram_b [] None None None = Raise ValueError /\
  wvd_b [] None None = Raise ValueError /\ pwvd_b [] None None None = Raise ValueError /\
  mh_b [] None None = Raise ValueError /\ page_b [] None None = Raise ValueError /\
  pmh_b [] None None None = Raise ValueError /\ ppage_b [] None None None = Raise IndexError /\
  spwv_b [] None None None None = Raise ValueError.
Proof. repeat split; reflexivity. Qed.

(** One column of the STFT with no bins is not indexed, two are. *)
Example c129_example : let x := [RtoC 1; RtoC 2] in
  stft_b x (Some (TsI [0])) (Some 0) (Some [RtoC 1]) = Raise ValueError /\
  stft_b x (Some (TsI [0; 1])) (Some 0) (Some [RtoC 1]) = Raise IndexError /\
  wvd_b x (Some (TsI [0; 1])) (Some 0) = Raise IndexError /\
  wvd_b x (Some (TsI [0; 1])) (Some (-2)) = Raise ValueError.
Proof. cbn zeta. rewrite !c129_zero_stft, c129_zero_wvd. repeat split; reflexivity. Qed.
