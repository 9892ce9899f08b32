(** C119: the superposition principle of the quadratic representations. *)
From Coq Require Import Reals ZArith List Lia Lra Bool.
From Coquelicot Require Import Coquelicot.
From Verif Require Import Py Scalars CSum DFT Spec M_base M_stft M_cohen M_amb P_base P_stft P_wvd P_pwvd P_spec P_mh T_stft T_wvd T_pwvd T_spec T_mh T_amb T_again T_bound.
Import ListNotations.
Local Open Scope Z_scope.

(** Sum and difference of two signals. *)
Definition plus (x y : list C) : list C := lincomb (RtoC 1) (RtoC 1) x y.
Lemma plus_zlen x y : zlen x = zlen y -> zlen (plus x y) = zlen x.
Proof. apply lincomb_zlen. Qed.
Lemma sigf_plus x y k : zlen x = zlen y -> sigf (plus x y) k = (sigf x k + sigf y k)%C.
Proof. intros E. unfold plus. rewrite sigf_lincomb by auto. ring. Qed.
Lemma cnth_plus x y k : zlen x = zlen y -> 0 <= k < zlen x -> cnth (plus x y) k = (cnth x k + cnth y k)%C.
Proof. intros E H. rewrite <- sigf_in, sigf_plus, !sigf_in by (rewrite ?plus_zlen; auto; lia). reflexivity. Qed.
Lemma cnth_diff x y k : zlen x = zlen y -> 0 <= k < zlen x -> cnth (diff x y) k = (cnth x k - cnth y k)%C.
Proof. intros E H. rewrite <- sigf_in, sigf_diff, !sigf_in by (rewrite ?diff_zlen; auto; lia). reflexivity. Qed.
Lemma qf_parallelogram l a b g x y : zlen x = zlen y ->
  (qf l a b g (plus x y) (plus x y) + qf l a b g (diff x y) (diff x y) = RtoC 2 * qf l a b g x x + RtoC 2 * qf l a b g y y)%C.
Proof.
  intros E. unfold qf. rewrite <- !csum_scal_l, <- !csum_plus. apply csum_ext. intros t _. rewrite !sigf_plus, !sigf_diff by auto. unfold Cminus. rewrite !Cconj_plus, Cconj_opp. replace (RtoC 2) with (RtoC 1 + RtoC 1)%C by (rewrite <- RtoC_plus; apply (f_equal RtoC); lra). ring.
Qed.
Lemma Re_par a b c d : (a + b = RtoC 2 * c + RtoC 2 * d)%C -> (RtoC (Re a) + RtoC (Re b) = RtoC 2 * RtoC (Re c) + RtoC 2 * RtoC (Re d))%C.
Proof. intros E. apply (f_equal Re) in E. rewrite !Re_plus, !Re_scal in E. rewrite <- !RtoC_mult, <- !RtoC_plus. now f_equal. Qed.

(** Pseudo Wigner-Ville. *)
Lemma c119_pwvd : forall x y ts n w ox oy op om mx my mp mm f t, 1 <= n -> (zlen w - 1) / 2 < round_half n -> zlen x = zlen y ->
  pwvd x (Some ts) (Some n) (Some w) = Ok (ox, mx) -> pwvd y (Some ts) (Some n) (Some w) = Ok (oy, my) -> pwvd (plus x y) (Some ts) (Some n) (Some w) = Ok (op, mp) -> pwvd (diff x y) (Some ts) (Some n) (Some w) = Ok (om, mm) ->
  0 <= f < n -> 0 <= t < ts_len ts -> (at2 mp f t + at2 mm f t = RtoC 2 * at2 mx f t + RtoC 2 * at2 my f t)%C.
Proof.
  intros x y ts n w ox oy op om mx my mp mm f t Hn Hw L HX HY HP HM Hf Ht.
  rewrite (proj1 (c28_pwvd_closed_form x ts n w ox mx f t Hn Hw HX Hf Ht)), (proj1 (c28_pwvd_closed_form y ts n w oy my f t Hn Hw HY Hf Ht)), (proj1 (c28_pwvd_closed_form _ ts n w op mp f t Hn Hw HP Hf Ht)), (proj1 (c28_pwvd_closed_form _ ts n w om mm f t Hn Hw HM Hf Ht)).
  apply Re_par. rewrite !PWV_qf, plus_zlen, diff_zlen, <- L by auto. now apply qf_parallelogram.
Qed.
(** Ambiguity function. *)
Lemma c119_ambiguity : forall x y lag n nx ny np nm lx ly lp lm ax ay ap am r c, 1 <= n -> zlen x = zlen y ->
  narrow_band x (Some lag) (Some n) = Ok (nx, lx, ax) -> narrow_band y (Some lag) (Some n) = Ok (ny, ly, ay) -> narrow_band (plus x y) (Some lag) (Some n) = Ok (np, lp, ap) -> narrow_band (diff x y) (Some lag) (Some n) = Ok (nm, lm, am) ->
  0 <= r < n -> 0 <= c < zlen lag -> (at2 np r c + at2 nm r c = RtoC 2 * at2 nx r c + RtoC 2 * at2 ny r c)%C.
Proof.
  intros x y lag n nx ny np nm lx ly lp lm ax ay ap am r c Hn L HX HY HP HM Hr Hc.
  assert (V : forall z nz lz az, narrow_band z (Some lag) (Some n) = Ok (nz, lz, az) -> zlen z = zlen x ->
    at2 nz r c = qf (arange 0 (zlen x)) (fun t => t + nth (Z.to_nat c) lag 0) (fun t => t - nth (Z.to_nat c) lag 0) (fun t => root n (- ((r - n / 2) * t))) z z).
  { intros z nz lz az Q LZ. destruct (c33_outcome z lag n Hn) as [[_ Q']|[_ (a & b & Q' & _ & _ & _ & _ & W)]]; [congruence|]. assert (a = nz) by congruence. subst a. rewrite W by auto. unfold AF, qf. now rewrite LZ. }
  rewrite (V _ _ _ _ HX), (V _ _ _ _ HY), (V _ _ _ _ HP), (V _ _ _ _ HM) by (rewrite ?plus_zlen, ?diff_zlen; auto). now apply qf_parallelogram.
Qed.
(** Margenau-Hill and Page. *)
Lemma row_qf (x : list C) ti p q (g : Z -> C) : 0 <= ti < zlen x -> 0 <= p -> q <= zlen x ->
  csum (arange p q) (fun k => cnth x ti * Cconj (cnth x k) * g k)%C = qf (arange p q) (fun _ => ti) (fun k => k) g x x.
Proof. intros Ht Hp Hq. unfold qf. apply csum_ext. intros k Hk. apply in_arange in Hk. now rewrite !sigf_in by lia. Qed.
Lemma c119_mh : forall x y l n ox oy op om i ti f, 1 <= n -> zlen x = zlen y ->
  mh x (Some (TsI l)) (Some n) = Ok ox -> mh y (Some (TsI l)) (Some n) = Ok oy -> mh (plus x y) (Some (TsI l)) (Some n) = Ok op -> mh (diff x y) (Some (TsI l)) (Some n) = Ok om ->
  nth_error l (Z.to_nat i) = Some ti -> 0 <= ti < zlen x -> 0 <= f < n ->
  (at2 (r_tfr op) f i + at2 (r_tfr om) f i = RtoC 2 * at2 (r_tfr ox) f i + RtoC 2 * at2 (r_tfr oy) f i)%C.
Proof.
  intros x y l n ox oy op om i ti f Hn L HX HY HP HM Hi Ht Hf.
  rewrite (c30_mh_closed_form x l n ox i ti f), (c30_mh_closed_form y l n oy i ti f), (c30_mh_closed_form _ l n op i ti f Hn HP), (c30_mh_closed_form _ l n om i ti f Hn HM) by (auto; lia).
  apply Re_par. rewrite plus_zlen, diff_zlen, <- L by auto. rewrite !row_qf by (rewrite ?plus_zlen, ?diff_zlen; auto; lia). now apply qf_parallelogram.
Qed.
Lemma c119_page : forall x y l n ox oy op om i ti f, 1 <= n -> zlen x = zlen y ->
  page x (Some (TsI l)) (Some n) = Ok ox -> page y (Some (TsI l)) (Some n) = Ok oy -> page (plus x y) (Some (TsI l)) (Some n) = Ok op -> page (diff x y) (Some (TsI l)) (Some n) = Ok om ->
  nth_error l (Z.to_nat i) = Some ti -> 0 <= ti < zlen x -> 0 <= f < n ->
  (at2 (r_tfr op) f i + at2 (r_tfr om) f i = RtoC 2 * at2 (r_tfr ox) f i + RtoC 2 * at2 (r_tfr oy) f i)%C.
Proof.
  intros x y l n ox oy op om i ti f Hn L HX HY HP HM Hi Ht Hf.
  rewrite (c31_page_closed_form x l n ox i ti f), (c31_page_closed_form y l n oy i ti f), (c31_page_closed_form _ l n op i ti f Hn HP), (c31_page_closed_form _ l n om i ti f Hn HM) by (auto; lia).
  apply Re_par. rewrite plus_zlen, diff_zlen, <- L by auto. rewrite !row_qf by (rewrite ?plus_zlen, ?diff_zlen; auto; lia). now apply qf_parallelogram.
Qed.
(** Spectrogram. *)
Lemma Cmod2_par a b : (Cmod (a + b)%C ^ 2 + Cmod (a - b)%C ^ 2 = 2 * Cmod a ^ 2 + 2 * Cmod b ^ 2)%R.
Proof.
  apply RtoC_inj. rewrite !RtoC_plus, !RtoC_mult, !Cmod2_conj. unfold Cminus. rewrite !Cconj_plus, Cconj_opp. replace (RtoC 2) with (RtoC 1 + RtoC 1)%C by (rewrite <- RtoC_plus; apply (f_equal RtoC); lra). ring.
Qed.
Lemma c119_spectrogram : forall x y l n w mx my mp mm i ti cx cy cp cm f, 1 <= n -> zlen x = zlen y ->
  spectrogram x (Some (TsI l)) (Some n) (Some w) = Ok mx -> spectrogram y (Some (TsI l)) (Some n) (Some w) = Ok my ->
  spectrogram (plus x y) (Some (TsI l)) (Some n) (Some w) = Ok mp -> spectrogram (diff x y) (Some (TsI l)) (Some n) (Some w) = Ok mm ->
  nth_error l i = Some ti -> nth_error mx i = Some (Some cx) -> nth_error my i = Some (Some cy) -> nth_error mp i = Some (Some cp) -> nth_error mm i = Some (Some cm) ->
  (wenergy x (wincut (maxlag w n) w) (ti - 1) <> 0)%R -> 0 <= f < n ->
  (rnth cp f + rnth cm f = 2 * rnth cx f + 2 * rnth cy f)%R.
Proof.
  intros x y l n w mx my mp mm i ti cx cy cp cm f Hn L HX HY HP HM Hl Ix Iy Ip Im HW Hf. change (maxlag w n) with (spec_m w n) in HW.
  destruct (spec_entry_of _ l n w mx i ti cx f Hn HX Hl Ix Hf) as [EX _]. destruct (spec_entry_of _ l n w my i ti cy f Hn HY Hl Iy Hf) as [EY _].
  destruct (spec_entry_of _ l n w mp i ti cp f Hn HP Hl Ip Hf) as [EP _]. destruct (spec_entry_of _ l n w mm i ti cm f Hn HM Hl Im Hf) as [EM _].
  set (v := wincut (spec_m w n) w) in *. unfold wenergy in *. rewrite <- L in EY. rewrite plus_zlen in EP by auto. rewrite diff_zlen in EM by auto. set (W := rsum _ _) in *.
  assert (SP : STFTw (plus x y) v n f (ti - 1) = (STFTw x v n f (ti - 1) + STFTw y v n f (ti - 1))%C).
  { unfold STFTw. rewrite plus_zlen, <- L, <- csum_plus by auto. apply csum_ext. intros k Hk. apply in_arange in Hk. rewrite cnth_plus by (auto; lia). ring. }
  assert (SM : STFTw (diff x y) v n f (ti - 1) = (STFTw x v n f (ti - 1) - STFTw y v n f (ti - 1))%C).
  { unfold STFTw. rewrite diff_zlen, <- L, <- csum_minus by auto. apply csum_ext. intros k Hk. apply in_arange in Hk. rewrite cnth_diff by (auto; lia). ring. }
  rewrite SP in EP. rewrite SM in EM. assert (P := Cmod2_par (STFTw x v n f (ti - 1)) (STFTw y v n f (ti - 1))). apply (Rmult_eq_reg_r W); auto. lra.
Qed.
(** None of them is additive: two copies of the same signal carry four times its energy. *)
Lemma c119_refuted : exists x o o2, wvd x None None = Ok o /\ wvd (plus x x) None None = Ok o2 /\ at2 (r_tfr o2) 0 0 <> (at2 (r_tfr o) 0 0 + at2 (r_tfr o) 0 0)%C.
Proof.
  set (x := [RtoC 1; RtoC 0]). exists x. destruct (proj2 (c21_wvd_default x ltac:(discriminate))) as [o H]; [change (zlen _) with 2; cbn; lia|].
  destruct (proj2 (c21_wvd_default (plus x x) ltac:(discriminate))) as [o2 H2]; [change (zlen _) with 2; cbn; lia|]. exists o, o2. split; auto. split; auto.
  rewrite (wvd_entry x (TsI (arange 0 2)) 2 o 0 0 ltac:(lia) H) by (try lia; change (zlen x) with 2; lia). rewrite (wvd_entry (plus x x) (TsI (arange 0 2)) 2 o2 0 0 ltac:(lia) H2) by (try lia; change (zlen (plus x x)) with 2; lia).
  assert (V : forall z, zlen z = 2 -> WV z 2 0 0 = (cnth z 0 * Cconj (cnth z 0))%C).
  { intros z L. rewrite WV_taus by lia. rewrite L. cbv zeta. change (Z.min 0 (2 - 1 - 0)) with 0. eval_arange. unfold esum. rewrite csum_cons, csum_nil. unfold wvd_val. change (0 + 0) with 0. change (0 - 0) with 0. change (- (0 * 0)) with 0. rewrite root_0. ring. }
  rewrite !V by reflexivity. rewrite cnth_plus by (auto; change (zlen x) with 2; lia). change (cnth x 0) with (RtoC 1). rewrite <- RtoC_plus, !Cconj_R, <- !RtoC_mult, <- RtoC_plus. intros Q. apply RtoC_inj in Q. lra.
Qed.
Example c119_example : exists np nm nx ny lp lm lx ly ap am ax ay, let x := [RtoC 1; Ci; RtoC 2] in let y := [RtoC 3; RtoC 1; Ci] in
  narrow_band x (Some [1]) (Some 3) = Ok (nx, lx, ax) /\ narrow_band y (Some [1]) (Some 3) = Ok (ny, ly, ay) /\ narrow_band (plus x y) (Some [1]) (Some 3) = Ok (np, lp, ap) /\ narrow_band (diff x y) (Some [1]) (Some 3) = Ok (nm, lm, am) /\
  (at2 np 1 0 + at2 nm 1 0 = RtoC 2 * at2 nx 1 0 + RtoC 2 * at2 ny 1 0)%C.
Proof.
  set (x := [RtoC 1; Ci; RtoC 2]). set (y := [RtoC 3; RtoC 1; Ci]).
  destruct (c33_total x [1] 3 ltac:(lia) ltac:(change (zlen x) with 3; lia)) as [[[nx lx] ax] HX]. destruct (c33_total y [1] 3 ltac:(lia) ltac:(change (zlen y) with 3; lia)) as [[[ny ly] ay] HY].
  destruct (c33_total (plus x y) [1] 3 ltac:(lia) ltac:(change (zlen (plus x y)) with 3; lia)) as [[[np lp] ap] HP]. destruct (c33_total (diff x y) [1] 3 ltac:(lia) ltac:(change (zlen (diff x y)) with 3; lia)) as [[[nm lm] am] HM].
  exists np, nm, nx, ny, lp, lm, lx, ly, ap, am, ax, ay. cbv zeta. split; auto. split; auto. split; auto. split; auto.
  apply (c119_ambiguity x y [1] 3 nx ny np nm lx ly lp lm ax ay ap am 1 0); auto; try lia. change (zlen [1]) with 1. lia.
Qed.
