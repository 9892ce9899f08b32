(** C20, C103, C106, C117 - C120, C122: windows of any length. *)
From Coq Require Import Reals ZArith List Lia Lra Bool.
From Coquelicot Require Import Coquelicot.
From Verif Require Import Py Scalars CSum DFT Spec M_base M_stft M_cohen M_amb M_dom M_gen1 P_base P_stft P_wvd P_pwvd P_spec P_mh T_stft T_wvd T_pwvd T_spec T_mh T_amb T_again T_gen1 T_tone T_bound T_cells T_par T_sep T_rev T_dual T_class T_long T_heap2.
Import ListNotations.
Local Open Scope Z_scope.

Lemma longwin_cases N w n c t : longwin N w n c t = winf w t \/ longwin N w n c t = RtoC 0.
Proof. unfold longwin. destruct (_ && _); auto. Qed.
Lemma longlag_cases N w n t tau : longlag N w n t tau = winf w tau \/ longlag N w n t tau = RtoC 0.
Proof. unfold longlag. destruct (_ && _); auto. Qed.
Lemma stft_any x ts n w o f c : 1 <= n -> stft x (Some ts) (Some n) (Some w) = Ok o -> 0 <= f < n -> 0 <= c < ts_len ts -> at2 (r_tfr o) f c = STFTw x (longwin (zlen x) w n (c - 1)) n f (c - 1).
Proof. intros Hn H Hf Hc. destruct (c11_any_window x ts n w Hn) as (o' & H' & E). assert (o' = o) by congruence. subst o'. auto. Qed.
Lemma longwin_energy x w n c : (wenergy x (longwin (zlen x) w n c) c <= energy w)%R.
Proof.
  eapply Rle_trans; [|apply (winf_energy w (arange 0 (zlen x)) c), NoDup_arange]. unfold wenergy. apply rsum_le. intros k _. destruct (longwin_cases (zlen x) w n c (k - c)) as [-> | ->]; [apply Rle_refl|]. rewrite Cmod_0. replace (0 ^ 2)%R with 0%R by ring. apply pow2_ge_0.
Qed.
Lemma STFTw_any_bound x w n f c : (Cmod (STFTw x (longwin (zlen x) w n c) n f c) <= l2 w * l2 x)%R.
Proof.
  assert (LX := l2_nonneg x). assert (LW := l2_nonneg w). apply Rsqr_incr_0_var; [|now apply Rmult_le_pos]. rewrite !Rsqr_pow2. eapply Rle_trans; [apply STFTw_bound|].
  replace ((l2 w * l2 x) ^ 2)%R with (l2 x * l2 x * (l2 w * l2 w))%R by ring. rewrite !l2_sq. apply Rmult_le_compat_l; [apply rsum_nonneg; intros; apply pow2_ge_0|apply longwin_energy].
Qed.
Lemma STFTw_diff x y v n f c : zlen x = zlen y -> STFTw (diff x y) v n f c = (STFTw x v n f c - STFTw y v n f c)%C.
Proof.
  intros E. unfold STFTw. rewrite diff_zlen by auto. rewrite <- E, <- csum_minus. apply csum_ext. intros k Hk. apply in_arange in Hk. rewrite cnth_diff by (auto; lia). ring.
Qed.

(** *** C117 *)
Lemma c117_stft_any_window : forall x ts n w o f c, 1 <= n -> stft x (Some ts) (Some n) (Some w) = Ok o -> 0 <= f < n -> 0 <= c < ts_len ts ->
  (Cmod (at2 (r_tfr o) f c) <= l2 w * l2 x)%R.
Proof. intros x ts n w o f c Hn H Hf Hc. rewrite (stft_any x ts n w o) by auto. apply STFTw_any_bound. Qed.
Lemma c117_stft_stable_any_window : forall x y ts n w ox oy f c, 1 <= n -> zlen x = zlen y -> stft x (Some ts) (Some n) (Some w) = Ok ox -> stft y (Some ts) (Some n) (Some w) = Ok oy ->
  0 <= f < n -> 0 <= c < ts_len ts -> (Cmod (at2 (r_tfr ox) f c - at2 (r_tfr oy) f c)%C <= l2 w * l2 (diff x y))%R.
Proof.
  intros x y ts n w ox oy f c Hn L HX HY Hf Hc. rewrite (stft_any x ts n w ox), (stft_any y ts n w oy) by auto. rewrite <- L, <- STFTw_diff by auto. rewrite <- (diff_zlen x y) at 1 by auto. apply STFTw_any_bound.
Qed.
Lemma PWVw_qf x v n f t : PWVw x v n f t = qf (arange (- zlen x) (zlen x + 1)) (fun k => t + k) (fun k => t - k) (fun k => v k * root n (- (f * k)))%C x x.
Proof. unfold PWVw, qf. apply csum_ext. intros. ring. Qed.
Lemma longlag_mod N w n t M k : (0 <= M)%R -> (forall j, 0 <= j < zlen w -> (Cmod (cnth w j) <= M)%R) -> (Cmod (longlag N w n t k) <= M)%R.
Proof. intros HM H. destruct (longlag_cases N w n t k) as [-> | ->]; [now apply winf_mod|now rewrite Cmod_0]. Qed.
Lemma c117_pwvd_any_window : forall x ts n w o m f t M, 1 <= n -> (0 <= M)%R -> (forall j, 0 <= j < zlen w -> (Cmod (cnth w j) <= M)%R) ->
  pwvd x (Some ts) (Some n) (Some w) = Ok (o, m) -> 0 <= f < n -> 0 <= t < ts_len ts -> (Cmod (at2 m f t) <= M * energy x)%R.
Proof.
  intros x ts n w o m f t M Hn HM Wb H Hf Ht. rewrite (c28_any_window x ts n w o m f t) by auto. eapply Rle_trans; [apply Re_mod|]. rewrite PWVw_qf.
  eapply Rle_trans; [apply (qf_bound _ _ _ _ x x M)|rewrite l2_sq; apply Rle_refl]; [auto|apply nodup_plus, NoDup_arange|apply nodup_minus, NoDup_arange|].
  intros k _. rewrite Cmod_mult, Cmod_root, Rmult_1_r. now apply longlag_mod.
Qed.
Lemma c117_pwvd_stable_any_window : forall x y ts n w ox oy mx my f t M, 1 <= n -> (0 <= M)%R -> (forall j, 0 <= j < zlen w -> (Cmod (cnth w j) <= M)%R) ->
  zlen x = zlen y -> pwvd x (Some ts) (Some n) (Some w) = Ok (ox, mx) -> pwvd y (Some ts) (Some n) (Some w) = Ok (oy, my) -> 0 <= f < n -> 0 <= t < ts_len ts ->
  (Cmod (at2 mx f t - at2 my f t)%C <= M * (l2 (diff x y) * (l2 x + l2 y)))%R.
Proof.
  intros x y ts n w ox oy mx my f t M Hn HM Wb E HX HY Hf Ht. rewrite (c28_any_window x ts n w ox mx f t), (c28_any_window y ts n w oy my f t) by auto. rewrite <- E.
  rewrite <- RtoC_minus. rewrite !PWVw_qf, <- E. match goal with |- (Cmod (RtoC (Re ?a - Re ?b)) <= _)%R => change (Re a - Re b)%R with (Re (a - b)%C) end. eapply Rle_trans; [apply Re_mod|].
  apply qf_lipschitz; auto; [apply nodup_plus, NoDup_arange|apply nodup_minus, NoDup_arange|]. intros k _. rewrite Cmod_mult, Cmod_root, Rmult_1_r. now apply longlag_mod.
Qed.

(** *** C118: one column of the short-time Fourier transform. *)
Lemma nonzero_le {A} (l : list A) (F G : A -> C) : (forall a, In a l -> F a <> RtoC 0 -> G a <> RtoC 0) -> nonzero l F <= nonzero l G.
Proof.
  intros H. unfold nonzero. induction l as [|a l IH]; [cbn; lia|]. cbn [filter]. assert (IH' := IH (fun b Hb => H b (or_intror Hb))). assert (HA := H a (or_introl eq_refl)).
  destruct (Ceq_dec (F a) (RtoC 0)), (Ceq_dec (G a) (RtoC 0)); unfold zlen in *; cbn [length]; try lia. exfalso. now apply HA.
Qed.
Lemma c118_stft_any_window : forall x ts n w o c, 1 <= n -> stft x (Some ts) (Some n) (Some w) = Ok o -> 0 <= c < ts_len ts ->
  (exists f, 0 <= f < n /\ at2 (r_tfr o) f c <> RtoC 0) ->
  n <= nonzero (arange 0 n) (fun f => at2 (r_tfr o) f c) * nonzero (arange 0 (zlen x)) (fun k => sigf x k * Cconj (winf w (k - (c - 1))))%C.
Proof.
  intros x ts n w o c Hn H Hc (f0 & Hf0 & NZ). set (v := longwin (zlen x) w n (c - 1)).
  set (F := fun k => (sigf x k * Cconj (v (k - (c - 1))%Z))%C). set (E := rsum (arange 0 (zlen x)) (fun k => Cmod (F k) ^ 2)%R).
  assert (P : rsum (arange 0 n) (fun f => Cmod (at2 (r_tfr o) f c) ^ 2)%R = (IZR n * E)%R).
  { destruct (c12_parseval_any_window x ts n w c Hn Hc) as (o' & H' & Q). assert (o' = o) by congruence. subst o'. rewrite Q. f_equal. unfold E, xwenergy. apply rsum_ext. intros k Hk. apply in_arange in Hk. unfold F, v. rewrite sigf_in, Cmod_mult, Cmod_conj by lia. ring. }
  assert (B : forall f, In f (arange 0 n) -> (Cmod (at2 (r_tfr o) f c) ^ 2 <= IZR (nonzero (arange 0 (zlen x)) F) * E)%R).
  { intros f Hf. apply in_arange in Hf. rewrite (stft_any x ts n w o f c Hn H ltac:(lia) Hc). fold v. unfold STFTw.
    rewrite (csum_ext _ _ (fun k => F k * root n (- (f * (k - (c - 1)))))%C) by (intros k Hk; apply in_arange in Hk; unfold F; now rewrite sigf_in by lia).
    apply (support_cauchy (arange 0 (zlen x)) F (fun k => root n (- (f * (k - (c - 1)))))). intros. apply Cmod_root. }
  assert (E0 : (0 < E)%R).
  { assert (G := B f0 ltac:(apply in_arange; lia)). assert (E1 : (0 <= E)%R) by (apply rsum_nonneg; intros; apply pow2_ge_0). destruct (Rle_lt_or_eq_dec _ _ E1) as [|Q]; auto. rewrite <- Q, Rmult_0_r in G.
    exfalso. apply NZ. apply Cmod_eq_0. assert (A := Cmod_ge_0 (at2 (r_tfr o) f0 c)). nra. }
  assert (G := nonzero_bound (arange 0 n) (fun f => at2 (r_tfr o) f c) _ B). cbv beta in G. rewrite P in G.
  assert (G' : n <= nonzero (arange 0 n) (fun f => at2 (r_tfr o) f c) * nonzero (arange 0 (zlen x)) F) by (apply le_IZR; rewrite mult_IZR; apply (Rmult_le_reg_r E); auto; lra).
  eapply Z.le_trans; [exact G'|]. apply Z.mul_le_mono_nonneg_l; [unfold nonzero, zlen; lia|]. apply nonzero_le. intros k _ N Q. apply N. unfold F, v. destruct (longwin_cases (zlen x) w n (c - 1) (k - (c - 1))) as [-> | ->]; [exact Q|]. rewrite Cconj_R. apply Cmult_0_r.
Qed.

(** *** C119 *)
Lemma c119_pwvd_any_window : forall x y ts n w ox oy op om mx my mp mm f t, 1 <= n -> zlen x = zlen y ->
  pwvd x (Some ts) (Some n) (Some w) = Ok (ox, mx) -> pwvd y (Some ts) (Some n) (Some w) = Ok (oy, my) -> pwvd (plus x y) (Some ts) (Some n) (Some w) = Ok (op, mp) -> pwvd (diff x y) (Some ts) (Some n) (Some w) = Ok (om, mm) ->
  0 <= f < n -> 0 <= t < ts_len ts -> (at2 mp f t + at2 mm f t = RtoC 2 * at2 mx f t + RtoC 2 * at2 my f t)%C.
Proof.
  intros x y ts n w ox oy op om mx my mp mm f t Hn L HX HY HP HM Hf Ht.
  rewrite (c28_any_window x ts n w ox mx f t), (c28_any_window y ts n w oy my f t), (c28_any_window _ ts n w op mp f t Hn HP), (c28_any_window _ ts n w om mm f t Hn HM) by auto.
  apply Re_par. rewrite !PWVw_qf, plus_zlen, diff_zlen, <- L by auto. now apply qf_parallelogram.
Qed.

(** *** C106 *)
Lemma c106_stft_any_window : forall x y a b ts n w o o1 o2 f c, zlen x = zlen y -> 1 <= n -> apart (2 * ((zlen w - 1) / 2)) x y ->
  stft x (Some ts) (Some n) (Some w) = Ok o1 -> stft y (Some ts) (Some n) (Some w) = Ok o2 -> stft (lincomb a b x y) (Some ts) (Some n) (Some w) = Ok o -> 0 <= f < n -> 0 <= c < ts_len ts ->
  (Cmod (at2 (r_tfr o) f c) ^ 2 = Cmod a ^ 2 * Cmod (at2 (r_tfr o1) f c) ^ 2 + Cmod b ^ 2 * Cmod (at2 (r_tfr o2) f c) ^ 2)%R.
Proof.
  intros x y a b ts n w o o1 o2 f c E Hn HA H1 H2 H Hf Hc. rewrite (stft_any x ts n w o1), (stft_any y ts n w o2), (stft_any _ ts n w o f c Hn H) by auto. rewrite lincomb_zlen by auto. rewrite <- E.
  apply (quad_split x y a b _ n f (c - 1) ((zlen w - 1) / 2)); auto. intros t Ht. destruct (longwin_cases (zlen x) w n (c - 1) t) as [-> | ->]; auto. apply winf_out. lia.
Qed.
Lemma c106_pseudo_any_window : forall x y a b ts n w o m o1 m1 o2 m2 f t, zlen x = zlen y -> 1 <= n -> apart (2 * ((zlen w - 1) / 2)) x y ->
  pwvd x (Some ts) (Some n) (Some w) = Ok (o1, m1) -> pwvd y (Some ts) (Some n) (Some w) = Ok (o2, m2) -> pwvd (lincomb a b x y) (Some ts) (Some n) (Some w) = Ok (o, m) -> 0 <= f < n -> 0 <= t < ts_len ts ->
  at2 m f t = (RtoC (Cmod a ^ 2) * at2 m1 f t + RtoC (Cmod b ^ 2) * at2 m2 f t)%C.
Proof.
  intros x y a b ts n w o m o1 m1 o2 m2 f t E Hn HA H1 H2 H Hf Ht. rewrite (c28_any_window x ts n w o1 m1 f t), (c28_any_window y ts n w o2 m2 f t), (c28_any_window _ ts n w o m f t Hn H) by auto. rewrite lincomb_zlen by auto. rewrite <- E.
  set (v := longlag (zlen x) w n t).
  assert (Q : PWVw (lincomb a b x y) v n f t = (RtoC (Cmod a ^ 2) * PWVw x v n f t + RtoC (Cmod b ^ 2) * PWVw y v n f t)%C).
  { unfold PWVw. rewrite lincomb_zlen by auto. rewrite <- E, <- !csum_scal_l, <- csum_plus. apply csum_ext. intros tau _. rewrite !sigf_lincomb by auto.
    destruct (Z_le_dec (Z.abs tau) ((zlen w - 1) / 2)) as [D|D]; [|assert (V0 : v tau = RtoC 0) by (unfold v; destruct (longlag_cases (zlen x) w n t tau) as [-> | ->]; [apply winf_out; lia|reflexivity]); rewrite V0; ring].
    rewrite !Cconj_plus, !Cconj_mult, !Cmod2_conj.
    assert (P : (sigf x (t + tau) * Cconj (sigf y (t - tau)) = RtoC 0)%C) by (destruct (apart_sigf _ _ _ (t + tau) (t - tau) HA ltac:(lia)) as [-> | ->]; [ring|rewrite Cconj_R; ring]).
    assert (Q : (sigf y (t + tau) * Cconj (sigf x (t - tau)) = RtoC 0)%C) by (destruct (apart_sigf _ _ _ (t - tau) (t + tau) HA ltac:(lia)) as [-> | ->]; [rewrite Cconj_R; ring|ring]).
    transitivity (v tau * (a * Cconj a * (sigf x (t + tau) * Cconj (sigf x (t - tau))) + b * Cconj b * (sigf y (t + tau) * Cconj (sigf y (t - tau))) + a * Cconj b * (sigf x (t + tau) * Cconj (sigf y (t - tau))) + b * Cconj a * (sigf y (t + tau) * Cconj (sigf x (t - tau)))) * root n (- (f * tau)))%C; [ring|]. rewrite P, Q. ring. }
  rewrite Q. rewrite <- !RtoC_mult, <- RtoC_plus. f_equal. unfold Re, Cplus, Cmult, RtoC. cbn [fst snd]. ring.
Qed.

(** *** C120 *)
Lemma c120_pwvd_any_window : forall x y n m ts w ox oy mx my f t, 2 <= n -> same_wvd x y n -> 1 <= m ->
  pwvd x (Some ts) (Some m) (Some w) = Ok (ox, mx) -> pwvd y (Some ts) (Some m) (Some w) = Ok (oy, my) -> 0 <= f < m -> 0 <= t < ts_len ts -> at2 mx f t = at2 my f t.
Proof.
  intros x y n m ts w ox oy mx my f t Hn S Hm HX HY Hf Ht. assert (L := proj1 S). rewrite (c28_any_window x ts m w ox mx f t), (c28_any_window y ts m w oy my f t) by auto. rewrite <- L.
  do 2 f_equal. unfold PWVw. rewrite <- L. apply csum_ext. intros k _. rewrite (same_products x y n (t + k) (t - k) Hn S (even_diff t k)). reflexivity.
Qed.

(** *** C122: real windows, symmetric or not, of any length. *)
Lemma longlag_real N w n t k : (forall k, Cconj (winf w k) = winf w k) -> Cconj (longlag N w n t k) = longlag N w n t k.
Proof. intros H. destruct (longlag_cases N w n t k) as [-> | ->]; [apply H|apply Cconj_R]. Qed.
Lemma longlag_mirror N w n t k : longlag N w n (N - 1 - t) k = longlag N w n t k.
Proof. unfold longlag. replace (pmax N w n (N - 1 - t)) with (pmax N w n t); [reflexivity|]. unfold pmax. f_equal. lia. Qed.
Lemma Re_csum_conj {A} (l : list A) F G : (forall a, In a l -> F a = Cconj (G a)) -> Re (csum l F) = Re (csum l G).
Proof. intros H. rewrite (csum_ext _ _ _ H), <- csum_conj. unfold Re, Cconj. destruct (csum l G); reflexivity. Qed.
Lemma c122_pwvd_real_window : forall x tx ty n w ox mx oy my oz mz f t, 1 <= n -> (forall k, Cconj (winf w k) = winf w k) ->
  pwvd x (Some tx) (Some n) (Some w) = Ok (ox, mx) -> pwvd (rev x) (Some ty) (Some n) (Some w) = Ok (oy, my) -> pwvd (cconj x) (Some tx) (Some n) (Some w) = Ok (oz, mz) ->
  0 <= f < n -> 0 <= t < ts_len tx -> 0 <= zlen x - 1 - t < ts_len ty ->
  at2 my ((- f) mod n) (zlen x - 1 - t) = at2 mx f t /\ at2 mz ((- f) mod n) t = at2 mx f t.
Proof.
  intros x tx ty n w ox mx oy my oz mz f t Hn Hs Hx Hy Hz Hf Ht Ht'. assert (RG := neg_mod_range f n ltac:(lia)).
  rewrite (c28_any_window x tx n w ox mx f t Hn Hx Hf Ht), (c28_any_window (rev x) ty n w oy my _ _ Hn Hy RG Ht'), (c28_any_window (cconj x) tx n w oz mz _ _ Hn Hz RG Ht).
  rewrite rev_zlen, cconj_zlen. unfold PWVw. rewrite rev_zlen, cconj_zlen. split; f_equal; apply Re_csum_conj; intros k _; rewrite ?longlag_mirror, ?sigf_rev, ?sigf_cconj, root_neg_mod by lia; rewrite !Cconj_mult, longlag_real, root_conj, !Cconj_invol by auto;
    replace (- - (f * k)) with (f * k) by ring.
  - replace (zlen x - 1 - (zlen x - 1 - t + k)) with (t - k) by lia. replace (zlen x - 1 - (zlen x - 1 - t - k)) with (t + k) by lia. ring.
  - ring.
Qed.
Lemma c122_stft_conj_any_window : forall x ts n w f c, 1 <= n -> (forall k, Cconj (winf w k) = winf w k) -> 0 <= f < n -> 0 <= c < ts_len ts ->
  exists ox oy, stft x (Some ts) (Some n) (Some w) = Ok ox /\ stft (cconj x) (Some ts) (Some n) (Some w) = Ok oy /\
  at2 (r_tfr oy) ((- f) mod n) c = Cconj (at2 (r_tfr ox) f c).
Proof.
  intros x ts n w f c Hn Hs Hf Hc. destruct (c11_any_window x ts n w Hn) as (ox & HX & EX). destruct (c11_any_window (cconj x) ts n w Hn) as (oy & HY & EY). exists ox, oy. split; auto. split; auto.
  rewrite EX, EY by (auto; apply neg_mod_range; lia). rewrite cconj_zlen. apply STFTw_conj; [lia|]. intros k. destruct (longwin_cases (zlen x) w n (c - 1) k) as [-> | ->]; [apply Hs|apply Cconj_R].
Qed.
(** With a window longer than the bins the reversal of the short-time Fourier transform fails. *)
Lemma c122_stft_reversal_long_refuted : exists x n w f c ox oy, (forall k, winf w (- k) = winf w k) /\ 1 <= n /\ 0 <= f < n /\ 0 <= c < zlen x /\ 0 <= zlen x + 1 - c < zlen x /\
  stft x None (Some n) (Some w) = Ok ox /\ stft (rev x) None (Some n) (Some w) = Ok oy /\ at2 (r_tfr oy) ((- f) mod n) (zlen x + 1 - c) = RtoC 1 /\ at2 (r_tfr ox) f c = RtoC 0.
Proof.
  set (w := [RtoC 1; RtoC 1; RtoC 1]). set (x := [RtoC 1; RtoC 0; RtoC 0]). set (y := [RtoC 0; RtoC 0; RtoC 1]).
  destruct (c11_any_window x (TsI (arange 0 3)) 2 w ltac:(lia)) as (ox & HX & EX). destruct (c11_any_window y (TsI (arange 0 3)) 2 w ltac:(lia)) as (oy & HY & EY).
  exists x, 2, w, 0, 2, ox, oy. split. { intros k. assert (WK : forall j, winf w j = if (-1 <=? j) && (j <=? 1) then RtoC 1 else RtoC 0). { intros j. unfold winf. change ((zlen w - 1) / 2) with 1. destruct (Z.leb_spec (- (1)) j), (Z.leb_spec j 1); cbn [andb]; destruct (Z.leb_spec (-1) j); try lia; auto. assert (j = -1 \/ j = 0 \/ j = 1) as [-> |[-> | ->]] by lia; reflexivity. }
    rewrite !WK. destruct (Z.leb_spec (-1) k), (Z.leb_spec k 1), (Z.leb_spec (-1) (- k)), (Z.leb_spec (- k) 1); cbn [andb]; auto; lia. }
  split; [lia|]. split; [lia|]. change (zlen x) with 3. split; [lia|]. split; [lia|]. split; [exact HX|]. split; [exact HY|].
  assert (R0 : forall a, root 2 (- (0 * a)) = RtoC 1) by (intros; rewrite Z.mul_0_l; apply root_0).
  change ((- 0) mod 2) with 0. change (3 + 1 - 2) with 2. rewrite EX, EY by (try (change (ts_len (TsI (arange 0 3))) with 3); lia). change (2 - 1) with 1. change (zlen x) with 3. change (zlen y) with 3.
  assert (V : forall z : list C, zlen z = 3 -> STFTw z (longwin 3 w 2 1) 2 0 1 = (cnth z 1 + cnth z 2)%C).
  { intros z L. unfold STFTw. rewrite L. change (arange 0 3) with [0; 1; 2]. rewrite !csum_cons, csum_nil, !R0. change (longwin 3 w 2 1 (0 - 1)) with (RtoC 0). change (longwin 3 w 2 1 (1 - 1)) with (RtoC 1). change (longwin 3 w 2 1 (2 - 1)) with (RtoC 1). rewrite !Cconj_R. ring. }
  rewrite !V by reflexivity. split; [change (cnth y 1) with (RtoC 0); change (cnth y 2) with (RtoC 1); ring|change (cnth x 1) with (RtoC 0); change (cnth x 2) with (RtoC 0); ring].
Qed.

(** *** C103 *)
Lemma c103_bound_any_window : forall N f0 c0 y law ts n w o f c, 0 <= c0 < N -> fmconst N f0 (Some (IZR c0)) = Ok (map Some y, law) -> 1 <= n ->
  stft y (Some ts) (Some n) (Some w) = Ok o -> 0 <= f < n -> 0 <= c < ts_len ts -> (Cmod (at2 (r_tfr o) f c) <= window_weight w N (c - 1))%R.
Proof.
  intros N f0 c0 y law ts n w o f c Hc0 HF Hn HO Hf Hc. destruct (tone_values _ _ _ _ _ Hc0 HF) as (_ & L & V). rewrite (stft_any y ts n w o f c) by auto. unfold STFTw, window_weight. rewrite L.
  apply Rle_trans with (1 := Cmod_csum _ _). apply rsum_le. intros k Hk. apply in_arange in Hk. rewrite V by lia. unfold root. rewrite !Cmod_mult, !Cmod_cis, Cmod_conj. destruct (longwin_cases N w n (c - 1) (k - (c - 1))) as [-> | ->]; [lra|]. rewrite Cmod_0. assert (Q := Cmod_ge_0 (winf w (k - (c - 1)))). lra.
Qed.

(** *** C20: any window, any timestamps.  The spectrogram cuts the window to the lags |t| <= m; its
    column at the timestamp ti is the column ti of the transform with the cut window. *)
Definition middle (w : list C) (m : Z) : list C := firstn (Z.to_nat (2 * m + 1)) (skipn (Z.to_nat ((zlen w - 1) / 2 - m)) w).
Lemma middle_zlen w m : 0 <= m <= (zlen w - 1) / 2 -> zlen (middle w m) = 2 * m + 1.
Proof. intros H. unfold middle, zlen in *. rewrite firstn_length, skipn_length. assert (2 * ((Z.of_nat (length w) - 1) / 2) <= Z.of_nat (length w) - 1) by (apply Z.mul_div_le; lia). lia. Qed.
Lemma winf_middle w m t : m <= (zlen w - 1) / 2 -> winf (middle w m) t = wincut m w t.
Proof.
  intros H'. destruct (Z_lt_dec m 0) as [L|L].
  { unfold middle. replace (Z.to_nat (2 * m + 1)) with 0%nat by lia. cbn [firstn]. unfold wincut. destruct (Z.leb_spec (- m) t), (Z.leb_spec t m); cbn [andb]; try lia; apply winf_out; cbn; lia. }
  assert (H : 0 <= m <= (zlen w - 1) / 2) by lia. unfold winf at 1, wincut. rewrite middle_zlen by auto. replace ((2 * m + 1 - 1) / 2) with m by (Z.to_euclidean_division_equations; lia).
  destruct (Z.leb_spec (- m) t), (Z.leb_spec t m); cbn [andb]; auto. rewrite winf_lh_in by (unfold win_lh; lia). unfold middle, cnth, win_lh. rewrite nth_first by lia. rewrite skipn_nth. f_equal. lia.
Qed.
Lemma c20_any_window : forall x l ts n w, 1 <= n -> let m := Z.min (round_half n - 1) ((zlen w - 1) / 2) in
  exists o mat, stft x (Some ts) (Some n) (Some (middle w m)) = Ok o /\ spectrogram x (Some (TsI l)) (Some n) (Some w) = Ok mat /\ zlen mat = zlen l /\
  forall i ti col f, nth_error l i = Some ti -> 0 <= ti < ts_len ts -> nth_error mat i = Some (Some col) -> 0 <= f < n ->
  (rnth col f * wenergy x (winf (middle w m)) (ti - 1) = Cmod (at2 (r_tfr o) f ti) ^ 2)%R.
Proof.
  intros x l ts n w Hn m. assert (Hh := round_half_bounds n). destruct (c09_stft_total x ts n (middle w m) Hn) as [o [Ho _]].
  exists o, (map (spec_out x w n) l). split; auto. split; [apply spectrogram_ok; lia|]. split; [apply zlen_map|].
  intros i ti col f Hl Hc Hm Hf. rewrite nth_error_map, Hl in Hm. cbn [option_map] in Hm. injection Hm as Hm. assert (A := spec_entry x w n ti col f ltac:(lia) Hf Hm).
  assert (SM : spec_m w n = m) by reflexivity. rewrite SM in A.
  assert (M1 : m <= (zlen w - 1) / 2) by lia.
  assert (SH : 2 * ((zlen (middle w m) - 1) / 2) < n).
  { destruct (Z_lt_dec m 0) as [L|L]; [unfold middle; replace (Z.to_nat (2 * m + 1)) with 0%nat by lia; cbn; lia|]. rewrite (middle_zlen w m ltac:(lia)). replace ((2 * m + 1 - 1) / 2) with m by (Z.to_euclidean_division_equations; lia). lia. }
    rewrite (stft_at x ts n (middle w m) o f ti) by auto.
    replace (wenergy x (winf (middle w m)) (ti - 1)) with (wenergy x (wincut m w) (ti - 1)) by (unfold wenergy; apply rsum_ext; intros k _; now rewrite winf_middle).
    rewrite A. do 2 f_equal. unfold STFTw, STFT. apply csum_ext. intros k Hk. apply in_arange in Hk. now rewrite winf_middle, sigf_in by (auto; lia).
Qed.
Lemma c20_long_window_refuted : exists x n w c o m col, 1 <= n /\ 0 <= c < zlen x /\ stft x None (Some n) (Some w) = Ok o /\ spectrogram x None (Some n) (Some w) = Ok m /\
  nth_error m (Z.to_nat c) = Some (Some col) /\ (rnth col 0 * wenergy x (winf w) (c - 1) = 3)%R /\ (Cmod (at2 (r_tfr o) 0 c) ^ 2 = 4)%R.
Proof.
  set (l := [RtoC 1; RtoC 1; RtoC 1]). destruct (c11_any_window l (TsI (arange 0 3)) 2 l ltac:(lia)) as (o & H & E).
  destruct (c20_any_window l (arange 0 3) (TsI (arange 0 3)) 2 l ltac:(lia)) as (o' & m & H' & S & LM & V).
  assert (RH : round_half 2 = 1) by reflexivity. rewrite RH in *. change (Z.min (1 - 1) ((zlen l - 1) / 2)) with 0 in *.
  assert (MM : middle l 0 = [RtoC 1]) by reflexivity. rewrite MM in *.
  assert (SP : spectrogram l (Some (TsI (arange 0 3))) (Some 2) (Some l) = Ok (map (spec_out l l 2) (arange 0 3))) by (apply spectrogram_ok; lia).
  assert (EM : m = map (spec_out l l 2) (arange 0 3)) by congruence.
  assert (WO : forall k, k <> 0 -> winf [RtoC 1] k = RtoC 0). { intros k Hk. apply winf_out. change ((zlen [RtoC 1] - 1) / 2) with 0. lia. }
  assert (W0 : winf [RtoC 1] 0 = RtoC 1) by reflexivity. assert (LL : zlen l = 3) by reflexivity.
  assert (WE : wenergy l (winf [RtoC 1]) (2 - 1) = 1%R). { unfold wenergy. rewrite LL. change (arange 0 3) with [0; 1; 2]. rewrite !rsum_cons, rsum_nil. rewrite (WO (0 - (2 - 1))), (WO (2 - (2 - 1))) by lia. change (1 - (2 - 1)) with 0. rewrite W0, Cmod_0, Cmod_1. ring. }
  assert (WL : wenergy l (winf l) (2 - 1) = 3%R). { unfold wenergy. rewrite LL. change (arange 0 3) with [0; 1; 2]. rewrite !rsum_cons, rsum_nil. change (winf l (0 - (2 - 1))) with (RtoC 1). change (winf l (1 - (2 - 1))) with (RtoC 1). change (winf l (2 - (2 - 1))) with (RtoC 1). rewrite Cmod_1. ring. }
  assert (N2 : nth_error (arange 0 3) (Z.to_nat 2) = Some 2) by reflexivity.
  assert (R0 : forall a, root 2 (- (0 * a)) = RtoC 1) by (intros; rewrite Z.mul_0_l; apply root_0).
  destruct (spec_out l l 2 2) as [col|] eqn:SO.
  - exists l, 2, l, 2, o, m, col. split; [lia|]. split; [rewrite LL; lia|]. split; [exact H|]. split; [exact S|].
    assert (NM : nth_error m (Z.to_nat 2) = Some (Some col)) by (rewrite EM, nth_error_map, N2; cbn [option_map]; now rewrite SO). split; [exact NM|].
    assert (Q := V (Z.to_nat 2) 2 col 0 N2 ltac:(change (ts_len (TsI (arange 0 3))) with 3; lia) NM ltac:(lia)). rewrite WE in Q.
    rewrite (stft_at l (TsI (arange 0 3)) 2 [RtoC 1] o' 0 2) in Q by first [lia|exact H'|change (ts_len (TsI (arange 0 3))) with 3; lia|reflexivity].
    unfold STFT in Q. rewrite LL in Q. change (arange 0 3) with [0; 1; 2] in Q. rewrite !csum_cons, csum_nil, !R0 in Q. rewrite (WO (0 - (2 - 1))), (WO (2 - (2 - 1))) in Q by lia. change (1 - (2 - 1)) with 0 in Q. rewrite W0 in Q. change (sigf l 1) with (RtoC 1) in Q. rewrite !Cconj_R in Q.
    replace (sigf l 0 * RtoC 0 * RtoC 1 + (RtoC 1 * RtoC 1 * RtoC 1 + (sigf l 2 * RtoC 0 * RtoC 1 + RtoC 0)))%C with (RtoC 1) in Q by ring. rewrite Cmod_1 in Q. split; [rewrite WL; lra|].
    rewrite E by (try (change (ts_len (TsI (arange 0 3))) with 3); lia). unfold STFTw. rewrite LL. change (arange 0 3) with [0; 1; 2]. rewrite !csum_cons, csum_nil, !R0. change (longwin 3 l 2 (2 - 1) (0 - (2 - 1))) with (RtoC 0). change (longwin 3 l 2 (2 - 1) (1 - (2 - 1))) with (RtoC 1). change (longwin 3 l 2 (2 - 1) (2 - (2 - 1))) with (RtoC 1).
    change (cnth l 0) with (RtoC 1). change (cnth l 1) with (RtoC 1). change (cnth l 2) with (RtoC 1). rewrite !Cconj_R. replace (RtoC 1 * RtoC 0 * RtoC 1 + (RtoC 1 * RtoC 1 * RtoC 1 + (RtoC 1 * RtoC 1 * RtoC 1 + RtoC 0)))%C with (RtoC 2) by (apply injective_projections; cbn; ring). rewrite Cmod_R, Rabs_pos_eq by lra. ring.
  - exfalso. apply spec_out_none in SO. destruct SO as [_ SO]. revert SO. change (maxlag l 2) with 0. intros SO. apply R1_neq_R0. rewrite <- SO, <- WE. unfold wenergy. apply rsum_ext. intros k _. rewrite <- MM, winf_middle by (cbn; lia). reflexivity.
Qed.
