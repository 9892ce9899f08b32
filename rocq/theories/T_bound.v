(** C117, C118: energy bounds, stability under perturbation, and how few cells a
    representation can occupy. *)
From Coq Require Import Reals ZArith List Lia Lra Bool.
From Coquelicot Require Import Coquelicot.
From Verif Require Import Py Scalars CSum DFT Spec M_base M_stft M_cohen M_amb P_base P_stft P_wvd P_pwvd P_spec P_mh T_stft T_wvd T_pwvd T_spec T_mh T_amb T_again.
Import ListNotations.
Local Open Scope Z_scope.

(** Euclidean norm of a signal, and of the difference of two. *)
Definition l2 (x : list C) : R := sqrt (energy x).
Definition diff (x y : list C) : list C := lincomb (RtoC 1) (RtoC (-1)) x y.

Lemma l2_nonneg x : (0 <= l2 x)%R.
Proof. apply sqrt_pos. Qed.
Lemma l2_sq x : (l2 x * l2 x = energy x)%R.
Proof. apply sqrt_sqrt, energy_nonneg. Qed.
Lemma energy_sigf x : energy x = rsum (arange 0 (zlen x)) (fun k => Cmod (sigf x k) ^ 2)%R.
Proof.
  unfold energy. transitivity (rsum (map (cnth x) (arange 0 (zlen x))) (fun z => Cmod z ^ 2)%R).
  - f_equal. apply list_as_map.
  - rewrite (rsum_map (cnth x)). apply rsum_ext. intros k Hk. apply in_arange in Hk. now rewrite sigf_in by lia.
Qed.
(** Each sample is visited at most once. *)
Lemma visit_energy x l (a : Z -> Z) : NoDup (map a l) -> (rsum l (fun t => Cmod (sigf x (a t)) ^ 2) <= energy x)%R.
Proof.
  intros ND. rewrite <- (rsum_map a l (fun k => Cmod (sigf x k) ^ 2)%R). set (m := map a l) in *. clearbody m. rewrite energy_sigf.
  set (p := fun k => (0 <=? k) && (k <? zlen x)). set (F := fun k => (Cmod (sigf x k) ^ 2)%R).
  assert (E : rsum m F = rsum (filter p m) F).
  { rewrite rsum_filter. apply rsum_ext. intros k _. unfold p. destruct (0 <=? k) eqn:E1, (k <? zlen x) eqn:E2; cbn [andb]; auto; unfold F; rewrite sigf_out by (rewrite ?Z.leb_gt, ?Z.ltb_ge in *; lia); rewrite Cmod_0; ring. }
  rewrite E. set (G := fun k => if in_dec Z.eq_dec k (filter p m) then F k else 0%R).
  rewrite (rsum_ext (filter p m) F G) by (intros k Hk; unfold G; destruct (in_dec _ _ _); tauto).
  rewrite <- (rsum_incl (filter p m) (arange 0 (zlen x)) G).
  - apply rsum_le. intros k _. unfold G. destruct (in_dec _ _ _); [apply Rle_refl|apply pow2_ge_0].
  - now apply NoDup_filter.
  - apply NoDup_arange.
  - intros k Hk. apply filter_In in Hk as [_ Hk]. unfold p in Hk. apply andb_prop in Hk as [H1 H2]. rewrite Z.leb_le in H1. rewrite Z.ltb_lt in H2. apply in_arange. lia.
  - intros k _ Hk. unfold G. destruct (in_dec _ _ _); tauto.
Qed.
(** Quadratic forms sum_t x[a t] conj(y[b t]) g(t). *)
Definition qf (l : list Z) (a b : Z -> Z) (g : Z -> C) (x y : list C) : C :=
  csum l (fun t => sigf x (a t) * Cconj (sigf y (b t)) * g t)%C.
Lemma qf_bound l a b g x y M : (0 <= M)%R -> NoDup (map a l) -> NoDup (map b l) -> (forall t, In t l -> (Cmod (g t) <= M)%R) ->
  (Cmod (qf l a b g x y) <= M * (l2 x * l2 y))%R.
Proof.
  intros HM Ha Hb Hg. assert (LX := l2_nonneg x). assert (LY := l2_nonneg y). apply Rsqr_incr_0_var; [|apply Rmult_le_pos; auto; apply Rmult_le_pos; auto]. rewrite !Rsqr_pow2. unfold qf.
  rewrite (csum_ext _ _ (fun t => sigf x (a t) * (Cconj (sigf y (b t)) * g t))%C) by (intros; ring).
  eapply Rle_trans; [apply csum_cauchy|]. replace ((M * (l2 x * l2 y)) ^ 2)%R with (l2 x * l2 x * (M * M * (l2 y * l2 y)))%R by ring. rewrite !l2_sq.
  apply Rmult_le_compat; try (apply rsum_nonneg; intros; apply pow2_ge_0).
  - now apply visit_energy.
  - eapply Rle_trans; [|apply Rmult_le_compat_l; [apply Rmult_le_pos; auto|apply (visit_energy y l b Hb)]]. rewrite <- rsum_scal_l. apply rsum_le. intros t Ht. rewrite Cmod_mult, Cmod_conj.
    specialize (Hg t Ht). assert (C0 := Cmod_ge_0 (g t)). assert (0 <= Cmod (sigf y (b t)) ^ 2)%R by apply pow2_ge_0. replace ((Cmod (sigf y (b t)) * Cmod (g t)) ^ 2)%R with (Cmod (g t) * Cmod (g t) * Cmod (sigf y (b t)) ^ 2)%R by ring.
    apply Rmult_le_compat_r; auto. apply Rmult_le_compat; auto.
Qed.
Lemma diff_zlen x y : zlen x = zlen y -> zlen (diff x y) = zlen x.
Proof. apply lincomb_zlen. Qed.
Lemma sigf_diff x y k : zlen x = zlen y -> sigf (diff x y) k = (sigf x k - sigf y k)%C.
Proof. intros E. unfold diff. rewrite sigf_lincomb by auto. replace (RtoC (-1)) with (- RtoC 1)%C by (rewrite <- RtoC_opp; apply (f_equal RtoC); lra). ring. Qed.
Lemma qf_diff l a b g x y : zlen x = zlen y -> (qf l a b g x x - qf l a b g y y = qf l a b g (diff x y) x + qf l a b g y (diff x y))%C.
Proof.
  intros E. unfold qf. rewrite <- csum_plus, <- csum_minus. apply csum_ext. intros t _. rewrite !sigf_diff by auto. unfold Cminus. rewrite Cconj_plus, Cconj_opp. ring.
Qed.
Lemma qf_lipschitz l a b g (x y : list C) M : zlen x = zlen y -> (0 <= M)%R -> NoDup (map a l) -> NoDup (map b l) -> (forall t, In t l -> (Cmod (g t) <= M)%R) ->
  (Cmod (qf l a b g x x - qf l a b g y y)%C <= M * (l2 (diff x y) * (l2 x + l2 y)))%R.
Proof.
  intros E HM Ha Hb Hg. rewrite qf_diff by auto. eapply Rle_trans; [apply Cmod_triangle|].
  assert (A := qf_bound l a b g (diff x y) x M HM Ha Hb Hg). assert (B := qf_bound l a b g y (diff x y) M HM Ha Hb Hg). lra.
Qed.

Lemma nodup_plus t l : NoDup l -> NoDup (map (fun k => t + k) l).
Proof. apply FinFun.Injective_map_NoDup. intros a b. lia. Qed.
Lemma nodup_minus t l : NoDup l -> NoDup (map (fun k => t - k) l).
Proof. apply FinFun.Injective_map_NoDup. intros a b. lia. Qed.

(** Wigner-Ville: no value exceeds the energy of the signal, and two signals at distance d have
    distributions that differ by at most d times the sum of their norms, in every cell. *)
Lemma WV_qf x n f t : WV x n f t = qf (arange (- zlen x) (zlen x + 1)) (fun k => t + k) (fun k => t - k) (fun k => root n (- (f * k))) x x.
Proof. reflexivity. Qed.
Lemma WV_bound x n f t : (Cmod (WV x n f t) <= energy x)%R.
Proof.
  rewrite WV_qf. eapply Rle_trans; [apply (qf_bound _ _ _ _ x x 1)|rewrite l2_sq; lra]; [lra|apply nodup_plus, NoDup_arange|apply nodup_minus, NoDup_arange|]. intros k _. rewrite Cmod_root. lra.
Qed.
Lemma c117_wvd : forall x ts n o f t, 2 <= n -> wvd x (Some ts) (Some n) = Ok o -> 0 <= f < n -> 0 <= t < zlen x ->
  (Cmod (at2 (r_tfr o) f t) <= energy x)%R.
Proof. intros x ts n o f t Hn H Hf Ht. rewrite (wvd_entry x ts n o) by auto. apply WV_bound. Qed.
Lemma c117_wvd_stable : forall x y ts n ox oy f t, 2 <= n -> zlen x = zlen y -> wvd x (Some ts) (Some n) = Ok ox -> wvd y (Some ts) (Some n) = Ok oy ->
  0 <= f < n -> 0 <= t < zlen x -> (Cmod (at2 (r_tfr ox) f t - at2 (r_tfr oy) f t)%C <= l2 (diff x y) * (l2 x + l2 y))%R.
Proof.
  intros x y ts n ox oy f t Hn E HX HY Hf Ht. rewrite (wvd_entry x ts n ox), (wvd_entry y ts n oy) by (auto; lia). rewrite !WV_qf, <- E.
  eapply Rle_trans; [apply (qf_lipschitz _ _ _ _ x y 1)|lra]; [auto|lra|apply nodup_plus, NoDup_arange|apply nodup_minus, NoDup_arange|]. intros k _. rewrite Cmod_root. lra.
Qed.
(** Pseudo Wigner-Ville: the same, times the largest modulus of the window. *)
Lemma PWV_qf x w n f t : PWV x w n f t = qf (arange (- zlen x) (zlen x + 1)) (fun k => t + k) (fun k => t - k) (fun k => winf w k * root n (- (f * k)))%C x x.
Proof. unfold PWV, qf. apply csum_ext. intros. ring. Qed.
Lemma Re_mod z : (Cmod (RtoC (Re z)) <= Cmod z)%R.
Proof. rewrite Cmod_R. eapply Rle_trans; [apply Rmax_l|apply (Rmax_Cmod z)]. Qed.
Lemma winf_mod w M k : (0 <= M)%R -> (forall j, 0 <= j < zlen w -> (Cmod (cnth w j) <= M)%R) -> (Cmod (winf w k) <= M)%R.
Proof.
  intros HM H. unfold winf. destruct (_ && _) eqn:E; [|rewrite Cmod_0; auto]. apply andb_prop in E as [E1 E2]. rewrite Z.leb_le in *. destruct w as [|w0 w]; [unfold cnth; rewrite nth_overflow by (cbn; lia); rewrite Cmod_0; auto|].
  apply H. revert E1 E2. assert (0 < zlen (w0 :: w)) by (unfold zlen; cbn [length]; lia). Z.to_euclidean_division_equations; lia.
Qed.
Lemma c117_pwvd : forall x ts n w o m f t M, 1 <= n -> (zlen w - 1) / 2 < round_half n -> (0 <= M)%R -> (forall j, 0 <= j < zlen w -> (Cmod (cnth w j) <= M)%R) ->
  pwvd x (Some ts) (Some n) (Some w) = Ok (o, m) -> 0 <= f < n -> 0 <= t < ts_len ts -> (Cmod (at2 m f t) <= M * energy x)%R.
Proof.
  intros x ts n w o m f t M Hn Hw HM Wb H Hf Ht. destruct (c28_pwvd_closed_form x ts n w o m f t Hn Hw H Hf Ht) as [-> _]. eapply Rle_trans; [apply Re_mod|]. rewrite PWV_qf.
  eapply Rle_trans; [apply (qf_bound _ _ _ _ x x M)|rewrite l2_sq; apply Rle_refl]; [auto|apply nodup_plus, NoDup_arange|apply nodup_minus, NoDup_arange|].
  intros k _. rewrite Cmod_mult, Cmod_root, Rmult_1_r. now apply winf_mod.
Qed.
Lemma c117_pwvd_stable : forall x y ts n w ox oy mx my f t M, 1 <= n -> (zlen w - 1) / 2 < round_half n -> (0 <= M)%R -> (forall j, 0 <= j < zlen w -> (Cmod (cnth w j) <= M)%R) ->
  zlen x = zlen y -> pwvd x (Some ts) (Some n) (Some w) = Ok (ox, mx) -> pwvd y (Some ts) (Some n) (Some w) = Ok (oy, my) -> 0 <= f < n -> 0 <= t < ts_len ts ->
  (Cmod (at2 mx f t - at2 my f t)%C <= M * (l2 (diff x y) * (l2 x + l2 y)))%R.
Proof.
  intros x y ts n w ox oy mx my f t M Hn Hw HM Wb E HX HY Hf Ht. destruct (c28_pwvd_closed_form x ts n w ox mx f t Hn Hw HX Hf Ht) as [-> _]. destruct (c28_pwvd_closed_form y ts n w oy my f t Hn Hw HY Hf Ht) as [-> _].
  rewrite <- RtoC_minus. change (Re (PWV x w n f t) - Re (PWV y w n f t))%R with (Re (PWV x w n f t - PWV y w n f t)%C). eapply Rle_trans; [apply Re_mod|]. rewrite !PWV_qf, <- E.
  apply qf_lipschitz; auto; [apply nodup_plus, NoDup_arange|apply nodup_minus, NoDup_arange|]. intros k _. rewrite Cmod_mult, Cmod_root, Rmult_1_r. now apply winf_mod.
Qed.
(** Ambiguity function. *)
Lemma c117_ambiguity_stable : forall x y lag n nx ny lx ly xi xi' r c, 1 <= n -> zlen x = zlen y -> narrow_band x (Some lag) (Some n) = Ok (nx, lx, xi) -> narrow_band y (Some lag) (Some n) = Ok (ny, ly, xi') ->
  0 <= r < n -> 0 <= c < zlen lag -> (Cmod (at2 nx r c - at2 ny r c)%C <= l2 (diff x y) * (l2 x + l2 y))%R.
Proof.
  intros x y lag n nx ny lx ly xi xi' r c Hn E HX HY Hr Hc.
  destruct (c33_outcome x lag n Hn) as [[_ Q]|[_ (a & b & Q & _ & _ & _ & _ & V)]]; [congruence|]. assert (a = nx) by congruence. subst a.
  destruct (c33_outcome y lag n Hn) as [[_ Q']|[_ (a & b' & Q' & _ & _ & _ & _ & V')]]; [congruence|]. assert (a = ny) by congruence. subst a.
  rewrite V, V' by auto. set (k := r - n / 2). set (tau := nth (Z.to_nat c) lag 0).
  assert (F : forall z, zlen z = zlen x -> AF z n k tau = qf (arange 0 (zlen x)) (fun t => tau + t) (fun t => - tau + t) (fun t => root n (- (k * t))) z z).
  { intros z L. unfold AF, qf. rewrite L. apply csum_ext. intros t _. now rewrite (Z.add_comm tau t), (Z.add_comm (- tau) t). }
  rewrite !F by auto. eapply Rle_trans; [apply (qf_lipschitz _ _ _ _ x y 1)|lra]; [auto|lra|apply nodup_plus, NoDup_arange|apply nodup_plus, NoDup_arange|]. intros t _. rewrite Cmod_root. lra.
Qed.
(** Short-time Fourier transform: norm of the window times norm of the signal. *)
Lemma winf_energy w l c : NoDup l -> (rsum l (fun k => Cmod (winf w (k - c)) ^ 2) <= energy w)%R.
Proof.
  intros ND. set (h := (zlen w - 1) / 2). eapply Rle_trans; [|apply (visit_energy w l (fun k => (h - c) + k) (nodup_plus _ _ ND))]. apply rsum_le. intros k _. unfold winf. fold h.
  destruct (_ && _) eqn:E; [|rewrite Cmod_0; replace (0 ^ 2)%R with 0%R by ring; apply pow2_ge_0]. apply andb_prop in E as [E1 E2]. rewrite Z.leb_le in *. replace (h + (k - c)) with (h - c + k) by lia.
  destruct (Z_lt_dec (h - c + k) (zlen w)) as [L|L].
  - rewrite sigf_in by lia. apply Rle_refl.
  - unfold cnth. rewrite nth_overflow by (unfold zlen in L; lia). rewrite Cmod_0. replace (0 ^ 2)%R with 0%R by ring. apply pow2_ge_0.
Qed.
Lemma STFT_bound x w n f c : (Cmod (STFT x w n f c) <= l2 w * l2 x)%R.
Proof.
  assert (LX := l2_nonneg x). assert (LW := l2_nonneg w). apply Rsqr_incr_0_var; [|now apply Rmult_le_pos]. rewrite !Rsqr_pow2. unfold STFT.
  rewrite (csum_ext _ _ (fun k => sigf x k * (Cconj (winf w (k - c)) * root n (- (f * (k - c)))))%C) by (intros; ring).
  eapply Rle_trans; [apply csum_cauchy|]. replace ((l2 w * l2 x) ^ 2)%R with (l2 x * l2 x * (l2 w * l2 w))%R by ring. rewrite !l2_sq.
  apply Rmult_le_compat; try (apply rsum_nonneg; intros; apply pow2_ge_0).
  - rewrite energy_sigf. apply Rle_refl.
  - eapply Rle_trans; [|apply (winf_energy w (arange 0 (zlen x)) c), NoDup_arange]. apply Req_le, rsum_ext. intros k _. rewrite Cmod_mult, Cmod_root, Cmod_conj, Rmult_1_r. reflexivity.
Qed.
Lemma STFT_diff x y w n f c : zlen x = zlen y -> STFT (diff x y) w n f c = (STFT x w n f c - STFT y w n f c)%C.
Proof.
  intros E. unfold STFT. rewrite diff_zlen, <- E, <- csum_minus by auto. apply csum_ext. intros k _. rewrite sigf_diff by auto. ring.
Qed.
Lemma c117_stft : forall x ts n w o f c, 1 <= n -> 2 * ((zlen w - 1) / 2) < n -> stft x (Some ts) (Some n) (Some w) = Ok o -> 0 <= f < n -> 0 <= c < ts_len ts ->
  (Cmod (at2 (r_tfr o) f c) <= l2 w * l2 x)%R.
Proof.
  intros x ts n w o f c Hn Hw H Hf Hc. destruct (c11_stft_closed_form x ts n w f c Hn Hw Hf Hc) as (o' & H' & E). assert (o' = o) by congruence. subst o'. rewrite E. apply STFT_bound.
Qed.
Lemma c117_stft_stable : forall x y ts n w ox oy f c, 1 <= n -> 2 * ((zlen w - 1) / 2) < n -> zlen x = zlen y -> stft x (Some ts) (Some n) (Some w) = Ok ox -> stft y (Some ts) (Some n) (Some w) = Ok oy ->
  0 <= f < n -> 0 <= c < ts_len ts -> (Cmod (at2 (r_tfr ox) f c - at2 (r_tfr oy) f c)%C <= l2 w * l2 (diff x y))%R.
Proof.
  intros x y ts n w ox oy f c Hn Hw L HX HY Hf Hc. destruct (c11_stft_closed_form x ts n w f c Hn Hw Hf Hc) as (o' & H' & E). assert (o' = ox) by congruence. subst o'. rewrite E. clear E H'.
  destruct (c11_stft_closed_form y ts n w f c Hn Hw Hf Hc) as (o' & H' & E). assert (o' = oy) by congruence. subst o'. rewrite E. rewrite <- STFT_diff by auto. apply STFT_bound.
Qed.

(** Spectrogram: no value exceeds the energy of the signal; its square root is 1-Lipschitz. *)
Lemma STFTw_bound x v n f c : (Cmod (STFTw x v n f c) ^ 2 <= energy x * wenergy x v c)%R.
Proof.
  unfold STFTw. rewrite (csum_ext _ _ (fun k => cnth x k * (Cconj (v (k - c)%Z) * root n (- (f * (k - c)))))%C) by (intros; ring).
  eapply Rle_trans; [apply csum_cauchy|]. apply Req_le. f_equal.
  - rewrite energy_sigf. apply rsum_ext. intros k Hk. apply in_arange in Hk. now rewrite sigf_in by lia.
  - apply rsum_ext. intros k _. rewrite Cmod_mult, Cmod_root, Cmod_conj, Rmult_1_r. reflexivity.
Qed.
Lemma spec_entry_of x l n w m i ti col f : 1 <= n -> spectrogram x (Some (TsI l)) (Some n) (Some w) = Ok m -> nth_error l i = Some ti -> nth_error m i = Some (Some col) -> 0 <= f < n ->
  (rnth col f * wenergy x (wincut (spec_m w n) w) (ti - 1) = Cmod (STFTw x (wincut (spec_m w n) w) n f (ti - 1)) ^ 2)%R /\ spec_out x w n ti = Some col.
Proof.
  intros Hn H Hl Hi Hf. rewrite spectrogram_ok in H by lia. assert (E : map (spec_out x w n) l = m) by congruence. rewrite <- E, nth_error_map, Hl in Hi. cbn [option_map] in Hi. assert (O : spec_out x w n ti = Some col) by congruence. split; auto. apply spec_entry; auto; lia.
Qed.
Lemma c117_spectrogram : forall x l n w m i ti col f, 1 <= n -> spectrogram x (Some (TsI l)) (Some n) (Some w) = Ok m -> nth_error l i = Some ti -> nth_error m i = Some (Some col) -> 0 <= f < n ->
  (0 <= rnth col f <= energy x)%R.
Proof.
  intros x l n w m i ti col f Hn H Hl Hi Hf. destruct (spec_entry_of x l n w m i ti col f Hn H Hl Hi Hf) as [E O]. set (v := wincut (spec_m w n) w) in *. assert (B := STFTw_bound x v n f (ti - 1)). rewrite <- E in B.
  assert (W : (0 <= wenergy x v (ti - 1))%R) by (apply rsum_nonneg; intros; apply pow2_ge_0).
  assert (P : (0 <= rnth col f)%R).
  { unfold spec_out in O. assert (Q : exists y, col = map (fun z => (Cmod z ^ 2)%R) y).
    { destruct (spec_taus (zlen x) w n ti); [|destruct (Req_EM_T _ 0); [discriminate|]]; match type of O with Some (map _ ?y) = _ => exists y; congruence end. }
    destruct Q as [y ->]. unfold rnth. destruct (lt_dec (Z.to_nat f) (length y)) as [L|L].
    - rewrite (nth_indep _ 0%R (Cmod (RtoC 0) ^ 2)%R) by (rewrite map_length; lia). rewrite (map_nth (fun z => (Cmod z ^ 2)%R)). apply pow2_ge_0.
    - rewrite nth_overflow by (rewrite map_length; lia). apply Rle_refl. }
  split; auto. destruct (Rle_lt_or_eq_dec _ _ W) as [W1|W1]; [apply (Rmult_le_reg_r (wenergy x v (ti - 1))); auto|].
  destruct (spec_taus (zlen x) w n ti) as [|t0 tl] eqn:ET.
  - unfold spec_out in O. rewrite ET in O. assert (Q : map (fun z => (Cmod z ^ 2)%R) (fft (zeros n)) = col) by congruence. assert (ZF : cnth (fft (zeros n)) f = RtoC 0).
    { rewrite fft_nth by (rewrite zeros_zlen; lia). apply csum_0. intros k _. rewrite cnth_zeros. ring. }
    rewrite <- Q. unfold rnth. rewrite (nth_indep _ 0%R (Cmod (RtoC 0) ^ 2)%R) by (rewrite map_length; assert (L := fft_zlen (zeros n)); rewrite zeros_zlen in L; unfold zlen in L; lia).
    rewrite (map_nth (fun z => (Cmod z ^ 2)%R)). change (nth (Z.to_nat f) (fft (zeros n)) (RtoC 0)) with (cnth (fft (zeros n)) f). rewrite ZF, Cmod_0. replace (0 ^ 2)%R with 0%R by ring. apply energy_nonneg.
  - unfold spec_out in O. rewrite ET in O. destruct (Req_EM_T (spec_nrm x w n ti) 0) as [|NZ]; [discriminate|]. exfalso. apply NZ. assert (Q := spec_nrm_sq x w n ti). fold v in Q. rewrite <- W1 in Q. nra.
Qed.
Lemma Cmod_rev a b : (Rabs (Cmod a - Cmod b) <= Cmod (a - b)%C)%R.
Proof.
  assert (T1 := Cmod_triangle (a - b)%C b). assert (T2 := Cmod_triangle (b - a)%C a). replace (a - b + b)%C with a in T1 by ring. replace (b - a + a)%C with b in T2 by ring.
  assert (E : Cmod (b - a)%C = Cmod (a - b)%C) by (rewrite <- Cmod_opp; f_equal; ring). rewrite E in T2. apply Rabs_le. lra.
Qed.
Lemma c117_spectrogram_stable : forall x y l n w mx my i ti cx cy f, 1 <= n -> zlen x = zlen y -> spectrogram x (Some (TsI l)) (Some n) (Some w) = Ok mx -> spectrogram y (Some (TsI l)) (Some n) (Some w) = Ok my ->
  nth_error l i = Some ti -> nth_error mx i = Some (Some cx) -> nth_error my i = Some (Some cy) -> 0 <= f < n -> (wenergy x (wincut (maxlag w n) w) (ti - 1) <> 0)%R ->
  (Rabs (sqrt (rnth cx f) - sqrt (rnth cy f)) <= l2 (diff x y))%R.
Proof.
  intros x y l n w mx my i ti cx cy f Hn L HX HY Hl Hx Hy Hf HW. change (maxlag w n) with (spec_m w n) in HW.
  destruct (spec_entry_of x l n w mx i ti cx f Hn HX Hl Hx Hf) as [EX _]. destruct (spec_entry_of y l n w my i ti cy f Hn HY Hl Hy Hf) as [EY _].
  assert (PX := proj1 (c117_spectrogram x l n w mx i ti cx f Hn HX Hl Hx Hf)). assert (PY := proj1 (c117_spectrogram y l n w my i ti cy f Hn HY Hl Hy Hf)).
  set (v := wincut (spec_m w n) w) in *. assert (WE : wenergy y v (ti - 1) = wenergy x v (ti - 1)) by (unfold wenergy; now rewrite L). rewrite WE in EY. set (W := wenergy x v (ti - 1)) in *.
  assert (W0 : (0 < W)%R). { assert (0 <= W)%R by (apply rsum_nonneg; intros; apply pow2_ge_0). lra. }
  assert (SW : (0 < sqrt W)%R) by now apply sqrt_lt_R0.
  assert (RX : (sqrt (rnth cx f) * sqrt W = Cmod (STFTw x v n f (ti - 1)))%R) by (rewrite <- sqrt_mult by lra; rewrite EX, sqrt_pow2; auto; apply Cmod_ge_0).
  assert (RY : (sqrt (rnth cy f) * sqrt W = Cmod (STFTw y v n f (ti - 1)))%R) by (rewrite <- sqrt_mult by lra; rewrite EY, sqrt_pow2; auto; apply Cmod_ge_0).
  assert (D : STFTw (diff x y) v n f (ti - 1) = (STFTw x v n f (ti - 1) - STFTw y v n f (ti - 1))%C).
  { unfold STFTw. rewrite diff_zlen, <- L, <- csum_minus by auto. apply csum_ext. intros k Hk. apply in_arange in Hk. assert (S := sigf_diff x y k L). rewrite !sigf_in in S by (rewrite ?diff_zlen; lia). rewrite S. ring. }
  assert (B := STFTw_bound (diff x y) v n f (ti - 1)). replace (wenergy (diff x y) v (ti - 1)) with W in B by (unfold W, wenergy; now rewrite diff_zlen by auto).
  assert (B2 : (Cmod (STFTw (diff x y) v n f (ti - 1)) <= l2 (diff x y) * sqrt W)%R).
  { unfold l2. rewrite <- sqrt_mult by (try apply energy_nonneg; lra). rewrite <- (sqrt_pow2 (Cmod _)) by apply Cmod_ge_0. now apply sqrt_le_1_alt. }
  rewrite D in B2. assert (T := Cmod_rev (STFTw x v n f (ti - 1)) (STFTw y v n f (ti - 1))). rewrite <- RX, <- RY, <- Rmult_minus_distr_r, Rabs_mult, (Rabs_pos_eq (sqrt W)) in T by lra.
  apply (Rmult_le_reg_r (sqrt W)); auto. lra.
Qed.
(** Margenau-Hill and Page: instantaneous amplitude times the norm times the square root of the length. *)
Lemma row_bound (x : list C) z p q (g : Z -> C) : (forall k, Cmod (g k) = 1%R) -> 0 <= p -> q <= zlen x ->
  (Cmod (csum (arange p q) (fun k => z * Cconj (cnth x k) * g k)%C) <= Cmod z * (sqrt (IZR (zlen x)) * l2 x))%R.
Proof.
  intros Hg Hp Hq. assert (N0 : (0 <= IZR (zlen x))%R) by (apply IZR_le; apply zlen_nonneg). rewrite (csum_ext _ _ (fun k => z * (g k * Cconj (cnth x k)))%C) by (intros; ring). rewrite csum_scal_l, Cmod_mult. apply Rmult_le_compat_l; [apply Cmod_ge_0|].
  unfold l2. rewrite <- sqrt_mult by (auto; apply energy_nonneg). rewrite <- (sqrt_pow2 (Cmod _)) by apply Cmod_ge_0. apply sqrt_le_1_alt. eapply Rle_trans; [apply csum_cauchy|].
  apply Rmult_le_compat; try (apply rsum_nonneg; intros; apply pow2_ge_0).
  - rewrite (rsum_ext _ _ (fun _ => 1%R)) by (intros k _; rewrite Hg; ring). rewrite rsum_const, Rmult_1_r, INR_IZR_INZ. apply IZR_le. change (Z.of_nat (length (arange p q))) with (zlen (arange p q)). rewrite arange_zlen. assert (0 <= zlen x) by apply zlen_nonneg. lia.
  - eapply Rle_trans; [|apply (visit_energy x (arange p q) (fun k => 0 + k) (nodup_plus 0 _ (NoDup_arange p q)))]. apply Req_le, rsum_ext. intros k Hk. apply in_arange in Hk. rewrite Z.add_0_l, sigf_in, Cmod_conj by lia. reflexivity.
Qed.
Lemma c117_mh : forall x l n o i ti f, 1 <= n -> mh x (Some (TsI l)) (Some n) = Ok o -> nth_error l (Z.to_nat i) = Some ti -> 0 <= ti -> 0 <= f < n ->
  (Cmod (at2 (r_tfr o) f i) <= Cmod (cnth x ti) * (sqrt (IZR (zlen x)) * l2 x))%R.
Proof.
  intros x l n o i ti f Hn H Hi Ht Hf. rewrite (c30_mh_closed_form x l n o i ti f Hn H Hi Ht Hf). eapply Rle_trans; [apply Re_mod|]. apply row_bound; [intros; apply Cmod_root|lia|lia].
Qed.
Lemma c117_page : forall x l n o i ti f, 1 <= n -> page x (Some (TsI l)) (Some n) = Ok o -> nth_error l (Z.to_nat i) = Some ti -> 0 <= ti -> 0 <= f < n ->
  (Cmod (at2 (r_tfr o) f i) <= Cmod (cnth x ti) * (sqrt (IZR (zlen x)) * l2 x))%R.
Proof.
  intros x l n o i ti f Hn H Hi Ht Hf. rewrite (c31_page_closed_form x l n o i ti f Hn H Hi Ht Hf). eapply Rle_trans; [apply Re_mod|]. apply row_bound; [intros; apply Cmod_root|lia|lia].
Qed.
(** The bound is attained: an impulse. *)
Example c117_example : exists o, wvd [RtoC 0; RtoC 1; RtoC 0] None None = Ok o /\ at2 (r_tfr o) 2 1 = RtoC (energy [RtoC 0; RtoC 1; RtoC 0]) /\ energy [RtoC 0; RtoC 1; RtoC 0] = 1%R.
Proof.
  set (x := [RtoC 0; RtoC 1; RtoC 0]). destruct (proj2 (c21_wvd_default x ltac:(discriminate))) as [o H]; [change (zlen _) with 3; cbn; lia|]. exists o. split; auto.
  assert (EN : energy x = 1%R). { unfold energy, x. rewrite !rsum_cons, rsum_nil, Cmod_0, Cmod_1. ring. } split; auto. rewrite EN.
  rewrite (wvd_entry x (TsI (arange 0 3)) 3 o 2 1 ltac:(lia) H) by (try lia; change (zlen x) with 3; lia). rewrite WV_taus by (change (zlen x) with 3; lia). change (zlen x) with 3. cbv zeta. change (Z.min 1 (3 - 1 - 1)) with 1. eval_arange.
  unfold esum. rewrite !csum_cons, csum_nil. unfold wvd_val. change (cnth x (1 + -1)) with (RtoC 0). change (cnth x (1 - -1)) with (RtoC 0). change (cnth x (1 + 0)) with (RtoC 1). change (cnth x (1 - 0)) with (RtoC 1). change (cnth x (1 + 1)) with (RtoC 0). change (cnth x (1 - 1)) with (RtoC 0).
  rewrite !Cconj_R. change (- (2 * 0)) with 0. rewrite root_0. ring.
Qed.
