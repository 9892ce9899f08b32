(** C110 - C112: what a Wigner-Ville distribution determines, its two-dimensional Fourier transform (the
    ambiguity function), and the pseudo Wigner-Ville distribution as a smoothing in frequency. *)
From Coq Require Import Reals ZArith List Lia Lra Bool.
From Coquelicot Require Import Coquelicot.
From Verif Require Import Py Scalars CSum DFT Spec M_base M_stft M_cohen M_amb P_base P_stft P_wvd P_pwvd T_wvd T_pwvd T_amb.
Import ListNotations.
Local Open Scope Z_scope.

Lemma WV_inverse x n t tau : 2 <= n -> wvd_fails (zlen x) n = false -> 0 <= t < zlen x -> 2 * Z.abs tau <= n ->
  csum (arange 0 n) (fun f => WV x n f t * root n (f * tau))%C = (RtoC (IZR n) * (sigf x (t + tau) * Cconj (sigf x (t - tau))))%C.
Proof.
  intros Hn Hf Ht Hu. assert (Hm := wvd_m_lt _ _ _ Hn Hf Ht). set (m := Z.min t (zlen x - t - 1)) in *.
  rewrite (csum_ext _ _ (fun f => csum (arange (- m) (m + 1)) (fun s => wvd_val x t s * root n (f * (tau - s)))%C)).
  2:{ intros f _. rewrite WV_taus by auto. fold m. cbn zeta. unfold esum. rewrite <- csum_scal_r. apply csum_ext. intros s _.
      rewrite <- Cmult_assoc, <- root_plus. do 2 f_equal. ring. }
  rewrite csum_swap. rewrite (csum_ext _ _ (fun s => if s =? tau then (RtoC (IZR n) * wvd_val x t tau)%C else RtoC 0)).
  2:{ intros s Hs. apply in_arange in Hs. rewrite csum_scal_l, root_orth by lia. destruct (Z.eqb_spec s tau) as [->|N].
      - rewrite Z.sub_diag, Z.mod_0_l by lia. cbn [Z.eqb]. ring.
      - destruct (Z.eqb_spec ((tau - s) mod n) 0) as [E|E]; [|ring]. exfalso. apply Z.mod_divide in E; [|lia]. destruct E as [q E].
        assert (q = 0) by nia. subst. lia. }
  destruct (Z_le_dec (Z.abs tau) m) as [L|L].
  - rewrite (csum_single _ tau).
    + rewrite Z.eqb_refl. unfold wvd_val. rewrite !sigf_in by lia. reflexivity.
    + apply NoDup_arange.
    + apply in_arange. lia.
    + intros b _ Nb. destruct (Z.eqb_spec b tau); [contradiction|reflexivity].
  - rewrite csum_0.
    + assert (D : (t + tau < 0 \/ zlen x <= t + tau) \/ (t - tau < 0 \/ zlen x <= t - tau)) by lia.
      destruct D as [D|D]; rewrite (sigf_out x _ D), ?Cconj_R; ring.
    + intros s Hs. apply in_arange in Hs. destruct (Z.eqb_spec s tau); [lia|reflexivity].
Qed.

(** *** C110 *)
(** Every product of two samples of equal parity can be read off the matrix. *)
Lemma c110_lag_products : forall x ts n o a b, 2 <= n -> wvd x (Some ts) (Some n) = Ok o ->
  0 <= a < zlen x -> 0 <= b < zlen x -> Z.even (a - b) = true ->
  (cnth x a * Cconj (cnth x b) = csum (arange 0 n) (fun f => at2 (r_tfr o) f ((a + b) / 2) * root n (f * ((a - b) / 2))) / RtoC (IZR n))%C.
Proof.
  intros x ts n o a b Hn H Ha Hb E. assert (R := wvd_ret x ts n o ltac:(lia) H). destruct R as (_ & F & _).
  apply Zeven_bool_iff, Zeven_ex in E. destruct E as [d E]. assert (E1 : (a - b) / 2 = d) by (rewrite E, Z.mul_comm; apply Z.div_mul; lia).
  assert (E2 : (a + b) / 2 = b + d) by (replace (a + b) with ((b + d) * 2) by lia; apply Z.div_mul; lia). rewrite E1, E2.
  assert (Hm := wvd_m_lt _ _ (b + d) Hn F ltac:(lia)).
  rewrite (csum_ext _ _ (fun f => WV x n f (b + d) * root n (f * d))%C).
  2:{ intros f Hf. apply in_arange in Hf. rewrite (wvd_entry x ts n o f (b + d)) by (auto; lia). reflexivity. }
  rewrite WV_inverse by (auto; lia). replace (b + d + d) with a by lia. replace (b + d - d) with b by lia. rewrite !sigf_in by lia.
  field. intros Q. apply RtoC_inj in Q. apply eq_IZR in Q. lia.
Qed.

Lemma phase_of x y p : zlen x = zlen y ->
  (forall a b, 0 <= a < zlen x -> 0 <= b < zlen x -> Z.even a = p -> Z.even b = p -> (cnth x a * Cconj (cnth x b) = cnth y a * Cconj (cnth y b))%C) ->
  exists u, Cmod u = 1%R /\ forall k, 0 <= k < zlen x -> Z.even k = p -> cnth y k = (u * cnth x k)%C.
Proof.
  intros L H.
  assert (D : (exists a, 0 <= a < zlen x /\ Z.even a = p /\ cnth x a <> RtoC 0) \/ (forall a, 0 <= a < zlen x -> Z.even a = p -> cnth x a = RtoC 0)).
  { destruct (existsb (fun a => Bool.eqb (Z.even a) p && negb (if Req_EM_T (Cmod (cnth x a)) 0 then true else false)) (arange 0 (zlen x))) eqn:E.
    - left. apply existsb_exists in E. destruct E as (a & Ia & E). apply in_arange in Ia. apply andb_true_iff in E. destruct E as [E1 E2]. apply eqb_prop in E1. exists a. split; [lia|]. split; auto.
      intros Z. rewrite Z, Cmod_0 in E2. destruct (Req_EM_T 0 0); [discriminate|lra].
    - right. intros a Ha Pa. destruct (Req_EM_T (Cmod (cnth x a)) 0) as [Q|Q]; [now apply Cmod_eq_0|]. exfalso.
      assert (T : existsb (fun a => Bool.eqb (Z.even a) p && negb (if Req_EM_T (Cmod (cnth x a)) 0 then true else false)) (arange 0 (zlen x)) = true); [|congruence].
      apply existsb_exists. exists a. split; [apply in_arange; lia|]. rewrite Pa, eqb_reflx. destruct (Req_EM_T (Cmod (cnth x a)) 0); [contradiction|reflexivity]. }
  assert (MD : forall a, 0 <= a < zlen x -> Z.even a = p -> Cmod (cnth x a) = Cmod (cnth y a)).
  { intros a Ha Pa. assert (Q := H a a Ha Ha Pa Pa). rewrite <- !Cmod2_conj in Q. apply RtoC_inj in Q. assert (G1 := Cmod_ge_0 (cnth x a)). assert (G2 := Cmod_ge_0 (cnth y a)). nra. }
  destruct D as [(a & Ha & Pa & NZ)|D].
  - assert (NM : Cmod (cnth x a) <> 0%R) by (intros Q; apply NZ; now apply Cmod_eq_0).
    assert (NY : cnth y a <> RtoC 0). { intros Q. apply NM. rewrite MD, Q, Cmod_0 by auto. reflexivity. }
    exists (cnth y a / cnth x a)%C. split.
    + rewrite Cmod_div by auto. rewrite <- MD by auto. field. auto.
    + intros k Hk Pk. assert (Q := H k a Hk Ha Pk Pa).
      assert (NC : Cconj (cnth y a) <> RtoC 0). { intros Z. apply NY. rewrite <- (Cconj_invol (cnth y a)), Z. apply Cconj_R. }
      assert (Q2 : (cnth y a * Cconj (cnth y a) = cnth x a * Cconj (cnth x a))%C) by (symmetry; apply H; auto).
      assert (E : (cnth y k * Cconj (cnth y a) * cnth x a = cnth y a * cnth x k * Cconj (cnth y a))%C).
      { rewrite <- Q. replace (cnth x k * Cconj (cnth x a) * cnth x a)%C with (cnth x k * (cnth x a * Cconj (cnth x a)))%C by ring. rewrite <- Q2. ring. }
      assert (E2 : (cnth y k * cnth x a = cnth y a * cnth x k)%C).
      { transitivity (cnth y k * Cconj (cnth y a) * cnth x a / Cconj (cnth y a))%C; [field; auto|]. rewrite E. field. auto. }
      transitivity (cnth y k * cnth x a / cnth x a)%C; [field; auto|]. rewrite E2. field. auto.
  - exists (RtoC 1). split; [apply Cmod_1|]. intros k Hk Pk. rewrite (D k Hk Pk), Cmult_0_r. apply Cmod_eq_0. rewrite <- MD, D by auto. apply Cmod_0.
Qed.

(** Two signals have the same Wigner-Ville distribution exactly when the even samples agree up to one phase
    and the odd samples up to another. *)
Lemma c110_same_distribution : forall x y tx ty n ox oy, 2 <= n -> zlen x = zlen y ->
  wvd x (Some tx) (Some n) = Ok ox -> wvd y (Some ty) (Some n) = Ok oy ->
  ((forall f t, 0 <= f < n -> 0 <= t < zlen x -> at2 (r_tfr ox) f t = at2 (r_tfr oy) f t) <->
   exists u v, Cmod u = 1%R /\ Cmod v = 1%R /\
   forall k, 0 <= k < zlen x -> cnth y k = ((if Z.even k then u else v) * cnth x k)%C).
Proof.
  intros x y tx ty n ox oy Hn L Hx Hy. split.
  - intros H. assert (G : forall a b, 0 <= a < zlen x -> 0 <= b < zlen x -> Z.even (a - b) = true -> (cnth x a * Cconj (cnth x b) = cnth y a * Cconj (cnth y b))%C).
    { intros a b Ha Hb E. rewrite (c110_lag_products x tx n ox a b) by auto. rewrite (c110_lag_products y ty n oy a b) by (auto; lia). f_equal. apply csum_ext. intros f If. apply in_arange in If.
      rewrite H; auto. assert (Q := Zdiv.Z_div_mod_eq_full (a + b) 2). assert (Z.even (a + b) = true) by (replace (a + b) with (a - b + 2 * b) by lia; now rewrite Z.even_add_mul_2). Z.to_euclidean_division_equations; lia. }
    destruct (phase_of x y true L) as (u & U1 & U2). { intros a b Ha Hb Pa Pb. apply G; auto. rewrite Z.even_sub, Pa, Pb. reflexivity. }
    destruct (phase_of x y false L) as (v & V1 & V2). { intros a b Ha Hb Pa Pb. apply G; auto. rewrite Z.even_sub, Pa, Pb. reflexivity. }
    exists u, v. do 2 (split; auto). intros k Hk. destruct (Z.even k) eqn:P; auto.
  - intros (u & v & U & V & H) f t Hf Ht. rewrite (wvd_entry x tx n ox), (wvd_entry y ty n oy) by (auto; lia). unfold WV. rewrite L. apply csum_ext. intros tau _. f_equal.
    destruct (Z_lt_dec (t + tau) 0) as [A|A]; [rewrite !(sigf_out _ (t + tau)) by lia; ring|].
    destruct (Z_le_dec (zlen x) (t + tau)) as [A'|A']; [rewrite !(sigf_out _ (t + tau)) by lia; ring|].
    destruct (Z_lt_dec (t - tau) 0) as [B|B]; [rewrite !(sigf_out _ (t - tau)) by lia; rewrite Cconj_R; ring|].
    destruct (Z_le_dec (zlen x) (t - tau)) as [B'|B']; [rewrite !(sigf_out _ (t - tau)) by lia; rewrite Cconj_R; ring|].
    rewrite !sigf_in by lia. rewrite !H by lia. assert (PE : Z.even (t - tau) = Z.even (t + tau)) by (replace (t - tau) with (t + tau + 2 * (- tau)) by lia; apply Z.even_add_mul_2). rewrite PE. rewrite Cconj_mult.
    set (w := if Z.even (t + tau) then u else v). assert (W : (w * Cconj w = RtoC 1)%C). { rewrite <- Cmod2_conj. unfold w. destruct (Z.even (t + tau)); rewrite ?U, ?V; f_equal; ring. }
    transitivity ((w * Cconj w) * (cnth x (t + tau) * Cconj (cnth x (t - tau))))%C; [rewrite W; ring|ring].
Qed.
(** So a Wigner-Ville distribution does not determine the signal up to a phase: [1, 1] and [1, -1]. *)
Lemma c110_phase_refuted : exists x y ox oy, wvd x None None = Ok ox /\ wvd y None None = Ok oy /\
  (forall f t, 0 <= f < 2 -> 0 <= t < 2 -> at2 (r_tfr ox) f t = at2 (r_tfr oy) f t) /\ zlen x = 2 /\ zlen y = 2 /\
  ~ exists u, forall k, 0 <= k < 2 -> cnth y k = (u * cnth x k)%C.
Proof.
  set (x := [RtoC 1; RtoC 1]). set (y := [RtoC 1; RtoC (-1)]).
  destruct (proj2 (c21_wvd_default x ltac:(discriminate))) as [ox Hx]; [cbn; lia|]. destruct (proj2 (c21_wvd_default y ltac:(discriminate))) as [oy Hy]; [cbn; lia|].
  exists x, y, ox, oy. do 2 (split; auto). split; [|split; [reflexivity|split; [reflexivity|]]].
  - apply (proj2 (c110_same_distribution x y (TsI (arange 0 2)) (TsI (arange 0 2)) 2 ox oy ltac:(lia) eq_refl Hx Hy)).
    exists (RtoC 1), (RtoC (-1)). split; [apply Cmod_1|]. split; [rewrite Cmod_R, Rabs_left; lra|].
    intros k Hk. change (zlen x) with 2 in Hk. assert (k = 0 \/ k = 1) as [-> | ->] by lia; cbn [Z.even]; unfold cnth; cbn [nth Z.to_nat Pos.to_nat]; [|change (Pos.to_nat 1) with 1%nat; cbn [nth x y]]; unfold x, y; cbn [nth]; ring.
  - intros [u H]. assert (H0 := H 0 ltac:(lia)). assert (H1 := H 1 ltac:(lia)). unfold cnth in H0, H1. change (Z.to_nat 1) with 1%nat in H1. unfold x, y in H0, H1. cbn [nth Z.to_nat] in H0, H1.
    rewrite <- H0 in H1. apply RtoC_inj in H1. lra.
Qed.

(** *** C111 *)
(** The ambiguity function is the two-dimensional Fourier transform of the Wigner-Ville distribution. *)
Lemma c111_fourier : forall x ts n o lag naf lag' xi r c, 2 <= n -> wvd x (Some ts) (Some n) = Ok o ->
  narrow_band x (Some lag) (Some n) = Ok (naf, lag', xi) -> 0 <= r < n -> 0 <= c < zlen lag ->
  let tau := nth (Z.to_nat c) lag 0 in 2 * Z.abs tau <= n ->
  (at2 naf r c = csum (arange 0 (zlen x)) (fun t => csum (arange 0 n) (fun f =>
     at2 (r_tfr o) f t * root n (f * tau - (r - n / 2) * t))) / RtoC (IZR n))%C.
Proof.
  intros x ts n o lag naf lag' xi r c Hn H HA Hr Hc tau Hu. assert (R := wvd_ret x ts n o ltac:(lia) H). destruct R as (_ & F & _).
  destruct (c33_outcome x lag n ltac:(lia)) as [[_ E]|[_ (naf' & xi' & E & _ & _ & _ & _ & V)]]; [congruence|]. assert (naf' = naf) by congruence. subst naf'.
  rewrite V by auto. fold tau. unfold AF. set (k := r - n / 2).
  rewrite (csum_ext (arange 0 (zlen x)) (fun t => csum (arange 0 n) _) (fun t => RtoC (IZR n) * (sigf x (t + tau) * Cconj (sigf x (t - tau)) * root n (- (k * t))))%C).
  - rewrite csum_scal_l. field. intros Q. apply RtoC_inj in Q. apply eq_IZR in Q. lia.
  - intros t It. apply in_arange in It. rewrite Cmult_assoc, <- WV_inverse by (auto; lia). rewrite <- csum_scal_r. apply csum_ext. intros f If. apply in_arange in If.
    rewrite (wvd_entry x ts n o f t) by (auto; lia). rewrite <- Cmult_assoc, <- root_plus. reflexivity.
Qed.
(** And back. *)
Lemma c111_inverse : forall x ts n o naf lag xi f t, 2 <= n -> wvd x (Some ts) (Some n) = Ok o -> zlen x <= n ->
  narrow_band x None (Some n) = Ok (naf, lag, xi) -> 0 <= f < n -> 0 <= t < zlen x ->
  (at2 (r_tfr o) f t = csum (arange 0 (zlen lag)) (fun c => csum (arange 0 n) (fun r =>
     at2 naf r c * root n ((r - n / 2) * t - f * nth (Z.to_nat c) lag 0))) / RtoC (IZR n))%C.
Proof.
  intros x ts n o naf lag xi f t Hn H HN HA Hf Ht.
  assert (HA' : narrow_band x (Some (nb_lags (zlen x))) (Some n) = Ok (naf, lag, xi)) by exact HA.
  destruct (c33_outcome x (nb_lags (zlen x)) n ltac:(lia)) as [[_ E]|[_ (naf' & xi' & E & _ & _ & _ & _ & V)]]; [congruence|]. assert (naf' = naf) by congruence. assert (lag = nb_lags (zlen x)) by congruence. subst naf' lag. clear E HA HA'.
  assert (LG := proj2 (c33_default x)). set (L := nb_lags (zlen x)) in *.
  assert (ND : NoDup L) by (unfold L, nb_lags; destruct (zlen x mod 2 =? 0); apply NoDup_arange).
  assert (NZ : RtoC (IZR n) <> RtoC 0) by (intros Q; apply RtoC_inj in Q; apply eq_IZR in Q; lia).
  set (g := fun tau => (sigf x (t + tau) * Cconj (sigf x (t - tau)) * root n (- (f * tau)))%C).
  assert (I : forall tau, csum (arange 0 n) (fun r => AF x n (r - n / 2) tau * root n ((r - n / 2) * t - f * tau))%C = (RtoC (IZR n) * g tau)%C).
  { intros tau. rewrite (csum_ext _ _ (fun r => csum (arange 0 (zlen x)) (fun s => (sigf x (s + tau) * Cconj (sigf x (s - tau)) * root n (- (f * tau)) * root n (- (n / 2 * (t - s)))) * root n (r * (t - s)))%C)).
    2:{ intros r _. unfold AF. rewrite <- csum_scal_r. apply csum_ext. intros s _. rewrite <- !Cmult_assoc. do 2 f_equal. rewrite <- !root_plus. f_equal. ring. }
    rewrite csum_swap. rewrite (csum_single _ t).
    - rewrite csum_scal_l, Z.sub_diag, root_orth, Z.mod_0_l by lia. cbn [Z.eqb]. rewrite Z.mul_0_r. change (- 0) with 0. rewrite root_0. unfold g. ring.
    - apply NoDup_arange.
    - apply in_arange. lia.
    - intros s Is Ns. apply in_arange in Is. rewrite csum_scal_l, root_orth by lia. destruct (Z.eqb_spec ((t - s) mod n) 0) as [Q|Q]; [|ring].
      exfalso. apply Z.mod_divide in Q; [|lia]. destruct Q as [q Q]. assert (q = 0) by nia. subst. lia. }
  rewrite (csum_ext (arange 0 (zlen L)) _ (fun c => (fun tau => RtoC (IZR n) * g tau)%C (nth (Z.to_nat c) L 0))).
  2:{ intros c Ic. apply in_arange in Ic. cbv beta. rewrite <- I. apply csum_ext. intros r Ir. apply in_arange in Ir. rewrite V by auto. reflexivity. }
  rewrite <- (csum_map (fun c => nth (Z.to_nat c) L 0) (arange 0 (zlen L)) (fun tau => RtoC (IZR n) * g tau)%C).
  replace (map (fun c => nth (Z.to_nat c) L 0) (arange 0 (zlen L))) with L.
  2:{ apply list_nth_ext. intros k. rewrite nth_error_map. destruct (Nat.lt_ge_cases k (length L)) as [B|B].
      - rewrite nth_error_arange by (unfold zlen; lia). cbn [option_map]. rewrite Z.add_0_l, Nat2Z.id. apply nth_error_nth'. auto.
      - rewrite (proj2 (nth_error_None L k)) by auto. rewrite (proj2 (nth_error_None (arange 0 (zlen L)) k)) by (rewrite arange_length; unfold zlen; lia). reflexivity. }
  rewrite csum_scal_l. rewrite (wvd_entry x ts n o f t) by auto. unfold WV. fold g.
  transitivity (csum L g); [|field; auto]. apply csum_incl; auto.
  - apply NoDup_arange.
  - intros tau It. apply LG in It. apply in_arange. lia.
  - intros tau It Nt. rewrite in_arange in It. rewrite LG in Nt. unfold g.
    assert (D : (t + tau < 0 \/ zlen x <= t + tau) \/ (t - tau < 0 \/ zlen x <= t - tau)) by lia.
    destruct D as [D|D]; rewrite (sigf_out x _ D), ?Cconj_R; ring.
Qed.

(** Delays and modulations multiply the ambiguity function by a phase. *)
Lemma sigf_delayed s x k : 0 <= s -> sigf (delay s x) k = sigf x (k - s).
Proof.
  intros Hs. unfold sigf. rewrite delay_zlen by auto. destruct (Z_lt_dec k s) as [A|A].
  - rewrite (proj2 (Z.leb_gt 0 (k - s))) by lia. cbn [andb]. destruct ((0 <=? k) && (k <? s + zlen x)) eqn:E; auto. apply andb_true_iff in E. apply delay_lo. lia.
  - rewrite (proj2 (Z.leb_le 0 k)), (proj2 (Z.leb_le 0 (k - s))) by lia. cbn [andb]. destruct (Z.ltb_spec k (s + zlen x)), (Z.ltb_spec (k - s) (zlen x)); try lia; auto. apply delay_hi. lia.
Qed.
Lemma AF_delay s x n k tau : 0 <= s -> AF (delay s x) n k tau = (root n (- (k * s)) * AF x n k tau)%C.
Proof.
  intros Hs. assert (HN := zlen_nonneg x). unfold AF. rewrite <- csum_scal_l. rewrite delay_zlen, (arange_app 0 s) by lia. rewrite csum_app, csum_0.
  - replace (arange s (s + zlen x)) with (arange (0 + s) (zlen x + s)) by (f_equal; lia). rewrite csum_arange_shift, Cplus_0_l. apply csum_ext. intros t _. rewrite !sigf_delayed by lia.
    replace (t + s + tau - s) with (t + tau) by lia. replace (t + s - tau - s) with (t - tau) by lia.
    replace (- (k * (t + s))) with (- (k * s) + - (k * t)) by ring. rewrite root_plus. ring.
  - intros t It. apply in_arange in It. rewrite !sigf_delayed by lia.
    assert (D : t + tau - s < 0 \/ t - tau - s < 0) by lia. destruct D as [D|D]; [rewrite (sigf_out x (t + tau - s)) by lia|rewrite (sigf_out x (t - tau - s)) by lia; rewrite Cconj_R]; ring.
Qed.
Lemma AF_modulate m x n k tau : AF (modulate n m x) n k tau = (root n (2 * m * tau) * AF x n k tau)%C.
Proof.
  unfold AF. rewrite <- csum_scal_l. rewrite modulate_zlen. apply csum_ext. intros t _. rewrite !sigf_modulate, Cconj_mult, root_conj.
  replace (root n (2 * m * tau)) with (root n (m * (t + tau)) * root n (- (m * (t - tau))))%C by (rewrite <- root_plus; f_equal; ring). ring.
Qed.
Lemma c111_shifts : forall x lag n s m naf lag' xi, 1 <= n -> 0 <= s -> s + zlen x <= n ->
  narrow_band x (Some lag) (Some n) = Ok (naf, lag', xi) ->
  (exists naf1, narrow_band (delay s x) (Some lag) (Some n) = Ok (naf1, lag, xi) /\ forall r c, 0 <= r < n -> 0 <= c < zlen lag ->
     at2 naf1 r c = (root n (- ((r - n / 2) * s)) * at2 naf r c)%C) /\
  (exists naf2, narrow_band (modulate n m x) (Some lag) (Some n) = Ok (naf2, lag, xi) /\ forall r c, 0 <= r < n -> 0 <= c < zlen lag ->
     at2 naf2 r c = (root n (2 * m * nth (Z.to_nat c) lag 0) * at2 naf r c)%C).
Proof.
  intros x lag n s m naf lag' xi Hn Hs HN H. assert (N0 := zlen_nonneg x).
  assert (XI : forall (y : list C) a l b, narrow_band y (Some lag) (Some n) = Ok (a, l, b) -> b = xi).
  { intros y a l b E. assert (G : forall (z : list C) a' l' b', narrow_band z (Some lag) (Some n) = Ok (a', l', b') -> b' = nb_xi n).
    { intros z a' l' b' Q. unfold narrow_band in Q. destruct (n <? 0); [discriminate|]. destruct (mapM _ lag) as [cols|]; [|discriminate]. cbn [bind] in Q. destruct (n =? 0); [discriminate|]. destruct (mapM _ cols); [|discriminate]. cbn [bind] in Q. congruence. }
    rewrite (G _ _ _ _ E). symmetry. eapply G. exact H. }
  destruct (c33_outcome x lag n Hn) as [[_ E]|[_ (naf0 & xi0 & E & _ & _ & _ & _ & V)]]; [congruence|]. assert (naf0 = naf) by congruence. subst naf0.
  split.
  - destruct (c33_outcome (delay s x) lag n Hn) as [[(tau & _ & B) _]|[_ (naf1 & xi1 & E1 & _ & _ & _ & _ & V1)]]; [rewrite delay_zlen in B by auto; lia|].
    exists naf1. split; [rewrite (XI _ _ _ _ E1) in E1; exact E1|]. intros r c Hr Hc. rewrite V, V1 by auto. apply AF_delay. auto.
  - destruct (c33_outcome (modulate n m x) lag n Hn) as [[(tau & _ & B) _]|[_ (naf1 & xi1 & E1 & _ & _ & _ & _ & V1)]]; [rewrite modulate_zlen in B by auto; lia|].
    exists naf1. split; [rewrite (XI _ _ _ _ E1) in E1; exact E1|]. intros r c Hr Hc. rewrite V, V1 by auto. apply AF_modulate.
Qed.

(** The Wigner-Ville distribution of a delayed signal is delayed. *)
Lemma c27_wvd_delay : forall x tx ty n s ox oy f t, 2 <= n -> 0 <= s ->
  wvd x (Some tx) (Some n) = Ok ox -> wvd (delay s x) (Some ty) (Some n) = Ok oy -> 0 <= f < n -> 0 <= t < zlen x ->
  at2 (r_tfr oy) f (t + s) = at2 (r_tfr ox) f t.
Proof.
  intros x tx ty n s ox oy f t Hn Hs Hx Hy Hf Ht. assert (N0 := zlen_nonneg x). rewrite (wvd_entry x tx n ox), (wvd_entry (delay s x) ty n oy) by (rewrite ?delay_zlen; auto; lia).
  unfold WV. rewrite delay_zlen by auto. rewrite (csum_incl (arange (- zlen x) (zlen x + 1))).
  - apply csum_ext. intros tau _. rewrite !sigf_delayed by auto. replace (t + s + tau - s) with (t + tau) by lia. replace (t + s - tau - s) with (t - tau) by lia. reflexivity.
  - apply NoDup_arange.
  - apply NoDup_arange.
  - intros k Hk. apply in_arange in Hk. apply in_arange. lia.
  - intros k Hk Nk. rewrite in_arange in Hk, Nk. rewrite !sigf_delayed by auto.
    assert (D : (t + s + k - s < 0 \/ zlen x <= t + s + k - s) \/ (t + s - k - s < 0 \/ zlen x <= t + s - k - s)) by lia.
    destruct D as [D|D]; rewrite (sigf_out x _ D), ?Cconj_R; ring.
Qed.

(** *** C112 *)
(** The pseudo Wigner-Ville distribution is the Wigner-Ville distribution convolved, in frequency, with the
    transform of the window. *)
Definition wtransform (w : list C) (n k : Z) : C :=
  let h := (zlen w - 1) / 2 in csum (arange (- h) (h + 1)) (fun tau => cnth w (h + tau) * root n (- (k * tau)))%C.
Lemma c112_smoothing : forall x ts n w o m tx ow f t, 2 <= n -> w <> [] -> (zlen w - 1) / 2 < round_half n ->
  pwvd x (Some ts) (Some n) (Some w) = Ok (o, m) -> wvd x (Some tx) (Some n) = Ok ow -> 0 <= f < n -> 0 <= t < ts_len ts -> t < zlen x ->
  let smooth := (csum (arange 0 n) (fun g => at2 (r_tfr ow) g t * wtransform w n (f - g)) / RtoC (IZR n))%C in
  at2 m f t = RtoC (Re smooth) /\ ((forall k, winf w (- k) = Cconj (winf w k)) -> at2 m f t = smooth).
Proof.
  intros x ts n w o m tx ow f t Hn Hw Hh H HW Hf Ht Htx smooth.
  destruct (c28_pwvd_closed_form x ts n w o m f t ltac:(lia) Hh H Hf Ht) as [E1 E2].
  assert (S : smooth = PWV x w n f t); [|rewrite S; auto]. clear E1 E2.
  assert (R := wvd_ret x tx n ow ltac:(lia) HW). destruct R as (_ & F & _). assert (NZ : RtoC (IZR n) <> RtoC 0) by (intros Q; apply RtoC_inj in Q; apply eq_IZR in Q; lia).
  assert (ZW : 1 <= zlen w) by (destruct w; [congruence|unfold zlen; cbn [length]; lia]). set (h := (zlen w - 1) / 2) in *.
  assert (H0 : 0 <= h) by (apply Z.div_pos; lia). assert (RB := round_half_bounds n).
  assert (K : csum (arange 0 n) (fun g => at2 (r_tfr ow) g t * wtransform w n (f - g))%C = (RtoC (IZR n) * csum (arange (- h) (h + 1)) (fun tau => winf w tau * (sigf x (t + tau) * Cconj (sigf x (t - tau))) * root n (- (f * tau))))%C).
  { rewrite (csum_ext _ _ (fun g => csum (arange (- h) (h + 1)) (fun tau => (winf w tau * root n (- (f * tau))) * (WV x n g t * root n (g * tau)))%C)).
    - rewrite csum_swap, <- csum_scal_l. apply csum_ext. intros tau It. apply in_arange in It. rewrite csum_scal_l, WV_inverse by (auto; lia). ring.
    - intros g Ig. apply in_arange in Ig. rewrite (wvd_entry x tx n ow) by (auto; lia). unfold wtransform. fold h. rewrite <- csum_scal_l. apply csum_ext. intros tau It. apply in_arange in It.
      replace (winf w tau) with (cnth w (h + tau)). 2:{ unfold winf. fold h. rewrite (proj2 (Z.leb_le (- h) tau)), (proj2 (Z.leb_le tau h)) by lia. reflexivity. }
      replace (- ((f - g) * tau)) with (- (f * tau) + g * tau) by ring. rewrite root_plus. ring. }
  unfold smooth. rewrite K. transitivity (csum (arange (- h) (h + 1)) (fun tau => winf w tau * (sigf x (t + tau) * Cconj (sigf x (t - tau))) * root n (- (f * tau)))%C); [field; auto|].
  unfold PWV. set (u := fun tau => (winf w tau * (sigf x (t + tau) * Cconj (sigf x (t - tau))) * root n (- (f * tau)))%C).
  set (M := Z.min h (zlen x)). transitivity (csum (arange (- M) (M + 1)) u).
  - apply csum_incl; try apply NoDup_arange.
    + intros k Hk. apply in_arange in Hk. apply in_arange. lia.
    + intros k Hk Nk. rewrite in_arange in Hk, Nk. unfold u.
      assert (D : (t + k < 0 \/ zlen x <= t + k) \/ (t - k < 0 \/ zlen x <= t - k)) by lia.
      destruct D as [D|D]; rewrite (sigf_out x _ D), ?Cconj_R; ring.
  - symmetry. apply csum_incl; try apply NoDup_arange.
    + intros k Hk. apply in_arange in Hk. apply in_arange. lia.
    + intros k Hk Nk. rewrite in_arange in Hk, Nk. unfold u. replace (winf w k) with (RtoC 0); [ring|]. unfold winf. fold h.
      destruct (Z.leb_spec (- h) k), (Z.leb_spec k h); cbn [andb]; try reflexivity. lia.
Qed.

(** Cases. *)
Example c110_example : exists o, wvd [RtoC 1; RtoC 0; Ci] None None = Ok o /\
  (csum (arange 0 3) (fun f => at2 (r_tfr o) f 1 * root 3 (f * 1)) / RtoC 3 = Ci)%C.
Proof.
  destruct (proj2 (c21_wvd_default [RtoC 1; RtoC 0; Ci] ltac:(discriminate))) as [o H]; [change (zlen _) with 3; cbn; lia|]. exists o. split; auto.
  assert (Q := c110_lag_products [RtoC 1; RtoC 0; Ci] (TsI (arange 0 3)) 3 o 2 0 ltac:(lia) H ltac:(change (zlen _) with 3; lia) ltac:(change (zlen _) with 3; lia) eq_refl).
  change ((2 + 0) / 2) with 1 in Q. change ((2 - 0) / 2) with 1 in Q. rewrite <- Q. eval_cnth. rewrite Cconj_R. ring.
Qed.
Example c111_example : exists o naf lag xi, wvd [RtoC 1; Ci] None None = Ok o /\ narrow_band [RtoC 1; Ci] None None = Ok (naf, lag, xi) /\ lag = [0] /\
  at2 naf 1 0 = RtoC 2 /\ (csum (arange 0 2) (fun t => csum (arange 0 2) (fun f => at2 (r_tfr o) f t)) = RtoC 4)%C.
Proof.
  destruct (proj2 (c21_wvd_default [RtoC 1; Ci] ltac:(discriminate))) as [o H]; [change (zlen _) with 2; cbn; lia|].
  destruct (c33_total [RtoC 1; Ci] [0] 2 ltac:(lia) ltac:(change (zlen _) with 2; lia)) as [[[naf lag] xi] HA]. assert (HL : lag = [0]).
  { destruct (c33_outcome [RtoC 1; Ci] [0] 2 ltac:(lia)) as [[_ E]|[_ (a & b & E & _)]]; congruence. }
  assert (EN : energy [RtoC 1; Ci] = 2%R). { unfold energy. rewrite !rsum_cons, rsum_nil, Cmod_1. replace (Cmod Ci) with 1%R; [ring|]. unfold Cmod, Ci. cbn [fst snd]. replace (0 ^ 2 + 1 ^ 2)%R with 1%R by ring. now rewrite sqrt_1. }
  assert (AO := proj1 (c33_origin_and_maximum [RtoC 1; Ci] [0] 2 naf lag xi ltac:(lia) HA) 0 ltac:(cbn; lia) eq_refl). change (2 / 2) with 1 in AO. rewrite EN in AO.
  exists o, naf, lag, xi. split; [exact H|]. split; [exact HA|]. split; [exact HL|]. split; [exact AO|].
  assert (Q := c111_fourier [RtoC 1; Ci] (TsI (arange 0 2)) 2 o [0] naf lag xi 1 0 ltac:(lia) H HA ltac:(lia) ltac:(cbn; lia)). cbv zeta in Q. change (nth (Z.to_nat 0) [0] 0) with 0 in Q. specialize (Q ltac:(lia)).
  rewrite AO in Q. change (zlen [RtoC 1; Ci]) with 2 in Q.
  rewrite (csum_ext _ (fun t => csum (arange 0 2) (fun f => at2 (r_tfr o) f t * root 2 (f * 0 - (1 - 2 / 2) * t))%C) (fun t => csum (arange 0 2) (fun f => at2 (r_tfr o) f t))) in Q.
  - set (S := csum _ _) in *. assert (N2 : RtoC (IZR 2) <> RtoC 0) by (intros E; apply RtoC_inj in E; lra). transitivity (S / RtoC (IZR 2) * RtoC (IZR 2))%C; [field; auto|]. rewrite <- Q, <- RtoC_mult. apply (f_equal RtoC). lra.
  - intros t _. apply csum_ext. intros f _. replace (f * 0 - (1 - 2 / 2) * t) with 0 by (change (2 / 2) with 1; ring). rewrite root_0. ring.
Qed.
Example c112_example : exists o m, pwvd [RtoC 1; Ci] None (Some 2) (Some [RtoC 1]) = Ok (o, m) /\ at2 m 0 1 = RtoC 1 /\ at2 m 1 1 = RtoC 1.
Proof.
  destruct (c28_pwvd_short_window_total [RtoC 1; Ci] (TsI (arange 0 2)) 2 [RtoC 1] ltac:(lia) ltac:(change (round_half 2) with 1; change ((zlen [RtoC 1] - 1) / 2) with 0; lia)) as (o & m & H). exists o, m. split; [exact H|].
  destruct (proj2 (c21_wvd_default [RtoC 1; Ci] ltac:(discriminate))) as [ow HW]; [change (zlen _) with 2; cbn; lia|].
  assert (G : forall f, 0 <= f < 2 -> at2 m f 1 = RtoC 1).
  { intros f Hf. destruct (c112_smoothing [RtoC 1; Ci] (TsI (arange 0 2)) 2 [RtoC 1] o m (TsI (arange 0 2)) ow f 1 ltac:(lia) ltac:(discriminate) ltac:(change (round_half 2) with 1; change ((zlen [RtoC 1] - 1) / 2) with 0; lia) H HW Hf ltac:(change (ts_len (TsI (arange 0 2))) with 2; lia) ltac:(change (zlen [RtoC 1; Ci]) with 2; lia)) as [E _].
    rewrite E. clear E. rewrite (csum_ext _ _ (fun g => at2 (r_tfr ow) g 1)).
    - rewrite (c23_wvd_time_marginal [RtoC 1; Ci] (TsI (arange 0 2)) 2 ow 1 ltac:(lia) HW) by (change (zlen [RtoC 1; Ci]) with 2; lia). eval_cnth. replace (Cmod Ci) with 1%R.
      + replace (RtoC (IZR 2 * 1 ^ 2) / RtoC (IZR 2))%C with (RtoC 1); [reflexivity|]. replace (IZR 2 * 1 ^ 2)%R with (IZR 2) by ring. field. intros E. apply RtoC_inj in E. lra.
      + unfold Cmod, Ci. cbn [fst snd]. replace (0 ^ 2 + 1 ^ 2)%R with 1%R by ring. now rewrite sqrt_1.
    - intros g _. unfold wtransform. change ((zlen [RtoC 1] - 1) / 2) with 0. change (arange (- 0) (0 + 1)) with [0]. rewrite csum_cons, csum_nil. rewrite Z.mul_0_r. change (- 0) with 0. rewrite root_0. change (cnth [RtoC 1] (0 + 0)) with (RtoC 1). ring. }
  split; apply G; lia.
Qed.
