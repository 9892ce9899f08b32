(** C132, continued: the volume of the narrow-band ambiguity function, the
    derivative of a window, the energy of the pseudo Wigner-Ville distribution
    and the mean time of a Gaussian. *)
From Coq Require Import Reals ZArith List Lia Lra Bool.
From Coquelicot Require Import Coquelicot.
From Verif Require Import Py Scalars CSum DFT Spec M_base M_utils M_putils M_stft M_cohen M_amb M_dom M_gen1
  P_base P_stft P_wvd T_wvd T_stft T_pwvd T_amb T_dom T_putils T_gen1 M_gallery.
Import ListNotations.
Local Open Scope Z_scope.

(** *** test_ambiguity.py, test_volume_invariance *)
Lemma filter_split (x : list C) (l : list Z) (g : Z -> R) :
  (rsum (filter (fun k => Bool.eqb (Z.odd k) false) l) g + rsum (filter (fun k => Bool.eqb (Z.odd k) true) l) g)%R = rsum l g.
Proof.
  induction l as [|a l IH]; [cbn; ring|]. cbn [filter]. rewrite (rsum_cons a l). destruct (Z.odd a); cbn [Bool.eqb]; rewrite rsum_cons, <- IH; ring.
Qed.
Lemma parity_total x : (parity_energy false x + parity_energy true x)%R = energy x.
Proof. unfold parity_energy. rewrite energy_nth. exact (filter_split x _ _). Qed.
(** The squared modulus at the origin equals the volume divided by half the number of bins
    (what the test asserts) exactly when the even and the odd samples hold the same energy. *)
Lemma c132_volume : forall x nf naf lag xi c, 1 <= nf -> narrow_band x None (Some nf) = Ok (naf, lag, xi) ->
  0 <= c < zlen lag -> nth (Z.to_nat c) lag 0 = 0 ->
  let volume := rsum (arange 0 (zlen lag)) (fun c => rsum (arange 0 nf) (fun r => Cmod (at2 naf r c) ^ 2))%R in
  (Cmod (at2 naf (nf / 2) c) ^ 2 <= volume / (IZR nf / 2))%R /\
  (Cmod (at2 naf (nf / 2) c) ^ 2 = volume / (IZR nf / 2) <-> parity_energy false x = parity_energy true x)%R.
Proof.
  intros x nf naf lag xi c Hn H Hc HL volume. assert (V := c35_volume x nf naf lag xi Hn H). fold volume in V. rewrite V. clear V volume.
  assert (H' : narrow_band x (Some (nb_lags (zlen x))) (Some nf) = Ok (naf, lag, xi)) by exact H.
  assert (LL : lag = nb_lags (zlen x)).
  { destruct (c33_outcome x (nb_lags (zlen x)) nf Hn) as [[_ E]|[_ (naf' & xi' & E & _)]]; congruence. }
  rewrite LL in HL, Hc. rewrite (proj1 (c33_origin_and_maximum x _ nf naf lag xi Hn H') c Hc HL). rewrite Cmod_R, Rabs_pos_eq by apply energy_nonneg.
  rewrite <- parity_total. set (a := parity_energy false x). set (b := parity_energy true x). assert (0 < IZR nf)%R by (apply IZR_lt; lia).
  replace (IZR nf * (a ^ 2 + b ^ 2) / (IZR nf / 2))%R with (2 * (a ^ 2 + b ^ 2))%R by (field; lra).
  assert (SQ := pow2_ge_0 (a - b)). split; [nra|]. split; intros E; [|rewrite E; ring].
  assert (Z0 : ((a - b) ^ 2 = 0)%R) by nra. destruct (Req_dec (a - b) 0) as [|NE]; [lra|]. assert (Q := pow_nonzero (a - b) 2 NE). lra.
Qed.
(** It does not hold for every signal: a single sample. *)
Lemma c132_volume_refuted : exists x naf lag xi c, narrow_band x None (Some 2) = Ok (naf, lag, xi) /\ nth (Z.to_nat c) lag 0 = 0 /\ 0 <= c < zlen lag /\
  (Cmod (at2 naf (2 / 2) c) ^ 2 < rsum (arange 0 (zlen lag)) (fun c => rsum (arange 0 2) (fun r => Cmod (at2 naf r c) ^ 2)) / (IZR 2 / 2))%R.
Proof.
  destruct (c33_outcome [RtoC 1] (nb_lags 1) 2 ltac:(lia)) as [[B _]|[_ (naf & xi & E & _)]].
  - exfalso. destruct B as (tau & I & _ & B). change (nb_lags 1) with [0] in I. destruct I as [<-|[]]. cbn in B. lia.
  - exists [RtoC 1], naf, (nb_lags 1), xi, 0.
    assert (H : narrow_band [RtoC 1] None (Some 2) = Ok (naf, nb_lags 1, xi)) by exact E.
    assert (L1 : nb_lags 1 = [0]) by reflexivity. 
    destruct (c132_volume _ 2 naf _ xi 0 ltac:(lia) H) as [A B]; [rewrite L1; cbn; lia|rewrite L1; reflexivity|].
    split; [exact H|]. split; [rewrite L1; reflexivity|]. split; [rewrite L1; cbn; lia|].
    destruct A as [A|A]; [exact A|]. exfalso. apply B in A. revert A. unfold parity_energy. change (arange 0 (zlen [RtoC 1])) with [0]. cbn [filter Z.odd Bool.eqb]. rewrite rsum_cons, !rsum_nil. unfold cnth. cbn [Z.to_nat nth]. rewrite Cmod_R, Rabs_R1. lra.
Qed.

(** *** test_utils.py, test_derive_window *)
(** [derive_window] of a real window which is symmetric, does not decrease up to its
    centre and is not negative: not negative before the centre, zero there, not positive after. *)
Lemma c132_derive : forall (w : list R) dw, 3 <= zlen w -> Z.odd (zlen w) = true -> derive_window (map RtoC w) = Ok (Some dw) ->
  (forall k, 0 <= k < zlen w -> rnth w k = rnth w (zlen w - 1 - k)) -> (0 <= rnth w 0)%R ->
  (forall k, 0 <= k -> k + 1 <= (zlen w - 1) / 2 -> (rnth w k <= rnth w (k + 1))%R) ->
  let c := (zlen w - 1) / 2 in
  (forall k, 0 <= k < zlen w -> Im (cnth dw k) = 0%R) /\
  (forall k, 0 <= k < c -> (0 <= Re (cnth dw k))%R) /\ cnth dw c = RtoC 0 /\ (forall k, c < k < zlen w -> (Re (cnth dw k) <= 0)%R).
Proof.
  intros w dw Hl Ho H HS H0 HM c. assert (LZ : zlen (map RtoC w) = zlen w) by (unfold zlen; now rewrite map_length).
  assert (AT : forall k, cnth (map RtoC w) k = RtoC (rnth w k)) by (intros k; unfold cnth, rnth; exact (map_nth RtoC w 0%R _)).
  assert (HC : zlen w = 2 * c + 1). { apply Z.odd_spec in Ho. destruct Ho as [q Hq]. unfold c. rewrite Hq. replace (2 * q + 1 - 1) with (q * 2) by lia. rewrite Z.div_mul; lia. }
  destruct (c48_formula (map RtoC w)) as (dw' & E & L & Hi & HA & HB); [lia|]. assert (dw' = dw) by congruence. subst dw'. clear E H.
  rewrite LZ in *. assert (R0 : dw_ramp (map RtoC w) = RtoC 0).
  { unfold dw_ramp. rewrite LZ, !AT. rewrite (HS 0) by lia. rewrite Z.sub_0_r. unfold Cdiv. ring. }
  rewrite R0, !AT in HA, HB.
  assert (HA' : cnth dw 0 = RtoC ((rnth w 0 + rnth w 1) / 2)). { rewrite HA. apply injective_projections; cbn; field. }
  assert (HB' : cnth dw (zlen w - 1) = RtoC (- (rnth w (zlen w - 2) + rnth w (zlen w - 1)) / 2)). { rewrite HB. apply injective_projections; cbn; field. }
  assert (Hi' : forall k, 1 <= k < zlen w - 1 -> cnth dw k = RtoC ((rnth w (k + 1) - rnth w (k - 1)) / 2)). { intros k Hk. rewrite Hi by auto. rewrite !AT. apply injective_projections; cbn; field. }
  assert (UP : forall j k, 0 <= j <= k -> k <= c -> (rnth w j <= rnth w k)%R).
  { intros j k Hjk Hk. replace k with (j + Z.of_nat (Z.to_nat (k - j))) by lia. assert (B : Z.of_nat (Z.to_nat (k - j)) <= k - j) by lia. induction (Z.to_nat (k - j)) as [|q IH]; [rewrite Z.add_0_r; lra|].
    apply Rle_trans with (rnth w (j + Z.of_nat q)); [apply IH; lia|]. replace (j + Z.of_nat (S q)) with (j + Z.of_nat q + 1) by lia. apply HM; [lia|fold c; lia]. }
  split; [|split; [|split]].
  - intros k Hk. destruct (Z.eq_dec k 0) as [->|]; [now rewrite HA'|]. destruct (Z.eq_dec k (zlen w - 1)) as [->|]; [now rewrite HB'|]. now rewrite Hi' by lia.
  - intros k Hk. destruct (Z.eq_dec k 0) as [->|].
    + rewrite HA'. cbn. assert (Q := UP 0 1 ltac:(lia) ltac:(lia)). lra.
    + rewrite Hi' by lia. cbn. assert (Q := UP (k - 1) (k + 1) ltac:(lia)). destruct (Z.eq_dec k c); [lia|]. specialize (Q ltac:(lia)). lra.
  - rewrite Hi' by lia. rewrite (HS (c + 1)) by lia. replace (zlen w - 1 - (c + 1)) with (c - 1) by lia. apply (f_equal RtoC). field.
  - intros k Hk. destruct (Z.eq_dec k (zlen w - 1)) as [->|].
    + rewrite HB'. cbn. rewrite (HS (zlen w - 2)), (HS (zlen w - 1)) by lia. replace (zlen w - 1 - (zlen w - 2)) with 1 by lia. replace (zlen w - 1 - (zlen w - 1)) with 0 by lia. assert (Q := UP 0 1 ltac:(lia) ltac:(lia)). lra.
    + rewrite Hi' by lia. cbn. rewrite (HS (k + 1)), (HS (k - 1)) by lia. assert (Q := UP (zlen w - 1 - (k + 1)) (zlen w - 1 - (k - 1)) ltac:(lia) ltac:(lia)). lra.
Qed.

(** *** test_cohen.py, test_pseudo_wv_energy *)
Lemma c132_pwvd_energy : forall x n w o m, 1 <= n -> w <> [] ->
  pwvd x (Some (TsI (arange 0 (zlen x)))) (Some n) (Some w) = Ok (o, m) ->
  csum (arange 0 (zlen x)) (fun t => csum (arange 0 n) (fun f => at2 m f t)) = RtoC (IZR n * Re (cnth w ((zlen w - 1) / 2)) * energy x).
Proof.
  intros x n w o m Hn Hw H. assert (NX := zlen_nonneg x).
  rewrite (csum_ext _ _ (fun t => RtoC (IZR n * (Re (cnth w ((zlen w - 1) / 2)) * Cmod (cnth x t) ^ 2)))).
  2:{ intros t Ht. apply in_arange in Ht. apply (c28_pwvd_marginal x (TsI (arange 0 (zlen x))) n w o m t Hn Hw H); [cbn [ts_len]; rewrite arange_zlen; lia|lia]. }
  rewrite <- RtoC_rsum. apply (f_equal RtoC). rewrite energy_nth, <- rsum_scal_l. apply rsum_ext. intros. ring.
Qed.

(** *** test_time_domain.py, test_loctime *)
(** The mean time of a Gaussian centred on sample t (counted from 1) is t - 1 when the signal extends equally
    far on both sides, and more as soon as it extends further on the right. *)
Lemma sym_sum (p : Z -> R) c : 0 <= c -> (forall j, 0 <= j <= c -> p (c - j) = p (c + j)) ->
  rsum (arange 0 (2 * c + 1)) (fun k => IZR (k - c) * p k)%R = 0%R.
Proof.
  intros Hc HP. assert (E : rsum (arange 0 (2 * c + 1)) (fun k => IZR (k - c) * p k)%R = (- rsum (arange 0 (2 * c + 1)) (fun k => IZR (k - c) * p k))%R); [|lra].
  rewrite (rsum_arange_rev 0 (2 * c + 1)) at 1. replace (- _)%R with ((-1) * rsum (arange 0 (2 * c + 1)) (fun k => IZR (k - c) * p k))%R by ring. rewrite <- rsum_scal_l. apply rsum_ext. intros k Hk. apply in_arange in Hk.
  assert (E : p (2 * c + 1 - 1 - k) = p k). { destruct (Z_le_gt_dec k c) as [L|L]; [specialize (HP (c - k) ltac:(lia)); replace (c - (c - k)) with k in HP by lia; rewrite HP; f_equal; lia|specialize (HP (k - c) ltac:(lia)); replace (c + (k - c)) with k in HP by lia; rewrite <- HP; f_equal; lia]. }
  replace (0 + (2 * c + 1) - 1 - k) with (2 * c + 1 - 1 - k) by lia. rewrite E. replace (2 * c + 1 - 1 - k - c) with (- (k - c)) by lia. rewrite opp_IZR. ring.
Qed.
Lemma c132_loctime : forall n t s, 1 <= t -> 2 * t - 1 <= n -> (0 < s)%R -> exists y tm T,
  amgauss n (Some (IZR t)) (Some s) = Ok (map Some y) /\ loctime (map RtoC y) = Ok (Some (tm, T)) /\
  (n = 2 * t - 1 -> tm = IZR (t - 1)) /\ (2 * t - 1 < n -> (IZR (t - 1) < tm)%R).
Proof.
  intros n t s Ht Hn Hs. assert (HP := PI_RGT_0). destruct (c53_amgauss n (IZR t) s ltac:(lia) Hs) as (y & E & L & _ & V).
  set (x := map RtoC y). assert (LX : zlen x = n) by (unfold x, zlen; rewrite map_length; exact L).
  assert (AT : forall k, 0 <= k < n -> (Cmod (cnth x k) ^ 2 = exp (- PI * (IZR (k - (t - 1)) / s) ^ 2) ^ 2)%R).
  { intros k Hk. unfold x, cnth. change (RtoC 0) with (RtoC 0%R). rewrite (map_nth RtoC y 0%R). change (nth (Z.to_nat k) y 0%R) with (rnth y k). rewrite V by auto. rewrite Cmod_R, Rabs_pos_eq by (left; apply exp_pos). replace (IZR k - (IZR t - 1))%R with (IZR (k - (t - 1))) by (rewrite !minus_IZR; ring). reflexivity. }
  set (p := fun k : Z => (exp (- PI * (IZR (k - (t - 1)) / s) ^ 2) ^ 2)%R).
  assert (PP : forall k, (0 < p k)%R) by (intros; apply pow_lt, exp_pos).
  assert (EN : energy x = rsum (arange 0 n) p). { rewrite energy_nth, LX. apply rsum_ext. intros k Hk. apply in_arange in Hk. apply AT. lia. }
  assert (EP : (0 < energy x)%R). { rewrite EN. rewrite (arange_cons 0 n), rsum_cons by lia. assert (Q := PP 0). assert (Q2 : (0 <= rsum (arange (0 + 1) n) p)%R) by (apply rsum_nonneg; intros; left; apply PP). lra. }
  exists y, (tcentre x), (tspread x). split; [exact E|]. split. { fold x. rewrite c49_formula. destruct (Req_EM_T (energy x) 0); [lra|reflexivity]. }
  assert (D : (tcentre x - IZR (t - 1) = rsum (arange 0 n) (fun k => IZR (k - (t - 1)) * p k) / energy x)%R).
  { unfold tcentre. rewrite LX. rewrite (rsum_ext _ (fun k => IZR (k - (t - 1)) * p k)%R (fun k => IZR k * Cmod (cnth x k) ^ 2 + (- IZR (t - 1)) * p k)%R).
    - rewrite rsum_plus, rsum_scal_l, <- EN. field. lra.
    - intros k Hk. apply in_arange in Hk. rewrite AT by lia. fold (p k). rewrite (minus_IZR k). ring. }
  assert (S0 : rsum (arange 0 (2 * (t - 1) + 1)) (fun k => IZR (k - (t - 1)) * p k)%R = 0%R).
  { apply sym_sum; [lia|]. intros j Hj. unfold p. replace (t - 1 - j - (t - 1)) with (- j) by lia. replace (t - 1 + j - (t - 1)) with j by lia. rewrite opp_IZR. do 2 f_equal. field. lra. }
  split; intros HN.
  - replace n with (2 * (t - 1) + 1) in D by lia. rewrite S0 in D. unfold Rdiv in D. lra.
  - rewrite (arange_app 0 (2 * (t - 1) + 1) n), rsum_app, S0 in D by lia. rewrite (arange_cons (2 * (t - 1) + 1)), rsum_cons in D by lia.
    assert (Q : (0 < rsum (arange (2 * (t - 1) + 1 + 1) n) (fun k => IZR (k - (t - 1)) * p k) + IZR (2 * (t - 1) + 1 - (t - 1)) * p (2 * (t - 1) + 1)%Z)%R).
    { apply Rplus_le_lt_0_compat; [apply rsum_nonneg; intros k Hk; apply in_arange in Hk; apply Rmult_le_pos; [apply IZR_le; lia|left; apply PP]|apply Rmult_lt_0_compat; [apply IZR_lt; lia|apply PP]]. }
    assert (Q2 := Rdiv_lt_0_compat _ _ Q EP). rewrite (Rplus_comm (rsum _ _)) in Q2. rewrite Rplus_0_l in D. lra.
Qed.
