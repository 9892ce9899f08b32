(** C115, C116: integer divisions and the default band in double precision. *)
From Coq Require Import Reals ZArith List Lia Lra Bool.
From Coquelicot Require Import Coquelicot.
From Flocq Require Import Core Relative.
From Verif Require Import Py Scalars M_utils M_gen1 M_gen2 M_aff M_fp T_utils T_fp T_plot.
Import ListNotations.
Local Open Scope Z_scope.

Lemma b64_err x e : (0 < x)%R -> (x < bpow radix2 e)%R -> (Rabs (b64 x - x) <= bpow radix2 (e - 54))%R.
Proof.
  intros H0 XE. assert (V : Valid_exp (FLX_exp 53)) by (apply FLX_exp_valid; reflexivity).
  assert (N := error_le_half_ulp radix2 (FLX_exp 53) (fun t => negb (Z.even t)) x). fold (b64 x) in N. 
  assert (U : (ulp radix2 (FLX_exp 53) x <= bpow radix2 (e - 53))%R).
  { rewrite ulp_neq_0 by lra. apply bpow_le. unfold cexp, FLX_exp. assert (M : mag radix2 x <= e) by (apply mag_le_bpow; [lra|rewrite Rabs_right; lra]). lia. }
  assert (B : (bpow radix2 (e - 53) = 2 * bpow radix2 (e - 54))%R) by (replace (e - 53) with (1 + (e - 54)) by lia; rewrite bpow_plus; reflexivity).
  lra.
Qed.
(** The quotient of two integers below 2^53 that is not an integer stays strictly between its
    two integer neighbours. *)
Lemma quotient_strict a b : 0 <= a < 2 ^ 53 -> 0 < b < 2 ^ 53 -> a mod b <> 0 ->
  (IZR (a / b) < b64 (IZR a / IZR b) < IZR (a / b) + 1)%R.
Proof.
  intros Ha Hb Hr. assert (DM := Z.div_mod a b ltac:(lia)). assert (MB := Z.mod_pos_bound a b ltac:(lia)). set (q := a / b) in *. set (r := a mod b) in *.
  assert (Q0 : 0 <= q) by (apply Z.div_pos; lia). assert (B0 : (0 < IZR b)%R) by (apply IZR_lt; lia).
  assert (X : (IZR a / IZR b = IZR q + IZR r / IZR b)%R) by (rewrite DM, plus_IZR, mult_IZR; field; lra).
  assert (R1 : (1 <= IZR r <= IZR b - 1)%R) by (rewrite <- minus_IZR; split; apply IZR_le; lia).
  assert (QR : (0 <= IZR q)%R) by (apply IZR_le; lia).
  assert (I1 : (/ IZR b <= IZR r / IZR b <= 1 - / IZR b)%R).
  { assert (P : (0 < / IZR b)%R) by now apply Rinv_0_lt_compat. assert (E : (IZR b * / IZR b = 1)%R) by (apply Rinv_r; lra). unfold Rdiv. split; nra. }
  assert (EX : exists e, 0 <= e /\ q + 1 <= 2 ^ e /\ b * 2 ^ e < 2 ^ 54).
  { destruct (Z.eq_dec q 0) as [E|E].
    - exists 0. rewrite E. cbn. lia.
    - exists (Z.log2 q + 1). destruct (Z.log2_spec q ltac:(lia)) as [L1 L2]. assert (L0 := Z.log2_nonneg q). assert (PW : 2 ^ (Z.log2 q + 1) = 2 * 2 ^ Z.log2 q) by (rewrite Z.pow_add_r by lia; ring).
      replace (Z.succ (Z.log2 q)) with (Z.log2 q + 1) in L2 by lia. rewrite PW in *. set (P := 2 ^ Z.log2 q) in *. clearbody P. split; [lia|]. split; [lia|]. assert (B2 : b * P <= b * q) by (apply Z.mul_le_mono_nonneg_l; lia). assert (B3 : b * q < 2 ^ 53) by lia. replace (b * (2 * P)) with (2 * (b * P)) by ring. lia. }
  destruct EX as (e & He & Qe & Be).
  assert (PE : IZR (2 ^ e) = bpow radix2 e) by (rewrite <- IZR_Zpower by lia; reflexivity).
  assert (SM : (bpow radix2 (e - 54) < / IZR b)%R).
  { apply IZR_lt in Be. rewrite mult_IZR, PE in Be. change (IZR (2 ^ 54)) with (bpow radix2 54) in Be. assert (S54 : (bpow radix2 (e - 54) * bpow radix2 54 = bpow radix2 e)%R) by (rewrite <- bpow_plus; f_equal; lia).
    apply (Rmult_lt_reg_r (IZR b)); auto. rewrite Rinv_l by lra. apply (Rmult_lt_reg_r (bpow radix2 54)); [apply bpow_gt_0|]. rewrite Rmult_1_l. replace (bpow radix2 (e - 54) * IZR b * bpow radix2 54)%R with (IZR b * (bpow radix2 (e - 54) * bpow radix2 54))%R by ring. now rewrite S54. }
  assert (IB : (0 < / IZR b)%R) by now apply Rinv_0_lt_compat.
  assert (XE : (IZR a / IZR b < bpow radix2 e)%R). { rewrite X, <- PE. apply Rlt_le_trans with (IZR (q + 1)); [rewrite plus_IZR; lra|apply IZR_le; lia]. }
  assert (N := b64_err (IZR a / IZR b) e ltac:(lra) XE). apply Rabs_le_inv in N. lra.
Qed.
Lemma quotient_exact a b : 0 <= a < 2 ^ 53 -> 0 < b -> a mod b = 0 -> b64 (IZR a / IZR b) = IZR (a / b).
Proof.
  intros Ha Hb Hr. assert (DM := Z.div_mod a b ltac:(lia)). assert (B0 : (0 < IZR b)%R) by (apply IZR_lt; lia). assert (Q0 : 0 <= a / b) by (apply Z.div_pos; lia).
  replace (IZR a / IZR b)%R with (IZR (a / b)); [apply b64_int; nia|]. rewrite DM at 2. rewrite Hr, Z.add_0_r, mult_IZR. field. lra.
Qed.
(** int(a / float(b)) is the integer quotient. *)
Lemma c115_int : forall a b, 0 <= a < 2 ^ 53 -> 0 < b < 2 ^ 53 -> quot64 a b = a / b.
Proof.
  intros a b Ha Hb. unfold quot64. rewrite !b64_int by lia. assert (Q0 : 0 <= a / b) by (apply Z.div_pos; lia). assert (QR : (0 <= IZR (a / b))%R) by (apply IZR_le; lia).
  destruct (Z.eq_dec (a mod b) 0) as [E|E]; [rewrite quotient_exact by (auto; lia); apply Ztrunc_IZR|].
  assert (S := quotient_strict a b Ha Hb E). apply Ztrunc_between; [lra|]. rewrite plus_IZR. lra.
Qed.
(** int(np.ceil(a / b)) is the quotient rounded up. *)
Lemma c115_ceil : forall a b, 0 <= a < 2 ^ 53 -> 0 < b < 2 ^ 53 -> ceil64 a b = - (- a / b).
Proof.
  intros a b Ha Hb. unfold ceil64. rewrite !b64_int by lia. 
  destruct (Z.eq_dec (a mod b) 0) as [E|E].
  - rewrite quotient_exact by (auto; lia). rewrite Zceil_IZR, Z.div_opp_l_z by lia. lia.
  - assert (S := quotient_strict a b Ha Hb E). rewrite Z.div_opp_l_nz by lia. rewrite (Zceil_imp (a / b + 1)); [lia|]. replace (a / b + 1 - 1) with (a / b) by lia. rewrite plus_IZR. lra.
Qed.
(** round(a / 2.0) and round(a / 5.0), the default lengths of a symbol. *)
Lemma c115_half : forall a, 0 <= a < 2 ^ 53 -> near64 a 2 = ZnearestE (IZR a / 2).
Proof.
  intros a Ha. unfold near64. rewrite !b64_int by lia. replace (IZR a / 2)%R with (IZR a * bpow radix2 (-1))%R by reflexivity. now rewrite b64_repr by lia.
Qed.
Lemma c115_fifth : forall a, 0 <= a < 2 ^ 52 -> near64 a 5 = ZnearestE (IZR a / 5).
Proof.
  intros a Ha. unfold near64. rewrite !b64_int by lia. destruct (Z.eq_dec (a mod 5) 0) as [E|E].
  { rewrite quotient_exact by lia. f_equal. assert (DM := Z.div_mod a 5 ltac:(lia)). rewrite DM at 2. rewrite E, Z.add_0_r, mult_IZR. field. }
  assert (DM := Z.div_mod a 5 ltac:(lia)). assert (MB := Z.mod_pos_bound a 5 ltac:(lia)). set (q := a / 5) in *. set (r := a mod 5) in *.
  assert (Q0 : 0 <= q) by (apply Z.div_pos; lia). assert (QR : (0 <= IZR q)%R) by (apply IZR_le; lia).
  assert (X : (IZR a / 5 = IZR q + IZR r / 5)%R) by (rewrite DM, plus_IZR, mult_IZR; field).
  assert (XE : (IZR a / 5 < bpow radix2 50)%R). { change (bpow radix2 50) with (IZR (2 ^ 50)). assert (IZR a < IZR (2 ^ 52))%R by (apply IZR_lt; lia). change (IZR (2 ^ 52)) with 4503599627370496%R in *. change (IZR (2 ^ 50)) with 1125899906842624%R. lra. }
  assert (R1 : (1 <= IZR r)%R) by (apply IZR_le; lia). assert (N := b64_err (IZR a / 5) 50 ltac:(lra) XE). change (50 - 54) with (-4) in N. change (bpow radix2 (-4)) with (/ 16)%R in N. apply Rabs_le_inv in N.
  assert (G : forall c, (IZR r / 5 - (c : R) = IZR r / 5 - c)%R) by (intros; reflexivity). clear G.
  assert (D : r = 1 \/ r = 2 \/ r = 3 \/ r = 4) by lia. rewrite X in *. clearbody r q.
  destruct D as [-> | [-> | [-> | ->]]]; [rewrite (Znearest_imp _ (IZR q + 1 / 5) q) by (apply Rabs_lt; lra)|rewrite (Znearest_imp _ (IZR q + 2 / 5) q) by (apply Rabs_lt; lra)|rewrite (Znearest_imp _ (IZR q + 3 / 5) (q + 1)) by (rewrite plus_IZR; apply Rabs_lt; lra)|rewrite (Znearest_imp _ (IZR q + 4 / 5) (q + 1)) by (rewrite plus_IZR; apply Rabs_lt; lra)];
  apply Znearest_imp; rewrite ?plus_IZR; apply Rabs_lt; lra.
Qed.
(** Beyond 2^53 the operands themselves are rounded. *)
Lemma c115_refuted : exists a b, 0 < b < 2 ^ 53 /\ quot64 a b <> a / b.
Proof.
  exists (2 ^ 53 + 1), 1. split; [lia|]. rewrite Z.div_1_r. unfold quot64. rewrite (b64_int 1) by lia. unfold Rdiv. rewrite Rinv_1, Rmult_1_r.
  assert (E : b64 (IZR (2 ^ 53 + 1)) = IZR (2 ^ 53)).
  { unfold b64, round, F2R, scaled_mantissa, cexp. cbn [Fnum Fexp]. change (IZR (2 ^ 53 + 1)) with 9007199254740993%R.
    assert (M : (mag radix2 9007199254740993 : Z) = 54).
    { apply mag_unique_pos. change (54 - 1) with 53. change (bpow radix2 53) with 9007199254740992%R. change (bpow radix2 54) with 18014398509481984%R. lra. }
    rewrite M. unfold FLX_exp. change (54 - 53) with 1. change (- (1)) with (-1). change (bpow radix2 (-1)) with (/ 2)%R. change (bpow radix2 1) with 2%R.
    replace (ZnearestE (9007199254740993 * / 2)) with 4503599627370496; [rewrite <- mult_IZR; reflexivity|].
    unfold Znearest. rewrite (Zfloor_imp 4503599627370496) by (cbn; lra). rewrite Rcompare_Eq by lra. reflexivity. }
  rewrite E. replace (IZR (2 ^ 53)) with (IZR (2 ^ 52) * bpow radix2 1)%R by (change (bpow radix2 1) with (IZR 2); rewrite <- mult_IZR; reflexivity). rewrite b64_repr by lia.
  change (bpow radix2 1) with (IZR 2). rewrite <- mult_IZR, Ztrunc_IZR. lia.
Qed.
Example c115_example : quot64 1000 3 = 333 /\ ceil64 1000 3 = 334 /\ near64 12 5 = 2.
Proof.
  split; [rewrite c115_int by lia; reflexivity|]. split; [rewrite c115_ceil by lia; reflexivity|]. rewrite c115_fifth by lia. apply Znearest_imp. apply Rabs_lt. lra.
Qed.

(** *** C116 *)
Definition u53 : R := bpow radix2 (-53).
Lemma u53_val : (u53 * 9007199254740992 = 1)%R.
Proof. unfold u53. change 9007199254740992%R with (bpow radix2 53). rewrite <- bpow_plus. reflexivity. Qed.
Lemma rel_mul a d p : (0 <= p <= 100)%R -> (Rabs (a - 1) <= p * u53)%R -> (Rabs d <= u53)%R -> (Rabs (a * (1 + d) - 1) <= (p + 2) * u53)%R.
Proof. intros Hp Ha Hd. assert (U := u53_val). assert (U0 : (0 < u53)%R) by apply bpow_gt_0. apply Rabs_le_inv in Ha, Hd. apply Rabs_le. nra. Qed.
Lemma rel_div a d p : (0 <= p <= 100)%R -> (Rabs (a - 1) <= p * u53)%R -> (Rabs d <= u53)%R -> (Rabs (a / (1 + d) - 1) <= (p + 2) * u53)%R.
Proof.
  intros Hp Ha Hd. assert (U := u53_val). assert (U0 : (0 < u53)%R) by apply bpow_gt_0. apply Rabs_le_inv in Ha, Hd. assert (D : (0 < 1 + d)%R) by lra.
  assert (E : (a / (1 + d) * (1 + d) = a)%R) by (field; lra). set (q := (a / (1 + d))%R) in *. clearbody q. apply Rabs_le. split; apply (Rmult_le_reg_r (1 + d)); auto; nra.
Qed.
Lemma cells_rel m k : 1 <= m -> 0 <= k -> exists t, (Rabs (t - 1) <= 8 * u53)%R /\ cells64 m k = (10 * IZR k / IZR m * t)%R.
Proof.
  intros Hm Hk. assert (M0 : (0 < IZR m)%R) by (apply IZR_lt; lia). assert (U := u53_val). assert (U0 : (0 < u53)%R) by apply bpow_gt_0.
  unfold cells64, freq64, d05. destruct (b64_rel (1 / 2 / IZR m)) as (d1 & H1 & ->). destruct (b64_rel (IZR k * (1 / 2 / IZR m * (1 + d1)))) as (d2 & H2 & ->). destruct (b64_rel (5 / 100)) as (d3 & H3 & ->).
  match goal with |- context [b64 ?x] => destruct (b64_rel x) as (d4 & H4 & ->) end. fold u53 in H1, H2, H3, H4.
  exists ((1 + d1) * (1 + d2) * (1 + d4) / (1 + d3))%R. split.
  - assert (A1 : (Rabs ((1 + d1) - 1) <= 1 * u53)%R) by (replace (1 + d1 - 1)%R with d1 by ring; lra).
    assert (A2 := rel_mul _ d2 1 ltac:(lra) A1 H2). assert (A3 := rel_mul _ d4 (1 + 2) ltac:(lra) A2 H4). assert (A4 := rel_div _ d3 (1 + 2 + 2) ltac:(lra) A3 H3). lra.
  - apply Rabs_le_inv in H3. field. split; lra.
Qed.
Lemma cells_close m k : 1 <= m -> 0 <= k < m -> (Rabs (cells64 m k - 10 * IZR k / IZR m) <= 80 * u53)%R.
Proof.
  intros Hm Hk. destruct (cells_rel m k Hm ltac:(lia)) as (t & Ht & ->). assert (M0 : (0 < IZR m)%R) by (apply IZR_lt; lia). assert (U0 : (0 < u53)%R) by apply bpow_gt_0.
  assert (X : (0 <= 10 * IZR k / IZR m <= 10)%R). { assert (0 <= IZR k <= IZR m)%R by (split; apply IZR_le; lia). split; [apply Rdiv_le_0_compat; lra|]. apply (Rmult_le_reg_r (IZR m)); auto. unfold Rdiv. rewrite Rmult_assoc, Rinv_l by lra. lra. }
  set (x := (10 * IZR k / IZR m)%R) in *. clearbody x. apply Rabs_le_inv in Ht. apply Rabs_le. nra.
Qed.
(** When 10 k / m is not an integer the band is that of exact arithmetic. *)
Lemma c116_interior : forall m k, 1 <= m <= 2 ^ 40 -> 0 <= k < m -> (10 * k) mod m <> 0 ->
  Zfloor (cells64 m k) = Zfloor (10 * IZR k / IZR m) /\ Zceil (cells64 m k) = Zceil (10 * IZR k / IZR m).
Proof.
  intros m k Hm Hk NZ. assert (CL := cells_close m k ltac:(lia) Hk). assert (U := u53_val). assert (U0 : (0 < u53)%R) by apply bpow_gt_0. assert (M0 : (0 < IZR m)%R) by (apply IZR_lt; lia).
  assert (DM := Z.div_mod (10 * k) m ltac:(lia)). assert (MB := Z.mod_pos_bound (10 * k) m ltac:(lia)). set (q := 10 * k / m) in *. set (r := (10 * k) mod m) in *.
  assert (X : (10 * IZR k / IZR m = IZR q + IZR r / IZR m)%R) by (rewrite <- mult_IZR, DM, plus_IZR, mult_IZR; field; lra).
  assert (R1 : (1 <= IZR r <= IZR m - 1)%R) by (rewrite <- minus_IZR; split; apply IZR_le; lia).
  assert (IM : (90 * u53 < / IZR m)%R). { apply (Rmult_lt_reg_r (IZR m)); auto. rewrite Rinv_l by lra. assert (IZR m <= IZR (2 ^ 40))%R by (apply IZR_le; lia). change (IZR (2 ^ 40)) with 1099511627776%R in *. nra. }
  assert (I1 : (/ IZR m <= IZR r / IZR m <= 1 - / IZR m)%R).
  { assert (P : (0 < / IZR m)%R) by now apply Rinv_0_lt_compat. assert (E : (IZR m * / IZR m = 1)%R) by (apply Rinv_r; lra). unfold Rdiv. split; nra. }
  rewrite X in *. set (y := (IZR r / IZR m)%R) in *. clearbody y. apply Rabs_le_inv in CL. split.
  - rewrite (Zfloor_imp q (IZR q + y)) by (rewrite plus_IZR; lra). apply Zfloor_imp. rewrite plus_IZR. lra.
  - rewrite (Zceil_imp (q + 1) (IZR q + y)) by (replace (q + 1 - 1) with q by lia; rewrite plus_IZR; lra). apply Zceil_imp. replace (q + 1 - 1) with q by lia. rewrite plus_IZR. lra.
Qed.
(** When it is, the lower end may fall one cell and the upper end rise one cell, never more and
    never the other way. *)
Lemma c116_multiple : forall m k q, 1 <= m -> 0 <= k < m -> 10 * k = q * m ->
  (Zfloor (cells64 m k) = q \/ Zfloor (cells64 m k) = q - 1) /\ (Zceil (cells64 m k) = q \/ Zceil (cells64 m k) = q + 1).
Proof.
  intros m k q Hm Hk E. assert (CL := cells_close m k ltac:(lia) Hk). assert (U := u53_val). assert (U0 : (0 < u53)%R) by apply bpow_gt_0. assert (M0 : (0 < IZR m)%R) by (apply IZR_lt; lia).
  assert (X : (10 * IZR k / IZR m = IZR q)%R) by (rewrite <- mult_IZR, E, mult_IZR; field; lra). rewrite X in CL. apply Rabs_le_inv in CL. set (c := cells64 m k) in *.
  destruct (Rtotal_order c (IZR q)) as [L|[L|L]].
  - split; [right|left]; [apply Zfloor_imp; rewrite Z.sub_add, minus_IZR; lra|apply Zceil_imp; rewrite minus_IZR; lra].
  - rewrite L. rewrite Zfloor_IZR, Zceil_IZR. auto.
  - split; [left|right]; [apply Zfloor_imp; rewrite plus_IZR; lra|apply Zceil_imp; replace (q + 1 - 1) with q by lia; rewrite plus_IZR; lra].
Qed.
(** Up to the rounding of 0.05 itself the band contains the one of exact arithmetic. *)
Lemma c116_covers : forall m k, 1 <= m <= 2 ^ 40 -> 0 <= k < m ->
  Zfloor (cells64 m k) <= Zfloor (10 * IZR k / IZR m) /\ Zceil (10 * IZR k / IZR m) <= Zceil (cells64 m k).
Proof.
  intros m k Hm Hk. destruct (Z.eq_dec ((10 * k) mod m) 0) as [E|E].
  - assert (DM := Z.div_mod (10 * k) m ltac:(lia)). rewrite E, Z.add_0_r in DM. assert (M0 : (0 < IZR m)%R) by (apply IZR_lt; lia).
    assert (X : (10 * IZR k / IZR m = IZR (10 * k / m))%R) by (rewrite <- mult_IZR, DM at 1; rewrite mult_IZR; field; lra). rewrite X, Zfloor_IZR, Zceil_IZR.
    destruct (c116_multiple m k (10 * k / m) ltac:(lia) Hk ltac:(lia)) as [[-> | ->] [-> | ->]]; lia.
  - destruct (c116_interior m k Hm Hk E) as [-> ->]. lia.
Qed.
(** The band of the class itself: away from multiples of 0.05 the rounded computation differs from
    the exact one only in the last places. *)
Lemma c116_band : forall nstf sp l i j a b, loud sp = Ok l -> zmin_list l = Ok i -> zmax_list l = Ok j -> 0 <= i < half_round nstf -> 0 <= j < half_round nstf -> half_round nstf <= 2 ^ 40 ->
  (10 * i) mod half_round nstf <> 0 -> (10 * j) mod half_round nstf <> 0 -> default_fmin nstf sp = Ok a -> default_fmax nstf sp = Ok b ->
  (Rabs (fmin64 (half_round nstf) i - a) <= / 1125899906842624)%R /\ (Rabs (fmax64 (half_round nstf) j - b) <= / 1125899906842624)%R.
Proof.
  intros nstf sp l i j a b HL Hi Hj Bi Bj HM NI NJ HA HB. unfold default_fmin, default_fmax in *. rewrite HL in *. cbn [bind] in *. rewrite Hi in HA. rewrite Hj in HB. cbn [bind] in *. okeq HA. okeq HB.
  set (m := half_round nstf) in *. assert (M0 : (0 < IZR m)%R) by (apply IZR_lt; lia). assert (U := u53_val). assert (U0 : (0 < u53)%R) by apply bpow_gt_0.
  assert (BF : forall k, (band_freq nstf k / (5 / 100) = 10 * IZR k / IZR m)%R) by (intros k; unfold band_freq; fold m; field; lra).
  rewrite !BF. unfold fmin64, fmax64. destruct (c116_interior m i ltac:(lia) Bi NI) as [-> _]. destruct (c116_interior m j ltac:(lia) Bj NJ) as [_ ->].
  assert (XX : forall k, 0 <= k < m -> (0 <= 10 * IZR k / IZR m <= 10)%R).
  { intros k Hk. assert (0 <= IZR k <= IZR m)%R by (split; apply IZR_le; lia). split; [apply Rdiv_le_0_compat; lra|]. apply (Rmult_le_reg_r (IZR m)); auto. unfold Rdiv. rewrite Rmult_assoc, Rinv_l by lra. lra. }
  assert (P : forall z, 0 <= z <= 10 -> (Rabs (b64 (d05 * IZR z) - 5 / 100 * IZR z) <= 2 * u53)%R).
  { intros z Hz. assert (Z0 : (0 <= IZR z <= 10)%R) by (split; apply IZR_le; lia). unfold d05. destruct (b64_rel (5 / 100)) as (d1 & H1 & ->). match goal with |- context [b64 ?x] => destruct (b64_rel x) as (d2 & H2 & ->) end. fold u53 in H1, H2.
    assert (A1 : (Rabs ((1 + d1) - 1) <= 1 * u53)%R) by (replace (1 + d1 - 1)%R with d1 by ring; lra). assert (A2 := rel_mul _ d2 1 ltac:(lra) A1 H2). set (t := ((1 + d1) * (1 + d2))%R) in *.
    replace (5 / 100 * (1 + d1) * IZR z * (1 + d2) - 5 / 100 * IZR z)%R with (5 / 100 * IZR z * (t - 1))%R by (unfold t; ring). rewrite Rabs_mult. rewrite (Rabs_pos_eq (5 / 100 * IZR z)) by lra. assert (0 <= Rabs (t - 1))%R by apply Rabs_pos. nra. }
  split.
  - assert (Q : (Rabs (b64 (1 / 100) - 1 / 100) <= 2 * u53)%R). { destruct (b64_rel (1 / 100)) as (d & Hd & ->). fold u53 in Hd. replace (1 / 100 * (1 + d) - 1 / 100)%R with (1 / 100 * d)%R by ring. rewrite Rabs_mult, Rabs_pos_eq by lra. assert (0 <= Rabs d)%R by apply Rabs_pos. lra. }
    assert (X := XX i Bi). specialize (P (Zfloor (10 * IZR i / IZR m)) ltac:(split; [apply Zfloor_lub; exact (proj1 X)|apply le_IZR; eapply Rle_trans; [apply Zfloor_lb|exact (proj2 X)]])).
    apply Rabs_le_inv in P, Q. apply Rabs_le. unfold Rmax. destruct (Rle_dec _ _), (Rle_dec _ _); lra.
  - assert (X := XX j Bj). specialize (P (Zceil (10 * IZR j / IZR m)) ltac:(split; [apply le_IZR; eapply Rle_trans; [exact (proj1 X)|apply Zceil_ub]|apply Zceil_glb; exact (proj2 X)])). lra.
Qed.
Lemma d05_val : d05 = (7205759403792794 / 144115188075855872)%R.
Proof.
  unfold d05. rewrite (b64_round _ (-4) 7205759403792794).
  - change (-4 - 53) with (-57). change (bpow radix2 (-57)) with (/ 144115188075855872)%R. reflexivity.
  - change (-4 - 1) with (-5). change (bpow radix2 (-5)) with (/ 32)%R. change (bpow radix2 (-4)) with (/ 16)%R. lra.
  - change (53 - -4) with 57. change (bpow radix2 57) with 144115188075855872%R. apply Rabs_lt. lra.
Qed.
Lemma b64_tie x e m : (bpow radix2 (e - 1) <= x < bpow radix2 e)%R -> (x * bpow radix2 (53 - e) = IZR m + / 2)%R -> Z.even m = false -> b64 x = (IZR (m + 1) * bpow radix2 (e - 53))%R.
Proof.
  intros Hx Hm EV. unfold b64, round, F2R, scaled_mantissa, cexp. cbn [Fnum Fexp]. assert (M : (mag radix2 x : Z) = e) by (now apply mag_unique_pos).
  rewrite M. unfold FLX_exp. replace (- (e - 53)) with (53 - e) by lia. rewrite Hm. f_equal. f_equal.
  assert (FL : Zfloor (IZR m + / 2) = m) by (apply Zfloor_imp; rewrite plus_IZR; lra). unfold Znearest. rewrite FL. rewrite Rcompare_Eq by lra. rewrite EV. cbn [negb]. rewrite Zceil_floor_neq by (rewrite FL; lra). rewrite FL. reflexivity.
Qed.
(** 20 samples, the loudest bin number 3 (frequency 0.15): the band reaches up to 0.2. *)
Lemma cells_10_3 : cells64 10 3 = (6755399441055745 / 2251799813685248)%R.
Proof.
  unfold cells64, freq64. replace (1 / 2 / IZR 10)%R with (5 / 100)%R by field. fold d05. rewrite d05_val.
  rewrite (b64_tie (IZR 3 * (7205759403792794 / 144115188075855872)) (-2) 5404319552844595).
  - change (-2 - 53) with (-55). change (bpow radix2 (-55)) with (/ 36028797018963968)%R. change (5404319552844595 + 1) with 5404319552844596.
    rewrite (b64_round _ 2 6755399441055745).
    + change (2 - 53) with (-51). change (bpow radix2 (-51)) with (/ 2251799813685248)%R. reflexivity.
    + change (2 - 1) with 1. change (bpow radix2 1) with 2%R. change (bpow radix2 2) with 4%R. lra.
    + change (53 - 2) with 51. change (bpow radix2 51) with 2251799813685248%R. apply Rabs_lt. lra.
  - change (-2 - 1) with (-3). change (bpow radix2 (-3)) with (/ 8)%R. change (bpow radix2 (-2)) with (/ 4)%R. lra.
  - change (53 - -2) with 55. change (bpow radix2 55) with 36028797018963968%R. lra.
  - reflexivity.
Qed.
Lemma c116_upper_refuted : exists m k, 1 <= m /\ 0 <= k < m /\ (5 / 100 * IZR (Zceil (10 * IZR k / IZR m)) = 15 / 100)%R /\ (fmax64 m k > 19 / 100)%R.
Proof.
  exists 10, 3. split; [lia|]. split; [lia|]. split.
  - replace (10 * IZR 3 / IZR 10)%R with (IZR 3) by field. rewrite Zceil_IZR. lra.
  - unfold fmax64. rewrite cells_10_3. rewrite (Zceil_imp 4) by (cbn; lra). replace (d05 * IZR 4)%R with (d05 * bpow radix2 2)%R by reflexivity.
    rewrite double_b64; [rewrite d05_val; change (bpow radix2 2) with 4%R; lra|]. apply double_scale. rewrite d05_val. exists 7205759403792794, (-57). split; [lia|reflexivity].
Qed.
(** 196 samples of a tone at a quarter of the sampling rate (bin 49 of 98): exact arithmetic gives
    a band of width zero, double precision the band from 0.2 to 0.25. *)
Lemma cells_98_49 : cells64 98 49 = (5629499534213119 / 1125899906842624)%R.
Proof.
  unfold cells64, freq64.
  assert (S : b64 (1 / 2 / IZR 98) = (5882252574524729 / 1152921504606846976)%R).
  { rewrite (b64_round _ (-7) 5882252574524729).
    - change (-7 - 53) with (-60). change (bpow radix2 (-60)) with (/ 1152921504606846976)%R. reflexivity.
    - change (-7 - 1) with (-8). change (bpow radix2 (-8)) with (/ 256)%R. change (bpow radix2 (-7)) with (/ 128)%R. lra.
    - change (53 - -7) with 60. change (bpow radix2 60) with 1152921504606846976%R. apply Rabs_lt. lra. }
  rewrite S. rewrite (b64_round (IZR 49 * _) (-2) 9007199254740991).
  - change (-2 - 53) with (-55). change (bpow radix2 (-55)) with (/ 36028797018963968)%R. rewrite d05_val. rewrite (b64_round _ 3 5629499534213119).
    + change (3 - 53) with (-50). change (bpow radix2 (-50)) with (/ 1125899906842624)%R. reflexivity.
    + change (3 - 1) with 2. change (bpow radix2 2) with 4%R. change (bpow radix2 3) with 8%R. lra.
    + change (53 - 3) with 50. change (bpow radix2 50) with 1125899906842624%R. apply Rabs_lt. lra.
  - change (-2 - 1) with (-3). change (bpow radix2 (-3)) with (/ 8)%R. change (bpow radix2 (-2)) with (/ 4)%R. lra.
  - change (53 - -2) with 55. change (bpow radix2 55) with 36028797018963968%R. apply Rabs_lt. lra.
Qed.
Lemma c116_lower_refuted : exists m k, 1 <= m /\ 0 <= k < m /\ (5 / 100 * IZR (Zfloor (10 * IZR k / IZR m)) = 25 / 100)%R /\ (fmin64 m k < 21 / 100)%R /\ (fmax64 m k > 24 / 100)%R.
Proof.
  exists 98, 49. split; [lia|]. split; [lia|]. split.
  - replace (10 * IZR 49 / IZR 98)%R with (IZR 5) by field. rewrite Zfloor_IZR. lra.
  - assert (DD : is_double d05) by (rewrite d05_val; exists 7205759403792794, (-57); split; [lia|reflexivity]). split.
    + unfold fmin64. rewrite cells_98_49, (Zfloor_imp 4) by (cbn; lra). replace (d05 * IZR 4)%R with (d05 * bpow radix2 2)%R by reflexivity. rewrite (double_b64 (d05 * bpow radix2 2)) by now apply double_scale. rewrite d05_val.
      assert (C1 : (b64 (1 / 100) <= 21 / 1000)%R). { destruct (b64_rel (1 / 100)) as (d & Hd & ->). fold u53 in Hd. assert (U := u53_val). apply Rabs_le_inv in Hd. lra. }
      apply Rmax_lub_lt; [lra|]. change (bpow radix2 2) with 4%R. lra.
    + unfold fmax64. rewrite cells_98_49, (Zceil_imp 5) by (cbn; lra). rewrite d05_val. match goal with |- context [b64 ?x] => destruct (b64_rel x) as (d & Hd & ->) end. fold u53 in Hd. assert (U := u53_val). apply Rabs_le_inv in Hd. nra.
Qed.
(** A power of two of bins: the quarter-rate tone does get the band of width zero. *)
Lemma c116_quarter : forall j, 1 <= j <= 40 -> cells64 (2 ^ j) (2 ^ (j - 1)) = 5%R.
Proof.
  intros j Hj. assert (P1 : IZR (2 ^ j) = bpow radix2 j) by (rewrite <- IZR_Zpower by lia; reflexivity). assert (P2 : IZR (2 ^ (j - 1)) = bpow radix2 (j - 1)) by (rewrite <- IZR_Zpower by lia; reflexivity).
  unfold cells64, freq64. rewrite P1, P2. replace (1 / 2 / bpow radix2 j)%R with (IZR 1 * bpow radix2 (- j - 1))%R.
  - rewrite b64_repr by lia. replace (bpow radix2 (j - 1) * (IZR 1 * bpow radix2 (- j - 1)))%R with (IZR 1 * bpow radix2 (-2))%R.
    + rewrite b64_repr by lia. change (bpow radix2 (-2)) with (/ 4)%R. rewrite d05_val. rewrite (b64_round _ 3 5629499534213120).
      * change (3 - 53) with (-50). change (bpow radix2 (-50)) with (/ 1125899906842624)%R. lra.
      * change (3 - 1) with 2. change (bpow radix2 2) with 4%R. change (bpow radix2 3) with 8%R. lra.
      * change (53 - 3) with 50. change (bpow radix2 50) with 1125899906842624%R. apply Rabs_lt. lra.
    + rewrite !Rmult_1_l, <- bpow_plus. f_equal. lia.
  - replace (- j - 1) with (-1 + - j) by lia. rewrite bpow_plus, bpow_opp. change (bpow radix2 (-1)) with (/ 2)%R. unfold Rdiv. rewrite !Rmult_1_l. reflexivity.
Qed.
Example c116_example : Zceil (cells64 10 3) = 4 /\ Zfloor (cells64 98 49) = 4.
Proof. rewrite cells_10_3, cells_98_49. split; [apply Zceil_imp|apply Zfloor_imp]; cbn; lra. Qed.
