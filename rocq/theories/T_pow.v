(** C02: nextpow2 of an integer in double precision (math.log2 correctly rounded). *)
From Coq Require Import Reals ZArith List Lia Lra Bool.
From Coquelicot Require Import Coquelicot.
From Flocq Require Import Core.
From Verif Require Import Py M_utils T_utils.
Import ListNotations.
Local Open Scope Z_scope.

Lemma ln2_bounds : (1 / 2 < ln 2 < 9 / 10)%R.
Proof.
  split; [assert (H := ln_lt_2); lra|]. rewrite <- (ln_exp (9 / 10)). apply ln_increasing; [lra|].
  assert (H := exp_ineq1 (9 / 20) ltac:(lra)). replace (9 / 10)%R with (9 / 20 + 9 / 20)%R by field. rewrite exp_plus. nra.
Qed.
Lemma ln_lower x : (0 < x)%R -> (x / (1 + x) <= ln (1 + x))%R.
Proof.
  intros Hx. assert (H := exp_ineq1_le (- ln (1 + x))). rewrite exp_Ropp, exp_ln in H by lra.
  replace (x / (1 + x))%R with (1 - / (1 + x))%R by (field; lra). lra.
Qed.
Lemma ln_upper x : (0 < x)%R -> (ln (1 + x) <= x)%R.
Proof. intros Hx. assert (H := exp_ineq1_le (ln (1 + x))). rewrite exp_ln in H by lra. lra. Qed.
Lemma b64_int n : 0 < n <= 2 ^ 53 -> b64 (IZR n) = IZR n.
Proof.
  intros H. unfold b64. apply round_generic; [apply valid_rnd_N|]. destruct (Z.eq_dec n (2 ^ 53)) as [->|Q].
  - change (IZR (2 ^ 53)) with (bpow radix2 53). apply generic_format_bpow. unfold FLX_exp. lia.
  - apply generic_format_FLX. exists (Float radix2 n 0); [unfold F2R; cbn [Fnum Fexp bpow]; ring|]. cbn [Fnum]. change (radix2 ^ 53) with (2 ^ 53). lia.
Qed.

Lemma log2_mono x y : (0 < x)%R -> (x <= y)%R -> (log2 x <= log2 y)%R.
Proof.
  intros Hx H. unfold log2, Rdiv. apply Rmult_le_compat_r; [left; apply Rinv_0_lt_compat; assert (B := ln2_bounds); lra|].
  destruct (Req_dec x y) as [->|N]; [lra|]. left. apply ln_increasing; lra.
Qed.

(** Exact up to 2^49 ... *)
Lemma c02_float_exact : forall n, 1 <= n <= 2 ^ 49 -> exists k, nextpow2_f64 n = Ok k /\ 0 <= k /\ n <= 2 ^ k /\ forall j, 0 <= j -> n <= 2 ^ j -> k <= j.
Proof.
  intros n Hn. assert (B2 := ln2_bounds). unfold nextpow2_f64. destruct (Z.leb_spec n 0); [lia|]. rewrite b64_int by (assert (2 ^ 49 <= 2 ^ 53) by (apply Z.pow_le_mono_r; lia); lia).
  set (L := log2 (IZR n)). assert (L0 : (0 <= L)%R).
  { replace 0%R with (log2 1) by (unfold log2; rewrite ln_1; field; lra). apply log2_mono; [lra|]. apply IZR_le. lia. }
  assert (P2 : forall k, 0 <= k -> IZR (2 ^ k) = powerRZ 2 k).
  { intros k Hk. rewrite <- (Z2Nat.id k Hk) at 2. rewrite <- pow_powerRZ, pow_IZR. f_equal. now rewrite Z2Nat.id. }
  assert (LK : forall k, 0 <= k -> (n <= 2 ^ k <-> (L <= IZR k)%R)).
  { intros k Hk. unfold L. rewrite (log2_le (IZR n) k) by (apply IZR_lt; lia). rewrite <- P2 by auto. split; [apply IZR_le|apply le_IZR]. }
  set (k := Zceil L). assert (K0 : 0 <= k) by (apply Z.le_trans with (Zceil 0); [rewrite (Zceil_IZR 0); lia|now apply Zceil_le]).
  assert (KU : (L <= IZR k)%R) by apply Zceil_ub. assert (K49 : k <= 49) by (apply Zceil_glb; apply LK; lia).
  exists k. split; [|split; [exact K0|split; [now apply LK|intros j Hj HJ; apply Zceil_glb; now apply LK]]]. f_equal.
  (* the rounded logarithm has the same ceiling *)
  assert (U : (b64 L <= IZR k)%R).
  { destruct (Z.eq_dec k 0) as [E|E]; [|rewrite <- (b64_int k) by (assert (49 < 2 ^ 53) by reflexivity; lia); apply round_le; [apply FLX_exp_valid; reflexivity|apply valid_rnd_N|exact KU]].
    rewrite E in *. assert (L = 0%R) as -> by lra. unfold b64. rewrite round_0; [lra|apply valid_rnd_N]. }
  destruct (Z.eq_dec k 0) as [E|E].
  - assert (L = 0%R) as EL by (rewrite E in KU; lra). rewrite EL. unfold b64. rewrite round_0 by apply valid_rnd_N. rewrite (Zceil_IZR 0). lia.
  - apply Zceil_imp. rewrite minus_IZR. split; [|exact U].
    (* n is at least 2^(k-1) + 1 *)
    assert (LOW : 2 ^ (k - 1) + 1 <= n). { destruct (Z_le_gt_dec n (2 ^ (k - 1))) as [Q|Q]; [|lia]. apply LK in Q; [|lia]. assert (A := Zceil_glb (k - 1) L Q). fold k in A. lia. }
    assert (GAP : (IZR (k - 1) + bpow radix2 (-48) < L)%R).
    { assert (Hx : (0 < bpow radix2 (- (k - 1)))%R) by apply bpow_gt_0. set (x := bpow radix2 (- (k - 1))) in *.
      assert (XB : (bpow radix2 (-48) <= x)%R) by (apply bpow_le; lia). assert (X1 : (x <= 1)%R) by (change 1%R with (bpow radix2 0); apply bpow_le; lia).
      assert (PX : (0 < bpow radix2 (-48))%R) by apply bpow_gt_0.
      assert (EP : (powerRZ 2 (k - 1) * x = 1)%R) by (rewrite <- P2 by lia; change (IZR (2 ^ (k - 1))) with (IZR (radix2 ^ (k - 1))); rewrite IZR_Zpower by lia; unfold x; rewrite <- bpow_plus; replace (k - 1 + - (k - 1)) with 0 by lia; reflexivity).
      assert (LL : (IZR (k - 1) + log2 (1 + bpow radix2 (-48)) <= L)%R).
      { apply Rle_trans with (IZR (k - 1) + log2 (1 + x))%R.
        - apply Rplus_le_compat_l. apply log2_mono; lra.
        - rewrite <- (log2_pow2 (k - 1)). replace (log2 (powerRZ 2 (k - 1)) + log2 (1 + x))%R with (log2 (powerRZ 2 (k - 1) * (1 + x))).
          + unfold L. apply log2_mono.
            * apply Rmult_lt_0_compat; [rewrite <- P2 by lia; apply IZR_lt; apply Z.pow_pos_nonneg; lia|lra].
            * rewrite Rmult_plus_distr_l, EP, Rmult_1_r, <- P2 by lia. rewrite <- plus_IZR. apply IZR_le. lia.
          + unfold log2. rewrite ln_mult; [field; lra|rewrite <- P2 by lia; apply IZR_lt; apply Z.pow_pos_nonneg; lia|lra]. }
      assert (SM : (bpow radix2 (-48) <= 1 / 1000)%R) by (change (bpow radix2 (-48)) with (/ 281474976710656)%R; lra).
      set (e := bpow radix2 (-48)) in *. assert (LB := ln_lower e PX). unfold log2 in LL.
      assert (EL : (e < ln (1 + e) / ln 2)%R).
      { apply (Rmult_lt_reg_r (ln 2)); [lra|]. unfold Rdiv. rewrite Rmult_assoc, Rinv_l by lra. rewrite Rmult_1_r. apply Rlt_le_trans with (2 := LB). apply (Rmult_lt_reg_r (1 + e)); [lra|]. replace (e / (1 + e) * (1 + e))%R with e by (field; lra). nra. }
      lra. }
    assert (ERR : (Rabs (b64 L - L) <= bpow radix2 (-48))%R).
    { assert (VE : Valid_exp (FLX_exp 53)) by (apply FLX_exp_valid; reflexivity). unfold b64. apply Rle_trans with (1 := error_le_half_ulp radix2 (FLX_exp 53) (fun x => negb (Z.even x)) L).
      assert (LP : (0 < L)%R) by (assert (A := IZR_le 0 (k - 1) ltac:(lia)); assert (P := bpow_gt_0 radix2 (-48)); lra).
      rewrite ulp_neq_0 by lra. assert (M : (mag radix2 L <= 6)%Z).
      { apply mag_le_bpow; [lra|]. rewrite Rabs_pos_eq by lra. assert (Q := IZR_le k 49 K49). change (bpow radix2 6) with 64%R. lra. }
      apply Rle_trans with (/ 2 * bpow radix2 (-47))%R; [apply Rmult_le_compat_l; [lra|]; apply bpow_le; unfold cexp, FLX_exp; lia|].
      change (bpow radix2 (-47)) with (/ 140737488355328)%R. change (bpow radix2 (-48)) with (/ 281474976710656)%R. lra. }
    apply Rabs_le_inv in ERR. rewrite minus_IZR in GAP. lra.
Qed.

(** ... and 2^49 + 1 is the first integer that goes wrong. *)
Lemma c02_float_first : nextpow2_f64 (2 ^ 49 + 1) = Ok 49.
Proof.
  assert (B2 := ln2_bounds). unfold nextpow2_f64. change (2 ^ 49 + 1 <=? 0) with false. cbn match. rewrite b64_int by (split; reflexivity || (intros Q; discriminate Q)). f_equal.
  set (e := (/ 562949953421312)%R). assert (E : log2 (IZR (2 ^ 49 + 1)) = (49 + log2 (1 + e))%R).
  { replace (IZR (2 ^ 49 + 1)) with (powerRZ 2 49 * (1 + e))%R.
    - transitivity (log2 (powerRZ 2 49) + log2 (1 + e))%R; [|now rewrite log2_pow2]. unfold log2. rewrite ln_mult; [field; lra|apply powerRZ_lt; lra|unfold e; lra].
    - replace (powerRZ 2 49) with 562949953421312%R by (change (powerRZ 2 49) with (2 ^ Pos.to_nat 49)%R; rewrite pow_IZR; reflexivity). change (2 ^ 49 + 1) with 562949953421313. unfold e. field. }
  rewrite E. assert (EP : (0 < e)%R) by (unfold e; lra). assert (D : (0 < log2 (1 + e) < 2 * e)%R).
  { assert (A := ln_lower e EP). assert (A2 := ln_upper e EP). unfold log2. assert (PI2 : (0 < / ln 2 < 2)%R) by (split; [apply Rinv_0_lt_compat; lra|apply (Rmult_lt_reg_r (ln 2)); [lra|]; rewrite Rinv_l by lra; lra]).
    assert (A0 : (0 < ln (1 + e))%R) by (apply Rlt_le_trans with (2 := A); apply Rdiv_lt_0_compat; lra). unfold Rdiv. split; nra. }
  set (d := log2 (1 + e)) in *. assert (EB : b64 (49 + d) = 49%R).
  { unfold b64, round, F2R, scaled_mantissa, cexp. cbn [Fnum Fexp]. assert (M : (mag radix2 (49 + d) : Z) = 6).
    { apply mag_unique_pos. change (bpow radix2 (6 - 1)) with 32%R. change (bpow radix2 6) with 64%R. unfold e in D. lra. }
    rewrite M. unfold FLX_exp. change (6 - 53) with (-47). change (- -47) with 47. change (bpow radix2 (-47)) with (/ 140737488355328)%R. change (bpow radix2 47) with 140737488355328%R.
    rewrite (Znearest_imp (fun x => negb (Z.even x)) _ (49 * 140737488355328)); [rewrite mult_IZR; field|]. rewrite mult_IZR. apply Rabs_def1; unfold e in D; lra. }
  rewrite EB. rewrite (Zceil_IZR 49). reflexivity.
Qed.

(** np.floor(N * u) in double precision for a double 0 <= u < 1: one of 0 .. N-1, so
    anafsk never leaves its alphabet through rounding and [jumps == 4] in anaqpsk
    (analytic_signals.py 142) is never true. *)
Definition is_double (u : R) : Prop := generic_format radix2 (FLX_exp 53) u.
Lemma round_below N u : 1 <= N <= 2 ^ 53 -> is_double u -> (0 <= u < 1)%R -> (0 <= b64 (IZR N * u) < IZR N)%R.
Proof.
  intros HN HU Hu. assert (VE : Valid_exp (FLX_exp 53)) by (apply FLX_exp_valid; reflexivity). assert (N1 : (1 <= IZR N)%R) by (apply IZR_le; lia).
  split.
  - unfold b64. rewrite <- (round_0 radix2 (FLX_exp 53) ZnearestE). apply round_le; [exact VE|apply valid_rnd_N|]. apply Rmult_le_pos; lra.
  - destruct (Req_dec u 0) as [->|U0]; [rewrite Rmult_0_r; unfold b64; rewrite round_0 by apply valid_rnd_N; lra|].
    assert (UP : (u <= 1 - bpow radix2 (-53))%R).
    { assert (F1 : generic_format radix2 (FLX_exp 53) 1) by (change 1%R with (bpow radix2 0); apply generic_format_bpow; unfold FLX_exp; lia).
      assert (P := pred_ge_gt radix2 (FLX_exp 53) u 1 HU F1 ltac:(lra)). change 1%R with (bpow radix2 0) in P. rewrite pred_bpow in P. unfold FLX_exp in P. change (0 - 53) with (-53) in P. change (bpow radix2 0) with 1%R in P. exact P. }
    set (e := (mag radix2 (IZR N) : Z) - 1). assert (MN : (bpow radix2 e <= IZR N < bpow radix2 (e + 1))%R).
    { unfold e. replace (mag radix2 (IZR N) - 1 + 1)%Z with (mag radix2 (IZR N) : Z) by lia. assert (A := bpow_mag_le radix2 (IZR N) ltac:(lra)). assert (B := bpow_mag_gt radix2 (IZR N)). rewrite Rabs_pos_eq in A, B by lra. lra. }
    assert (PB : (0 < bpow radix2 (-53))%R) by apply bpow_gt_0.
    destruct (Req_dec (IZR N) (bpow radix2 e)) as [E|E].
    + rewrite E. rewrite Rmult_comm. unfold b64. rewrite round_generic; [|apply valid_rnd_N|].
      * assert (Q := bpow_gt_0 radix2 e). nra.
      * apply FLX_format_generic in HU; [|reflexivity]. destruct HU as [[m x] HF HM]. cbn [Fnum] in HM. apply generic_format_FLX. exists (Float radix2 m (x + e)); [|exact HM]. rewrite HF. unfold F2R. cbn [Fnum Fexp]. rewrite bpow_plus. ring.
    + assert (X : (IZR N * u <= IZR N * (1 - bpow radix2 (-53)))%R) by (apply Rmult_le_compat_l; lra). set (x := (IZR N * (1 - bpow radix2 (-53)))%R) in *.
      apply Rle_lt_trans with (b64 x); [unfold b64; apply round_le; [exact VE|apply valid_rnd_N|exact X]|].
      assert (EB : (bpow radix2 e * bpow radix2 (-53) < IZR N * bpow radix2 (-53))%R) by (apply Rmult_lt_compat_r; lra).
      assert (E0 : 0 <= e) by (assert (A := mag_ge_bpow radix2 (IZR N) 1); unfold e; change (bpow radix2 (1 - 1)) with 1%R in A; rewrite Rabs_pos_eq in A by lra; specialize (A N1); lia).
      assert (X0 : (bpow radix2 e <= x)%R).
      { assert (NB : (IZR N * bpow radix2 (-53) <= 1)%R). { assert (A : (IZR N <= bpow radix2 53)%R) by (change (bpow radix2 53) with (IZR (2 ^ 53)); apply IZR_le; lia). replace 1%R with (bpow radix2 53 * bpow radix2 (-53))%R by (rewrite <- bpow_plus; reflexivity). apply Rmult_le_compat_r; lra. }
        assert (A : (bpow radix2 e + 1 <= IZR N)%R). { rewrite <- IZR_Zpower in * by lia. rewrite <- plus_IZR. apply IZR_le. assert (L : radix2 ^ e < N) by (apply lt_IZR; lra). lia. }
        unfold x. lra. }
      assert (PE := bpow_gt_0 radix2 e). assert (XN : (x < IZR N)%R) by (unfold x; nra).
      assert (ERR : (Rabs (b64 x - x) <= bpow radix2 e * bpow radix2 (-53))%R).
      { unfold b64. apply Rle_trans with (1 := error_le_half_ulp radix2 (FLX_exp 53) (fun x => negb (Z.even x)) x). rewrite ulp_neq_0 by lra.
        assert (M : (mag radix2 x : Z) = e + 1). { apply mag_unique_pos. replace (e + 1 - 1) with e by lia. lra. }
        unfold cexp, FLX_exp. rewrite M. right. rewrite <- bpow_plus. replace (e + 1 - 53) with (1 + (e + -53)) by lia. rewrite (bpow_plus radix2 1). change (bpow radix2 1) with 2%R. field. }
      apply Rabs_le_inv in ERR. unfold x in *. lra.
Qed.
Lemma c58_rounded : forall N u, 1 <= N <= 2 ^ 53 -> is_double u -> (0 <= u < 1)%R -> 0 <= Zfloor (b64 (IZR N * u)) < N.
Proof.
  intros N u HN HU Hu. destruct (round_below N u HN HU Hu) as [A B]. split.
  - apply Zfloor_lub. exact A.
  - apply lt_IZR. apply Rle_lt_trans with (2 := B). apply Zfloor_lb.
Qed.
(** The largest value np.random.rand returns. *)
Example c58_rounded_example : is_double (1 - bpow radix2 (-53)) /\ Zfloor (b64 (5 * (1 - bpow radix2 (-53)))) = 4.
Proof.
  assert (P0 := bpow_gt_0 radix2 (-53)). assert (PS : (bpow radix2 (-53) <= 1 / 10)%R) by (change (bpow radix2 (-53)) with (/ 9007199254740992)%R; lra).
  assert (D : is_double (1 - bpow radix2 (-53))).
  { apply generic_format_FLX. exists (Float radix2 (2 ^ 53 - 1) (-53)); [|reflexivity]. unfold F2R. cbn [Fnum Fexp]. rewrite minus_IZR. change (IZR (2 ^ 53)) with (bpow radix2 53). rewrite Rmult_minus_distr_r, <- bpow_plus. change (bpow radix2 (53 + -53)) with 1%R. ring. }
  split; [exact D|]. destruct (c58_rounded 5 (1 - bpow radix2 (-53)) ltac:(split; [lia|reflexivity || (intros Q; discriminate Q)]) D ltac:(lra)) as [_ B].
  assert (A : 4 <= Zfloor (b64 (5 * (1 - bpow radix2 (-53))))); [|lia]. apply Zfloor_lub. rewrite <- (b64_int 4) by (split; reflexivity || (intros Q; discriminate Q)).
  unfold b64. apply round_le; [apply FLX_exp_valid; reflexivity|apply valid_rnd_N|]. lra.
Qed.
