(** C138: how many frequencies np.arange(start, stop, step) holds in double precision. *)
From Coq Require Import Reals ZArith List Lia Lra Psatz Bool.
From Coquelicot Require Import Coquelicot.
From Flocq Require Import Core Relative.
From Verif Require Import Py Scalars CSum DFT Spec M_utils M_gen2 M_dom M_fp P_base T_utils T_fp T_fp2 M_grid.
Import ListNotations.
Local Open Scope Z_scope.

Lemma b64_tie_even x e m : (bpow radix2 (e - 1) <= x < bpow radix2 e)%R -> (x * bpow radix2 (53 - e) = IZR m + / 2)%R -> Z.even m = true -> b64 x = (IZR m * bpow radix2 (e - 53))%R.
Proof.
  intros Hx Hm EV. unfold b64, round, F2R, scaled_mantissa, cexp. cbn [Fnum Fexp]. assert (M : (mag radix2 x : Z) = e) by (now apply mag_unique_pos).
  rewrite M. unfold FLX_exp. replace (- (e - 53)) with (53 - e) by lia. rewrite Hm. f_equal. f_equal.
  assert (FL : Zfloor (IZR m + / 2) = m) by (apply Zfloor_imp; rewrite plus_IZR; lra). unfold Znearest. rewrite FL. rewrite Rcompare_Eq by lra. rewrite EV. reflexivity.
Qed.
Lemma start_val : b64 (1 / 10) = (3602879701896397 / 36028797018963968)%R.
Proof.
  rewrite (b64_round _ (-3) 7205759403792794).
  - change (-3 - 53) with (-56). change (bpow radix2 (-56)) with (/ 72057594037927936)%R. lra.
  - change (-3 - 1) with (-4). change (bpow radix2 (-4)) with (/ 16)%R. change (bpow radix2 (-3)) with (/ 8)%R. lra.
  - change (53 - -3) with 56. change (bpow radix2 56) with 72057594037927936%R. apply Rabs_lt. lra.
Qed.
Lemma stop_val : b64 (38 / 100) = (3422735716801577 / 9007199254740992)%R.
Proof.
  rewrite (b64_round _ (-1) 6845471433603154).
  - change (-1 - 53) with (-54). change (bpow radix2 (-54)) with (/ 18014398509481984)%R. lra.
  - change (-1 - 1) with (-2). change (bpow radix2 (-2)) with (/ 4)%R. change (bpow radix2 (-1)) with (/ 2)%R. lra.
  - change (53 - -1) with 54. change (bpow radix2 54) with 18014398509481984%R. apply Rabs_lt. lra.
Qed.
Lemma step_val : b64 (4 / 100) = (5764607523034235 / 144115188075855872)%R.
Proof.
  rewrite (b64_round _ (-4) 5764607523034235).
  - change (-4 - 53) with (-57). change (bpow radix2 (-57)) with (/ 144115188075855872)%R. reflexivity.
  - change (-4 - 1) with (-5). change (bpow radix2 (-5)) with (/ 32)%R. change (bpow radix2 (-4)) with (/ 16)%R. lra.
  - change (53 - -4) with 57. change (bpow radix2 57) with 144115188075855872%R. apply Rabs_lt. lra.
Qed.
Lemma doc_len : arange64_len (b64 (1 / 10)) (b64 (38 / 100)) (b64 (4 / 100)) = 8.
Proof.
  unfold arange64_len. rewrite start_val, stop_val, step_val. rewrite (b64_tie (_ - _) (-1) 5044031582654955).
  - change (-1 - 53) with (-54). change (bpow radix2 (-54)) with (/ 18014398509481984)%R. change (5044031582654955 + 1) with 5044031582654956.
    rewrite (b64_round _ 3 7881299347898369).
    + change (3 - 53) with (-50). change (bpow radix2 (-50)) with (/ 1125899906842624)%R. rewrite (Zceil_imp 8); [reflexivity|]. change (IZR (8 - 1)) with 7%R. lra.
    + change (3 - 1) with 2. change (bpow radix2 2) with 4%R. change (bpow radix2 3) with 8%R. lra.
    + change (53 - 3) with 50. change (bpow radix2 50) with 1125899906842624%R. apply Rabs_lt. lra.
  - change (-1 - 1) with (-2). change (bpow radix2 (-2)) with (/ 4)%R. change (bpow radix2 (-1)) with (/ 2)%R. lra.
  - change (53 - -1) with 54. change (bpow radix2 54) with 18014398509481984%R. lra.
  - reflexivity.
Qed.
Lemma doc_delta : b64 (b64 (b64 (1 / 10) + b64 (4 / 100)) - b64 (1 / 10)) = (1441151880758559 / 36028797018963968)%R.
Proof.
  rewrite start_val, step_val. rewrite (b64_round (_ + _) (-2) 5044031582654956).
  - change (-2 - 53) with (-55). change (bpow radix2 (-55)) with (/ 36028797018963968)%R.
    rewrite (b64_round _ (-4) 5764607523034236).
    + change (-4 - 53) with (-57). change (bpow radix2 (-57)) with (/ 144115188075855872)%R. lra.
    + change (-4 - 1) with (-5). change (bpow radix2 (-5)) with (/ 32)%R. change (bpow radix2 (-4)) with (/ 16)%R. lra.
    + change (53 - -4) with 57. change (bpow radix2 57) with 144115188075855872%R. apply Rabs_lt. lra.
  - change (-2 - 1) with (-3). change (bpow radix2 (-3)) with (/ 8)%R. change (bpow radix2 (-2)) with (/ 4)%R. lra.
  - change (53 - -2) with 55. change (bpow radix2 55) with 36028797018963968%R. apply Rabs_lt. lra.
Qed.
Lemma doc_last : arange64_at (b64 (1 / 10)) (b64 (4 / 100)) 7 = b64 (38 / 100).
Proof.
  unfold arange64_at. cbn [Z.eqb Pos.eqb]. rewrite doc_delta, start_val, stop_val.
  rewrite (b64_tie_even (IZR 7 * _) (-1) 5044031582654956).
  - change (-1 - 53) with (-54). change (bpow radix2 (-54)) with (/ 18014398509481984)%R. rewrite (b64_tie_even _ (-1) 6845471433603154).
    + change (-1 - 53) with (-54). change (bpow radix2 (-54)) with (/ 18014398509481984)%R. lra.
    + change (-1 - 1) with (-2). change (bpow radix2 (-2)) with (/ 4)%R. change (bpow radix2 (-1)) with (/ 2)%R. lra.
    + change (53 - -1) with 54. change (bpow radix2 54) with 18014398509481984%R. lra.
    + reflexivity.
  - change (-1 - 1) with (-2). change (bpow radix2 (-2)) with (/ 4)%R. change (bpow radix2 (-1)) with (/ 2)%R. lra.
  - change (53 - -1) with 54. change (bpow radix2 54) with 18014398509481984%R. lra.
  - reflexivity.
Qed.
(** The number of entries is the exact one up to the rounding of the quotient. *)
Lemma c138_count : forall a b s, (a <= b)%R -> (0 < s)%R -> let q := ((b - a) / s)%R in
  Zceil (q * (1 - 2 * bpow radix2 (-53))) <= arange64_len a b s <= Zceil (q * (1 + 3 * bpow radix2 (-53))).
Proof.
  intros a b s Hab Hs q. unfold arange64_len. destruct (b64_rel (b - a)) as (d1 & H1 & ->). destruct (b64_rel ((b - a) * (1 + d1) / s)) as (d2 & H2 & ->).
  fold u53 in *. assert (U := u53_val). assert (Q0 : (0 <= q)%R) by (unfold q; apply Rmult_le_pos; [lra|left; now apply Rinv_0_lt_compat]).
  replace ((b - a) * (1 + d1) / s * (1 + d2))%R with (q * ((1 + d1) * (1 + d2)))%R by (unfold q; field; lra). apply Rabs_le_inv in H1, H2.
  assert (UU : (0 < u53 < 1 / 1000)%R) by lra.
  assert (B1 : (1 - 2 * u53 <= (1 + d1) * (1 + d2))%R) by nra. assert (B2 : ((1 + d1) * (1 + d2) <= 1 + 3 * u53)%R) by nra.
  assert (L1 : Zceil (q * (1 - 2 * u53)) <= Zceil (q * ((1 + d1) * (1 + d2)))) by (apply Zceil_le, Rmult_le_compat_l; assumption).
  assert (L2 : Zceil (q * ((1 + d1) * (1 + d2))) <= Zceil (q * (1 + 3 * u53))) by (apply Zceil_le, Rmult_le_compat_l; assumption).
  assert (L3 : 0 <= Zceil (q * (1 + 3 * u53))) by (apply le_IZR; eapply Rle_trans; [|apply Zceil_ub]; apply Rmult_le_pos; lra). lia.
Qed.
(** A step that is a power of two: no rounding at all. *)
Lemma c138_dyadic : forall j k, 0 <= k < 2 ^ 53 -> arange64 0 (IZR k * bpow radix2 j) (bpow radix2 j) = map (fun i => IZR i * bpow radix2 j)%R (arange 0 k).
Proof.
  intros j k Hk. assert (P := bpow_gt_0 radix2 j). assert (D : forall i, 0 <= i < 2 ^ 53 -> b64 (IZR i * bpow radix2 j) = (IZR i * bpow radix2 j)%R) by (intros i Hi; apply double_b64; exists i, j; split; [lia|reflexivity]).
  assert (L : arange64_len 0 (IZR k * bpow radix2 j) (bpow radix2 j) = k).
  { unfold arange64_len. rewrite Rminus_0_r, D by lia. replace (IZR k * bpow radix2 j / bpow radix2 j)%R with (IZR k) by (field; lra). rewrite double_b64 by (exists k, 0; split; [lia|cbn; ring]). rewrite Zceil_IZR. lia. }
  unfold arange64. rewrite L. apply map_ext_in. intros i Hi. apply in_arange in Hi. unfold arange64_at. assert (D1 : b64 (bpow radix2 j) = bpow radix2 j) by (replace (bpow radix2 j) with (IZR 1 * bpow radix2 j)%R by ring; apply D; lia).
  destruct (Z.eqb_spec i 0) as [->|]; [ring|]. destruct (Z.eqb_spec i 1) as [->|]; [rewrite Rplus_0_l, D1; ring|]. rewrite !Rplus_0_l, D1, Rminus_0_r, D1, D by lia. apply D. lia.
Qed.
(** The documented grid: 8 frequencies, the last one the stop itself (exact arithmetic: 7 below it). *)
Lemma c138_doc : zlen doc_fnorm = 8 /\ rnth doc_fnorm 7 = b64 (38 / 100) /\ Zceil ((38 / 100 - 1 / 10) / (4 / 100)) = 7.
Proof.
  split; [|split].
  - unfold doc_fnorm, arange64. rewrite zlen_map, arange_zlen, doc_len. reflexivity.
  - unfold doc_fnorm, arange64. rewrite doc_len. change (arange 0 8) with [0; 1; 2; 3; 4; 5; 6; 7]. exact doc_last.
  - replace ((38 / 100 - 1 / 10) / (4 / 100))%R with (IZR 7) by (cbn; field). apply Zceil_IZR.
Qed.
(** numpy's own description of arange, the half-open interval, fails. *)
Lemma c138_half_open_refuted : exists a b s, is_double a /\ is_double b /\ is_double s /\ (a < b)%R /\ (0 < s)%R /\ In b (arange64 a b s).
Proof.
  exists (b64 (1 / 10)), (b64 (38 / 100)), (b64 (4 / 100)). split; [|split; [|split; [|split; [|split]]]].
  - rewrite start_val. exists 3602879701896397, (-55). split; [lia|reflexivity].
  - rewrite stop_val. exists 3422735716801577, (-53). split; [lia|reflexivity].
  - rewrite step_val. exists 5764607523034235, (-57). split; [lia|reflexivity].
  - rewrite start_val, stop_val. lra.
  - rewrite step_val. lra.
  - unfold arange64. apply in_map_iff. exists 7. split; [exact doc_last|]. apply in_arange. rewrite doc_len. lia.
Qed.
Lemma fn_stop : b64 (51 / 100) = (2296835809958953 / 4503599627370496)%R.
Proof.
  rewrite (b64_round _ 0 4593671619917906).
  - change (0 - 53) with (-53). change (bpow radix2 (-53)) with (/ 9007199254740992)%R. lra.
  - change (0 - 1) with (-1). change (bpow radix2 (-1)) with (/ 2)%R. change (bpow radix2 0) with 1%R. lra.
  - change (53 - 0) with 53. change (bpow radix2 53) with 9007199254740992%R. apply Rabs_lt. lra.
Qed.
Lemma fn_step : b64 (1 / 100) = (5764607523034235 / 576460752303423488)%R.
Proof.
  rewrite (b64_round _ (-6) 5764607523034235).
  - change (-6 - 53) with (-59). change (bpow radix2 (-59)) with (/ 576460752303423488)%R. reflexivity.
  - change (-6 - 1) with (-7). change (bpow radix2 (-7)) with (/ 128)%R. change (bpow radix2 (-6)) with (/ 64)%R. lra.
  - change (53 - -6) with 59. change (bpow radix2 59) with 576460752303423488%R. apply Rabs_lt. lra.
Qed.
(** The gallery grid: 51 frequencies, number k within 10^-16 of k/100. *)
Lemma c138_gallery : zlen gallery_fn = 51 /\ forall k, 0 <= k < 51 -> (Rabs (rnth gallery_fn k - IZR k / 100) <= 2 / 10 ^ 16)%R.
Proof.
  assert (L : arange64_len 0 (b64 (51 / 100)) (b64 (1 / 100)) = 51).
  { unfold arange64_len. rewrite fn_stop, fn_step, Rminus_0_r. rewrite (double_b64 (2296835809958953 / 4503599627370496)) by (exists 2296835809958953, (-52); split; [lia|reflexivity]).
    rewrite (b64_round _ 6 7177611906121728).
    - change (6 - 53) with (-47). change (bpow radix2 (-47)) with (/ 140737488355328)%R. replace (7177611906121728 * / 140737488355328)%R with (IZR 51) by lra. rewrite Zceil_IZR. reflexivity.
    - change (6 - 1) with 5. change (bpow radix2 5) with 32%R. change (bpow radix2 6) with 64%R. lra.
    - change (53 - 6) with 47. change (bpow radix2 47) with 140737488355328%R. apply Rabs_lt. lra. }
  unfold gallery_fn, arange64. rewrite L. split; [rewrite zlen_map, arange_zlen; reflexivity|]. intros k Hk.
  assert (E : rnth (map (arange64_at 0 (b64 (1 / 100))) (arange 0 51)) k = arange64_at 0 (b64 (1 / 100)) k).
  { unfold rnth. rewrite nth_map_arange by lia. now rewrite Z.add_0_l. }
  rewrite E. unfold arange64_at. assert (S0 : b64 (0 + b64 (1 / 100)) = b64 (1 / 100)) by (rewrite Rplus_0_l; apply double_b64; rewrite fn_step; exists 5764607523034235, (-59); split; [lia|reflexivity]).
  rewrite S0, Rminus_0_r. rewrite (double_b64 (b64 (1 / 100))) by (rewrite fn_step; exists 5764607523034235, (-59); split; [lia|reflexivity]).
  assert (K : (0 <= IZR k <= 50)%R) by (split; [apply (IZR_le 0); lia|apply (IZR_le k 50); lia]). rewrite fn_step.
  destruct (Z.eqb_spec k 0) as [->|N0]; [rewrite Rabs_right; lra|]. destruct (Z.eqb_spec k 1) as [->|N1]; [apply Rabs_le; lra|].
  rewrite Rplus_0_l. set (y := (IZR k * (5764607523034235 / 576460752303423488))%R).
  assert (BB : b64 (b64 y) = b64 y). { assert (VE : Valid_exp (FLX_exp 53)) by (apply FLX_exp_valid; reflexivity). unfold b64. apply round_generic; [apply valid_rnd_N|]. apply generic_format_round; [auto|apply valid_rnd_N]. }
  rewrite BB. assert (Y1 : (0 < y < bpow radix2 0)%R) by (unfold y; assert (1 <= IZR k)%R by (apply (IZR_le 1); lia); change (bpow radix2 0) with 1%R; lra).
  assert (Q := b64_err y 0 (proj1 Y1) (proj2 Y1)). change (0 - 54) with (-54) in Q. change (bpow radix2 (-54)) with (/ 18014398509481984)%R in Q.
  apply Rabs_le_inv in Q. apply Rabs_le. unfold y in *. lra.
Qed.
(** The two programs give one delay per frequency. *)
Lemma c138_programs : forall x, (exists v, doc_group_delay x = Ok v /\ zlen v = 8) /\ (exists v, gallery_group_delay x = Ok v /\ zlen v = 51).
Proof.
  intros x. split; eexists; (split; [reflexivity|]); rewrite zlen_map; [apply c138_doc|apply c138_gallery].
Qed.
(** Quarters from 0 to 1: four of them. *)
Example c138_example : arange64 0 1 (1 / 4) = [0; 1 / 4; 1 / 2; 3 / 4]%R.
Proof.
  assert (Q := c138_dyadic (-2) 4 ltac:(lia)). change (bpow radix2 (-2)) with (/ 4)%R in Q. replace (IZR 4 * / 4)%R with 1%R in Q by field. replace (1 / 4)%R with (/ 4)%R by field. rewrite Q. change (arange 0 4) with [0; 1; 2; 3]. cbn [map]. assert (E : forall a b c d a' b' c' d' : R, a = a' -> b = b' -> c = c' -> d = d' -> [a; b; c; d] = [a'; b'; c'; d']) by (intros; now subst). apply E; field.
Qed.
