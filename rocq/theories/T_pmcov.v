(** C160: how PseudoMargenauHillDistribution follows the signal. *)
From Coq Require Import Reals ZArith List Lia Lra Bool.
From Coquelicot Require Import Coquelicot.
From Flocq Require Import Core.
From Verif Require Import Py Scalars CSum DFT Spec M_base M_stft M_cohen M_amb M_putils M_reas P_base P_stft P_wvd P_mh P_pwvd P_spec P_spwv T_mh T_spwv T_red T_key T_noise T_putils T_reas T_reas2 T_conc T_rtone T_sptone T_pmtone.
Import ListNotations.
Local Open Scope Z_scope.

(** Whether it returns depends on the lengths only. *)
Lemma c160_length : forall x y ts n w ox, 1 <= n -> zlen x = zlen y -> pmh x (Some ts) (Some n) (Some w) = Ok ox -> exists oy, pmh y (Some ts) (Some n) (Some w) = Ok oy.
Proof.
  intros x y ts n w ox Hn L H. destruct (c32_pmh_outcome y ts n w Hn) as [[_ E]|[R _]]; [exact E|]. exfalso. destruct (c32_pmh_outcome x ts n w Hn) as [[Q _]|[_ Q]]; [|congruence]. apply R. rewrite <- L. exact Q.
Qed.
Lemma c160_scale : forall x z ts n w ox oy f c, 1 <= n -> pmh x (Some ts) (Some n) (Some w) = Ok ox -> pmh (scale z x) (Some ts) (Some n) (Some w) = Ok oy -> 0 <= f < n -> 0 <= c < ts_len ts ->
  at2 (r_tfr oy) f c = (RtoC (Cmod z ^ 2) * at2 (r_tfr ox) f c)%C.
Proof.
  intros x z ts n w ox oy f c Hn HX HY Hf Hc. assert (Cx := pmh_cols x ts n w ox c Hn HX Hc). rewrite (c32_pmh_closed_form x ts n w ox f c), (c32_pmh_closed_form (scale z x) ts n w oy f c) by auto. rewrite scale_zlen, <- csum_scal_l. apply csum_ext. intros k Ik. apply in_arange in Ik. rewrite !scale_nth by lia. rewrite Cconj_mult, Cmod2_conj. ring.
Qed.
Lemma c160_parallelogram : forall x y ts n w ox oy op om f c, 1 <= n -> zlen x = zlen y -> pmh x (Some ts) (Some n) (Some w) = Ok ox -> pmh y (Some ts) (Some n) (Some w) = Ok oy ->
  pmh (lincomb (RtoC 1) (RtoC 1) x y) (Some ts) (Some n) (Some w) = Ok op -> pmh (lincomb (RtoC 1) (RtoC (-1)) x y) (Some ts) (Some n) (Some w) = Ok om -> 0 <= f < n -> 0 <= c < ts_len ts ->
  (at2 (r_tfr op) f c + at2 (r_tfr om) f c = RtoC 2 * at2 (r_tfr ox) f c + RtoC 2 * at2 (r_tfr oy) f c)%C.
Proof.
  intros x y ts n w ox oy op om f c Hn L HX HY HP HM Hf Hc. assert (Cx := pmh_cols x ts n w ox c Hn HX Hc).
  rewrite (c32_pmh_closed_form _ ts n w op f c Hn HP Hf Hc), (c32_pmh_closed_form _ ts n w om f c Hn HM Hf Hc), (c32_pmh_closed_form x ts n w ox f c Hn HX Hf Hc), (c32_pmh_closed_form y ts n w oy f c Hn HY Hf Hc). rewrite !lincomb_zlen, <- L by auto. rewrite <- !csum_scal_l, <- !csum_plus. apply csum_ext. intros k Ik. apply in_arange in Ik. rewrite !lincomb_nth by (auto; lia). rewrite !Cconj_plus, !Cconj_mult, !Cconj_R.
  replace (RtoC 2) with (RtoC 1 + RtoC 1)%C by (rewrite <- RtoC_plus; f_equal; ring). replace (RtoC (-1)) with (- RtoC 1)%C by (rewrite <- RtoC_opp; reflexivity). ring.
Qed.
(** An entry sees sample c and the samples under the window around c - 1. *)
Lemma c160_local : forall x y ts n w ox oy f c, 1 <= n -> zlen x = zlen y -> pmh x (Some ts) (Some n) (Some w) = Ok ox -> pmh y (Some ts) (Some n) (Some w) = Ok oy -> 0 <= f < n -> 0 <= c < ts_len ts ->
  cnth x c = cnth y c -> (forall k, 0 <= k < zlen x -> Z.abs (c - 1 - k) <= (zlen w - 1) / 2 -> cnth x k = cnth y k) -> at2 (r_tfr ox) f c = at2 (r_tfr oy) f c.
Proof.
  intros x y ts n w ox oy f c Hn L HX HY Hf Hc Ec Ek. rewrite (c32_pmh_closed_form x ts n w ox f c), (c32_pmh_closed_form y ts n w oy f c) by auto. rewrite <- L, Ec. apply csum_ext. intros k Ik. apply in_arange in Ik. destruct (Z_le_dec (Z.abs (c - 1 - k)) ((zlen w - 1) / 2)) as [B|B]; [rewrite (Ek k Ik B); reflexivity|]. rewrite winf_out by lia. ring.
Qed.
Lemma c160_bound : forall x ts n w o f c (M : R), 1 <= n -> pmh x (Some ts) (Some n) (Some w) = Ok o -> 0 <= f < n -> 0 <= c < ts_len ts -> (0 <= M)%R -> (forall k, 0 <= k < zlen x -> (Cmod (cnth x k) <= M)%R) ->
  (Cmod (at2 (r_tfr o) f c) <= Cmod (cnth x c) * M * rsum (arange 0 (zlen x)) (fun k => Cmod (winf w (c - 1 - k))))%R.
Proof.
  intros x ts n w o f c M Hn H Hf Hc M0 B. rewrite (c32_pmh_closed_form x ts n w o f c) by auto. apply Rle_trans with (1 := Cmod_csum_le _ _). rewrite <- rsum_scal_l. apply rsum_le. intros k Ik. apply in_arange in Ik. rewrite !Cmod_mult, Cmod_conj. unfold root. rewrite Cmod_cis, Rmult_1_r.
  assert (P := B k Ik). assert (Q1 := Cmod_ge_0 (winf w (c - 1 - k))). assert (Q2 := Cmod_ge_0 (cnth x c)). replace (Cmod (cnth x c) * M * Cmod (winf w (c - 1 - k)))%R with (Cmod (winf w (c - 1 - k)) * Cmod (cnth x c) * M)%R by ring. apply Rmult_le_compat_l; [apply Rmult_le_pos; auto|exact P].
Qed.
(** The rows of column c add up to n w[0] x[c] conj(x[c-1]), not to n w[0] |x[c]|^2. *)
Lemma c160_marginal : forall x ts n w o c, 1 <= n -> pmh x (Some ts) (Some n) (Some w) = Ok o -> 0 <= c < ts_len ts ->
  csum (arange 0 n) (fun f => at2 (r_tfr o) f c) = if 1 <=? c then (RtoC (IZR n) * winf w 0 * cnth x c * Cconj (cnth x (c - 1)))%C else RtoC 0.
Proof.
  intros x ts n w o c Hn H Hc. assert (Cx := pmh_cols x ts n w o c Hn H Hc).
  assert (FAR : (zlen w - 1) / 2 < n \/ zlen x < n). { assert (B := round_half_bounds n). destruct (c32_pmh_outcome x ts n w Hn) as [[[R|[_ R]] _]|[_ E]]; [lia|lia|congruence]. }
  rewrite (csum_ext _ _ (fun f => csum (arange 0 (zlen x)) (fun k => winf w (c - 1 - k) * cnth x c * Cconj (cnth x k) * root n (f * - (c - 1 - k)))%C)).
  2:{ intros f If. apply in_arange in If. rewrite (c32_pmh_closed_form x ts n w o f c) by auto. apply csum_ext. intros k _. do 2 f_equal. ring. }
  rewrite csum_swap. rewrite (csum_ext _ _ (fun k => if k =? c - 1 then (RtoC (IZR n) * winf w 0 * cnth x c * Cconj (cnth x (c - 1)))%C else RtoC 0)).
  - destruct (Z.leb_spec 1 c) as [C1|C1].
    + rewrite (csum_single (arange 0 (zlen x)) (c - 1)).
      * now rewrite Z.eqb_refl.
      * apply NoDup_arange.
      * apply in_arange. lia.
      * intros k _ NE. destruct (Z.eqb_spec k (c - 1)); [contradiction|reflexivity].
    + apply csum_0. intros k Ik. apply in_arange in Ik. destruct (Z.eqb_spec k (c - 1)); [lia|reflexivity].
  - intros k Ik. apply in_arange in Ik. rewrite csum_scal_l, root_orth by lia. destruct (Z.eqb_spec k (c - 1)) as [->|NE].
    + replace (c - 1 - (c - 1)) with 0 by ring. change (- 0) with 0. rewrite Z.mod_0_l by lia. change (0 =? 0) with true. cbv iota. ring.
    + destruct (Z_le_dec (Z.abs (c - 1 - k)) ((zlen w - 1) / 2)) as [B|B]; [|rewrite winf_out by lia; ring].
      destruct (Z.eqb_spec ((- (c - 1 - k)) mod n) 0) as [E|_]; [|ring]. exfalso. apply Z.mod_divide in E; [|lia]. destruct E as [q E]. assert (Z.abs (c - 1 - k) < n) by lia. assert (q = 0 \/ 1 <= Z.abs q) as [-> |Q] by lia; [lia|]. nia.
Qed.
(** 1, 2i, 0, 1 on 8 rows with [1, 1, 1]: column 1 adds up to 16i; doubled, to 64i. *)
Example c160_example : let x := [RtoC 1; (0, 2)%R; RtoC 0; RtoC 1] in let w := [RtoC 1; RtoC 1; RtoC 1] in let ts := Some (TsI [0; 1; 2; 3]) in
  exists o o2, pmh x ts (Some 8) (Some w) = Ok o /\ pmh (scale (RtoC 2) x) ts (Some 8) (Some w) = Ok o2 /\ csum (arange 0 8) (fun f => at2 (r_tfr o) f 1) = (0, 16)%R /\ csum (arange 0 8) (fun f => at2 (r_tfr o2) f 1) = (0, 64)%R.
Proof.
  cbv zeta. set (x := [RtoC 1; (0, 2)%R; RtoC 0; RtoC 1]). set (w := [RtoC 1; RtoC 1; RtoC 1]). set (ts := TsI [0; 1; 2; 3]).
  destruct (c32_pmh_outcome x ts 8 w ltac:(lia)) as [[_ (o & H)]|[R _]]; [|exfalso; apply R; right; split; [vm_compute; discriminate|left; apply Z.ltb_lt; reflexivity]].
  destruct (c160_length x (scale (RtoC 2) x) ts 8 w o ltac:(lia) eq_refl H) as (o2 & H2). exists o, o2. split; [exact H|]. split; [exact H2|].
  assert (E : csum (arange 0 8) (fun f => at2 (r_tfr o) f 1) = (0, 16)%R).
  { rewrite (c160_marginal x ts 8 w o 1 ltac:(lia) H ltac:(change (ts_len ts) with 4; lia)). change (1 <=? 1) with true. cbv iota. change (winf w 0) with (RtoC 1). change (cnth x 1) with ((0, 2)%R : C). change (cnth x (1 - 1)) with (RtoC 1). apply injective_projections; cbn; ring. }
  split; [exact E|]. rewrite (csum_ext _ _ (fun f => RtoC 4 * at2 (r_tfr o) f 1)%C).
  - rewrite csum_scal_l, E. apply injective_projections; cbn; ring.
  - intros f If. apply in_arange in If. rewrite (c160_scale x (RtoC 2) ts 8 w o o2 f 1 ltac:(lia) H H2 If ltac:(change (ts_len ts) with 4; lia)). f_equal. apply (f_equal RtoC). rewrite Cmod_R, Rabs_pos_eq by lra. ring.
Qed.
