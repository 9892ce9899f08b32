(** C30, C31 for every timestamp the code accepts: negative ones, which index the
    signal from its end, and ones that are not below the number of bins. *)
From Coq Require Import Reals ZArith List Lia Lra Bool.
From Coquelicot Require Import Coquelicot.
From Verif Require Import Py Scalars CSum DFT Spec M_base M_stft M_cohen P_base P_stft P_wvd P_spec P_mh T_mh.
Import ListNotations.
Local Open Scope Z_scope.

Lemma pyat_mod x i : - zlen x <= i < zlen x -> pyat x i = cnth x (i mod zlen x).
Proof.
  intros H. unfold pyat. destruct (Z.ltb_spec i 0).
  - f_equal. symmetry. replace i with (i + zlen x + -1 * zlen x) at 1 by lia. rewrite Z.mod_add by lia. apply Z.mod_small. lia.
  - now rewrite Z.mod_small by lia.
Qed.

Lemma c30_any_timestamp : forall x l n o i ti f, 1 <= n ->
  mh x (Some (TsI l)) (Some n) = Ok o -> nth_error l (Z.to_nat i) = Some ti -> 0 <= f < n ->
  at2 (r_tfr o) f i =
  RtoC (Re (csum (arange 1 (Z.min n (zlen x)))
     (fun k => cnth x (ti mod zlen x) * Cconj (cnth x k) * root n (- (f * (ti - k)))))%C).
Proof.
  intros x l n o i ti f Hn H Hi Hf.
  assert (B : - zlen x <= ti < zlen x).
  { destruct (c30_mh_outcome x l n Hn) as [[B _]|[_ E]]; [apply B; eapply nth_error_In; eauto|congruence]. }
  apply mh_ret in H; [|lia]. rewrite H.
  rewrite (at2_map_list (fun ti => map nre (fft (mh_raw x n ti))) l f i ti Hi).
  rewrite cnth_map_re by (rewrite fft_zlen; unfold mh_raw; rewrite scatter_zlen; lia).
  rewrite mh_entry by (auto; lia). now rewrite pyat_mod.
Qed.

(** The sum over frequency of every column. *)
Lemma c30_any_marginal : forall x l n o i ti, 1 <= n ->
  mh x (Some (TsI l)) (Some n) = Ok o -> nth_error l (Z.to_nat i) = Some ti ->
  (1 <= ti mod n < zlen x -> csum (arange 0 n) (fun f => at2 (r_tfr o) f i) = RtoC (IZR n * Re (cnth x (ti mod zlen x) * Cconj (cnth x (ti mod n)))%C)) /\
  (~ 1 <= ti mod n < zlen x -> csum (arange 0 n) (fun f => at2 (r_tfr o) f i) = RtoC 0).
Proof.
  intros x l n o i ti Hn H Hi.
  assert (E : csum (arange 0 n) (fun f => at2 (r_tfr o) f i) =
    RtoC (IZR n * Re (if (1 <=? ti mod n) && (ti mod n <? Z.min n (zlen x)) then (cnth x (ti mod zlen x) * Cconj (cnth x (ti mod n)))%C else RtoC 0))).
  { rewrite (csum_ext _ _ (fun f => RtoC (Re (csum (arange 1 (Z.min n (zlen x)))
     (fun k => cnth x (ti mod zlen x) * Cconj (cnth x k) * root n (- (f * (ti - k)))))%C))).
    - rewrite <- RtoC_rsum, <- Re_csum, (exp_total n _ ti (fun k => cnth x (ti mod zlen x) * Cconj (cnth x k))%C) by lia.
      rewrite Re_scal. do 3 f_equal.
      apply (csum_residue n 1 (Z.min n (zlen x)) ti (fun k => cnth x (ti mod zlen x) * Cconj (cnth x k))%C); lia.
    - intros f Hf. apply in_arange in Hf. eapply c30_any_timestamp; eauto. }
  assert (M := Z.mod_pos_bound ti n ltac:(lia)).
  split; intros D; rewrite E.
  - now rewrite (proj2 (Z.leb_le 1 (ti mod n))), (proj2 (Z.ltb_lt (ti mod n) (Z.min n (zlen x)))) by lia.
  - destruct (Z.leb_spec 1 (ti mod n)), (Z.ltb_spec (ti mod n) (Z.min n (zlen x))); cbn [andb]; try lia; rewrite Re_R; f_equal; ring.
Qed.

Lemma c31_any_timestamp : forall x l n o i ti f, 1 <= n ->
  page x (Some (TsI l)) (Some n) = Ok o -> nth_error l (Z.to_nat i) = Some ti -> 0 <= f < n ->
  at2 (r_tfr o) f i =
  RtoC (Re (csum (arange 0 (Z.min n (zlen x)))
     (fun k => cnth x (ti mod zlen x) * Cconj (cnth x k) * root n (- (f * (ti - 1 - k)))))%C).
Proof.
  intros x l n o i ti f Hn H Hi Hf.
  assert (B : - zlen x <= ti < zlen x).
  { destruct (c31_page_outcome x l n Hn) as [[B _]|[_ E]]; [apply B; eapply nth_error_In; eauto|congruence]. }
  apply page_ret in H; [|lia]. rewrite H.
  rewrite (at2_map_list (fun ti => map nre (fft (page_raw x n ti))) l f i ti Hi).
  rewrite cnth_map_re by (rewrite fft_zlen; unfold page_raw; rewrite scatter_zlen; lia).
  rewrite page_entry by (auto; lia). now rewrite pyat_mod.
Qed.

Lemma c31_any_marginal : forall x l n o i ti, 1 <= n ->
  page x (Some (TsI l)) (Some n) = Ok o -> nth_error l (Z.to_nat i) = Some ti ->
  ((ti - 1) mod n < zlen x -> csum (arange 0 n) (fun f => at2 (r_tfr o) f i) = RtoC (IZR n * Re (cnth x (ti mod zlen x) * Cconj (cnth x ((ti - 1) mod n)))%C)) /\
  (zlen x <= (ti - 1) mod n -> csum (arange 0 n) (fun f => at2 (r_tfr o) f i) = RtoC 0).
Proof.
  intros x l n o i ti Hn H Hi.
  assert (E : csum (arange 0 n) (fun f => at2 (r_tfr o) f i) =
    RtoC (IZR n * Re (if (0 <=? (ti - 1) mod n) && ((ti - 1) mod n <? Z.min n (zlen x)) then (cnth x (ti mod zlen x) * Cconj (cnth x ((ti - 1) mod n)))%C else RtoC 0))).
  { rewrite (csum_ext _ _ (fun f => RtoC (Re (csum (arange 0 (Z.min n (zlen x)))
     (fun k => cnth x (ti mod zlen x) * Cconj (cnth x k) * root n (- (f * (ti - 1 - k)))))%C))).
    - rewrite <- RtoC_rsum, <- Re_csum, (exp_total n _ (ti - 1) (fun k => cnth x (ti mod zlen x) * Cconj (cnth x k))%C) by lia.
      rewrite Re_scal. do 3 f_equal.
      apply (csum_residue n 0 (Z.min n (zlen x)) (ti - 1) (fun k => cnth x (ti mod zlen x) * Cconj (cnth x k))%C); lia.
    - intros f Hf. apply in_arange in Hf. eapply c31_any_timestamp; eauto. }
  assert (M := Z.mod_pos_bound (ti - 1) n ltac:(lia)).
  split; intros D; rewrite E.
  - now rewrite (proj2 (Z.leb_le 0 ((ti - 1) mod n))), (proj2 (Z.ltb_lt ((ti - 1) mod n) (Z.min n (zlen x)))) by lia.
  - destruct (Z.leb_spec 0 ((ti - 1) mod n)), (Z.ltb_spec ((ti - 1) mod n) (Z.min n (zlen x))); cbn [andb]; try lia; rewrite Re_R; f_equal; ring.
Qed.

(** The energy marginal fails for Margenau-Hill as soon as a timestamp is not below
    the number of bins, although the call returns. *)
Lemma c30_few_bins_refuted : exists x l n o i ti, 1 <= n /\ mh x (Some (TsI l)) (Some n) = Ok o /\ nth_error l (Z.to_nat i) = Some ti /\
  1 <= ti < zlen x /\ csum (arange 0 n) (fun f => at2 (r_tfr o) f i) <> RtoC (IZR n * Cmod (cnth x ti) ^ 2).
Proof.
  set (x := [RtoC 1; RtoC 1; RtoC 1]). exists x, [2], 2.
  destruct (c30_mh_outcome x [2] 2 ltac:(lia)) as [[_ [o [H _]]]|[[ti [H1 H2]] _]].
  2:{ exfalso. destruct H1 as [<-|[]]. apply H2. change (zlen x) with 3. lia. }
  exists o, 0, 2. split; [lia|]. split; [exact H|]. split; [reflexivity|]. split; [change (zlen x) with 3; lia|].
  rewrite (proj2 (c30_any_marginal x [2] 2 o 0 2 ltac:(lia) H eq_refl)) by (cbn; lia).
  change (cnth x 2) with (RtoC 1). rewrite Cmod_1. intros E. apply RtoC_inj in E. lra.
Qed.

(** Timestamps -1 and 2 of three samples: the same sample, different lags. *)
Example c30_timestamps_example : exists o, mh [RtoC 1; Ci; RtoC 2] (Some (TsI [-1; 2])) (Some 4) = Ok o /\
  csum (arange 0 4) (fun f => at2 (r_tfr o) f 0) = RtoC 0 /\ csum (arange 0 4) (fun f => at2 (r_tfr o) f 1) = RtoC 16.
Proof.
  destruct (c30_mh_outcome [RtoC 1; Ci; RtoC 2] [-1; 2] 4 ltac:(lia)) as [[_ [o [H _]]]|[[ti [H1 H2]] _]].
  - exists o. split; [exact H|]. split.
    + apply (proj2 (c30_any_marginal [RtoC 1; Ci; RtoC 2] [-1; 2] 4 o 0 (-1) ltac:(lia) H eq_refl)). cbn. lia.
    + rewrite (proj1 (c30_any_marginal [RtoC 1; Ci; RtoC 2] [-1; 2] 4 o 1 2 ltac:(lia) H eq_refl)) by (cbn; lia).
      change (cnth [RtoC 1; Ci; RtoC 2] (2 mod zlen [RtoC 1; Ci; RtoC 2])) with (RtoC 2). change (cnth [RtoC 1; Ci; RtoC 2] (2 mod 4)) with (RtoC 2).
      rewrite Cconj_R, <- RtoC_mult, Re_R. f_equal. ring.
  - exfalso. apply H2. change (zlen _) with 3. destruct H1 as [<-|[<-|[]]]; lia.
Qed.

(** Entries of the Page representation of [1, i, 2]: at time 1, x[1] = i is paired
    with x[0] = 1 at lag 0, itself at lag -1 and x[2] = 2 at lag -2. *)
Example c31_values_example : exists o, page [RtoC 1; Ci; RtoC 2] None None = Ok o /\
  at2 (r_tfr o) 0 1 = RtoC 1 /\ at2 (r_tfr o) 0 2 = RtoC 6 /\ csum (arange 0 3) (fun f => at2 (r_tfr o) f 0) = RtoC 6.
Proof.
  set (x := [RtoC 1; Ci; RtoC 2]).
  destruct (c31_page_outcome x (arange 0 3) 3 ltac:(lia)) as [[_ [o [H _]]]|[[ti [H1 H2]] _]].
  2:{ exfalso. apply in_arange in H1. apply H2. change (zlen _) with 3. lia. }
  exists o. split; [exact H|].
  split; [|split].
  - rewrite (c31_any_timestamp x _ 3 o 1 1 0 ltac:(lia) H eq_refl) by lia.
    change (Z.min 3 (zlen x)) with 3. change (arange 0 3) with [0; 1; 2]. rewrite !csum_cons, csum_nil. rewrite !Z.mul_0_l. change (- 0) with 0. rewrite !root_0.
    change (cnth x (1 mod zlen x)) with Ci. change (cnth x 0) with (RtoC 1). change (cnth x 1) with Ci. change (cnth x 2) with (RtoC 2). f_equal. cbn. ring.
  - rewrite (c31_any_timestamp x _ 3 o 2 2 0 ltac:(lia) H eq_refl) by lia.
    change (Z.min 3 (zlen x)) with 3. change (arange 0 3) with [0; 1; 2]. rewrite !csum_cons, csum_nil. rewrite !Z.mul_0_l. change (- 0) with 0. rewrite !root_0.
    change (cnth x (2 mod zlen x)) with (RtoC 2). change (cnth x 0) with (RtoC 1). change (cnth x 1) with Ci. change (cnth x 2) with (RtoC 2). f_equal. cbn. ring.
  - rewrite (proj1 (c31_any_marginal x _ 3 o 0 0 ltac:(lia) H eq_refl)) by (cbn; lia).
    change (cnth x (0 mod zlen x)) with (RtoC 1). change (cnth x ((0 - 1) mod 3)) with (RtoC 2). f_equal. cbn. ring.
Qed.
