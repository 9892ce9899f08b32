(** C168: when MargenauHillDistribution and PageRepresentation determine the signal. *)
From Coq Require Import Reals ZArith List Lia Lra Bool.
From Coquelicot Require Import Coquelicot.
From Verif Require Import Py Scalars CSum DFT Spec M_base M_stft M_cohen P_base P_stft P_mh T_mh.
Import ListNotations.
Local Open Scope Z_scope.

Lemma small_mod d n : 0 < Z.abs d < n -> d mod n <> 0.
Proof. intros H E. apply Z.mod_divide in E; [|lia]. destruct E as [q E]. assert (q = 0 \/ 1 <= Z.abs q) as [-> |Q] by lia; [lia|nia]. Qed.
(** Lags that meet neither another lag nor the opposite of one survive the real part, halved. *)
Lemma re_inv n l (g : Z -> C) (s : Z -> Z) k0 : 1 <= n -> NoDup l -> In k0 l -> (forall k, In k l -> k <> k0 -> (s k0 - s k) mod n <> 0) -> (forall k, In k l -> (s k0 + s k) mod n <> 0) ->
  (RtoC 2 * csum (arange 0 n) (fun f => RtoC (Re (csum l (fun k => g k * root n (- (f * s k))))) * root n (f * s k0)) = RtoC (IZR n) * g k0)%C.
Proof.
  intros Hn ND IK D P. rewrite <- csum_scal_l.
  rewrite (csum_ext _ _ (fun f => csum l (fun k => g k * root n (f * (s k0 - s k))) + csum l (fun k => Cconj (g k) * root n (f * (s k0 + s k))))%C).
  2:{ intros f _. assert (R2 : forall z, (RtoC 2 * RtoC (Re z) = z + Cconj z)%C) by (intros [a b]; apply injective_projections; cbn; ring). rewrite Cmult_assoc, R2, csum_conj, Cmult_plus_distr_r, <- !csum_scal_r. f_equal; apply csum_ext; intros k _.
      - rewrite <- Cmult_assoc, <- root_plus. do 2 f_equal. ring.
      - rewrite Cconj_mult, root_conj, <- Cmult_assoc, <- root_plus. do 2 f_equal. ring. }
  rewrite csum_plus, !(csum_swap (arange 0 n)). rewrite (csum_single l k0); [|exact ND|exact IK|intros k Ik NE; rewrite csum_scal_l, root_orth by lia; destruct (Z.eqb_spec ((s k0 - s k) mod n) 0) as [E|_]; [now destruct (D k Ik NE)|ring]].
  rewrite (csum_0 l) by (intros k Ik; rewrite csum_scal_l, root_orth by lia; destruct (Z.eqb_spec ((s k0 + s k) mod n) 0) as [E|_]; [now destruct (P k Ik)|ring]).
  rewrite csum_scal_l, root_orth by lia. rewrite Z.sub_diag, Z.mod_0_l by lia. change (0 =? 0) with true. cbv iota. ring.
Qed.
(** Margenau-Hill: the column of the last sample gives its products with samples 1 .. N-2. *)
Lemma c168_mh_last : forall x l n o i k, 2 * zlen x - 1 <= n -> mh x (Some (TsI l)) (Some n) = Ok o -> nth_error l (Z.to_nat i) = Some (zlen x - 1) -> 1 <= k < zlen x - 1 ->
  (RtoC 2 * csum (arange 0 n) (fun f => at2 (r_tfr o) f i * root n (f * (zlen x - 1 - k))) = RtoC (IZR n) * (cnth x (zlen x - 1) * Cconj (cnth x k)))%C.
Proof.
  intros x l n o i k Hn H Hi Hk. rewrite <- (re_inv n (arange 1 (zlen x)) (fun k => cnth x (zlen x - 1) * Cconj (cnth x k))%C (fun k => zlen x - 1 - k) k); [|lia|apply NoDup_arange|apply in_arange; lia|intros j Ij NE; apply in_arange in Ij; apply small_mod; lia|intros j Ij; apply in_arange in Ij; apply small_mod; lia].
  f_equal. apply csum_ext. intros f If. apply in_arange in If. rewrite (c30_mh_closed_form x l n o i (zlen x - 1) f ltac:(lia) H Hi ltac:(lia) If). rewrite Z.min_r by lia. reflexivity.
Qed.
(** The column of sample 0 gives its products with all others. *)
Lemma c168_mh_first : forall x l n o i k, 2 * zlen x - 1 <= n -> mh x (Some (TsI l)) (Some n) = Ok o -> nth_error l (Z.to_nat i) = Some 0 -> 1 <= k < zlen x ->
  (RtoC 2 * csum (arange 0 n) (fun f => at2 (r_tfr o) f i * root n (f * (0 - k))) = RtoC (IZR n) * (cnth x 0 * Cconj (cnth x k)))%C.
Proof.
  intros x l n o i k Hn H Hi Hk. rewrite <- (re_inv n (arange 1 (zlen x)) (fun k => cnth x 0 * Cconj (cnth x k))%C (fun k => 0 - k) k); [|lia|apply NoDup_arange|apply in_arange; lia|intros j Ij NE; apply in_arange in Ij; apply small_mod; lia|intros j Ij; apply in_arange in Ij; apply small_mod; lia].
  f_equal. apply csum_ext. intros f If. apply in_arange in If. rewrite (c30_mh_closed_form x l n o i 0 f ltac:(lia) H Hi ltac:(lia) If). rewrite Z.min_r by lia. reflexivity.
Qed.
(** Page: the column of sample 0 gives its products with every sample, itself included. *)
Lemma c168_page_first : forall x l n o i k, 2 * zlen x + 1 <= n -> page x (Some (TsI l)) (Some n) = Ok o -> nth_error l (Z.to_nat i) = Some 0 -> 0 <= k < zlen x ->
  (RtoC 2 * csum (arange 0 n) (fun f => at2 (r_tfr o) f i * root n (f * (0 - 1 - k))) = RtoC (IZR n) * (cnth x 0 * Cconj (cnth x k)))%C.
Proof.
  intros x l n o i k Hn H Hi Hk. rewrite <- (re_inv n (arange 0 (zlen x)) (fun k => cnth x 0 * Cconj (cnth x k))%C (fun k => 0 - 1 - k) k); [|lia|apply NoDup_arange|apply in_arange; lia|intros j Ij NE; apply in_arange in Ij; apply small_mod; lia|intros j Ij; apply in_arange in Ij; apply small_mod; lia].
  f_equal. apply csum_ext. intros f If. apply in_arange in If. rewrite (c31_page_closed_form x l n o i 0 f ltac:(lia) H Hi ltac:(lia) If). rewrite Z.min_r by lia. reflexivity.
Qed.
Lemma from_one x y e : cnth x e <> RtoC 0 -> (cnth x e * Cconj (cnth x e) = cnth y e * Cconj (cnth y e))%C -> (forall k, 0 <= k < zlen x -> k <> e -> (cnth x e * Cconj (cnth x k) = cnth y e * Cconj (cnth y k))%C) ->
  exists u, Cmod u = 1%R /\ forall k, 0 <= k < zlen x -> cnth y k = (u * cnth x k)%C.
Proof.
  intros XE Q P. exists (cnth y e / cnth x e)%C.
  assert (U : Cmod (cnth y e / cnth x e)%C = 1%R). { rewrite <- !Cmod2_conj in Q. apply RtoC_inj in Q. assert (PA : (0 < Cmod (cnth x e))%R) by now apply Cmod_gt_0. assert (PB := Cmod_ge_0 (cnth y e)). assert (Q' : Cmod (cnth x e) = Cmod (cnth y e)) by nra. rewrite Cmod_div by exact XE. rewrite <- Q'. field. lra. }
  split; [exact U|]. set (u := (cnth y e / cnth x e)%C) in *. assert (YE : cnth y e = (u * cnth x e)%C) by (unfold u; field; exact XE). clearbody u. assert (UU : (u * Cconj u = RtoC 1)%C) by (rewrite <- Cmod2_conj, U; f_equal; ring).
  intros k Hk. destruct (Z.eq_dec k e) as [-> |NE]; [exact YE|]. assert (S := P k Hk NE). rewrite YE in S.
  assert (V : Cconj (cnth x k) = (u * Cconj (cnth y k))%C) by (transitivity (cnth x e * Cconj (cnth x k) / cnth x e)%C; [field; exact XE|rewrite S; field; exact XE]). apply (f_equal Cconj) in V. rewrite Cconj_mult, !Cconj_invol in V. rewrite V. transitivity (u * Cconj u * cnth y k)%C; [rewrite UU; ring|ring].
Qed.
Lemma cancel_n n a b : 1 <= n -> (RtoC (IZR n) * a = RtoC (IZR n) * b)%C -> a = b.
Proof. intros Hn E. assert (N0 : RtoC (IZR n) <> RtoC 0) by (intros Z0; apply RtoC_inj in Z0; apply eq_IZR in Z0; lia). transitivity (RtoC (IZR n) * a / RtoC (IZR n))%C; [field; exact N0|]. rewrite E. field. exact N0. Qed.
(** Twice as many rows as samples less one, the last sample not zero: the columns of the first and the last sample are enough. *)
Lemma c168_mh_unique : forall x y l n ox oy i j, 2 <= zlen x -> zlen x = zlen y -> 2 * zlen x - 1 <= n -> mh x (Some (TsI l)) (Some n) = Ok ox -> mh y (Some (TsI l)) (Some n) = Ok oy -> nth_error l (Z.to_nat i) = Some 0 -> nth_error l (Z.to_nat j) = Some (zlen x - 1) -> cnth x (zlen x - 1) <> RtoC 0 ->
  (forall f, 0 <= f < n -> at2 (r_tfr ox) f i = at2 (r_tfr oy) f i /\ at2 (r_tfr ox) f j = at2 (r_tfr oy) f j) -> exists u, Cmod u = 1%R /\ forall k, 0 <= k < zlen x -> cnth y k = (u * cnth x k)%C.
Proof.
  intros x y l n ox oy i j N2 L Hn HX HY Hi Hj XE E. apply (from_one x y (zlen x - 1) XE).
  - assert (A := c30_mh_marginal x l n ox j (zlen x - 1) ltac:(lia) HX Hj ltac:(lia) ltac:(lia)). assert (B := c30_mh_marginal y l n oy j (zlen x - 1) ltac:(lia) HY Hj ltac:(lia) ltac:(lia)). rewrite (csum_ext _ _ (fun f => at2 (r_tfr oy) f j)) in A by (intros f If; apply in_arange in If; now apply E). rewrite A, !RtoC_mult in B. apply (cancel_n n) in B; [|lia]. now rewrite <- !Cmod2_conj.
  - intros k Hk NE. destruct (Z.eq_dec k 0) as [-> |K0].
    + assert (A := c168_mh_first x l n ox i (zlen x - 1) Hn HX Hi ltac:(lia)). assert (B := c168_mh_first y l n oy i (zlen x - 1) ltac:(lia) HY Hi ltac:(lia)). rewrite (csum_ext _ _ (fun f => at2 (r_tfr oy) f i * root n (f * (0 - (zlen x - 1))))%C) in A by (intros f If; apply in_arange in If; now rewrite (proj1 (E f If))). rewrite A in B. apply (cancel_n n) in B; [|lia]. apply (f_equal Cconj) in B. rewrite !Cconj_mult, !Cconj_invol in B. rewrite Cmult_comm, B. ring.
    + assert (A := c168_mh_last x l n ox j k Hn HX Hj ltac:(lia)). rewrite L in Hj. assert (B := c168_mh_last y l n oy j k ltac:(lia) HY Hj ltac:(lia)). rewrite <- L in B. rewrite (csum_ext _ _ (fun f => at2 (r_tfr oy) f j * root n (f * (zlen x - 1 - k)))%C) in A by (intros f If; apply in_arange in If; now rewrite (proj2 (E f If))). rewrite A in B. apply (cancel_n n) in B; [exact B|lia].
Qed.
(** Page, the first sample not zero: its column alone is enough. *)
Lemma c168_page_unique : forall x y l n ox oy i, 1 <= zlen x -> zlen x = zlen y -> 2 * zlen x + 1 <= n -> page x (Some (TsI l)) (Some n) = Ok ox -> page y (Some (TsI l)) (Some n) = Ok oy -> nth_error l (Z.to_nat i) = Some 0 -> cnth x 0 <> RtoC 0 ->
  (forall f, 0 <= f < n -> at2 (r_tfr ox) f i = at2 (r_tfr oy) f i) -> exists u, Cmod u = 1%R /\ forall k, 0 <= k < zlen x -> cnth y k = (u * cnth x k)%C.
Proof.
  intros x y l n ox oy i N1 L Hn HX HY Hi X0 E.
  assert (P : forall k, 0 <= k < zlen x -> (cnth x 0 * Cconj (cnth x k) = cnth y 0 * Cconj (cnth y k))%C).
  { intros k Hk. assert (A := c168_page_first x l n ox i k Hn HX Hi Hk). assert (B := c168_page_first y l n oy i k ltac:(lia) HY Hi ltac:(lia)). rewrite (csum_ext _ _ (fun f => at2 (r_tfr oy) f i * root n (f * (0 - 1 - k)))%C) in A by (intros f If; apply in_arange in If; now rewrite (E f If)). rewrite A in B. apply (cancel_n n) in B; [exact B|lia]. }
  apply (from_one x y 0 X0); [apply P; lia|intros k Hk _; now apply P].
Qed.
(** On the default number of rows that is false: [1, i] and [2, i]. *)
Lemma c168_refuted : exists ox oy, mh [RtoC 1; Ci] None None = Ok ox /\ mh [RtoC 2; Ci] None None = Ok oy /\ (forall f t, 0 <= f < 2 -> 0 <= t < 2 -> at2 (r_tfr ox) f t = at2 (r_tfr oy) f t) /\ ~ exists u, Cmod u = 1%R /\ forall k, 0 <= k < 2 -> cnth [RtoC 2; Ci] k = (u * cnth [RtoC 1; Ci] k)%C.
Proof.
  assert (G : forall a, exists o, mh [a; Ci] None None = Ok o). { intros a. destruct (c30_mh_outcome [a; Ci] (arange 0 2) 2 ltac:(lia)) as [[_ [o [H _]]]|[[ti [H1 H2]] _]]; [exists o; exact H|]. exfalso. apply in_arange in H1. apply H2. change (zlen _) with 2. lia. }
  destruct (G (RtoC 1)) as (ox & HX). destruct (G (RtoC 2)) as (oy & HY). exists ox, oy. split; [exact HX|]. split; [exact HY|]. split.
  2:{ intros (u & U & E). assert (A := E 0 ltac:(lia)). change (cnth [RtoC 2; Ci] 0) with (RtoC 2) in A. change (cnth [RtoC 1; Ci] 0) with (RtoC 1) in A. apply (f_equal Cmod) in A. rewrite Cmod_mult, U, !Cmod_R, !Rabs_pos_eq in A by lra. lra. }
  intros f t Hf Ht.
  assert (I : nth_error (arange 0 2) (Z.to_nat t) = Some t) by (assert (t = 0 \/ t = 1) as [-> | ->] by lia; reflexivity).
  rewrite (c30_mh_closed_form [RtoC 1; Ci] (arange 0 2) 2 ox t t f ltac:(lia) HX I ltac:(lia) Hf), (c30_mh_closed_form [RtoC 2; Ci] (arange 0 2) 2 oy t t f ltac:(lia) HY I ltac:(lia) Hf). f_equal. change (arange 1 (Z.min 2 (zlen [RtoC 1; Ci]))) with [1]. change (arange 1 (Z.min 2 (zlen [RtoC 2; Ci]))) with [1]. rewrite !csum_cons, !csum_nil. change (cnth [RtoC 1; Ci] 1) with Ci. change (cnth [RtoC 2; Ci] 1) with Ci.
  assert (t = 0 \/ t = 1) as [-> | ->] by lia; [|reflexivity]. change (cnth [RtoC 1; Ci] 0) with (RtoC 1). change (cnth [RtoC 2; Ci] 0) with (RtoC 2). assert (RR : Im (root 2 (- (f * (0 - 1)))) = 0%R). { assert (f = 0 \/ f = 1) as [-> | ->] by lia. - change (- (0 * (0 - 1))) with 0. rewrite root_0. reflexivity. - change (- (1 * (0 - 1))) with 1. unfold root, cis. cbn. replace (2 * PI * 1 / 2)%R with PI by field. apply sin_PI. }
  destruct (root 2 (- (f * (0 - 1)))) as [p q]. cbn in RR. subst q. cbn. ring.
Qed.
(** 2, i on three rows: the column of sample 0 gives back 2 conj(i). *)
Example c168_example : exists o, mh [RtoC 2; Ci] (Some (TsI [0; 1])) (Some 3) = Ok o /\ (RtoC 2 * csum (arange 0 3) (fun f => at2 (r_tfr o) f 0 * root 3 (f * (0 - 1))))%C = (0, -6)%R.
Proof.
  destruct (c30_mh_outcome [RtoC 2; Ci] [0; 1] 3 ltac:(lia)) as [[_ [o [H _]]]|[[ti [H1 H2]] _]].
  - exists o. split; [exact H|]. rewrite (c168_mh_first [RtoC 2; Ci] [0; 1] 3 o 0 1 ltac:(change (zlen _) with 2; lia) H eq_refl ltac:(change (zlen _) with 2; lia)). change (cnth [RtoC 2; Ci] 0) with (RtoC 2). change (cnth [RtoC 2; Ci] 1) with Ci. apply injective_projections; cbn; ring.
  - exfalso. apply H2. change (zlen _) with 2. destruct H1 as [<-|[<-|[]]]; lia.
Qed.
