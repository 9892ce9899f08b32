(** C157: smoothed_pseudo_wigner_ville of an impulse. *)
From Coq Require Import Reals ZArith List Lia Lra Bool.
From Coquelicot Require Import Coquelicot.
From Flocq Require Import Core.
From Verif Require Import Py Scalars CSum DFT Spec M_base M_stft M_cohen M_amb M_putils M_reas P_base P_stft P_wvd P_pwvd P_spec P_spwv T_spwv T_red T_key T_noise T_putils T_reas T_reas2 T_conc T_rtone T_sptone.
Import ListNotations.
Local Open Scope Z_scope.

(** Share of sample k in the average of the column around sample c. *)
Definition share (x tw : list C) (c k : Z) : C := (winf tw (c - k) / csum (arange 0 (zlen x)) (fun s => winf tw (c - s)%Z))%C.

Lemma lagavg_impulse x k a g c tau : only_at x k a -> 0 <= k < zlen x ->
  lagavg x g c tau = if tau =? 0 then (RtoC (Cmod a ^ 2) * (g (c - k)%Z / csum (arange 0 (zlen x)) (fun s => g (c - s)%Z)))%C else RtoC 0.
Proof.
  intros HX Hk. unfold lagavg. destruct (Z.eqb_spec tau 0) as [->|NE].
  - change (Z.abs 0) with 0. unfold lagmass. rewrite Z.sub_0_r. rewrite (csum_single (arange 0 (zlen x)) k (fun s => g (c - s)%Z * cnth x (s + 0) * Cconj (cnth x (s - 0)))%C).
    + rewrite Z.add_0_r, Z.sub_0_r, HX, Z.eqb_refl, Cmod2_conj by lia. unfold Cdiv. ring.
    + apply NoDup_arange.
    + apply in_arange. lia.
    + intros s Hs NS. apply in_arange in Hs. rewrite Z.add_0_r, HX by lia. destruct (Z.eqb_spec s k); [lia|]. ring.
  - rewrite csum_0; [unfold Cdiv; ring|]. intros s Hs. apply in_arange in Hs. rewrite !HX by lia. destruct (Z.eqb_spec (s + tau) k), (Z.eqb_spec (s - tau) k); try lia; rewrite ?Cconj_R; ring.
Qed.
(** The column is the share of the impulse times 1 + 2 w[1] cos(2 pi f / n), not times 1. *)
Lemma c157_impulse : forall x k a l n tw fw out i ti col f, only_at x k a -> 0 <= k < zlen x -> 1 <= n -> zlen tw mod 2 = 1 -> zlen fw mod 2 = 1 ->
  spwv x (Some l) (Some n) (Some tw) (Some fw) = Ok out -> nth_error l (Z.to_nat i) = Some ti -> nth_error out (Z.to_nat i) = Some (Some col) -> 0 <= f < n ->
  rnth col f = (Cmod a ^ 2 * Re (share x tw (ti - 1) k * (RtoC 1 + (if (1 <=? lags_used x tw fw n ti)%Z then RtoC (2 * cos (2 * PI * IZR f / IZR n)) * winf fw 1 else RtoC 0)))%C)%R.
Proof.
  intros x k a l n tw fw out i ti col f HX Hk Hn Ht Hf H Hi Ho Hff.
  rewrite (c29_spwv_closed_form x l n tw fw out i ti col f Hn Ht Hf H Hi Ho Hff). fold (lags_used x tw fw n ti). set (m := lags_used x tw fw n ti).
  assert (SC : forall (r : R) z, (r * Re z)%R = Re (RtoC r * z)%C) by (intros r [z1 z2]; cbn; ring). rewrite SC. f_equal.
  rewrite (lagavg_impulse x k a (winf tw) (ti - 1) 0 HX Hk). change (0 =? 0) with true. cbv iota. fold (share x tw (ti - 1) k). set (S := share x tw (ti - 1) k).
  destruct (Z.leb_spec 1 m) as [M|M].
  - rewrite (csum_single _ 1).
    + rewrite !(lagavg_impulse x k a (winf tw) (ti - 1) _ HX Hk). change (1 - 1 =? 0) with true. cbv iota. fold (share x tw (ti - 1) k). fold S. change (2 - 1) with 1. rewrite !Z.mul_1_r.
      assert (R2 : (root n (- f) + root n f)%C = RtoC (2 * cos (2 * PI * IZR f / IZR n))).
      { unfold root. rewrite opp_IZR. replace (2 * PI * - IZR f / IZR n)%R with (- (2 * PI * IZR f / IZR n))%R by (unfold Rdiv; ring). unfold cis. rewrite cos_neg, sin_neg. apply injective_projections; cbn; ring. }
      rewrite <- R2. ring.
    + apply NoDup_arange.
    + apply in_arange. lia.
    + intros t It NT. apply in_arange in It. rewrite !(lagavg_impulse x k a (winf tw) (ti - 1) _ HX Hk). destruct (Z.eqb_spec (t - 1) 0), (Z.eqb_spec (1 - t) 0); try lia. ring.
  - rewrite csum_0; [ring|]. intros t It. apply in_arange in It. lia.
Qed.
(** Columns further from the impulse than the time window reaches are empty. *)
Lemma c157_support : forall x k a l n tw fw out i ti col f, only_at x k a -> 0 <= k < zlen x -> 1 <= n -> zlen tw mod 2 = 1 -> zlen fw mod 2 = 1 ->
  spwv x (Some l) (Some n) (Some tw) (Some fw) = Ok out -> nth_error l (Z.to_nat i) = Some ti -> nth_error out (Z.to_nat i) = Some (Some col) -> 0 <= f < n ->
  (zlen tw - 1) / 2 < Z.abs (ti - 1 - k) -> rnth col f = 0%R.
Proof.
  intros x k a l n tw fw out i ti col f HX Hk Hn Ht Hf H Hi Ho Hff D. rewrite (c157_impulse x k a l n tw fw out i ti col f) by auto.
  replace (share x tw (ti - 1) k) with (RtoC 0); [rewrite Cmult_0_l; cbn; ring|]. unfold share. replace (winf tw (ti - 1 - k)) with (RtoC 0); [unfold Cdiv; ring|]. unfold winf. destruct (Z.leb_spec (- ((zlen tw - 1) / 2)) (ti - 1 - k)), (Z.leb_spec (ti - 1 - k) ((zlen tw - 1) / 2)); cbn [andb]; try reflexivity. lia.
Qed.
(** Real windows with w[1] > 1/2: the column of an impulse is negative on rows about n/2. *)
Lemma c157_negative : forall x k a l n tw fw out i ti col f (g w : R), only_at x k a -> 0 <= k < zlen x -> a <> RtoC 0 -> 1 <= n -> zlen tw mod 2 = 1 -> zlen fw mod 2 = 1 ->
  spwv x (Some l) (Some n) (Some tw) (Some fw) = Ok out -> nth_error l (Z.to_nat i) = Some ti -> nth_error out (Z.to_nat i) = Some (Some col) -> 0 <= f < n -> 1 <= lags_used x tw fw n ti ->
  share x tw (ti - 1) k = RtoC g -> (0 < g)%R -> winf fw 1 = RtoC w -> (1 / 2 < w)%R -> 2 * f = n -> (rnth col f < 0)%R.
Proof.
  intros x k a l n tw fw out i ti col f g w HX Hk A0 Hn Ht Hf H Hi Ho Hff M SG G0 W W0 F. rewrite (c157_impulse x k a l n tw fw out i ti col f) by auto. rewrite SG, W. destruct (Z.leb_spec 1 (lags_used x tw fw n ti)); [|lia].
  assert (N0 : IZR n <> 0%R) by (apply not_0_IZR; lia). replace (2 * PI * IZR f / IZR n)%R with PI by (rewrite <- F, mult_IZR; field; rewrite <- F, mult_IZR in N0; intros Q; apply N0; rewrite Q; ring). rewrite cos_PI.
  assert (P : (0 < Cmod a ^ 2)%R) by (apply pow_lt, Cmod_gt_0; exact A0). replace (Re _) with (g * (1 - 2 * w))%R by (cbn; ring). assert (g * (1 - 2 * w) < 0)%R by nra. nra.
Qed.
(** 0, 0, 2, 0 with the time window [1] and the frequency window [1, 1, 1]: 12 on row 0, -4 on row 2. *)
Example c157_example : exists col, spwv [RtoC 0; RtoC 0; RtoC 2; RtoC 0] (Some [3]) (Some 4) (Some [RtoC 1]) (Some [RtoC 1; RtoC 1; RtoC 1]) = Ok [Some col] /\ rnth col 0 = 12%R /\ rnth col 2 = (-4)%R.
Proof.
  set (x := [RtoC 0; RtoC 0; RtoC 2; RtoC 0]). set (fw := [RtoC 1; RtoC 1; RtoC 1]).
  assert (HX : only_at x 2 (RtoC 2)) by (intros m Hm; change (zlen x) with 4 in Hm; assert (m = 0 \/ m = 1 \/ m = 2 \/ m = 3) as [-> | [-> | [-> | ->]]] by lia; reflexivity).
  assert (E : exists out, spwv x (Some [3]) (Some 4) (Some [RtoC 1]) (Some fw) = Ok out /\ zlen out = 1).
  { destruct (c29_spwv_outcome x [3] 4 [RtoC 1] fw ltac:(lia) eq_refl eq_refl) as [[_ (out & H & L & _)]|[(ti & [<-|[]] & (_ & B)) _]]; [exists out; split; [exact H|exact L]|]. vm_compute in B. exfalso. apply B. reflexivity. }
  destruct E as (out & H & L). destruct out as [|c [|]]; try (unfold zlen in L; cbn in L; lia). clear L.
  assert (MS : csum (arange 0 4) (fun s => winf [RtoC 1] (3 - 1 - s)) = RtoC 1).
  { change (arange 0 4) with [0; 1; 2; 3]. unfold csum. cbn [fold_right]. change (winf [RtoC 1] (3 - 1 - 0)) with (RtoC 0). change (winf [RtoC 1] (3 - 1 - 1)) with (RtoC 0). change (winf [RtoC 1] (3 - 1 - 2)) with (RtoC 1). change (winf [RtoC 1] (3 - 1 - 3)) with (RtoC 0). ring. }
  assert (NN := c29_nan_iff x [3] 4 [RtoC 1] fw [c] 0 3 ltac:(lia) eq_refl eq_refl H eq_refl). destruct c as [col|].
  2:{ exfalso. destruct NN as [NN _]. destruct (NN eq_refl) as (tau & HT & _ & M). assert (tau = 0) by (match type of HT with _ <= _ < ?b => change b with 1 in HT end; lia). subst tau. unfold lagmass in M. change (zlen x - 0) with 4 in M. rewrite MS in M. apply RtoC_inj in M. lra. }
  exists col. split; [exact H|].
  assert (V := fun f => c157_impulse x 2 (RtoC 2) [3] 4 [RtoC 1] fw [Some col] 0 3 col f HX ltac:(change (zlen x) with 4; lia) ltac:(lia) eq_refl eq_refl H eq_refl eq_refl).
  assert (SH : share x [RtoC 1] (3 - 1) 2 = RtoC 1) by (unfold share; change (zlen x) with 4; rewrite MS; change (winf [RtoC 1] (3 - 1 - 2)) with (RtoC 1); field; intros Q; apply RtoC_inj in Q; lra).
  change (lags_used x [RtoC 1] fw 4 3) with 1 in V. change (1 <=? 1) with true in V. change (winf fw 1) with (RtoC 1) in V. rewrite !V, SH by lia. rewrite Cmod_R, Rabs_right by lra. split.
  - replace (2 * PI * 0 / 4)%R with 0%R by field. rewrite cos_0. cbn. ring.
  - replace (2 * PI * 2 / 4)%R with PI by field. rewrite cos_PI. cbn. ring.
Qed.
