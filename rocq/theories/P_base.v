(** Proofs about default windows and the frequency axis. *)
From Coq Require Import Reals ZArith List Lia Lra Bool.
From Coquelicot Require Import Coquelicot.
From Verif Require Import Py Scalars CSum DFT Spec M_base.
Import ListNotations.
Local Open Scope Z_scope.

Definition rnth (l : list R) (i : Z) : R := nth (Z.to_nat i) l 0%R.

Lemma zlen_app {A} (a b : list A) : zlen (a ++ b) = zlen a + zlen b.
Proof. unfold zlen. rewrite app_length. lia. Qed.

Lemma base_freqs_gen n ks p : 0 <= p -> ks = arange 0 p ++ arange (- p) 0 ->
  let fr := map (fun k => (IZR k / IZR n)%R) ks in
  zlen fr = 2 * p /\
  (forall k, 0 <= k < p -> rnth fr k = (IZR k / IZR n)%R) /\
  (forall k, p <= k < 2 * p -> rnth fr k = (IZR (k - 2 * p) / IZR n)%R).
Proof.
  intros Hp -> fr. unfold fr. repeat split.
  - rewrite zlen_map, zlen_app, !arange_zlen. lia.
  - intros k Hk. unfold rnth. rewrite map_app, app_nth1 by (rewrite map_length, arange_length; lia).
    rewrite nth_map_arange by lia. do 2 f_equal.
  - intros k Hk. unfold rnth. rewrite map_app, app_nth2; rewrite map_length, arange_length; [|lia].
    replace (Z.to_nat k - Z.to_nat (p - 0))%nat with (Z.to_nat (k - p)) by lia.
    rewrite nth_map_arange by lia. do 2 f_equal. lia.
Qed.

Lemma base_freqs_even n : 1 <= n -> n mod 2 = 0 ->
  zlen (base_freqs n) = n /\
  (forall k, 0 <= k < n / 2 -> rnth (base_freqs n) k = (IZR k / IZR n)%R) /\
  (forall k, n / 2 <= k < n -> rnth (base_freqs n) k = (IZR (k - n) / IZR n)%R).
Proof.
  intros Hn E. unfold base_freqs. rewrite E. cbn [Z.eqb].
  destruct (base_freqs_gen n _ (n / 2) ltac:(Z.to_euclidean_division_equations; lia) eq_refl) as [H1 [H2 H3]].
  replace (2 * (n / 2)) with n in * by (Z.to_euclidean_division_equations; lia). auto.
Qed.

Lemma base_freqs_odd n : 1 <= n -> n mod 2 = 1 ->
  zlen (base_freqs n) = n - 1 /\
  (forall k, 0 <= k < n / 2 -> rnth (base_freqs n) k = (IZR k / IZR n)%R) /\
  (forall k, n / 2 <= k < n - 1 -> rnth (base_freqs n) k = (IZR (k - (n - 1)) / IZR n)%R).
Proof.
  intros Hn E. unfold base_freqs. rewrite E. cbn [Z.eqb].
  destruct (base_freqs_gen n _ ((n - 1) / 2) ltac:(Z.to_euclidean_division_equations; lia) eq_refl) as [H1 [H2 H3]].
  replace (2 * ((n - 1) / 2)) with (n - 1) in * by (Z.to_euclidean_division_equations; lia).
  replace (n / 2) with ((n - 1) / 2) by (Z.to_euclidean_division_equations; lia). auto.
Qed.

Lemma default_winlen_odd n : 1 <= n ->
  Z.odd (default_winlen n) = true /\ 1 <= default_winlen n <= n / 4 + 1 /\ n / 4 <= default_winlen n.
Proof.
  intros Hn. unfold default_winlen. rewrite Zodd_mod.
  split; [apply Zeq_is_eq_bool|]; Z.to_euclidean_division_equations; lia.
Qed.

Lemma hamming_zlen m : 0 <= m -> zlen (hamming m) = m.
Proof.
  intros Hm. unfold hamming. destruct (Z.leb_spec m 1).
  - unfold zlen. rewrite repeat_length. lia.
  - rewrite zlen_map_arange; lia.
Qed.

Lemma hamming_nth m k : 1 < m -> 0 <= k < m ->
  rnth (hamming m) k = (0.54 - 0.46 * cos (2 * PI * IZR k / IZR (m - 1)))%R.
Proof.
  intros Hm Hk. unfold hamming. destruct (Z.leb_spec m 1); [lia|].
  unfold rnth. rewrite nth_map_arange by lia. rewrite Z.add_0_l.
  replace (- PI + 2 * PI * IZR k / IZR (m - 1))%R with (- (PI - 2 * PI * IZR k / IZR (m - 1)))%R by ring.
  rewrite cos_neg. rewrite cos_minus, cos_PI, sin_PI. ring.
Qed.

Lemma hamming_range m k : 0 <= k < m -> (0.08 <= rnth (hamming m) k <= 1)%R.
Proof.
  intros Hk. destruct (Z_le_gt_dec m 1).
  - unfold hamming. rewrite (proj2 (Z.leb_le m 1)) by auto. unfold rnth.
    replace (nth (Z.to_nat k) (repeat 1%R (Z.to_nat m)) 0%R) with 1%R; [lra|].
    replace m with 1 by lia. replace k with 0 by lia. reflexivity.
  - rewrite hamming_nth by lia. generalize (COS_bound (2 * PI * IZR k / IZR (m - 1))). lra.
Qed.

Lemma hamming_sym m k : 0 <= k < m -> rnth (hamming m) k = rnth (hamming m) (m - 1 - k).
Proof.
  intros Hk. destruct (Z_le_gt_dec m 1).
  - do 2 f_equal. lia.
  - rewrite !hamming_nth by lia. do 2 f_equal.
    replace (2 * PI * IZR (m - 1 - k) / IZR (m - 1))%R with (- (2 * PI * IZR k / IZR (m - 1)) + 2 * PI * IZR 1)%R.
    + rewrite <- (cos_neg (2 * PI * IZR k / IZR (m - 1))).
      assert (H := cis_plus (- (2 * PI * IZR k / IZR (m - 1))) (2 * PI * IZR 1)).
      rewrite cis_2PI_k, Cmult_1_r in H. unfold cis in H. now injection H as -> _.
    + rewrite !minus_IZR. field. rewrite <- minus_IZR. apply not_0_IZR. lia.
Qed.

Lemma hamming_centre m : Z.odd m = true -> 1 <= m -> rnth (hamming m) ((m - 1) / 2) = 1%R.
Proof.
  intros Ho Hm. destruct (Z_le_gt_dec m 1).
  - replace m with 1 by lia. reflexivity.
  - apply Zodd_bool_iff, Zodd_ex in Ho. destruct Ho as [q Hq].
    replace ((m - 1) / 2) with q by (Z.to_euclidean_division_equations; lia).
    rewrite hamming_nth by lia.
    replace (2 * PI * IZR q / IZR (m - 1))%R with PI.
    + rewrite cos_PI. lra.
    + rewrite Hq. replace (2 * q + 1 - 1) with (2 * q) by lia. rewrite mult_IZR. field.
      apply not_0_IZR. lia.
Qed.
