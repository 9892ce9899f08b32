(** C132, continued: the curvature of the Gaussian, the extrema of the Mexican hat, the
    instantaneous frequency of a chirp. *)
From Coq Require Import Reals ZArith List Lia Lra Bool.
From Coquelicot Require Import Coquelicot.
From Flocq Require Import Core.
From Verif Require Import Py Scalars CSum DFT Spec M_base M_utils M_putils M_dom M_gen1 M_gen3 P_base T_putils T_dom T_gen1 T_utils T_nd.
Import ListNotations.
Local Open Scope Z_scope.

(** *** test_amplitude_modulations.py, test_amgauss *)
(** cosh u < exp(u^2 / 2) for u <> 0. *)
Lemma cosh_aux u : (0 < u -> exp u - exp (- u) < u * (exp u + exp (- u)))%R.
Proof.
  intros Hu. set (f := fun u => (u * (exp u + exp (- u)) - (exp u - exp (- u)))%R).
  destruct (MVT_cor2 f (fun u => u * (exp u - exp (- u)))%R 0 u Hu) as (c & E & Hc).
  - intros c _. apply is_derive_Reals. unfold f. auto_derive; [auto|]. ring.
  - assert (P : (exp (- c) < exp c)%R) by (apply exp_increasing; lra). assert (Q : (0 < c * (exp c - exp (- c)) * (u - 0))%R) by (apply Rmult_lt_0_compat; [apply Rmult_lt_0_compat|]; lra).
    assert (F0 : f 0%R = 0%R) by (unfold f; rewrite Ropp_0; ring). rewrite F0 in E. unfold f in E. lra.
Qed.
Lemma cosh_pos u : (0 < u -> exp u + exp (- u) < 2 * exp (u ^ 2 / 2))%R.
Proof.
  intros Hu. set (f := fun u => (exp (- (u ^ 2 / 2)) * (exp u + exp (- u)))%R).
  destruct (MVT_cor2 f (fun u => exp (- (u ^ 2 / 2)) * ((exp u - exp (- u)) - u * (exp u + exp (- u))))%R 0 u Hu) as (c & E & Hc).
  - intros c _. apply is_derive_Reals. unfold f. auto_derive; [auto|]. replace (c * (c * 1) * / 2)%R with (c ^ 2 / 2)%R by field. set (e := exp (- (c ^ 2 / 2))). field.
  - assert (A := cosh_aux c ltac:(lra)). assert (P := exp_pos (- (c ^ 2 / 2))).
    assert (F0 : f 0%R = 2%R). { unfold f. replace (- (0 ^ 2 / 2))%R with 0%R by field. rewrite Ropp_0, exp_0. ring. } rewrite F0 in E.
    assert (L : (f u < 2)%R). { assert (Q : (exp (- (c ^ 2 / 2)) * (exp c - exp (- c) - c * (exp c + exp (- c))) * (u - 0) < 0)%R); [|lra].
      assert (Q : (0 < exp (- (c ^ 2 / 2)) * (c * (exp c + exp (- c)) - (exp c - exp (- c))) * (u - 0))%R) by (apply Rmult_lt_0_compat; [apply Rmult_lt_0_compat|]; lra). lra. }
    unfold f in L. rewrite exp_Ropp in L. assert (P2 := exp_pos (u ^ 2 / 2)). apply (Rmult_lt_compat_l (exp (u ^ 2 / 2))) in L; [|exact P2]. rewrite <- Rmult_assoc, Rinv_r in L by lra. lra.
Qed.
Lemma cosh_lt u : (u <> 0 -> exp u + exp (- u) < 2 * exp (u ^ 2 / 2))%R.
Proof.
  intros Hu. destruct (Rlt_dec 0 u) as [H|H]; [now apply cosh_pos|]. assert (Q := cosh_pos (- u) ltac:(lra)). rewrite Ropp_involutive in Q. replace ((- u) ^ 2)%R with (u ^ 2)%R in Q by ring. lra.
Qed.
Definition bell (a x : R) : R := exp (- (a * x ^ 2)).
Lemma bell_opp a x : bell a (- x) = bell a x.
Proof. unfold bell. do 2 f_equal. ring. Qed.
Lemma bell_concave a d : (0 < a -> 2 * a * d ^ 2 <= 1 -> bell a (d + 1) - 2 * bell a d + bell a (d - 1) < 0)%R.
Proof.
  intros Ha Hd. assert (EP : bell a (d + 1) = (bell a d * exp (- a) * exp (- (2 * a * d)))%R) by (unfold bell; rewrite <- !exp_plus; f_equal; ring).
  assert (EM : bell a (d - 1) = (bell a d * exp (- a) * exp (2 * a * d))%R) by (unfold bell; rewrite <- !exp_plus; f_equal; ring).
  rewrite EP, EM. set (u := (2 * a * d)%R). assert (B : (0 < bell a d)%R) by apply exp_pos. assert (PA := exp_pos a).
  assert (K : (exp u + exp (- u) < 2 * exp a)%R).
  { destruct (Req_dec d 0) as [->|NZ].
    - unfold u. rewrite Rmult_0_r, Ropp_0, exp_0. assert (Q := exp_increasing 0 a Ha). rewrite exp_0 in Q. lra.
    - assert (NU : u <> 0%R) by (unfold u; intros Z; apply Rmult_integral in Z; destruct Z; lra). assert (Q := cosh_lt u NU).
      assert (L : (u ^ 2 / 2 <= a)%R) by (unfold u; replace ((2 * a * d) ^ 2 / 2)%R with (a * (2 * a * d ^ 2))%R by field; nra).
      assert (L2 : (exp (u ^ 2 / 2) <= exp a)%R) by (destruct L as [L|L]; [left; now apply exp_increasing|rewrite L; lra]). lra. }
  assert (I : (exp (- a) * exp a = 1)%R) by (rewrite <- exp_plus; replace (- a + a)%R with 0%R by ring; apply exp_0). assert (PN := exp_pos (- a)).
  replace (bell a d * exp (- a) * exp (- u) - 2 * bell a d + bell a d * exp (- a) * exp u)%R with (bell a d * (exp (- a) * (exp u + exp (- u)) - 2))%R by ring.
  assert (Q : (exp (- a) * (exp u + exp (- u)) < exp (- a) * (2 * exp a))%R) by now apply Rmult_lt_compat_l. nra.
Qed.
Lemma bell_convex_pos a d : (0 < a -> 1 <= d -> 1 <= 2 * a * (d - 1) ^ 2 -> 0 < bell a (d + 1) - 2 * bell a d + bell a (d - 1))%R.
Proof.
  intros Ha H1 Hd. set (g := fun x => (- (2 * a * x) * bell a x)%R). set (h := fun x => ((4 * a ^ 2 * x ^ 2 - 2 * a) * bell a x)%R).
  assert (DB : forall x, derivable_pt_lim (bell a) x (g x)). { intros x. apply is_derive_Reals. unfold g, bell. auto_derive; [auto|]. replace (x * (x * 1))%R with (x ^ 2)%R by ring. ring. }
  assert (DG : forall x, derivable_pt_lim g x (h x)). { intros x. apply is_derive_Reals. unfold g, h, bell. auto_derive; [auto|]. replace (x * (x * 1))%R with (x ^ 2)%R by ring. ring. }
  destruct (MVT_cor2 (bell a) g d (d + 1) ltac:(lra)) as (c1 & E1 & B1); [intros; apply DB|]. destruct (MVT_cor2 (bell a) g (d - 1) d ltac:(lra)) as (c0 & E0 & B0); [intros; apply DB|].
  destruct (MVT_cor2 g h c0 c1 ltac:(lra)) as (e & E & B); [intros; apply DG|].
  assert (HP : (0 < h e)%R).
  { unfold h. apply Rmult_lt_0_compat; [|apply exp_pos]. assert (Q : ((d - 1) ^ 2 < e ^ 2)%R) by nra. replace (4 * a ^ 2 * e ^ 2 - 2 * a)%R with (2 * a * (2 * a * e ^ 2 - 1))%R by ring. assert (Q2 : (2 * a * (d - 1) ^ 2 < 2 * a * e ^ 2)%R) by (apply Rmult_lt_compat_l; lra). apply Rmult_lt_0_compat; lra. }
  assert (Q : (0 < h e * (c1 - c0))%R) by (apply Rmult_lt_0_compat; lra). lra.
Qed.
Lemma bell_convex a d : (0 < a -> 1 <= Rabs d -> 1 <= 2 * a * (Rabs d - 1) ^ 2 -> 0 < bell a (d + 1) - 2 * bell a d + bell a (d - 1))%R.
Proof.
  intros Ha. unfold Rabs. destruct (Rcase_abs d) as [L|L]; intros H1 H2; [|now apply bell_convex_pos].
  assert (Q := bell_convex_pos a (- d) Ha H1 H2). replace (- d + 1)%R with (- (d - 1))%R in Q by ring. replace (- d - 1)%R with (- (d + 1))%R in Q by ring. rewrite !bell_opp in Q. lra.
Qed.
(** The second difference of amgauss is positive at samples further than sigma + 1 from the centre and negative within sigma of it,
    sigma = spread / sqrt(2 pi); so the three assertions of the test, cut at floor(b - c) - 1 and floor(b + c), hold for all parameters. *)
Lemma c132_amgauss_curvature : forall n t s, 0 < n -> (0 < s)%R ->
  exists y, amgauss n (Some t) (Some s) = Ok (map Some y) /\ forall k, 1 <= k < n - 1 ->
  let sigma := (s / sqrt (2 * PI))%R in let d := Rabs (IZR k - (t - 1)) in let D := (rnth y (k + 1) - 2 * rnth y k + rnth y (k - 1))%R in
  ((sigma + 1 <= d)%R -> (0 < D)%R) /\ ((d <= sigma)%R -> (D < 0)%R).
Proof.
  intros n t s Hn Hs. assert (HP := PI_RGT_0). destruct (c53_amgauss n t s Hn Hs) as (y & E & L & _ & V). exists y. split; [exact E|]. intros k Hk sigma d D.
  set (a := (PI / s ^ 2)%R). assert (S2 : (0 < s ^ 2)%R) by now apply pow_lt. assert (PA : (0 < a)%R) by (apply Rdiv_lt_0_compat; lra).
  assert (VB : forall j, 0 <= j < n -> rnth y j = bell a (IZR j - (t - 1))). { intros j Hj. rewrite V by auto. unfold bell, a. f_equal. field. lra. }
  assert (SP : (0 < sqrt (2 * PI))%R) by (apply sqrt_lt_R0; lra). assert (PS : (0 < sigma)%R) by (apply Rdiv_lt_0_compat; lra).
  assert (AS : (2 * a * sigma ^ 2 = 1)%R). { unfold a, sigma. replace ((s / sqrt (2 * PI)) ^ 2)%R with (s ^ 2 / (sqrt (2 * PI) * sqrt (2 * PI)))%R by (field; lra). rewrite sqrt_sqrt by lra. field. lra. }
  assert (DD : D = (bell a ((IZR k - (t - 1)) + 1) - 2 * bell a (IZR k - (t - 1)) + bell a ((IZR k - (t - 1)) - 1))%R).
  { unfold D. rewrite !VB by lia. rewrite plus_IZR, minus_IZR. replace (IZR k + 1 - (t - 1))%R with (IZR k - (t - 1) + 1)%R by ring. replace (IZR k - 1 - (t - 1))%R with (IZR k - (t - 1) - 1)%R by ring. reflexivity. }
  rewrite DD. split; intros H.
  - apply bell_convex; [exact PA|fold d; lra|]. fold d. assert (Q : (sigma ^ 2 <= (d - 1) ^ 2)%R) by (apply pow_incr; lra). nra.
  - apply bell_concave; [exact PA|]. assert (Q : ((IZR k - (t - 1)) ^ 2 = d ^ 2)%R) by (unfold d; now rewrite pow2_abs). rewrite Q.
    assert (Q2 : (d ^ 2 <= sigma ^ 2)%R) by (apply pow_incr; split; [apply Rabs_pos|exact H]). nra.
Qed.
Lemma c132_amgauss_test : forall n t s, 0 < n -> (0 < s)%R ->
  exists y, amgauss n (Some t) (Some s) = Ok (map Some y) /\ forall k, 1 <= k < n - 1 ->
  let sigma := (s / sqrt (2 * PI))%R in let i1 := Zfloor (t - sigma) - 1 in let i2 := Zfloor (t + sigma) in
  let D := (rnth y (k + 1) - 2 * rnth y k + rnth y (k - 1))%R in
  (k + 1 < i1 -> (0 < D)%R) /\ (i1 <= k - 1 -> k + 1 < i2 -> (D < 0)%R) /\ (i2 <= k - 1 -> (0 < D)%R).
Proof.
  intros n t s Hn Hs. destruct (c132_amgauss_curvature n t s Hn Hs) as (y & E & H). exists y. split; [exact E|]. intros k Hk sigma i1 i2 D. destruct (H k Hk) as [HC HV]. fold sigma D in HC, HV.
  assert (PS : (0 < sigma)%R) by (apply Rdiv_lt_0_compat; [lra|apply sqrt_lt_R0; assert (Q := PI_RGT_0); lra]).
  assert (F1 := Zfloor_lb (t - sigma)). assert (F2 := Zfloor_ub (t - sigma)). assert (F3 := Zfloor_lb (t + sigma)). assert (F4 := Zfloor_ub (t + sigma)).
  split; [|split].
  - intros K. apply HC. assert (Q : k <= Zfloor (t - sigma) - 3) by (unfold i1 in K; lia). apply IZR_le in Q. rewrite minus_IZR in Q. rewrite Rabs_left1; lra.
  - intros K K2. apply HV. assert (Q : Zfloor (t - sigma) <= k) by (unfold i1 in K; lia). assert (Q2 : k <= Zfloor (t + sigma) - 2) by (unfold i2 in K2; lia). apply IZR_le in Q, Q2. rewrite minus_IZR in Q2. apply Rabs_le. lra.
  - intros K. apply HC. assert (Q : Zfloor (t + sigma) + 1 <= k) by (unfold i2 in K; lia). apply IZR_le in Q. rewrite plus_IZR in Q. rewrite Rabs_right; lra.
Qed.

(** *** test_misc.py, test_mexhat *)
Definition hat (u : R) : R := (exp (- u ^ 2) * (1 - 2 * u ^ 2))%R.
Lemma hat_deriv x : derivable_pt_lim hat x (2 * x * exp (- x ^ 2) * (2 * x ^ 2 - 3))%R.
Proof. apply is_derive_Reals. unfold hat. auto_derive; [auto|]. replace (x * (x * 1))%R with (x ^ 2)%R by ring. ring. Qed.
Lemma hat_down u v : (0 <= u -> u < v -> 2 * v ^ 2 <= 3 -> hat v < hat u)%R.
Proof.
  intros Hu Huv Hv. destruct (MVT_cor2 hat (fun x => 2 * x * exp (- x ^ 2) * (2 * x ^ 2 - 3))%R u v Huv) as (c & E & B); [intros; apply hat_deriv|].
  assert (P := exp_pos (- c ^ 2)). assert (Q : (c ^ 2 < v ^ 2)%R) by nra. assert (N : (0 < 2 * c * exp (- c ^ 2) * (3 - 2 * c ^ 2) * (v - u))%R) by (repeat apply Rmult_lt_0_compat; lra). lra.
Qed.
Lemma hat_up u v : (0 < u -> u < v -> 3 <= 2 * u ^ 2 -> hat u < hat v)%R.
Proof.
  intros Hu Huv Hv. destruct (MVT_cor2 hat (fun x => 2 * x * exp (- x ^ 2) * (2 * x ^ 2 - 3))%R u v Huv) as (c & E & B); [intros; apply hat_deriv|].
  assert (P := exp_pos (- c ^ 2)). assert (Q : (u ^ 2 < c ^ 2)%R) by nra. assert (N : (0 < 2 * c * exp (- c ^ 2) * (2 * c ^ 2 - 3) * (v - u))%R) by (repeat apply Rmult_lt_0_compat; lra). lra.
Qed.
Lemma hat_0 u : (u <> 0 -> hat u < hat 0)%R.
Proof.
  intros Hu. unfold hat. replace (- 0 ^ 2)%R with 0%R by ring. rewrite exp_0. assert (U : (0 < u ^ 2)%R) by (assert (Q := pow_nonzero u 2 Hu); assert (Q2 := pow2_ge_0 u); lra).
  assert (L : (exp (- u ^ 2) < 1)%R) by (rewrite <- exp_0; apply exp_increasing; lra). assert (P := exp_pos (- u ^ 2)). nra.
Qed.
Lemma hat_opp u : hat (- u) = hat u.
Proof. unfold hat. replace ((- u) ^ 2)%R with (u ^ 2)%R by ring. reflexivity. Qed.
(** The values of mexhat fall from the centre as long as 2 (pi nu t)^2 <= 3 and rise from there on. *)
Lemma c132_mexhat_shape : forall nu, (0 < nu <= 1 / 2)%R -> exists y, let n := Zceil (3 / 2 / nu) in
  mexhat nu = Ok y /\ zlen y = 2 * n + 1 /\
  (forall t, 0 <= t <= n -> rnth y (n - t) = rnth y (n + t)) /\
  (forall t, 0 <= t < n -> (2 * (PI * nu * IZR (t + 1)) ^ 2 <= 3)%R -> (rnth y (n + t + 1) < rnth y (n + t))%R) /\
  (forall t, 1 <= t < n -> (3 <= 2 * (PI * nu * IZR t) ^ 2)%R -> (rnth y (n + t) < rnth y (n + t + 1))%R) /\
  (forall t, 1 <= t <= n -> (rnth y (n + t) < rnth y n)%R).
Proof.
  intros nu Hnu. assert (HP := PI_RGT_0). set (n := Zceil (3 / 2 / nu)).
  assert (N3 : 3 <= n). { unfold n. assert (Q := Zceil_ub (3 / 2 / nu)). apply le_IZR. eapply Rle_trans; [|exact Q]. apply (Rmult_le_reg_r nu); [lra|]. unfold Rdiv. rewrite (Rmult_assoc _ (/ nu)), Rinv_l by lra. lra. }
  unfold mexhat. destruct (Rlt_dec (1 / 2) nu); [lra|]. destruct (Rlt_dec nu 0); [lra|]. destruct (Req_EM_T nu 0); [lra|]. cbv zeta. fold n.
  eexists. split; [reflexivity|]. split; [rewrite zlen_map_arange; lia|].
  set (y := map _ _). assert (V : forall t, - n <= t <= n -> rnth y (n + t) = (nu * sqrt PI / 2 * hat (PI * nu * IZR t))%R).
  { intros t Ht. unfold y, rnth. rewrite nth_map_arange by lia. replace (- n + (n + t)) with t by lia. unfold hat. replace (- (PI ^ 2 * nu ^ 2) * IZR t ^ 2)%R with (- (PI * nu * IZR t) ^ 2)%R by ring. ring. }
  assert (SP := sqrt_lt_R0 PI HP). assert (CP : (0 < nu * sqrt PI / 2)%R) by (apply Rdiv_lt_0_compat; [apply Rmult_lt_0_compat|]; lra).
  assert (PN : (0 < PI * nu)%R) by (apply Rmult_lt_0_compat; lra).
  repeat split.
  - intros t Ht. replace (n - t) with (n + - t) by lia. rewrite !V by lia. f_equal. rewrite opp_IZR, <- hat_opp. f_equal. ring.
  - intros t Ht H. replace (n + t + 1) with (n + (t + 1)) by lia. rewrite !V by lia. apply Rmult_lt_compat_l; [exact CP|]. apply hat_down; [|apply Rmult_lt_compat_l; [exact PN|apply IZR_lt; lia]|exact H]. apply Rmult_le_pos; [lra|apply IZR_le; lia].
  - intros t Ht H. replace (n + t + 1) with (n + (t + 1)) by lia. rewrite !V by lia. apply Rmult_lt_compat_l; [exact CP|]. apply hat_up; [|apply Rmult_lt_compat_l; [exact PN|apply IZR_lt; lia]|exact H]. apply Rmult_lt_0_compat; [lra|apply IZR_lt; lia].
  - intros t Ht. replace n with (n + 0) at 2 by lia. rewrite !V by lia. apply Rmult_lt_compat_l; [exact CP|]. rewrite Rmult_0_r. apply hat_0. apply Rmult_integral_contrapositive; split; [lra|apply not_0_IZR; lia].
Qed.
(** So the centre is the only sample above both its neighbours (argrelmax in the test), and for
    2 (pi nu)^2 >= 3, as for the test's nu = 0.5, the samples next to the centre are the only ones below both (argrelmin). *)
Lemma c132_mexhat_extrema : forall nu, (0 < nu <= 1 / 2)%R -> exists y, let n := Zceil (3 / 2 / nu) in
  mexhat nu = Ok y /\ zlen y = 2 * n + 1 /\
  (forall j, 1 <= j < 2 * n -> ((rnth y (j - 1) < rnth y j)%R /\ (rnth y (j + 1) < rnth y j)%R <-> j = n)) /\
  ((3 <= 2 * (PI * nu) ^ 2)%R -> forall j, 1 <= j < 2 * n -> ((rnth y j < rnth y (j - 1))%R /\ (rnth y j < rnth y (j + 1))%R <-> j = n - 1 \/ j = n + 1)).
Proof.
  intros nu Hnu. assert (HP := PI_RGT_0). destruct (c132_mexhat_shape nu Hnu) as (y & E & L & SY & DN & UP & TOP). exists y. cbv zeta. set (n := Zceil (3 / 2 / nu)) in *.
  assert (N3 : 3 <= n). { unfold n. assert (Q := Zceil_ub (3 / 2 / nu)). apply le_IZR. eapply Rle_trans; [|exact Q]. apply (Rmult_le_reg_r nu); [lra|]. unfold Rdiv. rewrite (Rmult_assoc _ (/ nu)), Rinv_l by lra. lra. }
  split; [exact E|]. split; [exact L|].
  assert (MR : forall j, 0 <= j <= 2 * n -> rnth y (2 * n - j) = rnth y j).
  { intros j Hj. destruct (Z_le_gt_dec j n); [replace (2 * n - j) with (n + (n - j)) by lia; rewrite <- SY by lia; f_equal; lia|replace (2 * n - j) with (n - (j - n)) by lia; rewrite SY by lia; f_equal; lia]. }
  assert (NX : forall t, 1 <= t < n -> ~ ((rnth y (n + t - 1) < rnth y (n + t))%R /\ (rnth y (n + t + 1) < rnth y (n + t))%R)).
  { intros t Ht [A B]. destruct (Rle_dec (2 * (PI * nu * IZR t) ^ 2) 3) as [Q|Q].
    - assert (D := DN (t - 1) ltac:(lia)). replace (t - 1 + 1) with t in D by lia. specialize (D Q). replace (n + (t - 1) + 1) with (n + t) in D by lia. replace (n + (t - 1)) with (n + t - 1) in D by lia. lra.
    - assert (U := UP t Ht ltac:(lra)). lra. }
  split.
  - intros j Hj. split.
    + intros [A B]. destruct (Z_lt_le_dec n j) as [J|J]; [exfalso; apply (NX (j - n) ltac:(lia)); replace (n + (j - n)) with j by lia; auto|].
      destruct (Z.eq_dec j n) as [|NE]; [auto|]. exfalso. apply (NX (n - j) ltac:(lia)). replace (n + (n - j)) with (2 * n - j) by lia. replace (2 * n - j - 1) with (2 * n - (j + 1)) by lia. replace (2 * n - j + 1) with (2 * n - (j - 1)) by lia. rewrite !MR by lia. auto.
    + intros ->. assert (T := TOP 1 ltac:(lia)). rewrite (SY 1) by lia. auto.
  - intros HN. assert (UPA : forall t, 1 <= t < n -> (rnth y (n + t) < rnth y (n + t + 1))%R).
    { intros t Ht. apply UP; [auto|]. assert (T1 : (1 <= IZR t)%R) by (apply IZR_le; lia). replace ((PI * nu * IZR t) ^ 2)%R with ((PI * nu) ^ 2 * IZR t ^ 2)%R by ring. assert (T2 : (1 <= IZR t ^ 2)%R) by nra. assert (P2 := pow2_ge_0 (PI * nu)). nra. }
    assert (KEY : forall t, 1 <= t < n -> ((rnth y (n + t) < rnth y (n + t - 1))%R /\ (rnth y (n + t) < rnth y (n + t + 1))%R <-> t = 1)).
    { intros t Ht. split.
      - intros [A _]. destruct (Z.eq_dec t 1); [auto|]. exfalso. assert (U := UPA (t - 1) ltac:(lia)). replace (n + (t - 1) + 1) with (n + t) in U by lia. replace (n + (t - 1)) with (n + t - 1) in U by lia. lra.
      - intros ->. split; [|apply UPA; lia]. replace (n + 1 - 1) with n by lia. apply TOP. lia. }
    intros j Hj. destruct (Z_lt_le_dec n j) as [J|J]; [|destruct (Z.eq_dec j n) as [->|NE]].
    + assert (K := KEY (j - n) ltac:(lia)). replace (n + (j - n)) with j in K by lia. rewrite K. lia.
    + split; [|lia]. intros [_ A]. assert (T := TOP 1 ltac:(lia)). lra.
    + assert (K := KEY (n - j) ltac:(lia)). replace (n + (n - j)) with (2 * n - j) in K by lia. replace (2 * n - j - 1) with (2 * n - (j + 1)) in K by lia. replace (2 * n - j + 1) with (2 * n - (j - 1)) in K by lia. rewrite !MR in K by lia. split; [intros [A B]; assert (n - j = 1) by (apply K; auto); lia|intros Q; assert (Q2 : n - j = 1) by lia; apply K in Q2; tauto].
Qed.

(** *** test_freq_domain.py, test_instfreq *)
Lemma c132_instfreq : forall ang n fi ff t0 y law d, (forall k z, is_angle z (ang k z)) -> 4 <= n -> (0 < fi < 1 / 2)%R -> (0 < ff < 1 / 2)%R ->
  fmlin n fi ff t0 = Ok (y, law) ->
  exists fs, inst_freq ang y None = Ok (fs, arange 2 n) /\ is_linear fs d = true /\
  rnth fs 0 = (fi + (ff - fi) / IZR (n - 1))%R /\ rnth fs (n - 3) = (ff - (ff - fi) / IZR (n - 1))%R.
Proof.
  intros ang n fi ff t0 y law d HA Hn H1 H2 E. assert (A1 : (Rabs fi <= 1 / 2)%R) by (rewrite Rabs_right; lra). assert (A2 : (Rabs ff <= 1 / 2)%R) by (rewrite Rabs_right; lra).
  destruct (c51_fmlin ang n fi ff t0 y law HA ltac:(lia) A1 A2 E) as (fs & EF & LF & V).
  assert (RG : 1 - n <= Ztrunc (centre_of n t0) <= n).
  { destruct (Z_lt_ge_dec (Ztrunc (centre_of n t0)) (1 - n)) as [Q|Q]; [destruct (c55_raises n fi ff t0) as (_ & _ & Q2); rewrite Q2 in E by (auto; lia); discriminate|].
    destruct (Z_lt_ge_dec n (Ztrunc (centre_of n t0))) as [P|P]; [destruct (c55_raises n fi ff t0) as (_ & _ & Q2); rewrite Q2 in E by (auto; lia); discriminate|]. lia. }
  destruct (c55_chirp n fi ff t0 ltac:(lia) A1 A2 RG) as (y' & law' & E' & _ & _ & EL & _). assert (law' = law) by congruence. subst law'. clear E'.
  assert (NB : (0 < IZR (n - 1))%R) by (apply IZR_lt; lia).
  assert (VV : forall k, 0 <= k < n - 2 -> rnth fs k = (fi + (ff - fi) * IZR (k + 1) / IZR (n - 1))%R).
  { intros k Hk. rewrite V; auto; rewrite EL by lia; [reflexivity|]. assert (P : (0 < IZR (k + 1) < IZR (n - 1))%R) by (split; apply IZR_lt; lia). set (a := IZR (k + 1)) in *. set (b := IZR (n - 1)) in *.
    assert (Q : (0 < a / b < 1)%R). { split; [apply Rdiv_lt_0_compat; lra|]. apply (Rmult_lt_reg_r b); [lra|]. unfold Rdiv. rewrite Rmult_assoc, Rinv_l by lra. lra. }
    replace (fi + (ff - fi) * a / b)%R with (fi + (ff - fi) * (a / b))%R by (unfold Rdiv; ring). set (q := (a / b)%R) in *. destruct (Rle_dec fi ff); split; nra. }
  exists fs. split; [exact EF|]. split; [|split].
  - replace fs with (map (fun k => (fi + (ff - fi) / IZR (n - 1)) + IZR k * ((ff - fi) / IZR (n - 1)))%R (arange 0 (n - 2))); [apply c05_progression; lia|].
    rewrite (rl_map fs), LF. apply map_ext_in. intros k Hk. apply in_arange in Hk. rewrite VV by lia. rewrite plus_IZR. field. lra.
  - rewrite VV by lia. change (IZR (0 + 1)) with 1%R. field. lra.
  - rewrite VV by lia. replace (n - 3 + 1) with (n - 1 - 1) by lia. rewrite (minus_IZR (n - 1)). field. lra.
Qed.
