(** C69, C70, C71, C80, C81: affine distributions, construction and grids. *)
From Coq Require Import Reals ZArith List Lia Lra Bool.
From Coquelicot Require Import Coquelicot.
From Flocq Require Import Core.
From Verif Require Import Py Scalars CSum DFT Spec M_base M_utils M_putils M_gen1 M_gen2 M_gen3 M_aff P_base T_utils T_putils T_dom T_gen1 T_gen2 T_hil T_key T_noise T_misc T_misc2.
Import ListNotations.
Local Open Scope Z_scope.

Lemma sqrt_gt_1 r : (1 < r)%R -> (1 < sqrt r)%R /\ (sqrt r * sqrt r = r)%R.
Proof. intros H. assert (Q : (sqrt r * sqrt r = r)%R) by (apply sqrt_sqrt; lra). split; [|exact Q]. rewrite <- sqrt_1. apply sqrt_lt_1; lra. Qed.
Lemma ratio_gt1 fmin fmax : (0 < fmin < fmax)%R -> (1 < fmax / fmin)%R.
Proof. intros H. apply (Rmult_lt_reg_r fmin); [lra|]. unfold Rdiv. rewrite Rmult_assoc, Rinv_l by lra. lra. Qed.

(** *** C71 *)
Lemma umaxdfla_eq r : (1 < r)%R -> umaxdfla r = (4 * (sqrt r - 1) / (sqrt r + 1))%R.
Proof.
  intros H. unfold umaxdfla. destruct (Req_EM_T r 1); [lra|]. cbv zeta. destruct (sqrt_gt_1 r H) as [W1 W2]. set (w := sqrt r) in *.
  replace (((1 + r) / 2) ^ 2 - 4 * ((1 - r) / 16) * (1 - r))%R with r by (field). fold w. rewrite <- W2.
  assert (D : (1 - w * w <> 0)%R) by nra.
  replace ((- ((1 + w * w) / 2) + w) / (2 * ((1 - w * w) / 16)))%R with (4 * (w - 1) / (w + 1))%R by (field; split; [nra|lra]).
  replace ((- ((1 + w * w) / 2) - w) / (2 * ((1 - w * w) / 16)))%R with (4 * (w + 1) / (w - 1))%R by (field; split; [nra|lra]).
  assert (A : (0 < 4 * (w - 1) / (w + 1))%R) by (apply Rdiv_lt_0_compat; lra). assert (B : (0 < 4 * (w + 1) / (w - 1))%R) by (apply Rdiv_lt_0_compat; lra).
  rewrite !Rabs_pos_eq by lra. apply Rmin_left. apply (Rmult_le_reg_r ((w + 1) * (w - 1))); [nra|].
  replace (4 * (w - 1) / (w + 1) * ((w + 1) * (w - 1)))%R with (4 * (w - 1) * (w - 1))%R by (field; lra). replace (4 * (w + 1) / (w - 1) * ((w + 1) * (w - 1)))%R with (4 * (w + 1) * (w + 1))%R by (field; lra). nra.
Qed.
Lemma c71_solves : forall r, (1 < r)%R ->
  let u := umaxdfla r in (0 < u < 4)%R /\ (((1 + u / 4) / (1 - u / 4)) ^ 2 = r)%R /\
  (forall v, (0 < v < 4)%R -> (((1 + v / 4) / (1 - v / 4)) ^ 2 = r)%R -> v = u).
Proof.
  intros r H u. unfold u. rewrite umaxdfla_eq by auto. destruct (sqrt_gt_1 r H) as [W1 W2]. set (w := sqrt r) in *. split; [split|split].
  - apply Rdiv_lt_0_compat; lra.
  - apply (Rmult_lt_reg_r (w + 1)); [lra|]. unfold Rdiv. rewrite Rmult_assoc, Rinv_l by lra. lra.
  - rewrite <- W2. field. lra.
  - intros v Hv E. assert (P : (0 < (1 + v / 4) / (1 - v / 4))%R) by (apply Rdiv_lt_0_compat; lra). set (z := ((1 + v / 4) / (1 - v / 4))%R) in *.
    assert (Z : z = w). { assert (Q : ((z - w) * (z + w) = 0)%R) by (rewrite <- W2 in E; nra). apply Rmult_integral in Q. destruct Q; lra. }
    assert (E2 : (1 + v / 4 = w * (1 - v / 4))%R) by (rewrite <- Z; unfold z; field; lra).
    apply (Rmult_eq_reg_r (w + 1)); [|lra]. unfold Rdiv. rewrite Rmult_assoc, Rinv_l by lra. lra.
Qed.
Lemma c71_reciprocal : forall r, (1 < r)%R -> umaxdfla (/ r) = umaxdfla r /\ umaxdfla 1 = 0%R.
Proof.
  intros r H. split; [|unfold umaxdfla; destruct (Req_EM_T 1 1); lra].
  rewrite (umaxdfla_eq r) by auto. unfold umaxdfla. destruct (sqrt_gt_1 r H) as [W1 W2].
  assert (I : (/ r < 1)%R) by (rewrite <- Rinv_1; apply Rinv_lt_contravar; lra). assert (P : (0 < / r)%R) by (apply Rinv_0_lt_compat; lra).
  destruct (Req_EM_T (/ r) 1); [lra|]. cbv zeta. replace (((1 + / r) / 2) ^ 2 - 4 * ((1 - / r) / 16) * (1 - / r))%R with (/ r)%R by (field; lra).
  assert (Si : sqrt (/ r) = (/ sqrt r)%R). { apply sqrt_lem_1; [lra|left; apply Rinv_0_lt_compat; lra|]. rewrite <- Rinv_mult. now rewrite W2. }
  rewrite Si. set (w := sqrt r) in *. rewrite <- W2.
  replace ((- ((1 + / (w * w)) / 2) + / w) / (2 * ((1 - / (w * w)) / 16)))%R with (- (4 * (w - 1) / (w + 1)))%R by (field; repeat split; nra).
  replace ((- ((1 + / (w * w)) / 2) - / w) / (2 * ((1 - / (w * w)) / 16)))%R with (- (4 * (w + 1) / (w - 1)))%R by (field; repeat split; nra).
  rewrite !Rabs_Ropp.
  assert (A : (0 < 4 * (w - 1) / (w + 1))%R) by (apply Rdiv_lt_0_compat; lra). assert (B : (0 < 4 * (w + 1) / (w - 1))%R) by (apply Rdiv_lt_0_compat; lra).
  rewrite !Rabs_pos_eq by lra. apply Rmin_left. apply (Rmult_le_reg_r ((w + 1) * (w - 1))); [nra|].
  replace (4 * (w - 1) / (w + 1) * ((w + 1) * (w - 1)))%R with (4 * (w - 1) * (w - 1))%R by (field; lra). replace (4 * (w + 1) / (w - 1) * ((w + 1) * (w - 1)))%R with (4 * (w + 1) * (w + 1))%R by (field; lra). nra.
Qed.
Example c71_example : umaxdfla 9 = 2%R.
Proof. rewrite umaxdfla_eq by lra. replace (sqrt 9) with 3%R by (symmetry; apply sqrt_lem_1; lra). lra. Qed.

(** *** C69 *)
Lemma geo_at fmin fmax nv k : (0 < fmin < fmax)%R -> 2 <= nv -> 0 <= k < nv ->
  rnth (geo_grid fmin fmax nv) k = (fmin * Rpower (fmax / fmin) (IZR k / IZR (nv - 1)))%R.
Proof.
  intros Hf Hn Hk. unfold geo_grid. rewrite rnth_map_arange by lia. rewrite Z.add_0_l. f_equal. unfold geo_q, Rpower. rewrite ln_exp. f_equal. field. apply IZR_neq. lia.
Qed.
Lemma Rpower_1' x : (0 < x)%R -> Rpower x 1 = x. Proof. apply Rpower_1. Qed.
Lemma c69_grid : forall fmin fmax nv, (0 < fmin < fmax)%R -> 2 <= nv ->
  let f := geo_grid fmin fmax nv in
  zlen f = nv /\ rnth f 0 = fmin /\ rnth f (nv - 1) = fmax /\
  exists q, (1 < q)%R /\ (q ^ Z.to_nat (nv - 1) = fmax / fmin)%R /\
    forall k, 0 <= k < nv - 1 -> (rnth f (k + 1) = q * rnth f k)%R.
Proof.
  intros fmin fmax nv Hf Hn f. assert (R1 := ratio_gt1 _ _ Hf). assert (NP : (0 < IZR (nv - 1))%R) by (apply IZR_lt; lia).
  split; [unfold f, geo_grid; rewrite zlen_map_arange; lia|]. split; [|split].
  - unfold f. rewrite geo_at by (auto; lia). unfold Rdiv. rewrite Rmult_0_l, Rpower_O by (fold (fmax / fmin)%R; lra). ring.
  - unfold f. rewrite geo_at by (auto; lia). replace (IZR (nv - 1) / IZR (nv - 1))%R with 1%R by (field; lra). rewrite Rpower_1 by lra. field. lra.
  - exists (Rpower (fmax / fmin) (1 / IZR (nv - 1))). split; [|split].
    + rewrite <- (Rpower_O (fmax / fmin)) at 1 by lra. apply Rpower_lt; [lra|]. apply Rdiv_lt_0_compat; lra.
    + rewrite <- Rpower_pow by apply exp_pos. rewrite Rpower_mult. rewrite INR_IZR_INZ, Z2Nat.id by lia. replace (1 / IZR (nv - 1) * IZR (nv - 1))%R with 1%R by (field; lra). now rewrite Rpower_1 by lra.
    + intros k Hk. unfold f. rewrite !geo_at by (auto; lia). replace (IZR (k + 1) / IZR (nv - 1))%R with (1 / IZR (nv - 1) + IZR k / IZR (nv - 1))%R by (rewrite plus_IZR; field; lra). rewrite Rpower_plus. ring.
Qed.
(** The scalogram uses the same grid, and scales inverse to it. *)
Lemma logspace_at a b n k : 2 <= n -> 0 <= k < n -> rnth (logspace (log10 a) (log10 b) n) k = exp (ln a + IZR k / IZR (n - 1) * (ln b - ln a)).
Proof.
  intros Hn Hk. unfold logspace, linspace1. destruct (Z.eqb_spec n 1); [lia|]. unfold linspace. rewrite map_map, rnth_map_arange by lia. rewrite Z.add_0_l. unfold Rpower, log10. f_equal.
  field. split; [apply IZR_neq; lia|]. apply Rgt_not_eq. rewrite <- ln_1. apply ln_increasing; lra.
Qed.
Lemma c69_scalogram : forall fmin fmax nv, (0 < fmin < fmax)%R -> 2 <= nv ->
  let f := logspace (log10 fmin) (log10 fmax) nv in
  let a := logspace (log10 (fmax / fmin)) (log10 1) nv in
  f = geo_grid fmin fmax nv /\ zlen a = nv /\ forall k, 0 <= k < nv -> (rnth a k * rnth f k = fmax)%R.
Proof.
  intros fmin fmax nv Hf Hn f a. assert (R1 := ratio_gt1 _ _ Hf). assert (NP : (0 < IZR (nv - 1))%R) by (apply IZR_lt; lia).
  assert (LL : forall u v, zlen (logspace u v nv) = nv). { intros. unfold logspace, linspace1. destruct (Z.eqb_spec nv 1); [lia|]. unfold linspace. rewrite zlen_map, zlen_map_arange; lia. }
  assert (LQ : (ln (fmax / fmin) = ln fmax - ln fmin)%R) by (unfold Rdiv; rewrite ln_mult, ln_Rinv by (try lra; apply Rinv_0_lt_compat; lra); ring).
  split; [|split; [apply LL|]].
  - assert (L1 := LL (log10 fmin) (log10 fmax)). fold f in L1. assert (L2 : zlen (geo_grid fmin fmax nv) = nv) by (unfold geo_grid; rewrite zlen_map_arange; lia). apply (nth_ext _ _ 0%R 0%R); [unfold zlen in *; lia|].
    intros k Hk. assert (Q : rnth f (Z.of_nat k) = rnth (geo_grid fmin fmax nv) (Z.of_nat k)); [|unfold rnth in Q; now rewrite Nat2Z.id in Q].
    unfold zlen in L1. unfold f. rewrite logspace_at, geo_at by (auto; lia). unfold Rpower. rewrite exp_plus, exp_ln by lra. do 2 f_equal. rewrite LQ. ring.
  - intros k Hk. unfold a, f. rewrite !logspace_at by (auto; lia). rewrite <- exp_plus. rewrite ln_1, LQ.
    transitivity (exp (ln fmax)); [f_equal; ring|apply exp_ln; lra].
Qed.
(** A single voice divides by zero. *)
Lemma c69_single_refuted : forall spl form o, a_nv o = 1 -> aff_run spl form o = Raise ZeroDivisionError.
Proof. intros spl form o H. unfold aff_run. now rewrite H. Qed.
Example c69_example : geo_grid (1 / 10) (4 / 10) 3 = [1 / 10; 2 / 10; 4 / 10]%R.
Proof.
  assert (H : (0 < 1 / 10 < 4 / 10)%R) by lra. destruct (c69_grid (1 / 10) (4 / 10) 3 H ltac:(lia)) as (L & A & B & q & Q1 & Q2 & Q). change (3 - 1) with 2 in *.
  assert (Q0 := Q 0 ltac:(lia)). change (0 + 1) with 1 in Q0. change (Z.to_nat 2) with 2%nat in Q2. replace (4 / 10 / (1 / 10))%R with 4%R in Q2 by field.
  assert (q = 2)%R by (assert (((q - 2) * (q + 2) = 0)%R) as E by lra; apply Rmult_integral in E; destruct E; lra).
  remember (geo_grid (1 / 10) (4 / 10) 3) as g. unfold zlen in L. destruct g as [|a [|b [|c [|]]]]; cbn [length] in L; try lia.
  unfold rnth in *. change (Z.to_nat 0) with 0%nat in *. change (Z.to_nat 1) with 1%nat in *. change (Z.to_nat 2) with 2%nat in *. cbn [nth] in *. subst. f_equal. f_equal. lra.
Qed.

(** *** C80: default number of voices *)
Definition even_part (n : Z) : Z := n - n mod 2.
Lemma voices_q fmin fmax T : (0 < fmin < fmax)%R ->
  ((fmax - fmin) * IZR T * (1 + 2 / ((fmax - fmin) / (fmin + fmax) * 2)) * ln ((1 + (fmax - fmin) / (fmin + fmax) * 2 / 2) / (1 - (fmax - fmin) / (fmin + fmax) * 2 / 2)) / 2 = fmax * IZR T * ln (fmax / fmin))%R.
Proof.
  intros H. replace ((1 + (fmax - fmin) / (fmin + fmax) * 2 / 2) / (1 - (fmax - fmin) / (fmin + fmax) * 2 / 2))%R with (fmax / fmin)%R by (field; repeat split; lra).
  field. repeat split; lra.
Qed.
Lemma c80_voices : forall fmin fmax T, (0 < fmin < fmax)%R -> 1 <= T ->
  let q := even_part (Zceil (fmax * IZR T * ln (fmax / fmin))) in
  (q = 0 -> get_nvoices fmin fmax (Some T) = Raise ValueError) /\
  (q <> 0 -> exists e, get_nvoices fmin fmax (Some T) = Ok (2 ^ e) /\ 1 <= e /\ q <= 2 ^ e /\ 2 ^ (e - 1) < q).
Proof.
  intros fmin fmax T Hf HT q. unfold get_nvoices. cbv zeta. rewrite voices_q by auto. fold (even_part (Zceil (fmax * IZR T * ln (fmax / fmin)))). fold q.
  assert (QP : 0 <= q). { unfold q, even_part. assert (P : (0 < fmax * IZR T * ln (fmax / fmin))%R). { assert (0 < IZR T)%R by (apply IZR_lt; lia). assert (L := ratio_gt_1 _ _ Hf). apply Rmult_lt_0_compat; [nra|lra]. }
    assert (0 < Zceil (fmax * IZR T * ln (fmax / fmin))) by (apply lt_IZR; apply Rlt_le_trans with (1 := P), Zceil_ub). Z.to_euclidean_division_equations; lia. }
  assert (Q2 : q mod 2 = 0) by (unfold q, even_part; Z.to_euclidean_division_equations; lia).
  split; intros Q0.
  - rewrite Q0. rewrite c02_nextpow2_nonpositive by lra. reflexivity.
  - assert (Q3 : 2 <= q) by (Z.to_euclidean_division_equations; lia). destruct (c02_nextpow2_least (IZR q)) as (e & E & U & L); [apply IZR_lt; lia|]. rewrite E. cbn [bind]. exists e.
    assert (P2 : forall k, 0 <= k -> powerRZ 2 k = IZR (2 ^ k)).
    { intros k Hk. rewrite <- (Z2Nat.id k) by lia. rewrite <- pow_powerRZ, <- pow_IZR. reflexivity. }
    assert (E1 : 1 <= e). { destruct (Z_le_gt_dec 1 e); [auto|]. exfalso. assert (B : (powerRZ 2 e <= 1)%R).
      { destruct e as [|p|p]; cbn; try lra; [lia|]. rewrite <- Rinv_1. apply Rinv_le_contravar; [lra|]. apply pow_R1_Rle. lra. }
      assert (2 <= IZR q)%R by (apply IZR_le; lia). lra. }
    split; [reflexivity|]. split; [exact E1|]. split.
    + apply le_IZR. rewrite <- P2 by lia. exact U.
    + apply lt_IZR. rewrite <- P2 by lia. apply Rnot_le_lt. intros B. apply L in B. lia.
Qed.
Lemma c80_unset : forall fmin fmax, get_nvoices fmin fmax None = Raise AttributeError.
Proof. reflexivity. Qed.

(** *** C70: the constructors *)
Lemma half_len_spec N : 1 <= N -> 1 <= half_len N /\ (N = 2 * half_len N \/ N = 2 * half_len N - 1).
Proof. intros H. unfold half_len. Z.to_euclidean_division_equations; lia. Qed.
Definition aff_bound (k : afk) (N : Z) : Z := match k with Bert => N | _ => 2 * half_len N end.
(** m1 when the signal has to be padded. *)
Definition aff_pad (N : Z) (v : R) : Z := half_len N + ZnearestE (IZR (half_len N) * (2 * v - 1)) + 1.
Lemma size_spec k N fmax umax : 1 <= N -> (0 < fmax * umax)%R ->
  ((IZR (half_len N) < IZR (aff_bound k N) * (fmax * umax))%R -> aff_size k N fmax umax = Ok (aff_pad N (fmax * umax), Some (2 * aff_pad N (fmax * umax) - 1)) /\ (1 / 2 < fmax * umax)%R /\ half_len N + 1 <= aff_pad N (fmax * umax)) /\
  ((IZR (aff_bound k N) * (fmax * umax) <= IZR (half_len N))%R -> aff_size k N fmax umax = Ok (half_len N, None)).
Proof.
  intros HN HV. destruct (half_len_spec N HN) as [Hm HB]. unfold aff_size. cbv zeta. set (m := half_len N) in *. set (v := (fmax * umax)%R) in *. destruct (Req_EM_T v 0); [lra|].
  change (match k with Bert => N | _ => 2 * m end) with (aff_bound k N). assert (BP : 1 <= aff_bound k N <= 2 * m) by (unfold aff_bound; fold m; destruct k; lia). set (b := aff_bound k N) in *. assert (MP : (1 <= IZR m)%R) by (apply IZR_le; lia).
  assert (EQ : (IZR m / v < IZR b)%R <-> (IZR m < IZR b * v)%R).
  { split; intros H.
    - apply (Rmult_lt_compat_r v) in H; [|lra]. unfold Rdiv in H. rewrite Rmult_assoc, Rinv_l in H by lra. lra.
    - apply (Rmult_lt_reg_r v); [lra|]. unfold Rdiv. rewrite Rmult_assoc, Rinv_l by lra. lra. }
  split; intros H; destruct (Rlt_dec (IZR m / v) (IZR b)) as [G|G]; try (exfalso; tauto).
  - assert (HV2 : (1 / 2 < v)%R). { assert (IZR b <= 2 * IZR m)%R by (rewrite <- mult_IZR; apply IZR_le; lia). assert (IZR m < 2 * IZR m * v)%R by nra. nra. }
    assert (EM : (2 * IZR m ^ 2 / (IZR m / v) - IZR m = IZR m * (2 * v - 1))%R) by (field; lra).
    rewrite EM. unfold aff_pad. fold m. split; [|split; [exact HV2|]].
    + replace (m + (ZnearestE (IZR m * (2 * v - 1)) + 1)) with (m + ZnearestE (IZR m * (2 * v - 1)) + 1) by lia. reflexivity.
    + assert (0 <= ZnearestE (IZR m * (2 * v - 1))); [|lia]. rewrite <- (Zrnd_IZR ZnearestE 0). apply (Zrnd_le ZnearestE). nra.
  - apply EQ in G. lra.
  - reflexivity.
Qed.
(** The quantity whose size decides. *)
Definition aff_root (k : afk) (r : R) : R := match k with Bert => ln r | Dfl => 4 * (sqrt r - 1) / (sqrt r + 1) | Unt => sqrt r - / sqrt r end%R.
Lemma aff_root_pos k r : (1 < r)%R -> (0 < aff_root k r)%R.
Proof.
  intros H. destruct (sqrt_gt_1 r H) as [W _]. destruct k; cbn.
  - rewrite <- ln_1. apply ln_increasing; lra.
  - apply Rdiv_lt_0_compat; lra.
  - assert (/ sqrt r < 1)%R by (rewrite <- Rinv_1; apply Rinv_lt_contravar; lra). lra.
Qed.
Lemma umax_root k r : (1 < r)%R -> umax_of k r = match k with Bert => if Rlt_dec (exp 4) r then Raise ValueError else Ok (ln r) | _ => Ok (aff_root k r) end.
Proof. intros H. destruct k; cbn; [destruct (Rlt_dec r 1); [lra|reflexivity]|now rewrite umaxdfla_eq|reflexivity]. Qed.
(** The equations: r = ((1+u/4)/(1-u/4))^2, (a+u/2)/(a-u/2) with
    a = sqrt(1+u^2/4), exp u. *)
Lemma c70_unterberger_root : forall r, (1 < r)%R -> let u := aff_root Unt r in
  let a := sqrt (1 + (u / 2) ^ 2) in ((a + u / 2) / (a - u / 2) = r)%R.
Proof.
  intros r H u a. destruct (sqrt_gt_1 r H) as [W1 W2]. unfold u in *. cbn [aff_root] in *. set (w := sqrt r) in *.
  assert (A : a = ((w + / w) / 2)%R). { unfold a. apply sqrt_lem_1; [match goal with |- (0 <= 1 + ?z ^ 2)%R => assert (QQ := pow2_ge_0 z); lra end| |]. - assert (0 < / w)%R by (apply Rinv_0_lt_compat; lra). lra. - unfold u. cbn [aff_root]. fold w. field. lra. }
  rewrite A. unfold u. cbn [aff_root]. fold w. rewrite <- W2. field. split; [lra|]. nra.
Qed.
Lemma ln_lower v : (0 < v)%R -> (1 - / v <= ln v)%R.
Proof.
  intros H. assert (Q := exp_ineq1_le (- ln v)). rewrite exp_Ropp, exp_ln in Q by auto. lra.
Qed.
(** 4 tanh(ln r / 4) against ln r. *)
Lemma dfl_root_le r : (1 < r)%R -> (2 * aff_root Dfl r < 3 * ln r)%R.
Proof.
  intros H. destruct (sqrt_gt_1 r H) as [W1 W2]. cbn [aff_root]. destruct (sqrt_gt_1 _ W1) as [V1 V2]. set (w := sqrt r) in *. set (v := sqrt w) in *.
  assert (LV : ln r = (4 * ln v)%R) by (rewrite <- W2, <- V2, !ln_mult by nra; ring). assert (L := ln_lower v ltac:(lra)). rewrite LV, <- V2.
  apply Rlt_le_trans with (12 * (1 - / v))%R; [|lra]. apply (Rmult_lt_reg_r (v * (v * v + 1))); [nra|].
  replace (2 * (4 * (v * v - 1) / (v * v + 1)) * (v * (v * v + 1)))%R with (8 * (v * v - 1) * v)%R by (field; nra).
  replace (12 * (1 - / v) * (v * (v * v + 1)))%R with (12 * (v - 1) * (v * v + 1))%R by (field; lra). assert (0 < (v - 1) * (4 * ((v - 1) * (v - 1)) + 8))%R by (apply Rmult_lt_0_compat; nra). lra.
Qed.
Lemma c70_outcome : forall k x fmin fmax, 1 <= zlen x -> (0 < fmin < fmax)%R ->
  let N := zlen x in let r := (fmax / fmin)%R in let v := (fmax * aff_root k r)%R in
  (* (a) no sign change for brenth *)
  (k = Bert -> (exp 4 < r)%R -> forall nv, aff_new k x None (Some fmin) (Some fmax) nv = Raise ValueError) /\
  (* (b) T is not set *)
  ((k = Bert -> (r <= exp 4)%R) -> (IZR (aff_bound k N) * v <= IZR (half_len N))%R ->
     aff_new k x None (Some fmin) (Some fmax) None = Raise AttributeError) /\
  (* (c) the default succeeds *)
  ((k = Bert -> (r <= exp 4)%R) -> (IZR (half_len N) < IZR (aff_bound k N) * v)%R ->
     (k = Unt -> (1 < fmax * IZR (2 * aff_pad N v - 1) * ln r)%R) ->
     exists o, aff_new k x None (Some fmin) (Some fmax) None = Ok o /\ a_m1 o = aff_pad N v /\ a_umax o = aff_root k r /\
       a_fmin o = fmin /\ a_fmax o = fmax /\ a_ts o = arange 0 N /\ a_sig o = x /\ a_kind o = k /\
       exists e, 1 <= e /\ a_nv o = 2 ^ e /\ let q := even_part (Zceil (fmax * IZR (2 * aff_pad N v - 1) * ln r)) in q <= 2 ^ e /\ 2 ^ (e - 1) < q) /\
  (* (d) the logarithm of 0 *)
  (k = Unt -> (IZR (half_len N) < IZR (aff_bound k N) * v)%R -> (fmax * IZR (2 * aff_pad N v - 1) * ln r <= 1)%R ->
     aff_new k x None (Some fmin) (Some fmax) None = Raise ValueError) /\
  (* (e) with the number of voices given *)
  ((k = Bert -> (r <= exp 4)%R) -> forall nv, exists o, aff_new k x None (Some fmin) (Some fmax) (Some nv) = Ok o /\ a_nv o = nv /\
     a_m1 o = if Rlt_dec (IZR (half_len N)) (IZR (aff_bound k N) * v) then aff_pad N v else half_len N).
Proof.
  intros k x fmin fmax HN Hf N r v. assert (R1 := ratio_gt1 _ _ Hf). fold r in R1. assert (RP := aff_root_pos k r R1). assert (VP : (0 < v)%R) by (unfold v; nra).
  assert (NEW : (k = Bert -> (r <= exp 4)%R) -> forall nv, aff_new k x None (Some fmin) (Some fmax) nv =
    bind (aff_size k N fmax (aff_root k r)) (fun mt => let '(m1, T) := mt in bind (match nv with Some v => Ok v | None => get_nvoices fmin fmax T end) (fun nv => Ok (mkaff k x (arange 0 N) fmin fmax (aff_root k r) m1 nv)))).
  { intros HB nv. unfold aff_new, affine_band. cbn [bind]. fold N. fold r. rewrite umax_root by auto. destruct k; try reflexivity. destruct (Rlt_dec (exp 4) r); [specialize (HB eq_refl); lra|]. reflexivity. }
  assert (SZ := size_spec k N fmax (aff_root k r) HN VP). fold v in SZ. destruct SZ as [SZ1 SZ2]. split; [|split; [|split; [|split]]].
  - intros -> HE nv. unfold aff_new, affine_band. cbn [bind]. fold r. rewrite umax_root by auto. cbv beta iota. destruct (Rlt_dec (exp 4) r); [|lra]. reflexivity.
  - intros HB H. rewrite (NEW HB), (SZ2 H). reflexivity.
  - intros HB H HU. destruct (SZ1 H) as (E & V2 & P1). rewrite (NEW HB), E. cbn [bind]. set (m1 := aff_pad N v) in *. destruct (half_len_spec N HN) as [Hm _].
    assert (T3 : (3 <= IZR (2 * m1 - 1))%R) by (apply IZR_le; lia).
    assert (Q1 : (1 < fmax * IZR (2 * m1 - 1) * ln r)%R).
    { assert (LP : (0 < ln r)%R) by (rewrite <- ln_1; apply ln_increasing; lra). destruct k; [| |now apply HU].
      - unfold v in V2. cbn [aff_root] in V2. nra.
      - assert (D := dfl_root_le r R1). unfold v in V2. assert (1 / 3 < fmax * ln r)%R by nra. nra. }
    destruct (c80_voices fmin fmax (2 * m1 - 1) Hf ltac:(lia)) as [_ G]. fold r in G. cbv zeta in G.
    assert (C2 : 1 < Zceil (fmax * IZR (2 * m1 - 1) * ln r)). { apply lt_IZR. apply Rlt_le_trans with (1 := Q1), Zceil_ub. }
    destruct G as (e & E1 & E2 & E3 & E4). { unfold even_part. Z.to_euclidean_division_equations; lia. }
    rewrite E1. cbn [bind]. eexists. split; [reflexivity|]. cbn. repeat (split; [reflexivity|]). exists e. auto.
  - intros -> H HU. destruct (SZ1 H) as (E & V2 & P1). rewrite NEW by discriminate. rewrite E. cbn [bind]. set (m1 := aff_pad N v) in *. destruct (half_len_spec N HN) as [Hm _].
    destruct (c80_voices fmin fmax (2 * m1 - 1) Hf ltac:(lia)) as [G _]. fold r in G. cbv zeta in G. rewrite G; [reflexivity|].
    assert (LP : (0 < ln r)%R) by (rewrite <- ln_1; apply ln_increasing; lra). assert (TP : (3 <= IZR (2 * m1 - 1))%R) by (apply IZR_le; lia).
    assert (CQ : Zceil (fmax * IZR (2 * m1 - 1) * ln r) = 1). { apply Zceil_imp. split; [change (IZR (1 - 1)) with 0%R; apply Rmult_lt_0_compat; nra|exact HU]. }
    rewrite CQ. reflexivity.
  - intros HB nv. rewrite (NEW HB). destruct (Rlt_dec (IZR (half_len N)) (IZR (aff_bound k N) * v)) as [H|H].
    + destruct (SZ1 H) as (-> & _). cbn [bind]. eexists. split; [reflexivity|]. auto.
    + rewrite SZ2 by lra. cbn [bind]. eexists. split; [reflexivity|]. auto.
Qed.
(** The band 0.1 .. 0.3: all three fail with the default n_voices. *)
Lemma c70_default_refuted : forall k x, 1 <= zlen x -> aff_new k x None (Some (1 / 10)%R) (Some (3 / 10)%R) None = Raise AttributeError.
Proof.
  intros k x HN. assert (Hf : (0 < 1 / 10 < 3 / 10)%R) by lra. destruct (c70_outcome k x _ _ HN Hf) as (_ & B & _). replace (3 / 10 / (1 / 10))%R with 3%R in B by field.
  assert (W : (17 / 10 < sqrt 3 < 18 / 10)%R). { split; [rewrite <- (sqrt_square (17 / 10)) by lra; apply sqrt_lt_1; lra|rewrite <- (sqrt_square (18 / 10)) by lra; apply sqrt_lt_1; lra]. }
  assert (W2 : (sqrt 3 * sqrt 3 = 3)%R) by (apply sqrt_sqrt; lra).
  assert (L3 : (ln 3 < 16 / 10)%R). { rewrite <- W2, ln_mult by lra. assert (Q := exp_ineq1_le (ln (sqrt 3))). rewrite exp_ln in Q by lra. lra. }
  apply B.
  - intros _. rewrite <- (exp_ln 3) by lra. left. apply exp_increasing. lra.
  - assert (V : (3 / 10 * aff_root k 3 <= 1 / 2)%R).
    { destruct k; cbn [aff_root]; [lra| |].
      - apply (Rmult_le_reg_r (sqrt 3 + 1)); [lra|]. replace (3 / 10 * (4 * (sqrt 3 - 1) / (sqrt 3 + 1)) * (sqrt 3 + 1))%R with (12 / 10 * (sqrt 3 - 1))%R by (field; lra). lra.
      - assert (0 < / sqrt 3)%R by (apply Rinv_0_lt_compat; lra). assert (sqrt 3 * / sqrt 3 = 1)%R by (apply Rinv_r; lra). nra. }
    destruct (half_len_spec _ HN) as [Hm HB]. set (m := half_len (zlen x)) in *. assert (BP : 0 <= aff_bound k (zlen x) <= 2 * m) by (unfold aff_bound; fold m; destruct k; lia). set (b := aff_bound k (zlen x)) in *.
    assert (IZR b <= 2 * IZR m)%R by (rewrite <- mult_IZR; apply IZR_le; lia). assert (0 <= IZR b)%R by (apply IZR_le; lia). nra.
Qed.
Lemma c70_cross : affine_2d = Raise IndexError.
Proof. reflexivity. Qed.
Example c70_example : exists o, aff_new Dfl (repeat (RtoC 1) 8) None (Some (1 / 20)%R) (Some (45 / 100)%R) None = Ok o /\ a_umax o = 2%R /\ a_m1 o = 8 /\ a_nv o = 16.
Proof.
  assert (Hf : (0 < 1 / 20 < 45 / 100)%R) by lra. destruct (c70_outcome Dfl (repeat (RtoC 1) 8) _ _ ltac:(unfold zlen; cbn; lia) Hf) as (_ & _ & B & _). change (zlen (repeat (RtoC 1) 8)) with 8 in B. replace (45 / 100 / (1 / 20))%R with 9%R in B by field.
  assert (RT : aff_root Dfl 9 = 2%R). { cbn [aff_root]. replace (sqrt 9) with 3%R by (symmetry; apply sqrt_lem_1; lra). lra. } rewrite RT in B.
  change (aff_bound Dfl 8) with 8 in B. change (half_len 8) with 4 in B.
  assert (PD : aff_pad 8 (45 / 100 * 2) = 8). { unfold aff_pad. change (half_len 8) with 4. replace (IZR 4 * (2 * (45 / 100 * 2) - 1))%R with (32 / 10)%R by lra. rewrite (Znearest_imp _ _ 3); [reflexivity|]. replace (32 / 10 - IZR 3)%R with (2 / 10)%R by lra. rewrite Rabs_pos_eq; lra. }
  rewrite PD in B. destruct B as (o & E & M & U & _ & _ & _ & _ & _ & e & E1 & NV & Q1 & Q2); [discriminate|lra|discriminate|]. exists o. split; [exact E|]. split; [exact U|]. split; [exact M|].
  rewrite NV. change (2 * 8 - 1) with 15 in *.
  assert (CQ : 10 <= even_part (Zceil (45 / 100 * IZR 15 * ln 9)) <= 16).
  { assert (L9 : ln 9 = (2 * ln 3)%R) by (replace 9%R with (3 * 3)%R by lra; rewrite ln_mult by lra; ring).
    assert (L3 : (82 / 100 < ln 3 < 119 / 100)%R).
    { split.
      - apply Rlt_le_trans with (ln ((17 / 10) * (17 / 10))); [|left; apply ln_increasing; lra]. rewrite ln_mult by lra. assert (Q := ln_lower (17 / 10) ltac:(lra)). lra.
      - apply Rle_lt_trans with (ln ((1148 / 1000) ^ 8)).
        + left. apply ln_increasing; lra.
        + rewrite ln_pow by lra. assert (Q := exp_ineq1_le (ln (1148 / 1000))). rewrite exp_ln in Q by lra. cbn [INR]. lra. }
    assert (B1 : 9 < Zceil (45 / 100 * IZR 15 * ln 9)). { apply lt_IZR. apply Rlt_le_trans with (2 := Zceil_ub _). lra. }
    assert (B2 : Zceil (45 / 100 * IZR 15 * ln 9) <= 17). { apply Zceil_glb. lra. }
    unfold even_part. Z.to_euclidean_division_equations; lia. }
  assert (e = 4); [|now subst].
  destruct (Z_le_gt_dec e 3) as [G|G]. { assert (2 ^ e <= 2 ^ 3) by (apply Z.pow_le_mono_r; lia). lia. }
  destruct (Z_le_gt_dec 5 e) as [G2|G2]; [|lia]. assert (2 ^ 4 <= 2 ^ (e - 1)) by (apply Z.pow_le_mono_r; lia). lia.
Qed.

Example c80_example : get_nvoices (1 / 20) (45 / 100) (Some 15) = Ok 16.
Proof.
  destruct c70_example as (o & E & U & M & V). unfold aff_new in E. cbn [affine_band bind] in E. change (zlen (repeat (RtoC 1) 8)) with 8 in E. cbn [umax_of bind] in E.
  unfold aff_size in E. destruct (Req_EM_T _ 0) in E; [discriminate|]. destruct (Rlt_dec _ _) in E; cbn [bind] in E; [|discriminate].
  match type of E with context [Some (2 * ?t - 1)] => set (m1 := t) in E; clearbody m1 end. destruct (get_nvoices (1 / 20) (45 / 100) (Some (2 * m1 - 1))) as [v|] eqn:G; [|discriminate]. cbn [bind] in E. injection E as <-. cbn [a_m1 a_nv] in M, V. subst. exact G.
Qed.

(** *** C81: lambdak *)
Definition lam (k : lamk) (u : R) : R :=
  match k with
  | LBert => u / (1 - exp (- u))
  | LUnt => exp (u / 2)
  | LDfl => 4 / (1 + exp (- (u / 2))) ^ 2
  | LAspwv => 2 / (1 + exp (- u))
  end%R.
Lemma exp_eq_1 x : exp x = 1%R <-> x = 0%R.
Proof. split; [intros H; apply exp_inv; now rewrite exp_0|intros ->; apply exp_0]. Qed.
Lemma c81_value : forall k u, u <> 0%R -> lambdak u k = Some (lam k u) /\ (0 < lam k u)%R.
Proof.
  intros k u Hu. assert (N1 : exp (- u) <> 1%R) by (rewrite exp_eq_1; lra). assert (P1 := exp_pos (- u)). assert (P2 := exp_pos (- (u / 2))).
  assert (PW : (0 < lam k u)%R).
  { destruct k; cbn [lam].
    - destruct (Rdichotomy _ _ Hu) as [H|H].
      + assert (1 < exp (- u))%R by (rewrite <- exp_0; apply exp_increasing; lra). replace (u / (1 - exp (- u)))%R with (- u / (exp (- u) - 1))%R by (field; lra). apply Rdiv_lt_0_compat; lra.
      + assert (exp (- u) < 1)%R by (rewrite <- exp_0; apply exp_increasing; lra). apply Rdiv_lt_0_compat; lra.
    - apply exp_pos.
    - apply Rdiv_lt_0_compat; [lra|]. apply pow_lt. lra.
    - apply Rdiv_lt_0_compat; lra. }
  split; [|exact PW]. destruct k; cbn [lambdak lam lam_par] in *.
  - destruct (Req_EM_T u 0); [contradiction|]. f_equal. field. split; lra.
  - destruct (Req_EM_T (exp (- -1 * u) - 1) 0) as [E|_]; [assert (Q : exp (- -1 * u) = 1%R) by lra; rewrite exp_eq_1 in Q; lra|]. f_equal.
    replace (- -1 * u)%R with u by ring. assert (PU := exp_pos u). assert (NU : exp u <> 1%R) by (rewrite exp_eq_1; lra).
    replace (-1 * (exp (- u) - 1) / (exp u - 1))%R with (exp (- u)) by (rewrite exp_Ropp; field; split; lra). unfold Rpower. rewrite ln_exp. f_equal. field.
  - destruct (Req_EM_T (exp (- (1 / 2) * u) - 1) 0) as [E|_]; [assert (Q : exp (- (1 / 2) * u) = 1%R) by lra; rewrite exp_eq_1 in Q; lra|]. f_equal.
    replace (- (1 / 2) * u)%R with (- (u / 2))%R by field. set (e := exp (- (u / 2))) in *. assert (E2 : exp (- u) = (e * e)%R) by (unfold e; rewrite <- exp_plus; f_equal; field).
    assert (NE : e <> 1%R) by (unfold e; rewrite exp_eq_1; lra). rewrite E2. replace (1 / 2 * (e * e - 1) / (e - 1))%R with ((1 + e) / 2)%R by (field; lra).
    replace (1 / (1 / 2 - 1))%R with (Ropp (INR 2)) by (cbn; field). rewrite Rpower_Ropp, Rpower_pow by lra. field. lra.
  - destruct (Req_EM_T (exp (- (2) * u) - 1) 0) as [E|_]; [assert (Q : exp (- (2) * u) = 1%R) by lra; rewrite exp_eq_1 in Q; lra|]. f_equal.
    set (e := exp (- u)) in *. assert (E2 : exp (- (2) * u) = (e * e)%R) by (unfold e; rewrite <- exp_plus; f_equal; ring). rewrite E2. replace (1 / (2 - 1))%R with 1%R by field.
    replace (2 * (e - 1) / (e * e - 1))%R with (2 / (1 + e))%R by (assert (NE : (e * e - 1 <> 0)%R) by (intros Q; assert (Q2 : ((e - 1) * (e + 1) = 0)%R) by lra; apply Rmult_integral in Q2; lra); field; split; lra). apply Rpower_1. apply Rdiv_lt_0_compat; lra.
Qed.
(** The dilations of the affine class: lambda(u) = e^u lambda(-u). *)
Lemma c81_identity : forall k u, (u <> 0)%R -> (lam k u = exp u * lam k (- u))%R.
Proof.
  intros k u Hu. assert (N1 : exp (- u) <> 1%R) by (rewrite exp_eq_1; lra). assert (NU : exp u <> 1%R) by (rewrite exp_eq_1; lra). assert (PU := exp_pos u). assert (PM := exp_pos (- u)).
  destruct k; cbn [lam]; rewrite ?Ropp_involutive.
  - rewrite exp_Ropp. field. repeat split; try lra.
  - rewrite <- exp_plus. f_equal. field.
  - replace (- (- u / 2))%R with (u / 2)%R by field. rewrite exp_Ropp. replace (exp u) with (exp (u / 2) * exp (u / 2))%R by (rewrite <- exp_plus; f_equal; field). assert (P2 := exp_pos (u / 2)). field. split; lra.
  - rewrite exp_Ropp. field. repeat split; lra.
Qed.
(** At u = 0 only the Bertrand case is defined. *)
Lemma c81_zero_refuted : lambdak 0 LBert = Some 1%R /\ forall k, k <> LBert -> lambdak 0 k = None.
Proof.
  split; [cbn; destruct (Req_EM_T 0 0); lra || reflexivity|]. intros k H. destruct k; [contradiction| | |]; cbn [lambdak]; rewrite Rmult_0_r, exp_0; destruct (Req_EM_T (1 - 1) 0); try reflexivity; lra.
Qed.
Example c81_example : lambdak (2 * ln 3) LUnt = Some 3%R /\ lambdak (2 * ln 3) LDfl = Some (9 / 4)%R /\ lambdak (ln 3) LAspwv = Some (3 / 2)%R.
Proof.
  assert (L : (0 < ln 3)%R) by (rewrite <- ln_1; apply ln_increasing; lra). repeat split.
  - destruct (c81_value LUnt (2 * ln 3)) as [-> _]; [lra|]. f_equal. cbn [lam]. replace (2 * ln 3 / 2)%R with (ln 3) by field. apply exp_ln. lra.
  - destruct (c81_value LDfl (2 * ln 3)) as [-> _]; [lra|]. f_equal. cbn [lam]. replace (2 * ln 3 / 2)%R with (ln 3) by field. rewrite exp_Ropp, exp_ln by lra. field.
  - destruct (c81_value LAspwv (ln 3)) as [-> _]; [lra|]. f_equal. cbn [lam]. rewrite exp_Ropp, exp_ln by lra. field.
Qed.
