(** C63, C65, C67: doppler, mexhat, atoms. *)
From Coq Require Import Reals ZArith List Lia Lra Bool.
From Coquelicot Require Import Coquelicot.
From Flocq Require Import Core.
From Verif Require Import Py Scalars CSum DFT Spec M_base M_utils M_putils M_dom M_gen1 M_gen2 M_gen3 P_base T_putils T_dom T_gen1 T_gen2 T_hil T_key.
Import ListNotations.
Local Open Scope Z_scope.

(** *** C63 *)
Definition doppler_valid (n : Z) (sf f0 dist v t : R) : Prop :=
  (0 < dist /\ 0 <= sf /\ 1 <= t <= IZR n /\ 0 <= f0 <= sf / 2 /\ 0 <= v)%R.
Lemma c63_raises : forall n sf f0 dist v t c, ~ doppler_valid n sf f0 dist v t -> doppler n sf f0 dist v (Some t) c = Raise TypeError.
Proof.
  intros n sf f0 dist v t c H. unfold doppler. repeat match goal with |- (if ?b then _ else _) = _ => destruct b; [reflexivity|] end.
  exfalso. apply H. unfold doppler_valid. lra.
Qed.
Lemma c63_default : forall n sf f0 dist v c, doppler n sf f0 dist v None c = doppler n sf f0 dist v (Some (IZR n / 2)%R) c.
Proof. reflexivity. Qed.

(** Distance and phase at time s (in samples, the first sample being 1). *)
Definition dop_d (sf dist v t s : R) : R := sqrt (dist ^ 2 + (v * ((s - t) / sf)) ^ 2).
Definition dop_phase (sf f0 dist v t c s : R) : R := (2 * PI * f0 * ((s - t) / sf - dop_d sf dist v t s / c))%R.
Lemma dop_d_pos sf dist v t s : (0 < dist)%R -> (0 < dist ^ 2 + (v * ((s - t) / sf)) ^ 2)%R.
Proof. intros H. assert (Q := pow2_ge_0 (v * ((s - t) / sf))). assert (0 < dist ^ 2)%R by nra. lra. Qed.

Lemma doppler_ok n sf f0 dist v t c : doppler_valid n sf f0 dist v t ->
  doppler n sf f0 dist v (Some t) c =
  Ok (map (fun k => cis (dop_phase sf f0 dist v t c (IZR k + 1))) (arange 0 n),
      if Rlt_dec (Rabs f0) (bpow radix2 (-52)) then None else Some (map (fun k => 1 / sqrt (dop_d sf dist v t (IZR k + 1)))%R (arange 0 n)),
      map (fun k => (1 - v ^ 2 * ((IZR k + 1 - t) / sf) / dop_d sf dist v t (IZR k + 1) / c) * f0 / sf)%R (arange 0 n)).
Proof.
  intros (H1 & H2 & H3 & H4 & H5). unfold doppler. repeat match goal with |- (if ?b then _ else _) = _ => destruct b; [lra|] end. cbv zeta.
  replace (arange 1 (n + 1)) with (map (fun k => k + 1) (arange 0 n)) by (rewrite <- arange_shift; reflexivity). rewrite !map_map.
  rewrite (zipw_map (fun t d => cis (2 * PI * f0 * (t - d / c)))), (zipw_map (fun t d => (1 - v ^ 2 * t / d / c) * f0 / sf)%R).
  f_equal. f_equal; [f_equal|].
  - apply map_ext. intros k. unfold dop_phase, dop_d. now rewrite !plus_IZR.
  - destruct (Rlt_dec _ _); [reflexivity|]. f_equal. apply map_ext. intros k. unfold dop_d. now rewrite plus_IZR.
  - apply map_ext. intros k. unfold dop_d. now rewrite !plus_IZR.
Qed.
(** Unit modulus, phase, and the law is the derivative of the phase; the
    amplitude decays like the square root of the distance. *)
Lemma c63_signal : forall n sf f0 dist v t c, doppler_valid n sf f0 dist v t -> (0 < sf)%R -> c <> 0%R ->
  exists fm am law, doppler n sf f0 dist v (Some t) c = Ok (fm, am, law) /\ zlen fm = n /\ zlen law = n /\
  (forall k, 0 <= k < n ->
     cnth fm k = cis (dop_phase sf f0 dist v t c (IZR k + 1)) /\ Cmod (cnth fm k) = 1%R /\
     is_derive (dop_phase sf f0 dist v t c) (IZR k + 1)%R (2 * PI * rnth law k)%R) /\
  match am with
  | None => (f0 < bpow radix2 (-52))%R
  | Some a => (bpow radix2 (-52) <= f0)%R /\ zlen a = n /\ forall k, 0 <= k < n -> (0 < rnth a k)%R /\ (rnth a k ^ 2 * dop_d sf dist v t (IZR k + 1) = 1)%R
  end.
Proof.
  intros n sf f0 dist v t c HV Hs Hc. rewrite doppler_ok by auto. destruct HV as (H1 & H2 & H3 & H4 & H5).
  assert (Hn : 0 <= n) by (apply le_IZR; lra).
  eexists _, _, _. split; [reflexivity|]. split; [rewrite zlen_map_arange; lia|]. split; [rewrite zlen_map_arange; lia|]. split.
  - intros k Hk. rewrite cnth_map_arange, rnth_map_arange by lia. rewrite Z.add_0_l. split; [reflexivity|]. split; [apply Cmod_cis|].
    assert (P := dop_d_pos sf dist v t (IZR k + 1) H1). unfold dop_phase, dop_d. auto_derive.
    + replace (IZR k + 1 + - t)%R with (IZR k + 1 - t)%R by ring. unfold Rdiv in P. cbn [pow] in P |- *. lra.
    + assert (SP := sqrt_lt_R0 _ P). replace (dist * (dist * 1) + v * ((IZR k + 1 + - t) * / sf) * (v * ((IZR k + 1 + - t) * / sf) * 1))%R with (dist ^ 2 + (v * ((IZR k + 1 - t) / sf)) ^ 2)%R by (unfold Rdiv; ring).
      set (D := sqrt _) in *. field. repeat split; lra.
  - assert (Q : (Rabs f0 = f0)%R) by (apply Rabs_right; lra). destruct (Rlt_dec _ _) as [L|L]; rewrite Q in L; [exact L|]. split; [lra|]. split; [rewrite zlen_map_arange; lia|].
    intros k Hk. rewrite rnth_map_arange by lia. rewrite Z.add_0_l. assert (P := dop_d_pos sf dist v t (IZR k + 1) H1). assert (SP := sqrt_lt_R0 _ P). fold (dop_d sf dist v t (IZR k + 1)) in SP.
    assert (SS := sqrt_lt_R0 _ SP). split; [apply Rdiv_lt_0_compat; lra|]. set (D := dop_d sf dist v t (IZR k + 1)) in *.
    rewrite <- (sqrt_sqrt D) at 2 by lra. field. lra.
Qed.
(** x / sqrt(D^2 + v^2 x^2) is non-decreasing and v times it is below 1. *)
Lemma ratio_mono D v x y : (0 < D)%R -> (x <= y)%R -> (x / sqrt (D ^ 2 + (v * x) ^ 2) <= y / sqrt (D ^ 2 + (v * y) ^ 2))%R.
Proof.
  intros HD HXY.
  assert (P : forall x, (0 < sqrt (D ^ 2 + (v * x) ^ 2))%R) by (intros z; apply sqrt_lt_R0; assert (Q := pow2_ge_0 (v * z)); nra).
  assert (POS : forall x y, (0 <= x <= y -> x / sqrt (D ^ 2 + (v * x) ^ 2) <= y / sqrt (D ^ 2 + (v * y) ^ 2))%R).
  { intros a b H. assert (PA := P a). assert (PB := P b). set (A := sqrt (D ^ 2 + (v * a) ^ 2)) in *. set (B := sqrt (D ^ 2 + (v * b) ^ 2)) in *.
    assert (A2 : (A ^ 2 = D ^ 2 + (v * a) ^ 2)%R) by (unfold A; apply pow2_sqrt; assert (Q := pow2_ge_0 (v * a)); nra).
    assert (B2 : (B ^ 2 = D ^ 2 + (v * b) ^ 2)%R) by (unfold B; apply pow2_sqrt; assert (Q := pow2_ge_0 (v * b)); nra).
    assert (K : (a * B <= b * A)%R).
    { apply Rsqr_incr_0; [|nra|nra]. unfold Rsqr. replace (a * B * (a * B))%R with (a ^ 2 * B ^ 2)%R by ring. replace (b * A * (b * A))%R with (b ^ 2 * A ^ 2)%R by ring. rewrite A2, B2.
      assert (a ^ 2 <= b ^ 2)%R by nra. assert (0 <= D ^ 2)%R by nra. nra. }
    apply (Rmult_le_reg_r (A * B)); [nra|]. replace (a / A * (A * B))%R with (a * B)%R by (field; lra). replace (b / B * (A * B))%R with (b * A)%R by (field; lra). exact K. }
  destruct (Rle_dec 0 x) as [X|X]; [apply POS; lra|]. assert (PX := P x). assert (PY := P y). destruct (Rle_dec 0 y) as [Y|Y].
  - apply Rle_trans with 0%R.
    + unfold Rdiv. assert (0 < / sqrt (D ^ 2 + (v * x) ^ 2))%R by now apply Rinv_0_lt_compat. nra.
    + apply Rmult_le_pos; [auto|]. left. now apply Rinv_0_lt_compat.
  - assert (Q := POS (- y)%R (- x)%R ltac:(lra)). replace ((v * - y) ^ 2)%R with ((v * y) ^ 2)%R in Q by ring. replace ((v * - x) ^ 2)%R with ((v * x) ^ 2)%R in Q by ring. unfold Rdiv in *. lra.
Qed.
Lemma ratio_bound D v x : (0 < D)%R -> (0 <= v)%R -> (Rabs (v * (x / sqrt (D ^ 2 + (v * x) ^ 2))) <= 1)%R.
Proof.
  intros HD Hv. assert (Q := pow2_ge_0 (v * x)). assert (P : (0 < D ^ 2 + (v * x) ^ 2)%R) by nra. assert (SP := sqrt_lt_R0 _ P).
  replace (v * (x / sqrt (D ^ 2 + (v * x) ^ 2)))%R with (v * x / sqrt (D ^ 2 + (v * x) ^ 2))%R by (unfold Rdiv; ring). rewrite Rabs_div by lra. rewrite (Rabs_right (sqrt _)) by lra.
  apply (Rmult_le_reg_r (sqrt (D ^ 2 + (v * x) ^ 2))); [auto|]. unfold Rdiv. rewrite Rmult_assoc, Rinv_l, Rmult_1_r, Rmult_1_l by lra.
  rewrite <- sqrt_Rsqr_abs. apply sqrt_le_1_alt. unfold Rsqr. nra.
Qed.
(** The frequency falls from approach to recession, passes f0 / s_freq at the
    closest point and deviates by at most the factor v / c. *)
Lemma c63_law : forall n sf f0 dist v t c fm am law, doppler_valid n sf f0 dist v t -> (0 < sf)%R -> (0 < c)%R ->
  doppler n sf f0 dist v (Some t) c = Ok (fm, am, law) ->
  (forall j k, 0 <= j <= k -> k < n -> (rnth law k <= rnth law j)%R) /\
  (forall k, 0 <= k < n -> IZR (k + 1) = t -> rnth law k = (f0 / sf)%R) /\
  (forall k, 0 <= k < n -> (Rabs (rnth law k - f0 / sf) <= v / c * (f0 / sf))%R).
Proof.
  intros n sf f0 dist v t c fm am law HV Hs Hc H. rewrite doppler_ok in H by auto. injection H as _ _ <-. destruct HV as (H1 & H2 & H3 & H4 & H5).
  set (r := fun k => (((IZR k + 1 - t) / sf) / dop_d sf dist v t (IZR k + 1))%R).
  assert (V : forall k, 0 <= k < n -> rnth (map (fun k => (1 - v ^ 2 * ((IZR k + 1 - t) / sf) / dop_d sf dist v t (IZR k + 1) / c) * f0 / sf)%R (arange 0 n)) k = (f0 / sf - v ^ 2 / c * (f0 / sf) * r k)%R).
  { intros k Hk. rewrite rnth_map_arange by lia. rewrite Z.add_0_l. unfold r. assert (P := sqrt_lt_R0 _ (dop_d_pos sf dist v t (IZR k + 1) H1)). fold (dop_d sf dist v t (IZR k + 1)) in P. field. repeat split; lra. }
  assert (F0 : (0 <= f0 / sf)%R) by (apply Rmult_le_pos; [lra|left; now apply Rinv_0_lt_compat]).
  assert (V0 : (0 <= v ^ 2 / c * (f0 / sf))%R) by (apply Rmult_le_pos; [|auto]; apply Rmult_le_pos; [apply pow2_ge_0|left; now apply Rinv_0_lt_compat]).
  split; [|split].
  - intros j k Hj Hk. rewrite !V by lia. assert (Q : (r j <= r k)%R); [|nra]. unfold r, dop_d. apply ratio_mono; [auto|]. apply Rmult_le_compat_r; [left; now apply Rinv_0_lt_compat|].
    assert (IZR j <= IZR k)%R by (apply IZR_le; lia). lra.
  - intros k Hk E. rewrite V by auto. rewrite plus_IZR in E. unfold r. replace (IZR k + 1 - t)%R with 0%R by lra. unfold Rdiv. ring.
  - intros k Hk. rewrite V by auto. replace (f0 / sf - v ^ 2 / c * (f0 / sf) * r k - f0 / sf)%R with (- (v / c * (f0 / sf) * (v * r k)))%R by (unfold Rdiv; ring).
    rewrite Rabs_Ropp, Rabs_mult. assert (B := ratio_bound dist v ((IZR k + 1 - t) / sf) H1 H5). fold (dop_d sf dist v t (IZR k + 1)) in B. fold (r k) in B.
    assert (W : (0 <= v / c * (f0 / sf))%R) by (apply Rmult_le_pos; [|auto]; apply Rmult_le_pos; [auto|left; now apply Rinv_0_lt_compat]). rewrite (Rabs_right (v / c * (f0 / sf))) by lra. nra.
Qed.
(** Three samples around a source at rest. *)
Example c63_example : exists fm am law, doppler 3 4 1 1 0 (Some 2%R) 340 = Ok (fm, am, law) /\ law = [1 / 4; 1 / 4; 1 / 4]%R.
Proof.
  rewrite doppler_ok by (unfold doppler_valid; lra). eexists _, _, _. split; [reflexivity|]. change (arange 0 3) with [0; 1; 2]. cbn [map].
  f_equal; [unfold Rdiv; ring|]. f_equal; [unfold Rdiv; ring|]. f_equal. unfold Rdiv. ring.
Qed.

(** *** C65 *)
Lemma c65_outcome : forall nu,
  ((nu < 0 \/ 1 / 2 < nu)%R -> mexhat nu = Raise AssertionError) /\
  (nu = 0%R -> mexhat nu = Raise ZeroDivisionError) /\
  ((0 < nu <= 1 / 2)%R -> exists m h, mexhat nu = Ok h /\ (IZR (m - 1) < 3 / 2 / nu <= IZR m)%R /\ 3 <= m /\ zlen h = 2 * m + 1 /\
     (forall k, - m <= k <= m -> rnth h (m + k) = rnth h (m - k)) /\
     rnth h m = (nu * sqrt PI / 2)%R /\
     (forall i, 0 <= i < 2 * m + 1 -> i <> m -> (rnth h i < rnth h m)%R) /\
     (forall k, - m <= k <= m -> (0 < rnth h (m + k) <-> 2 * (PI * nu * IZR k) ^ 2 < 1)%R)).
Proof.
  intros nu. unfold mexhat. split; [|split].
  - intros H. destruct (Rlt_dec (1 / 2) nu); [auto|]. destruct (Rlt_dec nu 0); [auto|lra].
  - intros ->. destruct (Rlt_dec (1 / 2) 0); [lra|]. destruct (Rlt_dec 0 0); [lra|]. destruct (Req_EM_T 0 0); [auto|lra].
  - intros H. destruct (Rlt_dec (1 / 2) nu); [lra|]. destruct (Rlt_dec nu 0); [lra|]. destruct (Req_EM_T nu 0); [lra|]. cbv zeta. set (m := Zceil (3 / 2 / nu)).
    assert (M1 := Zceil_lb (3 / 2 / nu)). assert (M2 := Zceil_ub (3 / 2 / nu)). fold m in M1, M2.
    assert (Q : (3 <= 3 / 2 / nu)%R) by (apply (Rmult_le_reg_r nu); [lra|]; unfold Rdiv at 1; rewrite Rmult_assoc, Rinv_l by lra; lra).
    assert (M3 : 3 <= m) by (apply le_IZR; lra). eexists m, _. split; [reflexivity|]. rewrite minus_IZR. split; [lra|]. split; [auto|]. split; [rewrite zlen_map_arange; lia|].
    set (g := fun t => (nu * sqrt PI / 2 * exp (- (PI ^ 2 * nu ^ 2) * IZR t ^ 2) * (1 - 2 * (PI ^ 2 * nu ^ 2) * IZR t ^ 2))%R).
    assert (V : forall i, 0 <= i < 2 * m + 1 -> rnth (map g (arange (- m) (m + 1))) i = g (i - m)) by (intros i Hi; rewrite rnth_map_arange by lia; f_equal; lia).
    assert (SP : (0 < sqrt PI)%R) by apply sqrt_lt_R0, PI_RGT_0. assert (HP := PI_RGT_0). assert (C0 : (0 < nu * sqrt PI / 2)%R) by nra.
    split; [|split; [|split]].
    + intros k Hk. rewrite !V by lia. unfold g. replace (IZR (m - k - m)) with (- IZR (m + k - m))%R by (rewrite <- opp_IZR; f_equal; lia). replace ((- IZR (m + k - m)) ^ 2)%R with (IZR (m + k - m) ^ 2)%R by ring. reflexivity.
    + rewrite V by lia. unfold g. rewrite Z.sub_diag. replace (- (PI ^ 2 * nu ^ 2) * 0 ^ 2)%R with 0%R by ring. rewrite exp_0. ring.
    + intros i Hi Ni. rewrite !V by lia. unfold g. rewrite Z.sub_diag. replace (- (PI ^ 2 * nu ^ 2) * 0 ^ 2)%R with 0%R by ring. rewrite exp_0.
      set (u := (PI ^ 2 * nu ^ 2 * IZR (i - m) ^ 2)%R).
      assert (U : (0 < u)%R). { assert (N : IZR (i - m) <> 0%R) by (apply not_0_IZR; lia). unfold u. assert (0 < IZR (i - m) ^ 2)%R by nra. assert (0 < PI ^ 2 * nu ^ 2)%R by (apply Rmult_lt_0_compat; nra). nra. }
      replace (- (PI ^ 2 * nu ^ 2) * IZR (i - m) ^ 2)%R with (- u)%R by (unfold u; ring). replace (2 * (PI ^ 2 * nu ^ 2) * IZR (i - m) ^ 2)%R with (2 * u)%R by (unfold u; ring).
      assert (E1 : (exp (- u) < 1)%R) by (rewrite <- exp_0; apply exp_increasing; lra). assert (E0 := exp_pos (- u)).
      replace (nu * sqrt PI / 2 * exp (- u) * (1 - 2 * u))%R with (nu * sqrt PI / 2 * (exp (- u) * (1 - 2 * u)))%R by ring. replace (nu * sqrt PI / 2 * 1 * (1 - 2 * (PI ^ 2 * nu ^ 2) * 0 ^ 2))%R with (nu * sqrt PI / 2 * 1)%R by ring.
      apply Rmult_lt_compat_l; [auto|]. nra.
    + intros k Hk. rewrite V by lia. replace (m + k - m) with k by lia. unfold g. set (E := exp _). assert (E0 : (0 < E)%R) by apply exp_pos.
      assert (W : (0 < nu * sqrt PI / 2 * E)%R) by nra. replace (2 * (PI * nu * IZR k) ^ 2)%R with (2 * (PI ^ 2 * nu ^ 2) * IZR k ^ 2)%R by ring. split; nra.
Qed.
Example c65_example : exists h, mexhat (1 / 2) = Ok h /\ zlen h = 7 /\ rnth h 3 = (sqrt PI / 4)%R.
Proof.
  destruct (proj2 (proj2 (c65_outcome (1 / 2)))) as (m & h & E & B & M3 & L & _ & V & _); [lra|]. exists h. split; [exact E|].
  assert (m = 3). { destruct B as [B _]. assert (IZR (m - 1) < 3)%R by lra. apply lt_IZR in H. lia. } subst m. split; [exact L|]. rewrite V. lra.
Qed.

(** *** C67 *)
(** Time centre: clamped to [1, n], rounded half to even. *)
Lemma c67_centre : forall n t, 1 <= n ->
  nearest_even (Rmax (Rmin t (IZR n)) 1) (atom_centre n t) /\ 1 <= atom_centre n t <= n /\
  (atom_centre n t = n <-> (n = 1 \/ (IZR n - 1 / 2 < t)%R \/ (t = IZR n - 1 / 2)%R /\ Z.even n = true)).
Proof.
  intros n t Hn. assert (HN : (1 <= IZR n)%R) by (apply IZR_le; lia). set (u := Rmax (Rmin t (IZR n)) 1).
  assert (U : (1 <= u <= IZR n)%R) by (unfold u, Rmax, Rmin; destruct (Rle_dec t (IZR n)), (Rle_dec _ 1); lra).
  assert (NE := near_even u). fold u in NE. change (ZnearestE u) with (atom_centre n t) in NE. split; [exact NE|]. set (c := atom_centre n t) in *.
  assert (RA : 1 <= c <= n).
  { split.
    - apply (Z.le_trans _ (ZnearestE 1)); [|change (ZnearestE 1 <= ZnearestE u); apply (Zrnd_le ZnearestE); lra]. rewrite (Zrnd_IZR ZnearestE 1). lia.
    - apply (Z.le_trans _ (ZnearestE (IZR n))); [change (ZnearestE u <= ZnearestE (IZR n)); apply (Zrnd_le ZnearestE); lra|]. rewrite (Zrnd_IZR ZnearestE n). lia. }
  split; [exact RA|]. destruct (Z.eq_dec n 1) as [E1|N1]; [split; [auto|lia]|]. assert (H2 : (2 <= IZR n)%R) by (apply IZR_le; lia).
  assert (UT : (u < IZR n -> 1 < u -> u = t)%R) by (unfold u, Rmax, Rmin; destruct (Rle_dec t (IZR n)), (Rle_dec _ 1); lra).
  assert (UT2 : (IZR n <= u -> IZR n <= t)%R) by (unfold u, Rmax, Rmin; destruct (Rle_dec t (IZR n)), (Rle_dec _ 1); lra).
  assert (UT3 : (u <= 1 -> t <= 1)%R) by (unfold u, Rmax, Rmin; destruct (Rle_dec t (IZR n)), (Rle_dec _ 1); lra).
  split.
  - intros E. right. rewrite E in NE. destruct (Rle_dec (IZR n) u) as [Q|Q]; [left; specialize (UT2 Q); lra|].
    destruct NE as [B|[B EV]]; rewrite Rabs_right in B by lra; (rewrite <- UT by lra); [left; lra|right; split; [lra|auto]].
  - intros [|D]; [lia|]. destruct (Z.eq_dec c n) as [|NC]; [auto|]. exfalso. assert (HC : c <= n - 1) by lia. apply IZR_le in HC. rewrite minus_IZR in HC.
    assert (D' : (IZR n - 1 / 2 <= t)%R) by (destruct D as [|[D _]]; lra).
    assert (U2 : (IZR n - 1 / 2 <= u)%R) by (unfold u, Rmax, Rmin; destruct (Rle_dec t (IZR n)), (Rle_dec _ 1); lra).
    assert (A := Rabs_minus_sym (IZR c) u). assert (A2 : (1 / 2 <= Rabs (u - IZR c))%R) by (rewrite Rabs_right; lra).
    destruct NE as [B|[B EV]]; [lra|]. rewrite A, Rabs_right in B by lra. assert (EU : u = (IZR n - 1 / 2)%R) by lra. assert (ET : t = (IZR n - 1 / 2)%R) by (rewrite <- UT; lra).
    destruct D as [D|[_ ND]]; [lra|]. assert (EC : c = n - 1) by (apply eq_IZR; rewrite minus_IZR; lra). rewrite EC in EV. rewrite Z.even_sub, ND in EV. discriminate.
Qed.
(** Sample k of an atom: the envelope peaks at sample t0 - 1, the carrier has
    phase 0 at sample t0. *)
Definition atom_at (n : Z) (a : atom) (k : Z) : C :=
  (RtoC (a_A a * exp (- PI * ((IZR k + 1 - IZR (atom_centre n (a_t a))) / a_T a) ^ 2)) *
   cis (2 * PI * Rmax (Rmin (a_f a) (1 / 2)) 0 * (IZR k - IZR (atom_centre n (a_t a)))))%C.
Lemma atom_freq_range f : (Rabs (atom_freq f) <= 1 / 2)%R.
Proof. unfold atom_freq, Rmax, Rmin. destruct (Rle_dec f (1 / 2)), (Rle_dec _ 0); rewrite Rabs_right; lra. Qed.
Lemma atom_sig_ok n a : 1 <= n -> a_T a <> 0%R -> atom_centre n (a_t a) < n ->
  atom_sig n a = Ok (map (fun k => Some (atom_at n a k)) (arange 0 n)).
Proof.
  intros Hn HT HC. assert (RC := proj1 (proj2 (c67_centre n (a_t a) Hn))). unfold atom_sig. set (c := atom_centre n (a_t a)) in *.
  unfold amgauss. rewrite am_args_ok by lia. cbn [bind].
  destruct (c54_tone n (atom_freq (a_f a)) c) as (y & E & L & V & _); [lia|apply atom_freq_range|]. rewrite E. cbn [bind].
  replace (arange 1 (n + 1)) with (map (fun k => k + 1) (arange 0 n)) by (rewrite <- arange_shift; reflexivity). rewrite !map_map.
  rewrite (list_as_map y), L, map_map. rewrite (bcast_map omulc). f_equal. apply map_ext_in. intros k Hk. apply in_arange in Hk. unfold gauss_at. destruct (Req_EM_T (a_T a) 0); [contradiction|].
  cbn [option_map omulc]. f_equal. unfold atom_at. fold c. rewrite V by lia. unfold atom_freq. rewrite minus_IZR, plus_IZR. f_equal. f_equal. f_equal. f_equal. ring.
Qed.
Lemma c67_atoms : forall n coords, 1 <= n ->
  (forall a, In a coords -> a_T a <> 0%R /\ atom_centre n (a_t a) < n) ->
  exists y, atoms n coords = Ok (map Some y) /\ zlen y = n /\
  forall k, 0 <= k < n -> cnth y k = csum coords (fun a => atom_at n a k).
Proof.
  intros n coords Hn H. exists (map (fun k => csum coords (fun a => atom_at n a k)) (arange 0 n)).
  split; [|split; [rewrite zlen_map_arange; lia|intros k Hk; rewrite cnth_map_arange by lia; now rewrite Z.add_0_l]].
  unfold atoms. destruct (Z.ltb_spec n 0); [lia|].
  set (F := fun acc a => _).
  assert (G : forall l g, (forall a, In a l -> a_T a <> 0%R /\ atom_centre n (a_t a) < n) ->
    fold_left F l (Ok (map (fun k => Some (g k)) (arange 0 n))) = Ok (map (fun k => Some (g k + csum l (fun a => atom_at n a k))%C) (arange 0 n))).
  { induction l as [|a l IH]; intros g HL.
    - cbn [fold_left]. f_equal. apply map_ext. intros k. f_equal. unfold csum. cbn. ring.
    - cbn [fold_left]. unfold F at 2. destruct (HL a) as [T1 T2]; [left; auto|]. cbn [bind]. rewrite atom_sig_ok by auto. cbn [bind]. rewrite (bcast_map oaddc). cbn [oaddc].
      rewrite (IH (fun k => g k + atom_at n a k)%C) by (intros b Hb; apply HL; right; auto). f_equal. apply map_ext. intros k. f_equal. rewrite csum_cons. ring. }
  replace (repeat (Some (RtoC 0)) (Z.to_nat n)) with (map (fun _ : Z => Some (RtoC 0)) (arange 0 n)) by (rewrite map_const, arange_length; f_equal; lia).
  rewrite G by auto. rewrite map_map. f_equal. apply map_ext. intros k. f_equal. ring.
Qed.
Lemma c67_additive : forall n l1 l2 y1 y2 y, 1 <= n ->
  (forall a, In a (l1 ++ l2) -> a_T a <> 0%R /\ atom_centre n (a_t a) < n) ->
  atoms n l1 = Ok (map Some y1) -> atoms n l2 = Ok (map Some y2) -> atoms n (l1 ++ l2) = Ok (map Some y) ->
  forall k, 0 <= k < n -> cnth y k = (cnth y1 k + cnth y2 k)%C.
Proof.
  intros n l1 l2 y1 y2 y Hn H E1 E2 E k Hk.
  assert (INJ : forall (u v : list C), Ok (map Some u) = Ok (map Some v) -> u = v).
  { intros u v Q. injection Q as Q. revert v Q. induction u; intros [|b v] Q; try discriminate; [reflexivity|]. cbn in Q. injection Q as -> Q. f_equal. auto. }
  destruct (c67_atoms n l1 Hn) as (z1 & F1 & _ & V1); [intros; apply H, in_or_app; auto|].
  destruct (c67_atoms n l2 Hn) as (z2 & F2 & _ & V2); [intros; apply H, in_or_app; auto|].
  destruct (c67_atoms n (l1 ++ l2) Hn H) as (z & F & _ & V).
  rewrite F1 in E1. rewrite F2 in E2. rewrite F in E. apply INJ in E1, E2, E. subst. rewrite V, V1, V2 by auto. apply csum_app.
Qed.
(** A centre that clamps to n raises, whatever the other atoms are. *)
Lemma atom_sig_len n a v : 1 <= n -> atom_sig n a = Ok v -> zlen v = n.
Proof.
  intros Hn. assert (RC := proj1 (proj2 (c67_centre n (a_t a) Hn))). unfold atom_sig. set (c := atom_centre n (a_t a)) in *.
  unfold amgauss. rewrite am_args_ok by lia. cbn [bind]. destruct (Z_lt_ge_dec c n).
  - destruct (c54_tone n (atom_freq (a_f a)) c) as (y & E & L & _); [lia|apply atom_freq_range|]. rewrite E. cbn [bind].
    unfold bcast. rewrite (proj2 (Nat.eqb_eq _ _)) by (rewrite !map_length, arange_length; unfold zlen in L; lia). intros Q. injection Q as <-. rewrite zipw_zlen; rewrite !zlen_map, arange_zlen; lia.
  - rewrite (proj1 (proj2 (proj2 (c54_raises n (atom_freq (a_f a)) (Some (IZR c)))))); [discriminate|lia|apply atom_freq_range|]. cbn [centre_of]. rewrite trunc_IZR. lia.
Qed.
Lemma atom_sig_raise n a : 1 <= n -> atom_centre n (a_t a) = n -> atom_sig n a = Raise IndexError.
Proof.
  intros Hn HC. unfold atom_sig. rewrite HC. unfold amgauss. rewrite am_args_ok by lia. cbn [bind].
  rewrite (proj1 (proj2 (proj2 (c54_raises n (atom_freq (a_f a)) (Some (IZR n)))))); [reflexivity|lia|apply atom_freq_range|]. cbn [centre_of]. rewrite trunc_IZR. lia.
Qed.
Lemma atom_sig_cases n a : 1 <= n -> atom_sig n a = Raise IndexError \/ exists v, atom_sig n a = Ok v /\ zlen v = n.
Proof.
  intros Hn. destruct (Z.eq_dec (atom_centre n (a_t a)) n) as [E|E]; [left; now apply atom_sig_raise|].
  destruct (atom_sig n a) as [v|e] eqn:ES; [right; exists v; split; [auto|now apply atom_sig_len in ES]|]. exfalso. revert ES.
  assert (RC := proj1 (proj2 (c67_centre n (a_t a) Hn))). unfold atom_sig. set (c := atom_centre n (a_t a)) in *.
  unfold amgauss. rewrite am_args_ok by lia. cbn [bind].
  destruct (c54_tone n (atom_freq (a_f a)) c) as (y & EY & L & _); [lia|apply atom_freq_range|]. rewrite EY. cbn [bind].
  unfold bcast. rewrite (proj2 (Nat.eqb_eq _ _)) by (rewrite !map_length, arange_length; unfold zlen in L; lia). discriminate.
Qed.
Lemma c67_raises : forall n coords,
  (n < 0 -> atoms n coords = Raise ValueError) /\
  (n = 0 -> coords <> [] -> atoms n coords = Raise TypeError) /\
  (1 <= n -> (exists a, In a coords /\ atom_centre n (a_t a) = n) -> atoms n coords = Raise IndexError) /\
  (forall l, 0 <= n -> l <> [] -> atoms_1d n l = Raise IndexError).
Proof.
  intros n coords. set (F := fun acc a => s <- acc ;; v <- atom_sig n a ;; bcast oaddc s v).
  assert (FR : forall l e, fold_left F l (Raise e) = Raise e) by (induction l; intros e; [reflexivity|]; cbn [fold_left]; unfold F at 2; cbn [bind]; auto).
  split; [|split; [|split]].
  - intros H. unfold atoms. destruct (Z.ltb_spec n 0); [auto|lia].
  - intros -> H. unfold atoms. change (0 <? 0) with false. cbv iota. destruct coords as [|a l]; [easy|]. cbn [fold_left bind].
    assert (EA : atom_sig 0 a = Raise TypeError) by reflexivity. fold F. rewrite EA. cbn [bind]. apply FR.
  - intros Hn (a & Ha & HC). unfold atoms. destruct (Z.ltb_spec n 0); [lia|]. fold F.
    assert (G : forall l s, zlen s = n -> In a l -> fold_left F l (Ok s) = Raise IndexError).
    { induction l as [|b l IH]; intros s LS HI; [easy|]. cbn [fold_left]. unfold F at 2. cbn [bind]. destruct HI as [->|HI].
      - rewrite atom_sig_raise by auto. cbn [bind]. apply FR.
      - destruct (atom_sig_cases n b Hn) as [E|(v & E & LV)]; rewrite E; cbn [bind]; [apply FR|].
        unfold bcast. rewrite (proj2 (Nat.eqb_eq _ _)) by (unfold zlen in *; lia). apply IH; [|auto]. rewrite zipw_zlen; lia. }
    apply G; [|auto]. unfold zlen. rewrite repeat_length. lia.
  - intros l Hn HL. unfold atoms_1d. destruct (Z.ltb_spec n 0); [lia|]. destruct l; [easy|auto].
Qed.
Lemma c67_last_refuted : exists n a, (1 <= a_t a <= IZR n)%R /\ atoms n [a] = Raise IndexError.
Proof.
  exists 8, {| a_t := 8; a_f := 1 / 4; a_T := 2; a_A := 1 |}. cbn [a_t]. split; [lra|].
  apply (proj1 (proj2 (proj2 (c67_raises 8 _)))); [lia|]. eexists. split; [left; reflexivity|]. apply (c67_centre 8 8 ltac:(lia)). right. left. cbn [a_t]. lra.
Qed.
(** One atom of length 3 centred on 1: amplitude 1 at sample 0. *)
Example c67_example : exists y, atoms 3 [{| a_t := 1; a_f := 0; a_T := 1; a_A := 2 |}] = Ok (map Some y) /\ cnth y 0 = RtoC 2.
Proof.
  assert (HC : atom_centre 3 1 = 1). { unfold atom_centre. rewrite Rmin_left, Rmax_left by lra. apply (Zrnd_IZR ZnearestE 1). }
  destruct (c67_atoms 3 [{| a_t := 1; a_f := 0; a_T := 1; a_A := 2 |}]) as (y & E & L & V); [lia| |].
  - intros a [<-|[]]. cbn [a_T a_t]. rewrite HC. split; [lra|lia].
  - exists y. split; [exact E|]. rewrite V by lia. rewrite csum_cons. unfold csum. cbn [fold_right]. unfold atom_at. cbn [a_t a_f a_T a_A]. rewrite HC. rewrite Rmin_left, Rmax_left by lra.
    replace (- PI * ((0 + 1 - 1) / 1) ^ 2)%R with 0%R by field. rewrite exp_0. replace (2 * PI * 0 * (0 - 1))%R with 0%R by ring. rewrite cis_0, Rmult_1_r. ring.
Qed.
