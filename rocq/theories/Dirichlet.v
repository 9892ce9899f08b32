(** The Dirichlet kernel 1 + 2 sum_u cos(2 pi u d): closed form and the position
    of its maximum among equally spaced points. *)
From Coq Require Import Reals ZArith List Lia Lra Bool.
From Coquelicot Require Import Coquelicot.
From Flocq Require Import Core.
From Verif Require Import Py Scalars CSum.
Import ListNotations.
Local Open Scope Z_scope.

(** Sum over the lags -m .. m of cos(2 pi u d). *)
Definition dirichlet (m : Z) (d : R) : R := rsum (arange (- m) (m + 1)) (fun u => cos (2 * PI * (IZR u * d))).
(** Distance of a real number to the nearest integer. *)
Definition dist_int (r : R) : R := Rmin (r - IZR (Zfloor r)) (IZR (Zfloor r) + 1 - r).

Lemma cos_int a k : cos (a + 2 * PI * IZR k) = cos a.
Proof. assert (H := f_equal fst (cis_plus a (2 * PI * IZR k))). rewrite cis_2PI_k, Cmult_1_r in H. exact H. Qed.
Lemma dirichlet_int m d q : dirichlet m (d + IZR q) = dirichlet m d.
Proof. apply rsum_ext. intros u _. rewrite <- (cos_int (2 * PI * (IZR u * d)) (u * q)). f_equal. rewrite mult_IZR. ring. Qed.
Lemma dirichlet_opp m d : dirichlet m (- d) = dirichlet m d.
Proof. apply rsum_ext. intros u _. rewrite <- cos_neg. f_equal. ring. Qed.
Lemma dist_int_spec r : (0 <= dist_int r <= 1 / 2)%R /\ exists q, (r = IZR q + dist_int r \/ r = IZR q - dist_int r)%R.
Proof.
  unfold dist_int. assert (A := Zfloor_lb r). assert (B := Zfloor_ub r). unfold Rmin. destruct (Rle_dec _ _).
  - split; [lra|]. exists (Zfloor r). left. lra.
  - split; [lra|]. exists (Zfloor r + 1). right. rewrite plus_IZR. lra.
Qed.
Lemma dirichlet_dist m d : dirichlet m d = dirichlet m (dist_int d).
Proof.
  destruct (dist_int_spec d) as (_ & q & [E|E]); rewrite E at 1.
  - now rewrite Rplus_comm, dirichlet_int.
  - replace (IZR q - dist_int d)%R with (- dist_int d + IZR q)%R by ring. now rewrite dirichlet_int, dirichlet_opp.
Qed.
(** No integer is nearer than [dist_int]. *)
Lemma dist_int_le r q : (dist_int r <= Rabs (r - IZR q))%R.
Proof.
  unfold dist_int. assert (A := Zfloor_lb r). assert (B := Zfloor_ub r). destruct (Z_le_gt_dec q (Zfloor r)) as [H|H].
  - apply Rle_trans with (1 := Rmin_l _ _). apply IZR_le in H. rewrite Rabs_pos_eq; lra.
  - apply Rle_trans with (1 := Rmin_r _ _). assert (Q := IZR_le (Zfloor r + 1) q ltac:(lia)). rewrite plus_IZR in Q. rewrite Rabs_left1; lra.
Qed.

Lemma dirichlet_0 d : dirichlet 0 d = 1%R.
Proof. unfold dirichlet. change (arange (- 0) (0 + 1)) with [0]. rewrite rsum_cons, rsum_nil, Rmult_0_l, Rmult_0_r, cos_0. ring. Qed.
Lemma dirichlet_S m d : 0 <= m -> dirichlet (m + 1) d = (dirichlet m d + 2 * cos (2 * PI * (IZR (m + 1) * d)))%R.
Proof.
  intros Hm. unfold dirichlet. rewrite (arange_snoc (- (m + 1)) (m + 1)) by lia. rewrite (arange_cons (- (m + 1)) (m + 1)) by lia. replace (- (m + 1) + 1) with (- m) by lia.
  rewrite <- app_comm_cons, rsum_cons, rsum_app, rsum_cons, rsum_nil. replace (cos (2 * PI * (IZR (- (m + 1)) * d))) with (cos (2 * PI * (IZR (m + 1) * d))); [ring|]. rewrite <- cos_neg. f_equal. rewrite opp_IZR. ring.
Qed.
(** Closed form: sin(pi d) D(d) = sin((2m+1) pi d). *)
Lemma dirichlet_sin m d : 0 <= m -> (sin (PI * d) * dirichlet m d = sin (IZR (2 * m + 1) * (PI * d)))%R.
Proof.
  intros Hm. revert m Hm. apply natlike_ind.
  - rewrite dirichlet_0, Rmult_1_r. f_equal. change (2 * 0 + 1) with 1. ring.
  - intros m Hm IH. unfold Z.succ. rewrite dirichlet_S, Rmult_plus_distr_l, IH by lia. replace (IZR (2 * (m + 1) + 1) * (PI * d))%R with (2 * PI * (IZR (m + 1) * d) + PI * d)%R by (rewrite !plus_IZR, !mult_IZR, !plus_IZR; ring).
    replace (IZR (2 * m + 1) * (PI * d))%R with (2 * PI * (IZR (m + 1) * d) - PI * d)%R by (rewrite !plus_IZR, !mult_IZR; ring). rewrite sin_plus, sin_minus. ring.
Qed.
Lemma dirichlet_at_0 m : 0 <= m -> dirichlet m 0 = IZR (2 * m + 1).
Proof.
  intros Hm. revert m Hm. apply natlike_ind; [apply dirichlet_0|]. intros m Hm IH. unfold Z.succ. rewrite dirichlet_S, IH by auto. rewrite !Rmult_0_r, cos_0, <- mult_IZR, <- plus_IZR. f_equal. lia.
Qed.

(** Inside the first quarter period of the kernel it decreases. *)
Lemma dirichlet_decr m a b : 0 <= m -> (0 <= a)%R -> (a <= b)%R -> (IZR (2 * m + 1) * b <= 1 / 2)%R ->
  (dirichlet m b <= dirichlet m a)%R /\ ((a < b)%R -> 1 <= m -> (dirichlet m b < dirichlet m a)%R).
Proof.
  intros Hm Ha Hab Hb. revert Hb. revert m Hm.
  assert (HP := PI_RGT_0).
  assert (P : forall m, 0 <= m -> (IZR (2 * m + 1) * b <= 1 / 2)%R -> (dirichlet m b <= dirichlet m a)%R /\ ((a < b)%R -> 1 <= m -> (dirichlet m b < dirichlet m a)%R)); [|exact P].
  apply (natlike_ind (fun m => (IZR (2 * m + 1) * b <= 1 / 2)%R -> (dirichlet m b <= dirichlet m a)%R /\ ((a < b)%R -> 1 <= m -> (dirichlet m b < dirichlet m a)%R))).
  - intros _. rewrite !dirichlet_0. split; [lra|lia].
  - intros m Hm IH Hb. unfold Z.succ in *. assert (M0 : (0 <= IZR m)%R) by (apply IZR_le; lia). rewrite !plus_IZR, !mult_IZR, !plus_IZR in Hb.
    destruct IH as [IH _]; [rewrite plus_IZR, mult_IZR; nra|]. rewrite !dirichlet_S by auto. rewrite plus_IZR.
    assert (B : (2 * PI * ((IZR m + 1) * b) <= PI)%R) by nra. assert (A0 : (0 <= 2 * PI * ((IZR m + 1) * a))%R) by (apply Rmult_le_pos; [lra|apply Rmult_le_pos; lra]).
    assert (AB : (2 * PI * ((IZR m + 1) * a) <= 2 * PI * ((IZR m + 1) * b))%R) by (apply Rmult_le_compat_l; [lra|apply Rmult_le_compat_l; lra]). split.
    + assert (Q : (cos (2 * PI * ((IZR m + 1) * b)) <= cos (2 * PI * ((IZR m + 1) * a)))%R) by (apply cos_decr_1; lra). lra.
    + intros S _. assert (AS : (2 * PI * ((IZR m + 1) * a) < 2 * PI * ((IZR m + 1) * b))%R) by (apply Rmult_lt_compat_l; [lra|apply Rmult_lt_compat_l; lra]).
      assert (Q : (cos (2 * PI * ((IZR m + 1) * b)) < cos (2 * PI * ((IZR m + 1) * a)))%R) by (apply cos_decreasing_1; lra). lra.
Qed.

(** The kernel at a point within a quarter period of 0 exceeds its absolute value
    at every point further away. *)
Lemma dirichlet_peak m a b : 0 <= m -> (0 <= a)%R -> (a <= b)%R -> (b <= 1 / 2)%R -> (IZR (2 * m + 1) * a <= 1 / 2)%R ->
  (Rabs (dirichlet m b) <= dirichlet m a)%R /\ ((a < b)%R -> 1 <= m -> (Rabs (dirichlet m b) < dirichlet m a)%R).
Proof.
  intros Hm Ha Hab Hb Hq. assert (HP := PI_RGT_0). assert (M1 : (1 <= IZR (2 * m + 1))%R) by (apply (IZR_le 1); lia). set (M := IZR (2 * m + 1)) in *.
  set (q := (1 / 2 / M)%R). assert (Mq : (M * q = 1 / 2)%R) by (unfold q; field; lra). assert (q0 : (0 < q)%R) by (apply Rdiv_lt_0_compat; lra).
  assert (SQ : (0 < sin (PI * q))%R) by (apply sin_gt_0; [apply Rmult_lt_0_compat; lra|]; assert (q <= 1 / 2)%R by nra; nra).
  assert (DQ : (sin (PI * q) * dirichlet m q = 1)%R). { rewrite dirichlet_sin by auto. fold M. replace (M * (PI * q))%R with (PI / 2)%R by (replace (M * (PI * q))%R with (PI * (M * q))%R by ring; rewrite Mq; field). apply sin_PI2. }
  assert (AQ : (a <= q)%R) by nra.
  destruct (Rle_dec b q) as [H|H].
  - assert (PB : (0 < dirichlet m b)%R). { destruct (dirichlet_decr m b q ltac:(auto) ltac:(lra) H) as [Q _]; [fold M; lra|]. apply Rlt_le_trans with (2 := Q). nra. }
    rewrite (Rabs_pos_eq (dirichlet m b)) by lra. apply dirichlet_decr; auto. fold M. nra.
  - assert (SB : (sin (PI * q) < sin (PI * b))%R) by (apply sin_increasing_1; nra).
    assert (DA : (dirichlet m q <= dirichlet m a)%R) by (apply dirichlet_decr; auto; fold M; lra).
    assert (E : (Rabs (sin (PI * b) * dirichlet m b) <= 1)%R) by (rewrite dirichlet_sin by auto; apply Rabs_le; destruct (SIN_bound (IZR (2 * m + 1) * (PI * b))); lra).
    rewrite Rabs_mult, (Rabs_pos_eq (sin _)) in E by lra. assert (L : (Rabs (dirichlet m b) < dirichlet m q)%R); [|split; intros; lra].
    assert (N := Rabs_pos (dirichlet m b)). apply Rmult_lt_reg_l with (1 := SQ). rewrite DQ. destruct (Req_dec (Rabs (dirichlet m b)) 0) as [Z|Z]; [rewrite Z, Rmult_0_r; lra|]. nra.
Qed.
(** Among the points d - f/n, f = 0 .. n-1, one is within 1/(2n) of an integer. *)
Lemma near_point n d : 1 <= n -> exists f, 0 <= f < n /\ (dist_int (d - IZR f / IZR n) <= 1 / (2 * IZR n))%R.
Proof.
  intros Hn. assert (N0 : (0 < IZR n)%R) by (apply IZR_lt; lia). set (g := ZnearestE (IZR n * d)). exists (g mod n). split; [apply Z.mod_pos_bound; lia|].
  apply Rle_trans with (1 := dist_int_le _ (g / n)). assert (E := Z.div_mod g n ltac:(lia)). apply (f_equal IZR) in E. rewrite plus_IZR, mult_IZR in E.
  assert (B := Znearest_half (fun x => negb (Z.even x)) (IZR n * d)). fold g in B. replace (d - IZR (g mod n) / IZR n - IZR (g / n))%R with ((IZR n * d - IZR g) / IZR n)%R by (rewrite E; field; lra).
  unfold Rdiv. rewrite Rabs_mult, (Rabs_pos_eq (/ IZR n)) by (apply Rlt_le, Rinv_0_lt_compat; auto). replace (1 * / (2 * IZR n))%R with (/ 2 * / IZR n)%R by (field; lra). apply Rmult_le_compat_r; [apply Rlt_le, Rinv_0_lt_compat; auto|exact B].
Qed.
(** Row f of n (n at least the number 2m+1 of lags) holds the largest absolute
    value of the kernel centred at d iff no row is nearer to d. *)
Lemma dirichlet_rows m n d f : 1 <= m -> 2 * m + 1 <= n -> 0 <= f < n ->
  ((forall g, 0 <= g < n -> (Rabs (dirichlet m (d - IZR g / IZR n)) <= Rabs (dirichlet m (d - IZR f / IZR n)))%R) <->
   (forall g, 0 <= g < n -> (dist_int (d - IZR f / IZR n) <= dist_int (d - IZR g / IZR n))%R)).
Proof.
  intros Hm Hn Hf. assert (N0 : (0 < IZR n)%R) by (apply IZR_lt; lia). assert (MN : (IZR (2 * m + 1) <= IZR n)%R) by (apply IZR_le; lia). assert (M0 : (0 <= IZR (2 * m + 1))%R) by (apply IZR_le; lia). destruct (near_point n d ltac:(lia)) as (h & Hh & NH).
  assert (SMALL : forall a, (0 <= a)%R -> (a <= 1 / (2 * IZR n))%R -> (IZR (2 * m + 1) * a <= 1 / 2)%R). { intros a A0 A1. apply Rle_trans with (IZR n * (1 / (2 * IZR n)))%R; [apply Rmult_le_compat; lra|]. right. field. lra. }
  split.
  - intros H g Hg. destruct (Rle_dec (dist_int (d - IZR f / IZR n)) (dist_int (d - IZR g / IZR n))) as [|C]; [auto|exfalso].
    assert (X : exists k, 0 <= k < n /\ (dist_int (d - IZR k / IZR n) <= 1 / (2 * IZR n))%R /\ (dist_int (d - IZR k / IZR n) < dist_int (d - IZR f / IZR n))%R).
    { destruct (Rle_dec (dist_int (d - IZR g / IZR n)) (dist_int (d - IZR h / IZR n))); [exists g|exists h]; repeat split; try lia; lra. }
    destruct X as (k & Hk & K1 & K2). specialize (H k Hk). destruct (dist_int_spec (d - IZR k / IZR n)) as [P1 _]. destruct (dist_int_spec (d - IZR f / IZR n)) as [P2 _].
    rewrite (dirichlet_dist m (d - IZR k / IZR n)), (dirichlet_dist m (d - IZR f / IZR n)) in H. destruct (dirichlet_peak m (dist_int (d - IZR k / IZR n)) (dist_int (d - IZR f / IZR n))) as [_ Q]; try lra; [lia|apply SMALL; lra|]. specialize (Q K2 Hm). assert (Y := Rle_abs (dirichlet m (dist_int (d - IZR k / IZR n)))). lra.
  - intros H g Hg. destruct (dist_int_spec (d - IZR g / IZR n)) as [P1 _]. destruct (dist_int_spec (d - IZR f / IZR n)) as [P2 _]. assert (Y := H h Hh). specialize (H g Hg).
    rewrite (dirichlet_dist m (d - IZR g / IZR n)), (dirichlet_dist m (d - IZR f / IZR n)). destruct (dirichlet_peak m (dist_int (d - IZR f / IZR n)) (dist_int (d - IZR g / IZR n))) as [Q _]; try lra; [lia|apply SMALL; lra|]. apply Rle_trans with (1 := Q). apply Rle_abs.
Qed.
