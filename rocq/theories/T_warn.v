(** C123: when fmhyp, fmpar and fmpower warn about aliasing. *)
From Coq Require Import Reals ZArith List Lia Lra Bool.
From Coquelicot Require Import Coquelicot.
From Verif Require Import Py Scalars CSum M_base M_gen1 M_warn T_gen2.
Import ListNotations.
Local Open Scope Z_scope.

Lemma aliased_iff f : aliased f = true <-> (f < 0 \/ 1 / 2 < f)%R.
Proof. unfold aliased. destruct (Rlt_dec f 0); [tauto|]. destruct (Rlt_dec (1 / 2) f); [tauto|]. split; [discriminate|lra]. Qed.
Lemma aliasing_map (g : Z -> R) a b : aliasing (map g (arange a b)) = true <-> exists k, a <= k < b /\ (g k < 0 \/ 1 / 2 < g k)%R.
Proof.
  unfold aliasing. rewrite existsb_exists. split.
  - intros (f & I & A). apply in_map_iff in I. destruct I as (k & <- & Hk). apply in_arange in Hk. apply aliased_iff in A. eauto.
  - intros (k & Hk & A). exists (g k). split; [apply in_map_iff; exists k; split; auto; now apply in_arange|now apply aliased_iff].
Qed.
Lemma inv_mono c a b t : (0 < a)%R -> (a <= t <= b)%R -> (Rmin (c / a) (c / b) <= c / t <= Rmax (c / a) (c / b))%R.
Proof.
  intros Ha Ht. assert (I1 : (/ t <= / a)%R) by (apply Rinv_le_contravar; lra). assert (I2 : (/ b <= / t)%R) by (apply Rinv_le_contravar; lra). unfold Rdiv.
  destruct (Rle_dec 0 c); [rewrite Rmin_right, Rmax_left by nra|rewrite Rmin_left, Rmax_right by nra]; nra.
Qed.

(** fmhyp returns what it returned without the warning, and warns when one of the
    values of the law it returns is negative or above one half; as the law is
    monotone, the first and the last value decide. *)
Lemma c123_fmhyp : forall n a1 b1 a2 b2, (0 < a1)%R -> (0 < a2)%R -> a1 <> a2 -> 1 <= n ->
  let c := ((b2 - b1) / (1 / a2 - 1 / a1))%R in
  let law := fun t => (b1 - c / a1 + c / t)%R in
  exists x l w, fmhyp n a1 b1 a2 b2 = Ok (x, l) /\ fmhyp_w n a1 b1 a2 b2 = Ok (x, l, w) /\ law a1 = b1 /\ law a2 = b2 /\
  (w = true <-> exists f, In f l /\ (f < 0 \/ 1 / 2 < f)%R) /\
  (w = true <-> (law 1 < 0 \/ 1 / 2 < law 1 \/ law (IZR n) < 0 \/ 1 / 2 < law (IZR n))%R).
Proof.
  intros n a1 b1 a2 b2 H1 H2 Hd Hn c law. destruct (c57_fmhyp n a1 b1 a2 b2 ltac:(lra) ltac:(lra) Hd) as (E & _ & L1 & L2). cbv zeta in E. fold c in E, L1, L2.
  eexists _, _, _. split; [exact E|]. unfold fmhyp_w. rewrite E. cbn [bind]. split; [reflexivity|]. split; [exact L1|]. split; [exact L2|].
  rewrite aliasing_map. split.
  - split.
    + intros (k & Hk & A). eexists. split; [apply in_map_iff; exists k; split; [reflexivity|apply in_arange; lia]|exact A].
    + intros (f & I & A). apply in_map_iff in I. destruct I as (k & <- & Hk). apply in_arange in Hk. exists k. split; [lia|exact A].
  - split.
    + intros (k & Hk & A). assert (M := inv_mono c 1 (IZR n) (IZR k) ltac:(lra)). destruct M as [M1 M2].
      { split; apply IZR_le; lia. } unfold law. revert M1 M2. apply Rmin_case; apply Rmax_case; lra.
    + unfold law. intros A. destruct (Rlt_dec (b1 - c / a1 + c / 1) 0); [exists 1; split; [lia|left; exact r]|]. destruct (Rlt_dec (1 / 2) (b1 - c / a1 + c / 1)); [exists 1; split; [lia|right; exact r]|].
      exists n. split; [lia|]. lra.
Qed.
(** The two points enclose the samples and are themselves in [0, 1/2]: no warning. *)
Lemma c123_fmhyp_quiet : forall n a1 b1 a2 b2, (0 < a1 <= 1)%R -> (IZR n <= a2)%R -> (a1 < a2)%R -> (0 <= b1 <= 1 / 2)%R -> (0 <= b2 <= 1 / 2)%R -> 1 <= n ->
  exists x l, fmhyp_w n a1 b1 a2 b2 = Ok (x, l, false).
Proof.
  intros n a1 b1 a2 b2 H1 H2 H3 B1 B2 Hn. destruct (c123_fmhyp n a1 b1 a2 b2) as (x & l & w & _ & E & L1 & L2 & _ & W); try lra; auto.
  exists x, l. rewrite E. destruct w; auto. exfalso. set (c := ((b2 - b1) / (1 / a2 - 1 / a1))%R) in *.
  assert (N1 : (1 <= IZR n)%R) by (apply IZR_le; lia).
  destruct (inv_mono c a1 a2 1 ltac:(lra) ltac:(lra)) as [M1 M2]. destruct (inv_mono c a1 a2 (IZR n) ltac:(lra) ltac:(lra)) as [M3 M4].
  destruct (proj1 W eq_refl) as [A|[A|[A|A]]]; revert M1 M2 M3 M4; apply Rmin_case; apply Rmax_case; lra.
Qed.

(** fmpar: a warning iff a value of the returned law is outside [0, 1/2]. *)
Lemma c123_fmpar : forall n a0 a1 a2, exists x l w, fmpar n a0 a1 a2 = (x, l) /\ fmpar_w n a0 a1 a2 = (x, l, w) /\
  (w = true <-> exists k, 0 <= k < n /\ (par_law a0 a1 a2 (IZR k) < 0 \/ 1 / 2 < par_law a0 a1 a2 (IZR k))%R).
Proof.
  intros n a0 a1 a2. destruct (c57_fmpar n a0 a1 a2) as (E & _ & _). eexists _, _, _. split; [exact E|]. unfold fmpar_w. rewrite E. split; [reflexivity|]. apply aliasing_map.
Qed.
(** The law is not the frequency of the signal returned (C57): no warning, and the phase runs faster than half a turn per sample. *)
Lemma c123_fmpar_silent_refuted : exists n a0 a1 a2 x l t d, fmpar_w n a0 a1 a2 = (x, l, false) /\ (0 <= t < IZR n)%R /\ x = map (fun k => cis (par_p a0 a1 a2 (IZR k))) (arange 0 n) /\
  is_derive (par_p a0 a1 a2) t (2 * PI * d)%R /\ (1 / 2 < d)%R.
Proof.
  exists 2, (1 / 2)%R, (- (1 / 4))%R, 0%R. destruct (c123_fmpar 2 (1 / 2) (- (1 / 4)) 0) as (x & l & w & E & W & Q). destruct (c57_fmpar 2 (1 / 2) (- (1 / 4)) 0) as (E' & D & _). exists x, l, 1%R. eexists.
  assert (w = false) as ->. { destruct w; auto. exfalso. destruct (proj1 Q eq_refl) as (k & Hk & A). unfold par_law in A. assert (K : k = 0 \/ k = 1) by lia. destruct K as [-> | ->]; lra. }
  split; [exact W|]. split; [lra|]. split; [congruence|]. split; [apply D|]. lra.
Qed.
(** First and last value in range do not silence it. *)
Lemma c123_fmpar_ends_refuted : exists n a0 a1 a2 x l, fmpar_w n a0 a1 a2 = (x, l, true) /\ (0 <= par_law a0 a1 a2 0 <= 1 / 2)%R /\ (0 <= par_law a0 a1 a2 (IZR (n - 1)) <= 1 / 2)%R.
Proof.
  exists 3, (1 / 4)%R, 1%R, (- (1 / 2))%R. destruct (c123_fmpar 3 (1 / 4) 1 (- (1 / 2))) as (x & l & w & E & W & Q). exists x, l.
  assert (w = true) as ->. { apply Q. exists 1. split; [lia|]. unfold par_law. lra. }
  split; [exact W|]. unfold par_law. change (3 - 1) with 2. lra.
Qed.

Lemma fmpower_w_ok n k f0 c : k <> 1%R -> exists x l w, fmpower n (DFloat k) [f0; c] = Ok (x, l) /\ fmpower_w n (DFloat k) [f0; c] = Ok (x, l, w) /\
  (w = true <-> exists j, 0 <= j < n /\ match npow j (- k) with Some p => (f0 + c * p < 0 \/ 1 / 2 < f0 + c * p)%R | None => c <> 0%R end).
Proof.
  intros Hk. unfold fmpower_w, fmpower. cbn [pow_coeffs bind dval]. destruct (Req_EM_T k 1); [tauto|]. cbn [bind]. eexists _, _, _. do 2 (split; [reflexivity|]).
  rewrite existsb_exists. split.
  - intros (v & I & A). apply in_map_iff in I. destruct I as (j & <- & Hj). apply in_arange in Hj. exists j. split; [lia|]. destruct (npow j (- k)) as [p|]; cbn [option_map] in A; [now apply aliased_iff|]. destruct (Req_EM_T c 0); [discriminate|auto].
  - intros (j & Hj & A). eexists. split; [apply in_map_iff; exists j; split; [reflexivity|now apply in_arange]|]. destruct (npow j (- k)) as [p|]; cbn [option_map]; [now apply aliased_iff|]. destruct (Req_EM_T c 0); [tauto|auto].
Qed.
(** fmpower with a positive degree warns in every call, whatever the law: its value at sample 0 is infinite. *)
Lemma c123_fmpower_always : forall n k f0 c, (0 < k)%R -> k <> 1%R -> c <> 0%R -> 1 <= n ->
  exists x l, fmpower n (DFloat k) [f0; c] = Ok (x, l) /\ fmpower_w n (DFloat k) [f0; c] = Ok (x, l, true).
Proof.
  intros n k f0 c Hk H1 Hc Hn. destruct (fmpower_w_ok n k f0 c H1) as (x & l & w & E & W & Q). exists x, l. split; auto. assert (w = true) as ->; auto.
  apply Q. exists 0. split; [lia|]. unfold npow. cbn [Z.eqb]. destruct (Req_EM_T (- k) 0); [lra|]. destruct (Rlt_dec 0 (- k)); [lra|]. auto.
Qed.
(** With a degree that is not positive, or a constant law, the values of the law decide. *)
Lemma c123_fmpower : forall n k f0 c, (k <= 0)%R \/ c = 0%R -> k <> 1%R ->
  exists x l w, fmpower n (DFloat k) [f0; c] = Ok (x, l) /\ fmpower_w n (DFloat k) [f0; c] = Ok (x, l, w) /\
  (w = true <-> exists f, In (Some f) l /\ (f < 0 \/ 1 / 2 < f)%R).
Proof.
  intros n k f0 c Hk H1. destruct (fmpower_w_ok n k f0 c H1) as (x & l & w & E & W & Q). exists x, l, w. split; auto. split; auto. rewrite Q.
  assert (L : l = map (fun t => option_map (fun p => f0 + c * p)%R (npow t (- k))) (arange 0 n)).
  { unfold fmpower in E. cbn [pow_coeffs bind dval] in E. destruct (Req_EM_T k 1); [tauto|]. congruence. }
  rewrite L. split.
  - intros (j & Hj & A). destruct (npow j (- k)) as [p|] eqn:P.
    + exists (f0 + c * p)%R. split; auto. apply in_map_iff. exists j. rewrite P. split; [reflexivity|now apply in_arange].
    + exfalso. destruct Hk as [Hk|Hk]; [|tauto]. revert P. unfold npow. destruct (j =? 0); [|discriminate]. destruct (Req_EM_T (- k) 0); [discriminate|]. destruct (Rlt_dec 0 (- k)); [discriminate|lra].
  - intros (f & I & A). apply in_map_iff in I. destruct I as (j & Ej & Hj). apply in_arange in Hj. exists j. split; [lia|]. destruct (npow j (- k)) as [p|]; [|discriminate]. cbn [option_map] in Ej. assert (f = (f0 + c * p)%R) by congruence. now subst f.
Qed.
(** Two points choose the coefficients; the warning is the same. *)
Lemma c123_fmpower_points : forall n k a1 b1 a2 b2 rest, (0 < a1)%R -> (0 < a2)%R -> Rpower a1 k <> Rpower a2 k ->
  let c := ((b2 - b1) / (1 / Rpower a2 k - 1 / Rpower a1 k))%R in
  fmpower_w n (DFloat k) (a1 :: b1 :: a2 :: b2 :: rest) = fmpower_w n (DFloat k) [(b1 - c / Rpower a1 k)%R; c].
Proof.
  intros n k a1 b1 a2 b2 rest H1 H2 Hd c. assert (P1 : (0 < Rpower a1 k)%R) by apply exp_pos. assert (P2 : (0 < Rpower a2 k)%R) by apply exp_pos.
  unfold fmpower_w, fmpower. cbn [pow_coeffs dval]. destruct (Req_EM_T _ 0) as [Q|Q]; [|reflexivity].
  exfalso. apply Hd. assert (E : (/ Rpower a2 k = / Rpower a1 k)%R) by lra. rewrite <- (Rinv_inv (Rpower a1 k)), <- (Rinv_inv (Rpower a2 k)). now rewrite E.
Qed.
Lemma Rpower_half_100 : Rpower 100 (1 / 2) = 10%R.
Proof. replace 100%R with (10 ^ 2)%R by ring. replace (1 / 2)%R with (/ 2)%R by lra. rewrite Rpower_sqrt by lra. apply sqrt_pow2. lra. Qed.
(** The docstring's own call warns although every sample from 1 to 127 has its law in [0, 1/2]. *)
Lemma c123_fmpower_refuted : exists x l, fmpower_w 128 (DFloat (1 / 2)) [1; 1 / 2; 100; 1 / 10]%R = Ok (x, l, true) /\
  forall j, 1 <= j < 128 -> exists f, nth (Z.to_nat j) l None = Some f /\ (0 <= f <= 1 / 2)%R.
Proof.
  assert (R1 : Rpower 1 (1 / 2) = 1%R) by (unfold Rpower; rewrite ln_1, Rmult_0_r; apply exp_0).
  assert (C : ((1 / 10 - 1 / 2) / (1 / Rpower 100 (1 / 2) - 1 / Rpower 1 (1 / 2)) = 4 / 9)%R) by (rewrite Rpower_half_100, R1; field).
  assert (E := c123_fmpower_points 128 (1 / 2) 1 (1 / 2) 100 (1 / 10) [] ltac:(lra) ltac:(lra) ltac:(rewrite Rpower_half_100, R1; lra)). cbv zeta in E. rewrite C, R1 in E.
  destruct (c123_fmpower_always 128 (1 / 2) (1 / 2 - 4 / 9 / 1) (4 / 9)) as (x & l & H & W); try lra; try lia. exists x, l. split; [rewrite E; exact W|].
  destruct (c57_fmpower 128 (1 / 2) (1 / 2 - 4 / 9 / 1) (4 / 9) ltac:(lra)) as (y & law & H' & _ & _ & V & _). assert (law = l) by congruence. subst law.
  intros j Hj. destruct (V j ltac:(lia)) as [_ ->]. eexists. split; [reflexivity|]. unfold pow_law.
  assert (P : (0 < Rpower (IZR j) (- (1 / 2)) <= 1)%R).
  { split; [apply exp_pos|]. rewrite Rpower_Ropp. assert (1 <= Rpower (IZR j) (1 / 2))%R. { apply Rle_trans with (Rpower 1 (1 / 2)); [lra|]. apply Rle_Rpower_l; [lra|]. split; [lra|]. apply IZR_le; lia. } apply Rle_trans with (/ 1)%R; [apply Rinv_le_contravar; lra|lra]. }
  lra.
Qed.
(** fmhyp(128, (1, 0.5), (128, 0.1)) does not warn, fmhyp(2, (1, 0.5), (2, -0.1)) does. *)
Example c123_example : (exists x l, fmhyp_w 128 1 (1 / 2) 128 (1 / 10) = Ok (x, l, false)) /\ (exists x l, fmhyp_w 2 1 (1 / 2) 2 (- (1 / 10)) = Ok (x, l, true)).
Proof.
  split; [apply c123_fmhyp_quiet; lra || lia|]. destruct (c123_fmhyp 2 1 (1 / 2) 2 (- (1 / 10))) as (x & l & w & _ & E & _ & L2 & _ & W); try lra; try lia.
  exists x, l. rewrite E. assert (w = true) as ->; auto. apply W. right. right. left. rewrite L2. lra.
Qed.
