(** The geometric sum of L unit complex numbers: closed form of its modulus and the
    position of its maximum among equally spaced points. *)
From Coq Require Import Reals ZArith List Lia Lra Bool.
From Coquelicot Require Import Coquelicot.
From Flocq Require Import Core.
From Verif Require Import Py Scalars CSum Dirichlet.
Import ListNotations.
Local Open Scope Z_scope.

(** Sum of exp(2 i pi j d), j = 0 .. L-1. *)
Definition tone_sum (L : Z) (d : R) : C := csum (arange 0 L) (fun j => cis (2 * PI * (IZR j * d))).
Definition kernel (L : Z) (d : R) : R := rsum (arange 0 L) (fun j => cos (PI * ((2 * IZR j - IZR (L - 1)) * d))).

Lemma kernel_0 d : kernel 0 d = 0%R.
Proof. reflexivity. Qed.
Lemma kernel_1 d : kernel 1 d = 1%R.
Proof. unfold kernel. change (arange 0 1) with [0]. rewrite rsum_cons, rsum_nil. change (IZR (1 - 1)) with 0%R. replace (PI * _)%R with 0%R by ring. rewrite cos_0. ring. Qed.
Lemma kernel_SS L d : 0 <= L -> kernel (L + 2) d = (kernel L d + 2 * cos (PI * (IZR (L + 1) * d)))%R.
Proof.
  intros HL. unfold kernel. replace (L + 2) with (L + 1 + 1) by lia. rewrite (arange_snoc 0 (L + 1)), (arange_cons 0 (L + 1)) by lia. replace (arange (0 + 1) (L + 1)) with (map (fun k => k + 1) (arange 0 L)) by (rewrite <- arange_shift; reflexivity).
  rewrite <- app_comm_cons, rsum_cons, rsum_app, rsum_cons, rsum_nil, rsum_map.
  replace (cos (PI * ((2 * 0 - IZR (L + 1 + 1 - 1)) * d))) with (cos (PI * (IZR (L + 1) * d))) by (rewrite <- cos_neg; f_equal; replace (L + 1 + 1 - 1) with (L + 1) by lia; ring).
  replace (cos (PI * ((2 * IZR (L + 1) - IZR (L + 1 + 1 - 1)) * d))) with (cos (PI * (IZR (L + 1) * d))) by (f_equal; replace (L + 1 + 1 - 1) with (L + 1) by lia; ring).
  rewrite (rsum_ext _ _ (fun j => cos (PI * ((2 * IZR j - IZR (L - 1)) * d)))); [ring|]. intros j _. f_equal. rewrite !minus_IZR, !plus_IZR. ring.
Qed.
(** Induction by steps of two. *)
Lemma two_ind (P : Z -> Prop) : P 0 -> P 1 -> (forall L, 0 <= L -> P L -> P (L + 2)) -> forall L, 0 <= L -> P L.
Proof.
  intros H0 H1 HS. assert (Q : forall L, 0 <= L -> P L /\ P (L + 1)). { apply natlike_ind; [split; auto|]. intros L HL [A B]. unfold Z.succ. split; auto. replace (L + 1 + 1) with (L + 2) by lia. auto. }
  intros L HL. apply Q. auto.
Qed.
Lemma kernel_sin L d : 0 <= L -> (sin (PI * d) * kernel L d = sin (IZR L * (PI * d)))%R.
Proof.
  intros HL. revert L HL. apply two_ind.
  - rewrite kernel_0, Rmult_0_r, Rmult_0_l, sin_0. reflexivity.
  - rewrite kernel_1, Rmult_1_r, Rmult_1_l. reflexivity.
  - intros L HL IH. rewrite kernel_SS, Rmult_plus_distr_l, IH by auto. replace (IZR (L + 2) * (PI * d))%R with (PI * (IZR (L + 1) * d) + PI * d)%R by (rewrite !plus_IZR; ring). replace (IZR L * (PI * d))%R with (PI * (IZR (L + 1) * d) - PI * d)%R by (rewrite !plus_IZR; ring). rewrite sin_plus, sin_minus. ring.
Qed.
Lemma kernel_at_0 L : 0 <= L -> kernel L 0 = IZR L.
Proof.
  intros HL. revert L HL. apply two_ind; [reflexivity|apply kernel_1|]. intros L HL IH. rewrite kernel_SS, IH by auto. rewrite !Rmult_0_r, cos_0, <- mult_IZR, <- plus_IZR. f_equal.
Qed.
(** The sum is a unit complex number times the kernel. *)
Lemma tone_sum_kernel L d : 0 <= L -> tone_sum L d = (cis (PI * (IZR (L - 1) * d)) * RtoC (kernel L d))%C.
Proof.
  intros HL. unfold tone_sum. rewrite <- (csum_ext _ (fun j => cis (PI * (IZR (L - 1) * d)) * cis (PI * ((2 * IZR j - IZR (L - 1)) * d)))%C).
  2:{ intros j _. rewrite <- cis_plus. f_equal. ring. }
  rewrite csum_scal_l. f_equal. set (F := fun j => cis (PI * ((2 * IZR j - IZR (L - 1)) * d))). assert (C : Cconj (csum (arange 0 L) F) = csum (arange 0 L) F).
  { rewrite csum_conj, csum_arange_rev. apply csum_ext. intros j _. unfold F. rewrite <- cis_opp. f_equal. rewrite !minus_IZR, !plus_IZR. ring. }
  apply conj_real in C. rewrite C, Re_csum. reflexivity.
Qed.
Lemma tone_sum_Cmod L d : 0 <= L -> Cmod (tone_sum L d) = Rabs (kernel L d).
Proof. intros HL. rewrite tone_sum_kernel, Cmod_mult, Cmod_cis, Cmod_R by auto. ring. Qed.
Lemma tone_sum_int L d q : tone_sum L (d + IZR q) = tone_sum L d.
Proof. apply csum_ext. intros j _. replace (2 * PI * (IZR j * (d + IZR q)))%R with (2 * PI * (IZR j * d) + 2 * PI * IZR (j * q))%R by (rewrite mult_IZR; ring). rewrite cis_plus, cis_2PI_k. ring. Qed.
Lemma tone_sum_opp L d : tone_sum L (- d) = Cconj (tone_sum L d).
Proof. unfold tone_sum. rewrite csum_conj. apply csum_ext. intros j _. rewrite <- cis_opp. f_equal. ring. Qed.
Lemma tone_sum_dist L d : 0 <= L -> Cmod (tone_sum L d) = Rabs (kernel L (dist_int d)).
Proof.
  intros HL. rewrite <- tone_sum_Cmod by auto. destruct (dist_int_spec d) as (_ & q & [E|E]); rewrite E at 1.
  - now rewrite Rplus_comm, tone_sum_int.
  - replace (IZR q - dist_int d)%R with (- dist_int d + IZR q)%R by ring. now rewrite tone_sum_int, tone_sum_opp, Cmod_conj.
Qed.

Lemma kernel_decr L a b : 1 <= L -> (0 <= a)%R -> (a <= b)%R -> (IZR L * b <= 1 / 2)%R ->
  (kernel L b <= kernel L a)%R /\ ((a < b)%R -> 2 <= L -> (kernel L b < kernel L a)%R).
Proof.
  intros HL0 Ha Hab Hb. assert (HL : 0 <= L) by lia. clear HL0. revert Hb. revert L HL. assert (HP := PI_RGT_0).
  apply (two_ind (fun L => (IZR L * b <= 1 / 2)%R -> (kernel L b <= kernel L a)%R /\ ((a < b)%R -> 2 <= L -> (kernel L b < kernel L a)%R))).
  - intros _. rewrite !kernel_0. split; [lra|lia].
  - intros _. rewrite !kernel_1. split; [lra|lia].
  - intros L HL IH Hb. assert (M0 : (0 <= IZR L)%R) by (apply IZR_le; lia). rewrite plus_IZR in Hb. destruct IH as [IH _]; [nra|]. rewrite !kernel_SS by auto. rewrite plus_IZR.
    assert (B : (PI * ((IZR L + 1) * b) <= PI)%R) by nra. assert (A0 : (0 <= PI * ((IZR L + 1) * a))%R) by (apply Rmult_le_pos; [lra|apply Rmult_le_pos; lra]).
    assert (AB : (PI * ((IZR L + 1) * a) <= PI * ((IZR L + 1) * b))%R) by (apply Rmult_le_compat_l; [lra|apply Rmult_le_compat_l; lra]). split.
    + assert (Q : (cos (PI * ((IZR L + 1) * b)) <= cos (PI * ((IZR L + 1) * a)))%R) by (apply cos_decr_1; lra). lra.
    + intros S _. assert (AS : (PI * ((IZR L + 1) * a) < PI * ((IZR L + 1) * b))%R) by (apply Rmult_lt_compat_l; [lra|apply Rmult_lt_compat_l; lra]).
      assert (Q : (cos (PI * ((IZR L + 1) * b)) < cos (PI * ((IZR L + 1) * a)))%R) by (apply cos_decreasing_1; lra). lra.
Qed.
Lemma kernel_peak L a b : 1 <= L -> (0 <= a)%R -> (a <= b)%R -> (b <= 1 / 2)%R -> (IZR L * a <= 1 / 2)%R ->
  (Rabs (kernel L b) <= kernel L a)%R /\ ((a < b)%R -> 2 <= L -> (Rabs (kernel L b) < kernel L a)%R).
Proof.
  intros Hm Ha Hab Hb Hq. assert (HP := PI_RGT_0). assert (M1 : (1 <= IZR L)%R) by (apply (IZR_le 1); lia). set (M := IZR L) in *.
  set (q := (1 / 2 / M)%R). assert (Mq : (M * q = 1 / 2)%R) by (unfold q; field; lra). assert (q0 : (0 < q)%R) by (apply Rdiv_lt_0_compat; lra).
  assert (SQ : (0 < sin (PI * q))%R) by (apply sin_gt_0; [apply Rmult_lt_0_compat; lra|]; assert (q <= 1 / 2)%R by nra; nra).
  assert (DQ : (sin (PI * q) * kernel L q = 1)%R). { rewrite kernel_sin by lia. fold M. replace (M * (PI * q))%R with (PI / 2)%R by (replace (M * (PI * q))%R with (PI * (M * q))%R by ring; rewrite Mq; field). apply sin_PI2. }
  assert (AQ : (a <= q)%R) by nra.
  destruct (Rle_dec b q) as [H|H].
  - assert (PB : (0 < kernel L b)%R). { destruct (kernel_decr L b q ltac:(auto) ltac:(lra) H) as [Q _]; [fold M; lra|]. apply Rlt_le_trans with (2 := Q). nra. }
    rewrite (Rabs_pos_eq (kernel L b)) by lra. apply kernel_decr; auto. fold M. nra.
  - assert (SB : (sin (PI * q) < sin (PI * b))%R) by (apply sin_increasing_1; nra).
    assert (DA : (kernel L q <= kernel L a)%R) by (apply kernel_decr; auto; fold M; lra).
    assert (E : (Rabs (sin (PI * b) * kernel L b) <= 1)%R) by (rewrite kernel_sin by lia; apply Rabs_le; destruct (SIN_bound (IZR L * (PI * b))); lra).
    rewrite Rabs_mult, (Rabs_pos_eq (sin _)) in E by lra. assert (K : (Rabs (kernel L b) < kernel L q)%R); [|split; intros; lra].
    assert (N := Rabs_pos (kernel L b)). apply Rmult_lt_reg_l with (1 := SQ). rewrite DQ. destruct (Req_dec (Rabs (kernel L b)) 0) as [Z|Z]; [rewrite Z, Rmult_0_r; lra|]. nra.
Qed.
(** Row f of n (at least the number of samples) holds the largest modulus of the
    sum centred at d iff no row is nearer to d. *)
Lemma tone_rows L n d f : 2 <= L <= n -> 0 <= f < n ->
  ((forall g, 0 <= g < n -> (Cmod (tone_sum L (d - IZR g / IZR n)) <= Cmod (tone_sum L (d - IZR f / IZR n)))%R) <->
   (forall g, 0 <= g < n -> (dist_int (d - IZR f / IZR n) <= dist_int (d - IZR g / IZR n))%R)).
Proof.
  intros Hn Hf. assert (N0 : (0 < IZR n)%R) by (apply IZR_lt; lia). assert (MN : (IZR L <= IZR n)%R) by (apply IZR_le; lia). assert (M0 : (0 <= IZR L)%R) by (apply IZR_le; lia). destruct (near_point n d ltac:(lia)) as (h & Hh & NH).
  assert (SMALL : forall a, (0 <= a)%R -> (a <= 1 / (2 * IZR n))%R -> (IZR L * a <= 1 / 2)%R). { intros a A0 A1. apply Rle_trans with (IZR n * (1 / (2 * IZR n)))%R; [apply Rmult_le_compat; lra|]. right. field. lra. }
  split.
  - intros H g Hg. destruct (Rle_dec (dist_int (d - IZR f / IZR n)) (dist_int (d - IZR g / IZR n))) as [|C]; [auto|exfalso].
    assert (X : exists k, 0 <= k < n /\ (dist_int (d - IZR k / IZR n) <= 1 / (2 * IZR n))%R /\ (dist_int (d - IZR k / IZR n) < dist_int (d - IZR f / IZR n))%R).
    { destruct (Rle_dec (dist_int (d - IZR g / IZR n)) (dist_int (d - IZR h / IZR n))); [exists g|exists h]; repeat split; try lia; lra. }
    destruct X as (k & Hk & K1 & K2). specialize (H k Hk). destruct (dist_int_spec (d - IZR k / IZR n)) as [P1 _]. destruct (dist_int_spec (d - IZR f / IZR n)) as [P2 _].
    rewrite !tone_sum_dist in H by lia. destruct (kernel_peak L (dist_int (d - IZR k / IZR n)) (dist_int (d - IZR f / IZR n))) as [_ Q]; try lra; [lia|apply SMALL; lra|]. specialize (Q K2 ltac:(lia)). assert (Y := Rle_abs (kernel L (dist_int (d - IZR k / IZR n)))). lra.
  - intros H g Hg. destruct (dist_int_spec (d - IZR g / IZR n)) as [P1 _]. destruct (dist_int_spec (d - IZR f / IZR n)) as [P2 _]. assert (Y := H h Hh). specialize (H g Hg).
    rewrite !tone_sum_dist by lia. destruct (kernel_peak L (dist_int (d - IZR f / IZR n)) (dist_int (d - IZR g / IZR n))) as [Q _]; try lra; [lia|apply SMALL; lra|]. apply Rle_trans with (1 := Q). apply Rle_abs.
Qed.
(** A row nearest to d is within half a bin of it. *)
Lemma nearest_half n d f : 1 <= n -> (forall g, 0 <= g < n -> (dist_int (d - IZR f / IZR n) <= dist_int (d - IZR g / IZR n))%R) ->
  exists q, (Rabs (d - (IZR f / IZR n + IZR q)) <= 1 / (2 * IZR n))%R.
Proof.
  intros Hn H. destruct (near_point n d Hn) as (h & Hh & NH). specialize (H h Hh). destruct (dist_int_spec (d - IZR f / IZR n)) as ([P _] & q & EQ). exists q. apply Rabs_le. destruct EQ; lra.
Qed.
