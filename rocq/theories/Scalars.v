(** Complex number facts missing from Coquelicot; [cis t] = exp(i t). *)
From Coq Require Import Reals ZArith Lia Lra.
From Coquelicot Require Import Coquelicot.

Ltac lca := apply injective_projections; cbn; ring.

Local Open Scope C_scope.

Lemma Cconj_plus a b : Cconj (a + b) = Cconj a + Cconj b.
Proof. lca. Qed.
Lemma Cconj_minus a b : Cconj (a - b) = Cconj a - Cconj b.
Proof. lca. Qed.
Lemma Cconj_mult a b : Cconj (a * b) = Cconj a * Cconj b.
Proof. lca. Qed.
Lemma Cconj_opp a : Cconj (- a) = - Cconj a.
Proof. lca. Qed.
Lemma Cconj_R (r : R) : Cconj r = r.
Proof. lca. Qed.
Lemma Cconj_invol a : Cconj (Cconj a) = a.
Proof. lca. Qed.
Lemma Cmod_conj a : Cmod (Cconj a) = Cmod a.
Proof. unfold Cmod, Cconj. cbn. f_equal. ring. Qed.

Lemma Cmod_sqr (z : C) : (Cmod z ^ 2 = Re z ^ 2 + Im z ^ 2)%R.
Proof.
  unfold Cmod, Re, Im. rewrite pow2_sqrt; [reflexivity|].
  generalize (pow2_ge_0 (fst z)) (pow2_ge_0 (snd z)). lra.
Qed.
Lemma Cmod2_conj (z : C) : RtoC (Cmod z ^ 2) = z * Cconj z.
Proof. rewrite Cmod_sqr. unfold Cconj, Cmult, RtoC, Re, Im. cbn. f_equal; ring. Qed.

Lemma Re_plus a b : Re (a + b) = (Re a + Re b)%R. Proof. reflexivity. Qed.
Lemma Im_plus a b : Im (a + b) = (Im a + Im b)%R. Proof. reflexivity. Qed.
Lemma Re_conj a : Re (Cconj a) = Re a. Proof. reflexivity. Qed.
Lemma Im_conj a : Im (Cconj a) = (- Im a)%R. Proof. reflexivity. Qed.
Lemma Re_R (r : R) : Re r = r. Proof. reflexivity. Qed.
Lemma Im_R (r : R) : Im r = 0%R. Proof. reflexivity. Qed.
Lemma Re_scal (r : R) z : Re (r * z) = (r * Re z)%R.
Proof. unfold Re. cbn. ring. Qed.
Lemma Im_scal (r : R) z : Im (r * z) = (r * Im z)%R.
Proof. unfold Im. cbn. ring. Qed.

(** A number equal to its conjugate is real. *)
Lemma conj_real z : Cconj z = z -> z = RtoC (Re z).
Proof.
  intros H. assert (E : Im (Cconj z) = Im z) by now rewrite H.
  destruct z as [a b]. unfold Im, Cconj, RtoC, Re in *. cbn in *. f_equal. lra.
Qed.
Lemma conj_Im0 z : Cconj z = z -> Im z = 0%R.
Proof.
  intros H. assert (E : Im (Cconj z) = Im z) by now rewrite H. unfold Im, Cconj in *. cbn in E. lra.
Qed.

Definition cis (t : R) : C := (cos t, sin t).

Lemma cis_0 : cis 0 = 1.
Proof. unfold cis. rewrite cos_0, sin_0. reflexivity. Qed.
Lemma cis_plus a b : cis (a + b) = cis a * cis b.
Proof. unfold cis, Cmult. cbn. rewrite cos_plus, sin_plus. f_equal; ring. Qed.
Lemma cis_opp a : cis (- a) = Cconj (cis a).
Proof. unfold cis, Cconj. cbn. now rewrite cos_neg, sin_neg. Qed.
Lemma Cmod_cis a : Cmod (cis a) = 1%R.
Proof.
  unfold Cmod, cis. cbn [fst snd].
  replace (cos a ^ 2 + sin a ^ 2)%R with 1%R; [apply sqrt_1|].
  generalize (sin2_cos2 a). unfold Rsqr. cbn. lra.
Qed.
Lemma cis_conj_mul a : cis a * Cconj (cis a) = 1.
Proof. rewrite <- Cmod2_conj, Cmod_cis. f_equal. ring. Qed.
Lemma cis_neq_0 a : cis a <> 0.
Proof. intros H. apply (f_equal Cmod) in H. rewrite Cmod_cis, Cmod_0 in H. lra. Qed.
Lemma cis_2PI_k (k : Z) : cis (2 * PI * IZR k) = 1.
Proof.
  unfold cis.
  assert (Hn : forall n : nat, (cos (2 * PI * INR n) = 1 /\ sin (2 * PI * INR n) = 0)%R).
  { intros n. split.
    - replace (2 * PI * INR n)%R with (0 + 2 * INR n * PI)%R by ring.
      rewrite cos_period. apply cos_0.
    - replace (2 * PI * INR n)%R with (0 + 2 * INR n * PI)%R by ring.
      rewrite sin_period. apply sin_0. }
  destruct (Z_le_gt_dec 0 k) as [H|H].
  - rewrite <- (Z2Nat.id k), <- INR_IZR_INZ by auto. destruct (Hn (Z.to_nat k)) as [-> ->]. reflexivity.
  - replace (2 * PI * IZR k)%R with (- (2 * PI * INR (Z.to_nat (- k))))%R.
    + rewrite cos_neg, sin_neg. destruct (Hn (Z.to_nat (- k))) as [-> ->].
      unfold RtoC. f_equal. ring.
    + rewrite INR_IZR_INZ, Z2Nat.id, opp_IZR by lia. ring.
Qed.
Lemma cis_PI : cis PI = -1.
Proof. unfold cis. rewrite cos_PI, sin_PI. lca. Qed.

(** cis t = 1 only for multiples of 2 pi. *)
Lemma cis_1_inv t : cis t = 1 -> exists k : Z, t = (2 * PI * IZR k)%R.
Proof.
  intros H. injection H as Hc Hs.
  assert (E : sin (t / 2) = 0%R).
  { assert (H2 : (cos (2 * (t / 2)) = 1 - 2 * sin (t / 2) * sin (t / 2))%R) by apply cos_2a_sin.
    replace (2 * (t / 2))%R with t in H2 by field. rewrite Hc in H2. nra. }
  apply sin_eq_0_0 in E. destruct E as [k E]. exists k. lra.
Qed.

(** ** Roots of unity: [root n k] = exp(2 i pi k / n) *)
Definition root (n k : Z) : C := cis (2 * PI * IZR k / IZR n).

Lemma root_0 n : root n 0 = 1.
Proof. unfold root. replace (2 * PI * 0 / IZR n)%R with 0%R by (unfold Rdiv; ring). apply cis_0. Qed.
Lemma root_plus n a b : root n (a + b) = root n a * root n b.
Proof. unfold root. rewrite <- cis_plus, plus_IZR. f_equal. unfold Rdiv. ring. Qed.
Lemma root_opp n a : root n (- a) = Cconj (root n a).
Proof. unfold root. rewrite <- cis_opp, opp_IZR. f_equal. unfold Rdiv. ring. Qed.
Lemma root_conj n a : Cconj (root n a) = root n (- a).
Proof. now rewrite root_opp. Qed.
Lemma Cmod_root n a : Cmod (root n a) = 1%R.
Proof. apply Cmod_cis. Qed.
Lemma root_neq_0 n a : root n a <> 0.
Proof. apply cis_neq_0. Qed.
Lemma root_inv_r n a : root n a * root n (- a) = 1.
Proof. rewrite <- root_plus. rewrite Z.add_opp_diag_r. apply root_0. Qed.
Lemma root_n n k : (n <> 0)%Z -> root n (n * k) = 1.
Proof.
  intros Hn. unfold root. rewrite mult_IZR.
  replace (2 * PI * (IZR n * IZR k) / IZR n)%R with (2 * PI * IZR k)%R.
  - apply cis_2PI_k.
  - field. apply not_0_IZR. auto.
Qed.
Lemma root_mod n k : (n <> 0)%Z -> root n (k mod n) = root n k.
Proof.
  intros Hn. rewrite (Z.div_mod k n) at 2 by auto.
  rewrite root_plus, root_n by auto. ring.
Qed.
Lemma root_period n k j : (n <> 0)%Z -> root n (k + n * j) = root n k.
Proof. intros Hn. rewrite root_plus, root_n by auto. ring. Qed.
Lemma root_mod_mul_l n a b : (n <> 0)%Z -> root n ((a mod n) * b) = root n (a * b).
Proof.
  intros Hn. rewrite <- root_mod by auto. rewrite Z.mul_mod_idemp_l by auto. now rewrite root_mod.
Qed.
Lemma root_mod_mul_r n a b : (n <> 0)%Z -> root n (a * (b mod n)) = root n (a * b).
Proof.
  intros Hn. rewrite <- root_mod by auto. rewrite Z.mul_mod_idemp_r by auto. now rewrite root_mod.
Qed.
Lemma root_1_inv n k : (0 < n)%Z -> root n k = 1 -> (n | k)%Z.
Proof.
  intros Hn H. apply cis_1_inv in H. destruct H as [j H]. exists j.
  assert (HPI := PI_RGT_0).
  assert (E : (IZR k = IZR j * IZR n)%R).
  { assert (IZR n <> 0)%R by (apply not_0_IZR; lia).
    apply (Rmult_eq_compat_r (IZR n / (2 * PI))) in H.
    replace (2 * PI * IZR k / IZR n * (IZR n / (2 * PI)))%R with (IZR k) in H by (field; split; auto; lra).
    rewrite H. field. lra. }
  rewrite <- mult_IZR in E. now apply eq_IZR in E.
Qed.
Lemma root_double n k : (n <> 0)%Z -> root (2 * n) (2 * k) = root n k.
Proof.
  intros Hn. unfold root. f_equal. rewrite !mult_IZR. field. now apply not_0_IZR.
Qed.
Lemma root_half n : (n <> 0)%Z -> root (2 * n) n = -1.
Proof.
  intros Hn. unfold root. rewrite mult_IZR.
  replace (2 * PI * IZR n / (2 * IZR n))%R with PI by (field; now apply not_0_IZR).
  apply cis_PI.
Qed.
