(** C143: means and variances of the noise generators. *)
From Coq Require Import Reals ZArith List Lia Lra Bool.
From Coquelicot Require Import Coquelicot.
From Flocq Require Import Core.
From Verif Require Import Py Scalars CSum DFT Spec M_base M_utils M_dom M_gen1 M_gen2 P_base T_utils T_putils T_dom T_gen1 T_gen2 T_hil T_key T_noise T_cells.
Import ListNotations.
Local Open Scope Z_scope.

(** The mean of x[0], -x[1], x[2], ... *)
Definition alt_mean (x : list R) : R :=
  (rsum (arange 0 (zlen x)) (fun k => if Z.even k then rnth x k else - rnth x k) / IZR (zlen x))%R.
(** z.mean() and z.std() ** 2 of a complex array. *)
Definition cmean (z : list C) : C := (csum z (fun v => v) / RtoC (IZR (zlen z)))%C.
Definition cvar (z : list C) : R := rmean (map (fun v => Cmod (v - cmean z)%C ^ 2)%R z).

Lemma csum_nth (l : list C) (g : C -> C) : csum l g = csum (arange 0 (zlen l)) (fun k => g (cnth l k)).
Proof. rewrite (list_as_map l) at 1. apply csum_map. Qed.
Lemma rsum_cnth (l : list C) (g : C -> R) : rsum l g = rsum (arange 0 (zlen l)) (fun k => g (cnth l k)).
Proof. rewrite (list_as_map l) at 1. apply rsum_map. Qed.
Lemma rsum_rnth (l : list R) (g : R -> R) : rsum l g = rsum (arange 0 (zlen l)) (fun k => g (rnth l k)).
Proof. rewrite (rlist_as_map l) at 1. apply rsum_map. Qed.
Lemma rnth_re (a : list C) k : rnth (map Re a) k = Re (cnth a k).
Proof. unfold rnth, cnth. change 0%R with (Re (RtoC 0)) at 1. apply map_nth. Qed.
Lemma rnth_im (a : list C) k : rnth (map Im a) k = Im (cnth a k).
Proof. unfold rnth, cnth. change 0%R with (Im (RtoC 0)) at 1. apply map_nth. Qed.

(** The sum of the squares is read off the spectrum. *)
Lemma square_sum n (a : Z -> C) : 0 < n ->
  csum (arange 0 n) (fun f => esum n (arange 0 n) a f * esum n (arange 0 n) a (- f)%Z)%C = (RtoC (IZR n) * csum (arange 0 n) (fun t => a t * a t))%C.
Proof.
  intros Hn. pose proof (esum_parseval n (arange 0 n) a (fun t => Cconj (a t)) Hn (NoDup_mod_arange n 0 n Hn ltac:(lia))) as P.
  rewrite (csum_ext _ (fun t => a t * Cconj (Cconj (a t)))%C (fun t => a t * a t)%C) in P by (intros t _; now rewrite Cconj_invol). rewrite <- P.
  apply csum_ext. intros f _. f_equal. unfold esum. rewrite csum_conj. apply csum_ext. intros t _. rewrite Cconj_mult, Cconj_invol, root_conj. do 2 f_equal. ring.
Qed.
Lemma root_halfk n k : 0 < n -> Z.even n = true -> root n (- (n / 2 * k)) = RtoC (if Z.even k then 1 else -1)%R.
Proof.
  intros Hn He. apply Z.even_spec in He. destruct He as [h E]. subst n. replace (2 * h / 2) with h by (rewrite Z.mul_comm, Z.div_mul; lia).
  assert (Q : forall j, root (2 * h) (- (h * (2 * j))) = RtoC 1).
  { intros j. replace (- (h * (2 * j))) with (2 * h * (- j)) by ring. apply root_n. lia. }
  assert (Q1 : root (2 * h) (- h) = RtoC (-1)).
  { unfold root. replace (2 * PI * IZR (- h) / IZR (2 * h))%R with (- PI)%R.
    - unfold cis. rewrite cos_neg, sin_neg, cos_PI, sin_PI. unfold RtoC. f_equal. lra.
    - rewrite mult_IZR, opp_IZR. field. apply not_0_IZR. lia. }
  destruct (Z.even k) eqn:Ek.
  - apply Z.even_spec in Ek. destruct Ek as [j ->]. apply Q.
  - assert (O : Z.odd k = true) by (rewrite <- Z.negb_even, Ek; reflexivity). apply Z.odd_spec in O. destruct O as [j ->].
    replace (- (h * (2 * j + 1))) with (- (h * (2 * j)) + - h) by ring. rewrite root_plus, Q, Q1, <- RtoC_mult. f_equal. lra.
Qed.
Lemma csum_at n j (v : C) : csum (arange 0 n) (fun f => if f =? j then v else RtoC 0) = (if (0 <=? j) && (j <? n) then v else RtoC 0).
Proof.
  destruct (Z.leb_spec 0 j), (Z.ltb_spec j n); cbn [andb].
  2-4: apply csum_0; intros f Hf; apply in_arange in Hf; destruct (Z.eqb_spec f j); [lia|reflexivity].
  rewrite (csum_single _ j); [now rewrite Z.eqb_refl|apply NoDup_arange|apply in_arange; lia|]. intros f _ N. destruct (Z.eqb_spec f j); [congruence|reflexivity].
Qed.
(** The sum of the squares of an analytic signal. *)
Lemma analytic_squares x a : analytic_of x a -> zlen a = zlen x -> 0 < zlen x ->
  csum (arange 0 (zlen x)) (cnth a) = RtoC (IZR (zlen x) * rmean x) /\
  csum (arange 0 (zlen x)) (fun k => cnth a k * cnth a k)%C =
    RtoC (IZR (zlen x) * (rmean x ^ 2 + (if Z.even (zlen x) then alt_mean x ^ 2 else 0))).
Proof.
  intros (RA & NEG & _ & FIX) L Hn. set (n := zlen x) in *. set (A := esum n (arange 0 n) (cnth a)).
  assert (N0 : IZR n <> 0%R) by (apply not_0_IZR; lia).
  assert (EA : forall f, 0 <= f < n -> cnth (fft a) f = A f) by (intros f Hf; rewrite fft_nth by lia; rewrite L; reflexivity).
  assert (AM : forall f, A (f mod n) = A f) by (intros f; now apply esum_mod).
  assert (EX : forall f, 0 <= f < n -> cnth (fft (map RtoC x)) f = csum (arange 0 n) (fun k => RtoC (rnth x k) * root n (- (f * k)))%C).
  { intros f Hf. rewrite fft_nth by (rewrite zlen_map; fold n; lia). rewrite zlen_map. fold n. apply csum_ext. intros k _. f_equal. unfold cnth, rnth. apply (map_nth RtoC x 0%R). }
  assert (A0 : A 0 = RtoC (IZR n * rmean x)).
  { rewrite <- EA, FIX, EX by lia. unfold rmean. fold n. rewrite rsum_nth. fold n.
    replace (IZR n * (rsum (arange 0 n) (rnth x) / IZR n))%R with (rsum (arange 0 n) (rnth x)) by (field; auto).
    rewrite RtoC_rsum. apply csum_ext. intros k _. rewrite Z.mul_0_l, Z.opp_0, root_0. apply Cmult_1_r. }
  assert (AH : Z.even n = true -> A (n / 2) = RtoC (IZR n * alt_mean x)).
  { intros E. assert (E2 := E). apply Z.even_spec in E2. destruct E2 as [h E2]. assert (D : n / 2 = h) by (rewrite E2, Z.mul_comm, Z.div_mul; lia).
    rewrite <- EA, FIX, EX by lia. unfold alt_mean. fold n.
    replace (IZR n * (rsum (arange 0 n) (fun k => if Z.even k then rnth x k else - rnth x k) / IZR n))%R with (rsum (arange 0 n) (fun k => if Z.even k then rnth x k else - rnth x k)%R) by (field; auto).
    rewrite RtoC_rsum. apply csum_ext. intros k _. rewrite root_halfk by auto. rewrite <- RtoC_mult. f_equal. destruct (Z.even k); lra. }
  split.
  - rewrite <- A0. unfold A, esum. apply csum_ext. intros k _. rewrite Z.mul_0_l, Z.opp_0, root_0. now rewrite Cmult_1_r.
  - assert (P := square_sum n (cnth a) Hn). fold A in P.
    rewrite (csum_ext _ (fun f => A f * A (- f)%Z)%C (fun f => (if (f =? 0)%Z then RtoC ((IZR n * rmean x) ^ 2) else RtoC 0) + (if (f =? (if Z.even n then n / 2 else n))%Z then RtoC ((IZR n * alt_mean x) ^ 2) else RtoC 0))%C) in P.
    + rewrite csum_plus, !csum_at in P. replace ((0 <=? 0) && (0 <? n)) with true in P by (symmetry; apply andb_true_intro; split; [reflexivity|apply Z.ltb_lt; lia]).
      assert (C0 : RtoC (IZR n) <> RtoC 0) by (intros Q; apply RtoC_inj in Q; auto).
      assert (G : forall u v : C, (u = RtoC (IZR n) * v)%C -> v = (u / RtoC (IZR n))%C) by (intros u v ->; field; exact C0).
      apply G in P. rewrite P. destruct (Z.even n) eqn:E.
      * assert (E2 := E). apply Z.even_spec in E2. destruct E2 as [h E2]. assert (D : n / 2 = h) by (rewrite E2, Z.mul_comm, Z.div_mul; lia).
        replace ((0 <=? n / 2) && (n / 2 <? n)) with true by (symmetry; apply andb_true_intro; split; [apply Z.leb_le; lia|apply Z.ltb_lt; lia]).
        rewrite <- RtoC_plus, <- RtoC_div by auto. f_equal. field. auto.
      * replace ((0 <=? n) && (n <? n)) with false by (symmetry; apply andb_false_intro2; apply Z.ltb_ge; lia).
        rewrite <- RtoC_plus, <- RtoC_div by auto. f_equal. field. auto.
    + intros f Hf. apply in_arange in Hf. destruct (Z.eqb_spec f 0) as [->|F0].
      * replace (0 =? (if Z.even n then n / 2 else n)) with false.
        -- change (- 0) with 0. rewrite A0, <- RtoC_mult, Cplus_0_r. f_equal. ring.
        -- symmetry. apply Z.eqb_neq. destruct (Z.even n) eqn:E; [|lia]. apply Z.even_spec in E. destruct E as [h E]. assert (n / 2 = h) by (rewrite E, Z.mul_comm, Z.div_mul; lia). lia.
      * rewrite Cplus_0_l. rewrite <- (AM (- f)). replace ((- f) mod n) with (n - f) by (rewrite Z.mod_opp_l_nz; rewrite ?Z.mod_small by lia; lia).
        destruct (Z.eqb_spec f (if Z.even n then n / 2 else n)) as [H|H].
        -- destruct (Z.even n) eqn:E; [|lia]. assert (E2 := E). apply Z.even_spec in E2. destruct E2 as [h E2]. assert (D : n / 2 = h) by (rewrite E2, Z.mul_comm, Z.div_mul; lia).
           replace (n - f) with f by lia. rewrite H, AH by auto. rewrite <- RtoC_mult. f_equal. ring.
        -- assert (NH : 2 * f <> n).
           { intros Q. apply H. replace (Z.even n) with true by (rewrite <- Q, Z.even_mul; reflexivity). rewrite <- Q, Z.mul_comm, Z.div_mul; lia. }
           destruct (Z_lt_dec n (2 * f)) as [B|B].
           ++ rewrite <- (EA f), NEG by lia. now rewrite Cmult_0_l.
           ++ rewrite <- (EA (n - f)), NEG by lia. now rewrite Cmult_0_r.
Qed.

Lemma rmean_map {A} (l : list A) g : rmean (map g l) = (rsum l g / IZR (zlen l))%R.
Proof. unfold rmean. rewrite rsum_map, zlen_map. reflexivity. Qed.
(** The imaginary part of hilbert(x): mean 0, uncorrelated with x, and of the
    energy of x without its mean and its alternating mean. *)
Lemma hil_moments x a : analytic_of x a -> zlen a = zlen x -> 0 < zlen x ->
  map Re a = x /\ rmean (map Im a) = 0%R /\
  rmean (map (fun v => Re v * Im v)%R a) = 0%R /\
  rmean (map (fun v => Im v ^ 2)%R a) = (rmean (map (fun v => v ^ 2)%R x) - rmean x ^ 2 - (if Z.even (zlen x) then alt_mean x ^ 2 else 0))%R.
Proof.
  intros HA L Hn. destruct (analytic_squares x a HA L Hn) as [S1 S2]. destruct HA as (RA & _). split; [auto|].
  assert (N0 : IZR (zlen x) <> 0%R) by (apply not_0_IZR; lia). rewrite !rmean_map, L.
  split; [|split].
  - rewrite rsum_cnth, L. apply (f_equal Im) in S1. rewrite Im_csum in S1. cbn [Im RtoC snd] in S1. rewrite S1. field. auto.
  - rewrite rsum_cnth, L. apply (f_equal Im) in S2. rewrite Im_csum in S2. cbn [Im RtoC snd] in S2.
    rewrite (rsum_ext _ _ (fun k => 2 * (Re (cnth a k) * Im (cnth a k)))%R) in S2 by (intros k _; unfold Re, Im; cbn; ring). rewrite rsum_scal_l in S2.
    replace (rsum _ _) with 0%R by (symmetry; lra). field. auto.
  - apply (f_equal Re) in S2. rewrite Re_csum in S2. cbn [Re RtoC fst] in S2.
    rewrite (rsum_ext _ _ (fun k => Re (cnth a k) ^ 2 - Im (cnth a k) ^ 2)%R) in S2 by (intros k _; unfold Re, Im; cbn; ring). rewrite rsum_minus in S2.
    rewrite (rsum_cnth a (fun v => Im v ^ 2)%R), L. rewrite (rsum_rnth x).
    rewrite (rsum_ext (arange 0 (zlen x)) (fun k => rnth x k ^ 2)%R (fun k => Re (cnth a k) ^ 2)%R) by (intros k _; rewrite <- RA; now rewrite rnth_re).
    replace (rsum (arange 0 (zlen x)) (fun k => Im (cnth a k) ^ 2)%R) with (rsum (arange 0 (zlen x)) (fun k => Re (cnth a k) ^ 2) - IZR (zlen x) * (rmean x ^ 2 + (if Z.even (zlen x) then alt_mean x ^ 2 else 0)))%R by lra.
    field. auto.
Qed.
Lemma c143_hilbert : forall x a, hilbert x = Ok a ->
  map Re a = x /\ rmean (map Im a) = 0%R /\
  rmean (map (fun v => Re v * Im v)%R a) = 0%R /\
  rmean (map (fun v => Im v ^ 2)%R a) = (rmean (map (fun v => v ^ 2)%R x) - rmean x ^ 2 - (if Z.even (zlen x) then alt_mean x ^ 2 else 0))%R.
Proof.
  intros x a H. apply hil_moments; [now apply c59_hilbert|now apply hil_zlen|].
  unfold hilbert in H. destruct (Z.eqb_spec (zlen x) 0); [discriminate|]. unfold zlen in *. lia.
Qed.
Lemma rstd_sq x : 0 < zlen x -> (rstd x ^ 2 = rmean (map (fun v => v ^ 2)%R x) - rmean x ^ 2)%R.
Proof.
  intros Hn. assert (N0 : (0 < IZR (zlen x))%R) by (apply IZR_lt; lia). unfold rstd. rewrite <- Rsqr_pow2, Rsqr_sqrt.
  - rewrite !rmean_map. rewrite (rsum_ext _ _ (fun v => v ^ 2 + (- 2 * rmean x * v + rmean x ^ 2))%R) by (intros; ring).
    rewrite !rsum_plus, rsum_scal_l, rsum_const, INR_IZR_INZ. fold (zlen x). unfold rmean. field. lra.
  - rewrite rmean_map. apply Rmult_le_pos; [apply rsum_nonneg; intros; apply pow2_ge_0|]. left. now apply Rinv_0_lt_compat.
Qed.
(** Mean, second moment and variance of the whole analytic noise. *)
Definition noise_moments (x : list R) (z : list C) : Prop :=
  cmean z = RtoC (rmean x / (rstd x * sqrt 2)) /\
  cmean (map (fun v => v * v)%C z) = RtoC ((rmean x ^ 2 + alt_mean x ^ 2) / (2 * rstd x ^ 2)) /\
  cvar z = (1 - alt_mean x ^ 2 / (2 * rstd x ^ 2))%R /\ (1 / 2 <= cvar z <= 1)%R /\
  rmean (map (fun v => Re v * Im v)%R z) = 0%R.
Lemma noise_moments_ok x z : rstd x <> 0%R -> 0 < zlen x -> Z.even (zlen x) = true -> noise_spec (zlen x) x z -> noise_moments x z.
Proof.
  intros HS Hn He (LZ & a & HA & LA & V). assert (S0 : (0 <= rstd x)%R) by apply sqrt_pos. assert (S2 := sqrt2_pos).
  assert (N0 : (0 < IZR (zlen x))%R) by (apply IZR_lt; lia).
  destruct (analytic_squares x a HA LA Hn) as [A1 A2]. destruct (hil_moments x a HA LA Hn) as (RA & M1 & M2 & M3). rewrite He in *.
  set (s := rstd x) in *. set (c := (/ (s * sqrt 2))%R). assert (SQ := rstd_sq x Hn). fold s in SQ.
  assert (W2 : (sqrt 2 * sqrt 2 = 2)%R) by (apply sqrt_sqrt; lra).
  assert (C2 : (c ^ 2 = / (2 * s ^ 2))%R).
  { unfold c. replace (2 * s ^ 2)%R with ((s * sqrt 2) ^ 2)%R by (replace ((s * sqrt 2) ^ 2)%R with (s ^ 2 * (sqrt 2 * sqrt 2))%R by ring; rewrite W2; ring). field. split; lra. }
  assert (EZ : forall k, 0 <= k < zlen x -> cnth z k = (RtoC c * cnth a k)%C).
  { intros k Hk. rewrite V by auto. replace (zlen x - zlen x + k) with k by lia. unfold c. rewrite RtoC_inv, RtoC_mult by nra. field.
    split; intros Q; apply RtoC_inj in Q; lra. }
  assert (E1 : csum z (fun v => v) = RtoC (c * (IZR (zlen x) * rmean x))).
  { rewrite csum_nth, LZ, RtoC_mult, <- A1, <- csum_scal_l. apply csum_ext. intros k Hk. apply in_arange in Hk. now apply EZ. }
  assert (CM : cmean z = RtoC (c * rmean x)).
  { unfold cmean. rewrite E1, LZ, <- RtoC_div by lra. f_equal. field. lra. }
  assert (Y2 : (0 <= rmean (map (fun v => Im v ^ 2)%R a))%R).
  { rewrite rmean_map, LA. apply Rmult_le_pos; [apply rsum_nonneg; intros; apply pow2_ge_0|]. left. now apply Rinv_0_lt_compat. }
  assert (B : (alt_mean x ^ 2 <= s ^ 2)%R) by lra. assert (B0 := pow2_ge_0 (alt_mean x)). assert (SP : (0 < s ^ 2)%R) by nra.
  assert (VV : cvar z = (1 - alt_mean x ^ 2 / (2 * s ^ 2))%R).
  { unfold cvar. rewrite rmean_map, rsum_cnth, LZ.
    rewrite (rsum_ext _ _ (fun k => c ^ 2 * (rnth x k ^ 2 + (- 2 * rmean x * rnth x k + (rmean x ^ 2 + Im (cnth a k) ^ 2))))%R).
    2:{ intros k Hk. apply in_arange in Hk. rewrite EZ, CM by lia. assert (RX : rnth x k = Re (cnth a k)) by (rewrite <- RA; apply rnth_re). rewrite RX, Cmod_sqr. unfold Re, Im, Cminus, Cmult, Copp, Cplus, RtoC. cbn [fst snd]. ring. }
    rewrite rsum_scal_l, !rsum_plus, rsum_scal_l, rsum_const, INR_IZR_INZ, arange_length. replace (Z.of_nat (Z.to_nat (zlen x - 0))) with (zlen x) by lia.
    rewrite !rmean_map in M3. rewrite rmean_map in SQ. rewrite LA in M3. rewrite (rsum_rnth x) in M3, SQ. rewrite (rsum_cnth a), LA in M3.
    assert (MX : rmean x = (rsum (arange 0 (zlen x)) (rnth x) / IZR (zlen x))%R) by (unfold rmean; now rewrite rsum_nth).
    set (p := rsum (arange 0 (zlen x)) (fun k => rnth x k ^ 2)%R) in *. set (q := rsum (arange 0 (zlen x)) (fun k => Im (cnth a k) ^ 2)%R) in *.
    change (fun a0 : Z => rnth x a0) with (rnth x). set (r := rsum (arange 0 (zlen x)) (rnth x)) in *. set (N := IZR (zlen x)) in *.
    assert (R1 : (r = N * rmean x)%R) by (rewrite MX; field; lra). assert (P1 : (p = N * (s ^ 2 + rmean x ^ 2))%R) by (rewrite SQ; field; lra).
    assert (Q1 : (q = N * (s ^ 2 - alt_mean x ^ 2))%R) by (replace q with (N * (q / N))%R by (field; lra); rewrite M3, SQ; ring).
    rewrite C2, R1, P1, Q1. clear - HS N0. clearbody N s. field. split; lra. }
  unfold noise_moments. fold s. split; [|split; [|split; [|split]]].
  - rewrite CM. apply (f_equal RtoC). unfold c, Rdiv. apply Rmult_comm.
  - unfold cmean. rewrite csum_map, zlen_map, csum_nth, LZ.
    rewrite (csum_ext _ _ (fun k => RtoC (c ^ 2) * (cnth a k * cnth a k))%C) by (intros k Hk; apply in_arange in Hk; rewrite EZ by lia; replace (c ^ 2)%R with (c * c)%R by ring; rewrite RtoC_mult; ring).
    rewrite csum_scal_l, A2, <- RtoC_mult, <- RtoC_div by lra. apply (f_equal RtoC). rewrite C2. field. split; lra.
  - exact VV.
  - rewrite VV. assert (T : (0 <= alt_mean x ^ 2 / (2 * s ^ 2) <= 1 / 2)%R).
    { split; [apply Rmult_le_pos; [auto|left; apply Rinv_0_lt_compat; lra]|]. apply (Rmult_le_reg_r (2 * s ^ 2)); [lra|]. unfold Rdiv. rewrite Rmult_assoc, Rinv_l by lra. lra. }
    lra.
  - rewrite rmean_map, rsum_cnth, LZ. rewrite rmean_map, rsum_cnth, LA in M2.
    rewrite (rsum_ext _ _ (fun k => c ^ 2 * (Re (cnth a k) * Im (cnth a k)))%R) by (intros k Hk; apply in_arange in Hk; rewrite EZ by lia; unfold Re, Im; cbn; ring).
    rewrite rsum_scal_l. unfold Rdiv in *. rewrite Rmult_assoc, M2. ring.
Qed.
Lemma pow2_self p : 0 <= p -> forall N, pow2_above (2 ^ p) N -> N = 2 ^ p.
Proof. intros Hp N (q & Hq & -> & L & M). specialize (M p Hp (Z.le_refl _)). lia. Qed.
Lemma pow2_even p : 2 <= p -> 0 < 2 ^ p /\ 3 <= 2 ^ p /\ Z.even (2 ^ p) = true.
Proof.
  intros Hp. assert (E : 2 ^ p = 4 * 2 ^ (p - 2)) by (change 4 with (2 ^ 2); rewrite <- Z.pow_add_r by lia; f_equal; lia). assert (Q := Z.pow_pos_nonneg 2 (p - 2) ltac:(lia) ltac:(lia)).
  split; [lia|]. split; [lia|]. rewrite E, Z.even_mul. reflexivity.
Qed.
Lemma c143_noisecg : forall rand p, sampler rand -> 2 <= p -> rstd (rand (2 ^ p)) <> 0%R ->
  exists z, noisecg rand (2 ^ p) = Ok (Row (Some z)) /\ zlen z = 2 ^ p /\ noise_moments (rand (2 ^ p)) z.
Proof.
  intros rand p HR Hp HS. destruct (pow2_even p Hp) as (P0 & P3 & PE). destruct (c60_noisecg rand (2 ^ p) HR) as (_ & _ & H). destruct (H P3) as (N & PA & _ & G).
  apply (pow2_self p ltac:(lia)) in PA. subst N. destruct (G HS) as (z & E & Sz). assert (L := HR (2 ^ p) ltac:(lia)).
  exists z. split; [auto|]. split; [apply Sz|]. apply noise_moments_ok; rewrite ?L; auto.
Qed.
Lemma c143_noisecu : forall rand r1 r2 p, sampler rand -> zlen r1 = 2 ^ p -> zlen r2 = 2 ^ p -> 2 <= p ->
  let x := map (fun v => v - 1 / 2)%R (rand (2 ^ p)) in rstd x <> 0%R ->
  exists z, noisecu rand r1 r2 (2 ^ p) = Ok (Row (Some z)) /\ zlen z = 2 ^ p /\ noise_moments x z.
Proof.
  intros rand r1 r2 p HR L1 L2 Hp x HS. destruct (pow2_even p Hp) as (P0 & P3 & PE). destruct (c60_noisecu rand r1 r2 (2 ^ p) HR L1 (or_introl L2)) as (_ & _ & H). destruct (H P3) as (N & PA & _ & G).
  apply (pow2_self p ltac:(lia)) in PA. subst N. fold x in G. destruct (G HS) as (z & E & Sz). assert (L := HR (2 ^ p) ltac:(lia)).
  assert (LX : zlen x = 2 ^ p) by (unfold x; now rewrite zlen_map).
  exists z. split; [auto|]. split; [apply Sz|]. apply noise_moments_ok; rewrite ?LX; auto.
Qed.
(** The figures printed by the docstrings are 1 and 0 exactly when the draws have no
    mean and no alternating mean. *)
Lemma c143_exact : forall x z, rstd x <> 0%R -> noise_moments x z ->
  (cvar z = 1%R <-> alt_mean x = 0%R) /\ (cmean z = RtoC 0 <-> rmean x = 0%R) /\
  (cmean (map (fun v => v * v)%C z) = RtoC 0 <-> rmean x = 0%R /\ alt_mean x = 0%R).
Proof.
  intros x z HS (M & Q & V & _). set (s := rstd x) in *. assert (SP : (0 < s ^ 2)%R) by nra. assert (S2 := sqrt2_pos).
  assert (Z0 : forall a : R, (a ^ 2 = 0)%R -> a = 0%R) by (intros a E; nra).
  split; [|split]; split.
  - intros E. rewrite V in E. apply Z0. assert (F : (alt_mean x ^ 2 / (2 * s ^ 2) = 0)%R) by lra.
    replace (alt_mean x ^ 2)%R with (alt_mean x ^ 2 / (2 * s ^ 2) * (2 * s ^ 2))%R by (field; lra). rewrite F. ring.
  - intros E. rewrite V, E. field. lra.
  - intros E. rewrite M in E. apply RtoC_inj in E. replace (rmean x) with (rmean x / (s * sqrt 2) * (s * sqrt 2))%R by (field; split; lra). rewrite E. ring.
  - intros E. rewrite M, E. apply (f_equal RtoC). field. split; lra.
  - intros E. rewrite Q in E. apply RtoC_inj in E. assert (F : (rmean x ^ 2 + alt_mean x ^ 2 = 0)%R).
    { replace (rmean x ^ 2 + alt_mean x ^ 2)%R with ((rmean x ^ 2 + alt_mean x ^ 2) / (2 * s ^ 2) * (2 * s ^ 2))%R by (field; lra). rewrite E. ring. }
    assert (P1 := pow2_ge_0 (rmean x)). assert (P2 := pow2_ge_0 (alt_mean x)). split; apply Z0; lra.
  - intros [E1 E2]. rewrite Q, E1, E2. apply (f_equal RtoC). field. lra.
Qed.
(** Draws 1, -1, 1, -1: the noise has variance 1/2 and mean square 1/2. *)
Definition flips (m : Z) : list R := map (fun k => if Z.even k then 1 else -1)%R (arange 0 m).
Lemma flips_4 : flips 4 = [1; -1; 1; -1]%R. Proof. reflexivity. Qed.
Lemma flips_mean : rmean (flips 4) = 0%R. Proof. rewrite flips_4. unfold rmean, rsum, zlen. cbn. lra. Qed.
Lemma flips_alt : alt_mean (flips 4) = 1%R.
Proof. rewrite flips_4. unfold alt_mean. change (zlen [1; -1; 1; -1]%R) with 4. change (arange 0 4) with [0; 1; 2; 3]. unfold rsum, rnth. cbn -[Pos.to_nat]. change (Pos.to_nat 1) with 1%nat. change (Pos.to_nat 2) with 2%nat. change (Pos.to_nat 3) with 3%nat. cbv iota. lra. Qed.
Lemma flips_std : rstd (flips 4) = 1%R.
Proof.
  unfold rstd. rewrite flips_mean, flips_4. replace (rmean _) with 1%R; [apply sqrt_1|]. unfold rmean, rsum, zlen. cbn. lra.
Qed.
Lemma c143_variance_refuted : exists rand n z, sampler rand /\ 3 <= n /\ noisecg rand n = Ok (Row (Some z)) /\ zlen z = n /\
  cvar z = (1 / 2)%R /\ cmean (map (fun v => v * v)%C z) = RtoC (1 / 2).
Proof.
  assert (SF : sampler flips) by (intros m Hm; unfold flips; rewrite zlen_map_arange; lia).
  destruct (c143_noisecg flips 2 SF ltac:(lia)) as (z & E & L & M & Q & V & _).
  - change (2 ^ 2) with 4. rewrite flips_std. lra.
  - change (2 ^ 2) with 4 in *. exists flips, 4, z. rewrite flips_mean, flips_alt, flips_std in *. split; [auto|]. split; [lia|]. split; [auto|]. split; [auto|]. split.
    + rewrite V. lra.
    + rewrite Q. apply (f_equal RtoC). lra.
Qed.
Example c143_example : exists a, hilbert [1; -1; 1; -1]%R = Ok a /\ map Re a = [1; -1; 1; -1]%R /\ rmean (map (fun v => Im v ^ 2)%R a) = 0%R.
Proof.
  destruct (hil_ok [1; -1; 1; -1]%R ltac:(discriminate)) as [a E]. exists a. split; [exact E|]. destruct (c143_hilbert _ _ E) as (H1 & _ & _ & H4). split; [exact H1|].
  rewrite H4. change (Z.even (zlen [1; -1; 1; -1]%R)) with true. cbv iota. change [1; -1; 1; -1]%R with (flips 4). rewrite flips_alt, flips_mean.
  replace (rmean (map (fun v => v ^ 2)%R (flips 4))) with 1%R; [lra|]. rewrite flips_4. unfold rmean, rsum, zlen. cbn. lra.
Qed.
