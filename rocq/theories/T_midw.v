(** C147: the Wigner-Ville distribution of two atoms, and the interference midway between them. *)
From Coq Require Import Reals ZArith List Lia Lra Bool.
From Coquelicot Require Import Coquelicot.
From Verif Require Import Py Scalars CSum DFT Spec M_base M_stft M_cohen P_base P_stft P_wvd P_spec P_mh T_wvd T_par.
Import ListNotations.
Local Open Scope Z_scope.

(** x is c times the atom g delayed by a samples and modulated at frequency f. *)
Definition is_atom (x g : list C) (c : C) (a : Z) (f : R) : Prop := forall m, sigf x m = (c * sigf g (m - a) * cis (2 * PI * f * IZR m))%C.
(** The Wigner-Ville distribution of the atom itself, s half samples after its start and nu half
    bins of n from frequency 0. *)
Definition wig (g : list C) (n : Z) (nu : R) (s : Z) : C :=
  csum (arange 0 (zlen g)) (fun p => sigf g p * Cconj (sigf g (s - p)) * cis (- (PI * nu * IZR (2 * p - s) / IZR n)))%C.

Lemma cross_term x y g c1 c2 a b f1 f2 n k t : 0 < n -> zlen x = zlen y -> is_atom x g c1 a f1 -> is_atom y g c2 b f2 ->
  csum (arange (- zlen x) (zlen x + 1)) (fun u => sigf x (t + u) * Cconj (sigf y (t - u)) * root n (- (k * u)))%C =
  (c1 * Cconj c2 * cis (2 * PI * ((f1 - f2) * IZR t + (f1 + f2 - IZR k / IZR n) * IZR (a - b) / 2)) * wig g n (IZR k - IZR n * (f1 + f2)) (2 * t - a - b))%C.
Proof.
  intros Hn L X Y. assert (N0 : IZR n <> 0%R) by (apply not_0_IZR; lia). set (F := fun u => (sigf x (t + u) * Cconj (sigf y (t - u)) * root n (- (k * u)))%C).
  assert (Z1 : forall u, ~ (- zlen x <= u < zlen x + 1) -> F u = RtoC 0).
  { intros u Hu. unfold F. destruct (Z_lt_dec (t + u) 0) as [|A1]; [rewrite (sigf_out x) by lia; ring|]. destruct (Z_le_dec (zlen x) (t + u)) as [|A2]; [rewrite (sigf_out x) by lia; ring|].
    rewrite (sigf_out y) by lia. rewrite Cconj_R. ring. }
  assert (Z2 : forall u, ~ (0 <= t + u - a < zlen g) -> F u = RtoC 0).
  { intros u Hu. unfold F. rewrite X, (sigf_out g) by lia. ring. }
  assert (NG := zlen_nonneg g). assert (NX := zlen_nonneg x).
  transitivity (csum (arange (a - t) (zlen g + (a - t))) F).
  - set (W := arange (Z.min (- zlen x) (a - t)) (Z.max (zlen x + 1) (zlen g + (a - t)))).
    rewrite <- (csum_incl (arange (- zlen x) (zlen x + 1)) W F), <- (csum_incl (arange (a - t) (zlen g + (a - t))) W F); auto; try apply NoDup_arange; unfold W.
    + intros u Hu. apply in_arange in Hu. apply in_arange. lia.
    + intros u _ NU. rewrite in_arange in NU. apply Z2. lia.
    + intros u Hu. apply in_arange in Hu. apply in_arange. lia.
    + intros u _ NU. rewrite in_arange in NU. now apply Z1.
  - replace (arange (a - t) (zlen g + (a - t))) with (arange (0 + (a - t)) (zlen g + (a - t))) by (f_equal; lia). rewrite csum_arange_shift. unfold wig. rewrite <- csum_scal_l. apply csum_ext. intros p _. unfold F.
    replace (t + (p + (a - t))) with (p + a) by lia. rewrite X, Y. replace (p + a - a) with p by lia. replace (t - (p + (a - t)) - b) with (2 * t - a - b - p) by lia. rewrite !Cconj_mult, <- cis_opp.
    set (G := sigf g p). set (G' := Cconj (sigf g (2 * t - a - b - p))). unfold root.
    replace (c1 * G * cis (2 * PI * f1 * IZR (p + a)) * (Cconj c2 * G' * cis (- (2 * PI * f2 * IZR (t - (p + (a - t)))))) * cis (2 * PI * IZR (- (k * (p + (a - t)))) / IZR n))%C
      with (c1 * Cconj c2 * (G * G' * (cis (2 * PI * f1 * IZR (p + a)) * cis (- (2 * PI * f2 * IZR (t - (p + (a - t))))) * cis (2 * PI * IZR (- (k * (p + (a - t)))) / IZR n))))%C by ring.
    rewrite <- !cis_plus.
    set (E1 := cis _). set (E2 := cis _). set (E3 := cis _). replace (c1 * Cconj c2 * E2 * (G * G' * E3))%C with (c1 * Cconj c2 * (G * G' * (E2 * E3)))%C by ring. do 2 f_equal. unfold E1, E2, E3. rewrite <- cis_plus. f_equal.
    repeat rewrite ?opp_IZR, ?mult_IZR, ?minus_IZR, ?plus_IZR. field. auto.
Qed.
(** The distribution of the atom is real. *)
Lemma wig_real g n nu s : wig g n nu s = RtoC (Re (wig g n nu s)).
Proof.
  apply injective_projections; [reflexivity|]. cbn [RtoC snd]. change (Im (wig g n nu s) = 0%R).
  assert (Q : Cconj (wig g n nu s) = wig g n nu s); [|apply (f_equal Im) in Q; cbn [Im Cconj snd] in *; unfold Im in *; lra].
  unfold wig. rewrite csum_conj. set (F := fun p => (sigf g p * Cconj (sigf g (s - p)) * cis (- (PI * nu * IZR (2 * p - s) / IZR n)))%C). change (csum (arange 0 (zlen g)) F) with (csum (arange 0 (zlen g)) F).
  assert (Z1 : forall p, ~ (0 <= p < zlen g) -> F p = RtoC 0) by (intros p Hp; unfold F; rewrite sigf_out by lia; ring).
  assert (NG := zlen_nonneg g).
  transitivity (csum (arange (s - zlen g + 1) (s + 1)) F).
  - transitivity (csum (arange 0 (zlen g)) (fun p => F (s - p))).
    + apply csum_ext. intros p _. unfold F. rewrite !Cconj_mult, Cconj_invol, <- cis_opp. replace (s - (s - p)) with p by lia. rewrite (Cmult_comm (Cconj (sigf g p))). f_equal. f_equal. replace (2 * (s - p) - s) with (- (2 * p - s)) by lia. rewrite opp_IZR. unfold Rdiv. ring.
    + rewrite (csum_arange_rev (s - zlen g + 1) (s + 1)). replace (arange (s - zlen g + 1) (s + 1)) with (arange (0 + (s - zlen g + 1)) (zlen g + (s - zlen g + 1))) by (f_equal; lia). rewrite csum_arange_shift.
      apply csum_ext. intros p _. f_equal. lia.
  - set (W := arange (Z.min 0 (s - zlen g + 1)) (Z.max (zlen g) (s + 1))).
    assert (Z2 : forall p, ~ (s - zlen g + 1 <= p < s + 1) -> F p = RtoC 0) by (intros p Hp; unfold F; rewrite (sigf_out g (s - p)) by lia; rewrite Cconj_R; ring).
    rewrite <- (csum_incl (arange (s - zlen g + 1) (s + 1)) W F), <- (csum_incl (arange 0 (zlen g)) W F); auto; try apply NoDup_arange; unfold W.
    + intros u Hu. apply in_arange in Hu. apply in_arange. lia.
    + intros u _ NU. rewrite in_arange in NU. apply Z1. lia.
    + intros u Hu. apply in_arange in Hu. apply in_arange. lia.
    + intros u _ NU. rewrite in_arange in NU. now apply Z2.
Qed.
(** One atom: its own distribution, moved to its place and scaled by its power. *)
Lemma c147_one : forall x ts n o g c a f k t, 2 <= n -> wvd x (Some ts) (Some n) = Ok o -> 0 <= k < n -> 0 <= t < zlen x -> is_atom x g c a f ->
  at2 (r_tfr o) k t = RtoC (Cmod c ^ 2 * Re (wig g n (IZR k - 2 * IZR n * f) (2 * (t - a)))).
Proof.
  intros x ts n o g c a f k t Hn H Hk Ht X. rewrite (wvd_entry x ts n o k t Hn H Hk Ht). unfold WV. rewrite (cross_term x x g c c a a f f n k t ltac:(lia) eq_refl X X).
  rewrite <- Cmod2_conj, Z.sub_diag. replace (2 * PI * ((f - f) * IZR t + (f + f - IZR k / IZR n) * IZR 0 / 2))%R with 0%R by (cbn; field; apply not_0_IZR; lia). rewrite cis_0, Cmult_1_r.
  replace (IZR k - IZR n * (f + f))%R with (IZR k - 2 * IZR n * f)%R by ring. replace (2 * t - a - a) with (2 * (t - a)) by lia. rewrite wig_real, <- RtoC_mult. reflexivity.
Qed.
(** Two atoms: both, and the interference, which is the distribution of the atom again, at the
    mean instant and the mean frequency, times an oscillation. *)
Lemma c147_two : forall x y ts n o g c1 c2 a b f1 f2 k t, 2 <= n -> zlen x = zlen y -> wvd (plus x y) (Some ts) (Some n) = Ok o -> 0 <= k < n -> 0 <= t < zlen x ->
  is_atom x g c1 a f1 -> is_atom y g c2 b f2 ->
  at2 (r_tfr o) k t = RtoC (Cmod c1 ^ 2 * Re (wig g n (IZR k - 2 * IZR n * f1) (2 * (t - a))) + Cmod c2 ^ 2 * Re (wig g n (IZR k - 2 * IZR n * f2) (2 * (t - b))) +
    2 * Re (c1 * Cconj c2 * cis (2 * PI * ((f1 - f2) * IZR t + (f1 + f2 - IZR k / IZR n) * IZR (a - b) / 2)))%C * Re (wig g n (IZR k - IZR n * (f1 + f2)) (2 * t - a - b))).
Proof.
  intros x y ts n o g c1 c2 a b f1 f2 k t Hn L H Hk Ht X Y. rewrite (wvd_entry _ ts n o k t Hn H Hk) by (rewrite plus_zlen; auto). unfold WV. rewrite plus_zlen by auto.
  rewrite (csum_ext _ _ (fun u => (sigf x (t + u) * Cconj (sigf x (t - u)) * root n (- (k * u)) + sigf y (t + u) * Cconj (sigf y (t - u)) * root n (- (k * u))) + (sigf x (t + u) * Cconj (sigf y (t - u)) * root n (- (k * u)) + sigf y (t + u) * Cconj (sigf x (t - u)) * root n (- (k * u)))))%C by (intros u _; rewrite !sigf_plus, Cconj_plus by auto; ring).
  rewrite !csum_plus. rewrite (cross_term x x g c1 c1 a a f1 f1 n k t ltac:(lia) eq_refl X X), (cross_term x y g c1 c2 a b f1 f2 n k t ltac:(lia) L X Y).
  rewrite L. rewrite (cross_term y y g c2 c2 b b f2 f2 n k t ltac:(lia) eq_refl Y Y), (cross_term y x g c2 c1 b a f2 f1 n k t ltac:(lia) (eq_sym L) Y X).
  rewrite <- !Cmod2_conj, !Z.sub_diag. replace (2 * PI * ((f1 - f1) * IZR t + (f1 + f1 - IZR k / IZR n) * IZR 0 / 2))%R with 0%R by (cbn; field; apply not_0_IZR; lia). replace (2 * PI * ((f2 - f2) * IZR t + (f2 + f2 - IZR k / IZR n) * IZR 0 / 2))%R with 0%R by (cbn; field; apply not_0_IZR; lia). rewrite cis_0, !Cmult_1_r.
  replace (IZR k - IZR n * (f1 + f1))%R with (IZR k - 2 * IZR n * f1)%R by ring. replace (IZR k - IZR n * (f2 + f2))%R with (IZR k - 2 * IZR n * f2)%R by ring. replace (2 * t - a - a) with (2 * (t - a)) by lia. replace (2 * t - b - b) with (2 * (t - b)) by lia.
  rewrite (Rplus_comm f2 f1). replace (2 * t - b - a) with (2 * t - a - b) by lia.
  set (ph := (2 * PI * ((f1 - f2) * IZR t + (f1 + f2 - IZR k / IZR n) * IZR (a - b) / 2))%R).
  replace (2 * PI * ((f2 - f1) * IZR t + (f1 + f2 - IZR k / IZR n) * IZR (b - a) / 2))%R with (- ph)%R by (unfold ph; rewrite !minus_IZR; field; apply not_0_IZR; lia).
  rewrite (wig_real g n (IZR k - 2 * IZR n * f1)), (wig_real g n (IZR k - 2 * IZR n * f2)), (wig_real g n (IZR k - IZR n * (f1 + f2))). set (w := Re (wig g n (IZR k - IZR n * (f1 + f2)) _)).
  set (z := (c1 * Cconj c2 * cis ph)%C). replace (c2 * Cconj c1 * cis (- ph))%C with (Cconj z) by (unfold z; rewrite !Cconj_mult, Cconj_invol, <- cis_opp; ring).
  rewrite <- !RtoC_mult. cbn [Re RtoC fst]. rewrite <- Cmult_plus_distr_r. replace (z + Cconj z)%C with (RtoC (2 * Re z)) by (apply injective_projections; unfold Cconj, Cplus, RtoC, Re; cbn [fst snd]; ring). rewrite <- RtoC_mult, <- !RtoC_plus. reflexivity.
Qed.
Lemma norm_shift g s : (rsum (arange 0 (zlen g)) (fun p => Cmod (sigf g (s - p)) ^ 2) <= rsum (arange 0 (zlen g)) (fun p => Cmod (sigf g p) ^ 2))%R.
Proof.
  assert (NG := zlen_nonneg g). set (h := fun p => (Cmod (sigf g p) ^ 2)%R). assert (H0 : forall p, (0 <= h p)%R) by (intros p; apply pow2_ge_0).
  apply Rle_trans with (rsum (arange (s - zlen g + 1) (s + 1)) h).
  - right. rewrite (rsum_arange_rev (s - zlen g + 1) (s + 1)). replace (arange (s - zlen g + 1) (s + 1)) with (arange (0 + (s - zlen g + 1)) (zlen g + (s - zlen g + 1))) by (f_equal; lia). rewrite rsum_arange_shift.
    apply rsum_ext. intros p _. unfold h. do 3 f_equal. lia.
  - set (lo := Z.min 0 (s - zlen g + 1)). set (hi := Z.max (zlen g) (s + 1)).
    assert (E1 : (rsum (arange (s - zlen g + 1) (s + 1)) h <= rsum (arange lo hi) h)%R).
    { rewrite (arange_app lo (s - zlen g + 1) hi), (arange_app (s - zlen g + 1) (s + 1) hi), !rsum_app by (unfold lo, hi; lia).
      assert (A := rsum_nonneg (arange lo (s - zlen g + 1)) h ltac:(intros; apply H0)). assert (B := rsum_nonneg (arange (s + 1) hi) h ltac:(intros; apply H0)). lra. }
    assert (E2 : rsum (arange lo hi) h = rsum (arange 0 (zlen g)) h).
    { rewrite (arange_app lo 0 hi), (arange_app 0 (zlen g) hi), !rsum_app by (unfold lo, hi; lia). rewrite (rsum_0 (arange lo 0)), (rsum_0 (arange (zlen g) hi)); [ring| |];
      intros p Hp; apply in_arange in Hp; unfold h; rewrite sigf_out by lia; rewrite Cmod_0; ring. }
    rewrite <- E2. exact E1.
Qed.

(** The distribution of an atom nowhere exceeds its energy, which a symmetric atom reaches at its
    centre and at frequency 0. *)
Lemma c147_largest : forall g n nu s, 0 < n -> (Rabs (Re (wig g n nu s)) <= rsum (arange 0 (zlen g)) (fun p => Cmod (cnth g p) ^ 2))%R.
Proof.
  intros g n nu s Hn. rewrite <- Cmod_R, <- wig_real. unfold wig. eapply Rle_trans; [apply Cmod_csum_le|].
  eapply Rle_trans; [apply (rsum_le _ _ (fun p => / 2 * (Cmod (sigf g p) ^ 2) + / 2 * (Cmod (sigf g (s - p)) ^ 2))%R)|].
  - intros p _. rewrite !Cmod_mult, Cmod_cis, Cmod_conj, Rmult_1_r. assert (Q := pow2_ge_0 (Cmod (sigf g p) - Cmod (sigf g (s - p)))%R). nra.
  - rewrite rsum_plus, !rsum_scal_l. assert (Q := norm_shift g s). rewrite (rsum_ext _ (fun p => Cmod (cnth g p) ^ 2)%R (fun p => Cmod (sigf g p) ^ 2)%R) by (intros p Hp; apply in_arange in Hp; now rewrite sigf_in by lia). lra.
Qed.
Lemma c147_centre : forall g n, 0 < n -> (forall p, 0 <= p < zlen g -> cnth g (zlen g - 1 - p) = cnth g p) -> wig g n 0 (zlen g - 1) = RtoC (rsum (arange 0 (zlen g)) (fun p => Cmod (cnth g p) ^ 2)%R).
Proof.
  intros g n Hn S. unfold wig. rewrite RtoC_rsum. apply csum_ext. intros p Hp. apply in_arange in Hp. rewrite !sigf_in by lia. rewrite S by lia. rewrite Cmod2_conj. replace (- (PI * 0 * IZR (2 * p - (zlen g - 1)) / IZR n))%R with 0%R by (field; apply not_0_IZR; lia). rewrite cis_0. ring.
Qed.
(** Two symmetric atoms of energy E: at the mean instant and the mean frequency the interference
    is 2 E Re(c1 conj(c2) exp(2 i pi (f1 - f2) t)), however far apart they are. *)
Lemma c147_midpoint : forall x y ts n o g c1 c2 a b f1 f2 k t, 2 <= n -> zlen x = zlen y -> wvd (plus x y) (Some ts) (Some n) = Ok o -> 0 <= k < n -> 0 <= t < zlen x ->
  is_atom x g c1 a f1 -> is_atom y g c2 b f2 -> (forall p, 0 <= p < zlen g -> cnth g (zlen g - 1 - p) = cnth g p) ->
  2 * t = a + b + zlen g - 1 -> (IZR k = IZR n * (f1 + f2))%R -> zlen g <= Z.abs (a - b) ->
  at2 (r_tfr o) k t = RtoC (2 * Re (c1 * Cconj c2 * cis (2 * PI * ((f1 - f2) * IZR t)))%C * rsum (arange 0 (zlen g)) (fun p => Cmod (cnth g p) ^ 2)%R).
Proof.
  intros x y ts n o g c1 c2 a b f1 f2 k t Hn L H Hk Ht X Y S Et Ek Far. rewrite (c147_two x y ts n o g c1 c2 a b f1 f2 k t Hn L H Hk Ht X Y). f_equal.
  assert (N0 : IZR n <> 0%R) by (apply not_0_IZR; lia).
  assert (V : forall nu s, s < 0 \/ 2 * (zlen g - 1) < s -> Re (wig g n nu s) = 0%R).
  { intros nu s Hs. unfold wig. rewrite csum_0; [reflexivity|]. intros p Hp. apply in_arange in Hp. rewrite (sigf_out g (s - p)) by lia. rewrite Cconj_R. ring. }
  rewrite (V (IZR k - 2 * IZR n * f1)%R), (V (IZR k - 2 * IZR n * f2)%R) by lia.
  replace (IZR k - IZR n * (f1 + f2))%R with 0%R by lra. replace (2 * t - a - b) with (zlen g - 1) by lia. rewrite c147_centre by (auto; lia). cbn [Re RtoC fst].
  replace (2 * PI * ((f1 - f2) * IZR t + (f1 + f2 - IZR k / IZR n) * IZR (a - b) / 2))%R with (2 * PI * ((f1 - f2) * IZR t))%R by (rewrite Ek; field; auto). unfold Re. cbn [fst]. ring.
Qed.
(** Atom (1, 1, 1), once at sample 0 with frequency 0 and once at sample 4 with frequency 1/2: at sample 3
    and bin 4 of eight, where neither has anything, the distribution of the sum is -6. *)
Example c147_example : exists x y o g, zlen g = 3 /\ is_atom x g (RtoC 1) 0 0 /\ is_atom y g (RtoC 1) 4 (1 / 2) /\ zlen x = 8 /\ zlen y = 8 /\
  wvd (plus x y) None None = Ok o /\ at2 (r_tfr o) 4 3 = RtoC (-6).
Proof.
  set (g := [RtoC 1; RtoC 1; RtoC 1]). set (x := [RtoC 1; RtoC 1; RtoC 1; RtoC 0; RtoC 0; RtoC 0; RtoC 0; RtoC 0]). set (y := [RtoC 0; RtoC 0; RtoC 0; RtoC 0; RtoC 1; RtoC (-1); RtoC 1; RtoC 0]).
  assert (ZG : zlen g = 3) by reflexivity. assert (ZX : zlen x = 8) by reflexivity. assert (ZY : zlen y = 8) by reflexivity.
  assert (X : is_atom x g (RtoC 1) 0 0).
  { intros m. replace (2 * PI * 0 * IZR m)%R with 0%R by ring. rewrite cis_0, Cmult_1_l, Cmult_1_r, Z.sub_0_r. destruct (Z_lt_dec m 0) as [|A]; [rewrite !sigf_out by lia; reflexivity|]. destruct (Z_le_dec 8 m) as [|B]; [rewrite !sigf_out by lia; reflexivity|].
    assert (m = 0 \/ m = 1 \/ m = 2 \/ m = 3 \/ m = 4 \/ m = 5 \/ m = 6 \/ m = 7) as [-> | [-> | [-> | [-> | [-> | [-> | [-> | ->]]]]]]] by lia; reflexivity. }
  assert (Y : is_atom y g (RtoC 1) 4 (1 / 2)).
  { assert (CP : cis PI = RtoC (-1)) by (unfold cis; rewrite cos_PI, sin_PI; reflexivity). assert (C2 : forall k, cis (2 * PI * (1 / 2) * IZR (2 * k)) = RtoC 1) by (intros k; rewrite <- (cis_2PI_k k); f_equal; rewrite mult_IZR; field).
    intros m. rewrite Cmult_1_l. destruct (Z_lt_dec m 4) as [|A]; [rewrite (sigf_out g) by lia; rewrite Cmult_0_l; destruct (Z_lt_dec m 0); [now rewrite sigf_out by lia|]; assert (m = 0 \/ m = 1 \/ m = 2 \/ m = 3) as [-> | [-> | [-> | ->]]] by lia; reflexivity|].
    destruct (Z_le_dec 7 m) as [|B]; [rewrite (sigf_out g) by lia; rewrite Cmult_0_l; destruct (Z_le_dec 8 m); [now rewrite sigf_out by lia|]; assert (m = 7) as -> by lia; reflexivity|].
    assert (m = 4 \/ m = 5 \/ m = 6) as [-> | [-> | ->]] by lia.
    - replace (IZR 4) with (IZR (2 * 2)) by reflexivity. rewrite (C2 2). change (sigf y 4) with (RtoC 1). change (sigf g (4 - 4)) with (RtoC 1). ring.
    - replace (IZR 5) with (IZR (2 * 2 + 1)) by reflexivity. rewrite plus_IZR, Rmult_plus_distr_l, cis_plus, (C2 2). replace (2 * PI * (1 / 2) * 1)%R with PI by field. rewrite CP. change (sigf y 5) with (RtoC (-1)). change (sigf g (5 - 4)) with (RtoC 1). ring.
    - replace (IZR 6) with (IZR (2 * 3)) by reflexivity. rewrite (C2 3). change (sigf y 6) with (RtoC 1). change (sigf g (6 - 4)) with (RtoC 1). ring. }
  assert (ZP : zlen (plus x y) = 8) by reflexivity.
  assert (OK : exists o, wvd (plus x y) None None = Ok o). { destruct (c21_wvd_default (plus x y)) as [_ W]; [discriminate|]. apply W. rewrite ZP. intros [Q _]. vm_compute in Q. discriminate. }
  destruct OK as (o & H). exists x, y, o, g. split; [exact ZG|]. split; [exact X|]. split; [exact Y|]. split; [exact ZX|]. split; [exact ZY|]. split; [exact H|].
  change (wvd (plus x y) None None) with (wvd (plus x y) (Some (TsI (arange 0 8))) (Some 8)) in H.
  rewrite (c147_midpoint x y _ 8 o g (RtoC 1) (RtoC 1) 0 4 0 (1 / 2) 4 3 ltac:(lia) eq_refl H ltac:(lia) ltac:(lia) X Y); try (rewrite ?ZG; lia).
  - f_equal. rewrite ZG. change (arange 0 3) with [0; 1; 2]. rewrite !rsum_cons, rsum_nil. change (cnth g 0) with (RtoC 1). change (cnth g 1) with (RtoC 1). change (cnth g 2) with (RtoC 1). rewrite Cmod_1, Cconj_R, !Cmult_1_l.
    replace (2 * PI * ((0 - 1 / 2) * 3))%R with (PI + 2 * PI * IZR (-2))%R by (cbn; field). rewrite cis_plus, cis_2PI_k, Cmult_1_r. unfold cis, Re. cbn [fst]. rewrite cos_PI. ring.
  - intros p Hp. rewrite ZG in *. assert (p = 0 \/ p = 1 \/ p = 2) as [-> | [-> | ->]] by lia; reflexivity.
  - cbn. field.
Qed.
