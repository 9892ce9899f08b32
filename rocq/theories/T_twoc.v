(** C154: inst_freq and group_delay of two equally strong components. *)
From Coq Require Import Reals ZArith List Lia Lra Bool.
From Coquelicot Require Import Coquelicot.
From Flocq Require Import Core.
From Verif Require Import Py Scalars CSum DFT Spec M_base M_dom M_gen1 M_gallery2 P_base P_stft T_dom T_gen1 T_chirp T_angle T_gallery T_gallery3.
Import ListNotations.
Local Open Scope Z_scope.

Lemma get_sample x k : 0 <= k < zlen x -> get x k = Ok (cnth x k).
Proof. intros H. exact (Py.get_ok (RtoC 0) x k H). Qed.
Lemma conj_nz z : z <> RtoC 0 -> Cconj z <> RtoC 0.
Proof. intros H Q. apply H. rewrite <- (Cconj_invol z), Q. apply Cconj_R. Qed.
Lemma conj_div a b : b <> RtoC 0 -> Cconj (a / b)%C = (Cconj a / Cconj b)%C.
Proof.
  intros H. assert (H' := conj_nz b H). transitivity (Cconj (a / b) * Cconj b / Cconj b)%C; [field; exact H'|]. rewrite <- Cconj_mult. do 2 f_equal. field. exact H.
Qed.
Lemma csum2_nth x y m : zlen x = zlen y -> 0 <= m < zlen x -> cnth (csum2 x y) m = (cnth x m + cnth y m)%C.
Proof.
  unfold csum2, cnth, zlen. intros L H. assert (Hm : (Z.to_nat m < length x)%nat) by lia. assert (L' : length x = length y) by lia. clear L H. revert y L' Hm. generalize (Z.to_nat m). clear m. induction x as [|a x IH]; intros k [|b y] L' Hm; cbn in *; try lia.
  destruct k; [reflexivity|]. apply IH; lia.
Qed.
Lemma polar ang z : (forall k z, is_angle z (ang k z)) -> z = (RtoC (Cmod z) * cis (ang 0%Z z))%C.
Proof. intros HA. destruct (HA 0 z) as (_ & E & _). exact E. Qed.

(** Two neighbouring samples whose product has the phase 4 pi M, or the opposite one. *)
Lemma signed_advance ang x fs ts k (s M : R) : (forall k z, is_angle z (ang k z)) -> inst_freq ang x None = Ok (fs, ts) -> 0 <= k < zlen x - 2 ->
  (cnth x (k + 2) * Cconj (cnth x k))%C = (RtoC s * cis (4 * PI * M))%C -> (0 < M < 1 / 2)%R ->
  ((0 < s)%R -> rnth fs k = M) /\
  ((s < 0)%R -> ((M < 1 / 4)%R -> rnth fs k = (M + 1 / 4)%R) /\ ((1 / 4 < M)%R -> rnth fs k = (M - 1 / 4)%R) /\ (M = (1 / 4)%R -> rnth fs k = 0%R \/ rnth fs k = (1 / 2)%R)).
Proof.
  intros HA H Hk E HM. assert (P0 := PI_RGT_0). destruct (c51_default ang x) as (fs' & E' & L). rewrite H in E'. injection E' as E1 E2. subst fs' ts.
  assert (NK : nth (Z.to_nat k) (arange 2 (zlen x)) 0 = k + 2) by (apply nth_error_nth; rewrite nth_error_arange by lia; f_equal; lia).
  assert (G2 := get_sample x (k + 2) ltac:(lia)). assert (G0 := get_sample x k ltac:(lia)). set (u := cnth x k) in *. set (v := cnth x (k + 2)) in *. set (psi := ang 0 u). assert (PU : u = (RtoC (Cmod u) * cis psi)%C) by (now apply polar).
  assert (KEY : forall a phi, (0 < a)%R -> (RtoC s * cis (4 * PI * M))%C = (RtoC a * cis phi)%C -> ((0 < phi < 2 * PI)%R -> rnth fs k = (phi / (4 * PI))%R) /\ ((phi = 0 \/ phi = 2 * PI)%R -> rnth fs k = 0%R \/ rnth fs k = (1 / 2)%R)).
  { intros a phi Ha EA. rewrite EA in E. assert (U0 : u <> RtoC 0). { intros Q. rewrite Q, Cconj_R, Cmult_0_r in E. symmetry in E. apply (f_equal Cmod) in E. rewrite Cmod_mult, Cmod_R, Cmod_cis, Cmod_0, Rabs_right in E by lra. lra. }
    assert (UM : (0 < Cmod u)%R) by (apply Cmod_gt_0; exact U0). assert (PV : v = (RtoC (a / Cmod u) * cis (phi + psi))%C).
    { assert (U2 : RtoC (Cmod u) <> RtoC 0) by (intros Q; apply RtoC_inj in Q; lra).
      transitivity ((v * Cconj u) * u / RtoC (Cmod u ^ 2))%C; [rewrite Cmod2_conj; field; split; [apply conj_nz|]; exact U0|].
      rewrite E. rewrite PU at 1. rewrite cis_plus, RtoC_div by lra. cbn [pow]. rewrite Rmult_1_r, RtoC_mult. field. exact U2. }
    destruct (c51_exact ang x None fs (arange 2 (zlen x)) k (a / Cmod u) (Cmod u) (phi + psi) psi HA H) as [A B].
    - rewrite arange_zlen. lia.
    - apply Rdiv_lt_0_compat; lra.
    - exact UM.
    - rewrite NK, G2, <- PV. reflexivity.
    - rewrite NK. replace (k + 2 - 2) with k by lia. rewrite G0, <- PU. reflexivity.
    - replace (phi + psi - psi)%R with phi in A, B by ring. split; assumption. }
  assert (NEG : forall p, (RtoC s * cis p)%C = (RtoC (- s) * cis (p + PI))%C /\ (RtoC s * cis p)%C = (RtoC (- s) * cis (p - PI))%C).
  { intros p. assert (C1 : cis PI = RtoC (-1)) by (unfold cis; rewrite cos_PI, sin_PI; reflexivity). assert (C2 : cis (- PI) = RtoC (-1)) by (unfold cis; rewrite cos_neg, sin_neg, cos_PI, sin_PI, Ropp_0; reflexivity). unfold Rminus. rewrite !cis_plus, C1, C2, RtoC_opp. split; apply injective_projections; cbn; ring. }
  split.
  - intros S. destruct (KEY s (4 * PI * M)%R S eq_refl) as [A _]. rewrite A by nra. field. lra.
  - intros S. destruct (NEG (4 * PI * M)%R) as [N1 N2]. destruct (KEY (- s)%R _ ltac:(lra) N1) as [A1 _]. destruct (KEY (- s)%R _ ltac:(lra) N2) as [A2 B2]. split; [|split].
    + intros Q. rewrite A1 by nra. field. lra.
    + intros Q. rewrite A2 by nra. field. lra.
    + intros ->. apply B2. left. field.
Qed.
(** Two components of the same modulus at sample k, of frequencies F and G over the next two samples: inst_freq returns the mean of the
    frequencies, or that displaced by a quarter. *)
Lemma c154_pair : forall ang x fs ts k y z A F G, (forall k z, is_angle z (ang k z)) -> inst_freq ang x None = Ok (fs, ts) -> 0 <= k < zlen x - 2 ->
  cnth x k = (y + z)%C -> cnth x (k + 2) = (y * cis (4 * PI * F) + z * cis (4 * PI * G))%C -> Cmod y = A -> Cmod z = A ->
  let M := ((F + G) / 2)%R in (0 < M < 1 / 2)%R -> exists s, (cnth x (k + 2) * Cconj (cnth x k))%C = (RtoC s * cis (4 * PI * M))%C /\
  ((0 < s)%R -> rnth fs k = M) /\
  ((s < 0)%R -> ((M < 1 / 4)%R -> rnth fs k = (M + 1 / 4)%R) /\ ((1 / 4 < M)%R -> rnth fs k = (M - 1 / 4)%R) /\ (M = (1 / 4)%R -> rnth fs k = 0%R \/ rnth fs k = (1 / 2)%R)).
Proof.
  intros ang x fs ts k y z A F G HA H Hk E0 E2 MY MZ M HM.
  set (c := cis (2 * PI * (F - G))). set (s := (2 * A ^ 2 * Re c + 2 * Re (y * Cconj z * c)%C)%R).
  assert (E : (cnth x (k + 2) * Cconj (cnth x k))%C = (RtoC s * cis (4 * PI * M))%C).
  { rewrite E0, E2, Cconj_plus.
    assert (C1 : cis (4 * PI * F) = (c * cis (4 * PI * M))%C) by (unfold c; rewrite <- cis_plus; f_equal; unfold M; field).
    assert (C2 : cis (4 * PI * G) = (Cconj c * cis (4 * PI * M))%C) by (unfold c; rewrite <- cis_opp, <- cis_plus; f_equal; unfold M; field).
    rewrite C1, C2. transitivity ((y * Cconj y * c + z * Cconj z * Cconj c + (y * Cconj z * c + Cconj (y * Cconj z * c))) * cis (4 * PI * M))%C.
    { rewrite !Cconj_mult, Cconj_invol. ring. }
    f_equal. rewrite <- !Cmod2_conj, MY, MZ. unfold s. generalize (y * Cconj z * c)%C. intros q. destruct c as [c1 c2], q as [q1 q2]. apply injective_projections; cbn; ring. }
  exists s. split; [exact E|]. apply (signed_advance ang x fs ts k s M HA H Hk E HM).
Qed.
(** The sum of two chirps of fmlin. *)
Lemma c154_chirps : forall ang n a b c d x fs ts k, (forall k z, is_angle z (ang k z)) -> chirp_sum n a b c d = Ok x -> inst_freq ang x None = Ok (fs, ts) -> 0 <= k < n - 2 ->
  cnth x k <> RtoC 0 -> cnth x (k + 2) <> RtoC 0 -> forall y l1 z l2, fmlin n a b None = Ok (y, l1) -> fmlin n c d None = Ok (z, l2) ->
  let M := ((rnth l1 (k + 1) + rnth l2 (k + 1)) / 2)%R in (0 < M < 1 / 2)%R ->
  rnth fs k = M \/ ((M < 1 / 4)%R /\ rnth fs k = (M + 1 / 4)%R) \/ ((1 / 4 < M)%R /\ rnth fs k = (M - 1 / 4)%R) \/ (M = (1 / 4)%R /\ (rnth fs k = 0%R \/ rnth fs k = (1 / 2)%R)).
Proof.
  intros ang n a b c d x fs ts k HA HX H Hk X0 X2 y l1 z l2 HY HZ M HM. unfold chirp_sum in HX. rewrite HY in HX. cbn [bind] in HX. rewrite HZ in HX. cbn [bind] in HX. injection HX as HX.
  assert (STEP : forall fi ff y law, fmlin n fi ff None = Ok (y, law) -> zlen y = n /\ Cmod (cnth y k) = 1%R /\ cnth y (k + 2) = (cnth y k * cis (4 * PI * rnth law (k + 1)))%C).
  { intros fi ff y' law E. destruct (fmlin_inv _ _ _ _ _ _ E) as (Hn & Hi & Hf & Ht). destruct (c55_chirp n fi ff None Hn Hi Hf Ht) as (y'' & law' & E' & L1 & _ & _ & _ & _ & EM & _ & _ & E2). rewrite E in E'. injection E' as <- <-. split; [exact L1|]. split; [apply EM; lia|apply E2; lia]. }
  destruct (STEP a b y l1 HY) as (L1 & M1 & S1). destruct (STEP c d z l2 HZ) as (L2 & M2 & S2).
  assert (XK : forall m, 0 <= m < n -> cnth x m = (cnth y m + cnth z m)%C) by (intros m Hm; rewrite <- HX; apply csum2_nth; lia).
  assert (LX : zlen x = n) by (rewrite <- HX, csum2_zlen; lia).
  destruct (c154_pair ang x fs ts k (cnth y k) (cnth z k) 1 (rnth l1 (k + 1)) (rnth l2 (k + 1)) HA H ltac:(lia) (XK k ltac:(lia)) ltac:(rewrite XK, S1, S2 by lia; reflexivity) M1 M2 HM) as (s & E & P & N). fold M in E, P, N.
  destruct (Rtotal_order s 0) as [S|[S|S]].
  - destruct (N S) as (A & B & D). destruct (Rtotal_order M (1 / 4)) as [Q|[Q|Q]]; [right; left|right; right; right|right; right; left]; (split; [exact Q|auto]).
  - exfalso. rewrite S, Cmult_0_l in E. assert (Q := Cmult_neq_0 (cnth x (k + 2)) (Cconj (cnth x k)) X2). apply Q; [|exact E]. intros Z. apply X0. rewrite <- (Cconj_invol (cnth x k)), Z. apply Cconj_R.
  - left. auto.
Qed.
(** plot_2_7_multicomp_nonstat_instfreq_grpdlay.py, for every number of samples: away from zeros of the signal, the instantaneous frequency
    is at least 1/10 off both components. *)
Lemma c154_program : forall ang n x fs ts k, (forall k z, is_angle z (ang k z)) -> chirp_sum n 0 (1 / 5) (3 / 10) (1 / 2) = Ok x -> inst_freq ang x None = Ok (fs, ts) -> 0 <= k < n - 2 ->
  cnth x k <> RtoC 0 -> cnth x (k + 2) <> RtoC 0 ->
  let f1 := (1 / 5 * (IZR (k + 1) / IZR (n - 1)))%R in let f2 := (3 / 10 + 1 / 5 * (IZR (k + 1) / IZR (n - 1)))%R in
  (1 / 10 <= Rabs (rnth fs k - f1))%R /\ (1 / 10 <= Rabs (rnth fs k - f2))%R.
Proof.
  intros ang n x fs ts k HA HX H Hk X0 X2 f1 f2. assert (HX' := HX). unfold chirp_sum in HX'. destruct (fmlin n 0 (1 / 5) None) as [[y l1]|] eqn:HY; [|discriminate]. cbn [bind] in HX'. destruct (fmlin n (3 / 10) (1 / 2) None) as [[z l2]|] eqn:HZ; [|discriminate]. clear HX'.
  destruct (fmlin_sym _ _ _ _ _ _ HY) as (_ & _ & E1 & _). destruct (fmlin_sym _ _ _ _ _ _ HZ) as (_ & _ & E2 & _). specialize (E1 (k + 1) ltac:(lia)). specialize (E2 (k + 1) ltac:(lia)).
  assert (N0 : (0 < IZR (n - 1))%R) by (apply IZR_lt; lia). set (q := (IZR (k + 1) / IZR (n - 1))%R) in *.
  assert (Q : (0 < q < 1)%R). { unfold q. split; [apply Rdiv_lt_0_compat; [apply IZR_lt; lia|lra]|]. apply (Rmult_lt_reg_r (IZR (n - 1))); [lra|]. unfold Rdiv. rewrite Rmult_assoc, Rinv_l by lra. rewrite Rmult_1_r, Rmult_1_l. apply IZR_lt. lia. }
  assert (F1 : rnth l1 (k + 1) = f1) by (rewrite E1; unfold f1, q; field; lra). assert (F2 : rnth l2 (k + 1) = f2) by (rewrite E2; unfold f2, q; field; lra).
  assert (T := c154_chirps ang n 0 (1 / 5) (3 / 10) (1 / 2) x fs ts k HA HX H Hk X0 X2 y l1 z l2 HY HZ). cbv zeta in T. rewrite F1, F2 in T. unfold f1, f2 in *. specialize (T ltac:(lra)).
  destruct T as [T|[[T1 T]|[[T1 T]|[T1 [T|T]]]]]; rewrite T; split; unfold Rabs; destruct (Rcase_abs _); lra.
Qed.

(** group_delay.  A signal that is its own conjugate mirror about sample K/2, up to a factor. *)
Definition mirrored (x : list C) (K : Z) (u : C) : Prop := forall j, sigf x (K - j) = (u * Cconj (sigf x j))%C.
Lemma sum_ext_range x n K (g : Z -> C) : n = zlen x -> let N := n + Z.abs K in
  csum (arange 0 n) (fun k => g k * cnth x k)%C = csum (arange (- N) (K + N + 1)) (fun k => g k * sigf x k)%C.
Proof.
  intros -> N. assert (L := zlen_nonneg x). rewrite (csum_incl (arange 0 (zlen x)) (arange (- N) (K + N + 1))); [|apply NoDup_arange|apply NoDup_arange| |].
  - apply csum_ext. intros k Hk. apply in_arange in Hk. now rewrite sigf_in.
  - intros k Hk. apply in_arange in Hk. apply in_arange. unfold N. lia.
  - intros k _ Hk. rewrite in_arange in Hk. rewrite sigf_out by lia. ring.
Qed.
Lemma c154_mirror : forall x K u f, mirrored x K u -> gd_den x f <> RtoC 0 -> group_delay x (Some [f]) = Ok [Some (IZR K / 2 + 1)%R].
Proof.
  intros x K u f HM D0. rewrite c52_formula. cbn [map]. do 2 f_equal. set (n := zlen x). assert (L := zlen_nonneg x). fold n in L.
  set (e := fun k : Z => cis (- (2 * PI * f * IZR k))). set (N := n + Z.abs K). set (R := arange (- N) (K + N + 1)).
  assert (ED : gd_den x f = csum R (fun k => e k * sigf x k)%C). { unfold gd_den. unfold R, N. rewrite <- (sum_ext_range x n K e eq_refl). apply csum_ext. intros k _. unfold e. ring. }
  assert (EN : gd_num x f = csum R (fun k => RtoC (IZR (k + 1)) * e k * sigf x k)%C). { unfold gd_num. unfold R, N. rewrite <- (sum_ext_range x n K (fun k => RtoC (IZR (k + 1)) * e k)%C eq_refl). apply csum_ext. intros k _. unfold e. ring. }
  assert (EC : forall k, e (K - k) = (e K * Cconj (e k))%C). { intros k. unfold e. rewrite <- cis_opp, <- cis_plus. f_equal. rewrite minus_IZR. ring. }
  set (c := (u * e K)%C). assert (RD : gd_den x f = (c * Cconj (gd_den x f))%C).
  { rewrite ED, csum_conj, <- csum_scal_l. unfold R. rewrite csum_arange_rev. apply csum_ext. intros k _. replace (- N + (K + N + 1) - 1 - k) with (K - k) by lia. rewrite EC, HM, Cconj_mult. unfold c. ring. }
  assert (RN : gd_num x f = (c * Cconj (RtoC (IZR (K + 2)) * gd_den x f - gd_num x f))%C).
  { rewrite ED, EN, <- csum_scal_l, <- csum_minus, csum_conj, <- csum_scal_l. unfold R. rewrite csum_arange_rev. apply csum_ext. intros k _. replace (- N + (K + N + 1) - 1 - k) with (K - k) by lia. rewrite EC, HM.
    rewrite Cconj_minus, !Cconj_mult, !Cconj_R. replace (IZR (K - k + 1)) with (IZR (K + 2) - IZR (k + 1))%R by (rewrite <- minus_IZR; f_equal; lia). rewrite RtoC_minus. unfold c. ring. }
  set (D := gd_den x f) in *. set (W := gd_num x f) in *. assert (CD0 : Cconj D <> RtoC 0) by (intros Q; apply D0; rewrite <- (Cconj_invol D), Q; apply Cconj_R).
  assert (C0 : c <> RtoC 0) by (intros Q; apply D0; rewrite RD, Q; ring).
  assert (RE : Re (W / D)%C = (IZR K / 2 + 1)%R).
  { assert (Q : (W / D)%C = (RtoC (IZR (K + 2)) - Cconj (W / D))%C).
    { rewrite conj_div by exact D0. transitivity ((c * Cconj (RtoC (IZR (K + 2)) * D - W)) / (c * Cconj D))%C; [rewrite <- RN, <- RD; reflexivity|]. rewrite Cconj_minus, Cconj_mult, Cconj_R. field. auto. }
    apply (f_equal Re) in Q. unfold Re in *. generalize dependent (W / D)%C. intros q Q. cbn in Q. rewrite plus_IZR in Q. lra. }
  assert (KB : 0 <= K <= 2 * n - 2).
  { destruct (Z_le_dec 0 K) as [K1|K1]; [destruct (Z_le_dec K (2 * n - 2)) as [K2|K2]; [lia|]|]; exfalso; apply D0; rewrite ED; apply csum_0; intros k _.
    - destruct (Z_lt_dec k 0); [rewrite sigf_out by (fold n; lia); ring|]. destruct (Z_le_dec n k); [rewrite sigf_out by (fold n; lia); ring|]. replace k with (K - (K - k)) by lia. rewrite HM, (sigf_out x (K - k)) by (fold n; lia). rewrite Cconj_R. ring.
    - destruct (Z_lt_dec k 0); [rewrite sigf_out by (fold n; lia); ring|]. destruct (Z_le_dec n k); [rewrite sigf_out by (fold n; lia); ring|]. replace k with (K - (K - k)) by lia. rewrite HM, (sigf_out x (K - k)) by (fold n; lia). rewrite Cconj_R. ring. }
  unfold gd_value. fold D W n. destruct (Ceq_dec D (RtoC 0)) as [|_]; [contradiction|]. rewrite RE. assert (B1 : (0 <= IZR K)%R) by (apply IZR_le; lia). assert (B2 : (IZR K <= 2 * IZR n - 2)%R) by (change 2%R with (IZR 2); rewrite <- mult_IZR, <- minus_IZR; apply IZR_le; lia).
  destruct (Rle_dec _ _); [|lra]. destruct (Rle_dec _ _); [|lra]. reflexivity.
Qed.
(** Two impulses of the same modulus: nothing but their midpoint is reported. *)
Lemma c154_impulses : forall x p q a b f, 0 <= p < q -> q < zlen x -> Cmod a = Cmod b -> a <> RtoC 0 ->
  (forall k, 0 <= k < zlen x -> cnth x k = if k =? p then a else if k =? q then b else RtoC 0) -> gd_den x f <> RtoC 0 -> group_delay x (Some [f]) = Ok [Some (IZR (p + q) / 2 + 1)%R].
Proof.
  intros x p q a b f Hp Hq EM A0 HX D0. assert (CA : Cconj a <> RtoC 0) by (intros Q; apply A0; rewrite <- (Cconj_invol a), Q; apply Cconj_R).
  assert (CB : Cconj b <> RtoC 0). { intros Q. assert (b = RtoC 0) by (rewrite <- (Cconj_invol b), Q; apply Cconj_R). subst b. apply A0. apply Cmod_eq_0. rewrite EM. apply Cmod_0. }
  apply (c154_mirror x (p + q) (b / Cconj a)%C f); [|exact D0]. intros j.
  assert (SX : forall k, sigf x k = if k =? p then a else if k =? q then b else RtoC 0).
  { intros k. destruct (Z_lt_dec k 0) as [K1|K1]; [|destruct (Z_le_dec (zlen x) k) as [K2|K2]]; [rewrite sigf_out by lia|rewrite sigf_out by lia|rewrite sigf_in by lia; apply HX; lia]; destruct (Z.eqb_spec k p); try lia; destruct (Z.eqb_spec k q); try lia; reflexivity. }
  assert (AB : (b * Cconj b)%C = (a * Cconj a)%C) by (rewrite <- !Cmod2_conj, EM; reflexivity).
  rewrite !SX. destruct (Z.eqb_spec (p + q - j) p), (Z.eqb_spec j p); try lia; [|destruct (Z.eqb_spec (p + q - j) q); try lia|]; destruct (Z.eqb_spec j q); try lia.
  - transitivity ((a * Cconj a) / Cconj a)%C; [field; exact CA|]. rewrite <- AB. field. exact CA.
  - field. exact CA.
  - destruct (Z.eqb_spec (p + q - j) q); [lia|]. rewrite Cconj_R. ring.
Qed.
Example c154_example : group_delay [RtoC 0; RtoC 1; RtoC 0; RtoC 0; RtoC 0; RtoC 1] (Some [0%R]) = Ok [Some 4%R] /\
  forall ang, (forall k z, is_angle z (ang k z)) -> exists fs, inst_freq ang [RtoC 2; (RtoC 1 + Ci)%C; RtoC 0; (RtoC 1 - Ci)%C] None = Ok (fs, [2; 3]) /\ rnth fs 1 = (3 / 8)%R.
Proof.
  split.
  - rewrite (c154_impulses _ 1 5 (RtoC 1) (RtoC 1) 0); [do 3 f_equal; change (1 + 5) with 6; lra|lia|vm_compute; reflexivity|reflexivity|intros Q; apply RtoC_inj in Q; lra| |].
    + intros k Hk. change (zlen _) with 6 in Hk. assert (k = 0 \/ k = 1 \/ k = 2 \/ k = 3 \/ k = 4 \/ k = 5) as [-> | [-> | [-> | [-> | [-> | ->]]]]] by lia; reflexivity.
    + unfold gd_den. change (arange 0 (zlen _)) with [0; 1; 2; 3; 4; 5]. unfold csum, cnth. cbn [fold_right]. change (Z.to_nat 0) with 0%nat. change (Z.to_nat 1) with 1%nat. change (Z.to_nat 2) with 2%nat. change (Z.to_nat 3) with 3%nat. change (Z.to_nat 4) with 4%nat. change (Z.to_nat 5) with 5%nat. cbn [nth]. rewrite !Rmult_0_r, !Rmult_0_l, Ropp_0, cis_0. intros Q. apply (f_equal Re) in Q. cbn in Q. lra.
  - intros ang HA. set (x := [RtoC 2; (RtoC 1 + Ci)%C; RtoC 0; (RtoC 1 - Ci)%C]). destruct (c51_default ang x) as (fs & E & _). exists fs. split; [exact E|].
    assert (P0 := PI_RGT_0). assert (C1 : cis (PI / 2) = Ci) by (unfold cis; rewrite cos_PI2, sin_PI2; reflexivity). assert (C2 : cis PI = RtoC (-1)) by (unfold cis; rewrite cos_PI, sin_PI; reflexivity).
    destruct (c154_pair ang x fs _ 1 (RtoC 1) Ci 1 0 (1 / 4) HA E) as (s & ES & _ & N).
    + change (zlen x) with 4. lia.
    + reflexivity.
    + change (cnth x (1 + 2)) with (RtoC 1 - Ci)%C. rewrite Rmult_0_r, cis_0. replace (4 * PI * (1 / 4))%R with PI by field. rewrite C2. apply injective_projections; cbn; ring.
    + apply Cmod_1.
    + rewrite <- C1. apply Cmod_cis.
    + lra.
    + change (cnth x (1 + 2)) with (RtoC 1 - Ci)%C in ES. change (cnth x 1) with (RtoC 1 + Ci)%C in ES. replace (4 * PI * ((0 + 1 / 4) / 2))%R with (PI / 2)%R in ES by field. rewrite C1 in ES. apply (f_equal Im) in ES. cbn in ES.
      destruct N as (N & _); [lra|]. rewrite N by lra. lra.
Qed.
