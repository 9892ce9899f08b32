(** C142: the programs of doc/misc_plots. *)
From Coq Require Import Reals ZArith List Lia Lra Psatz Bool.
From Coquelicot Require Import Coquelicot.
From Flocq Require Import Core.
From Verif Require Import Py Scalars CSum DFT Spec M_base M_stft M_cohen M_utils M_dom M_gen1 M_gen2 M_mplt P_base P_stft T_stft T_utils T_dom T_gen1 T_fp T_fp2.
Import ListNotations.
Local Open Scope Z_scope.

(** *** The sampled touch tone *)
Lemma cnth_RtoC' (l : list R) k : cnth (map RtoC l) k = RtoC (rnth l k).
Proof. unfold cnth, rnth. now rewrite <- (map_nth RtoC). Qed.
Lemma touch_at fs f g k : 2 <= fs -> 0 <= k < fs -> rnth (touch fs f g) k = ((sin (2 * PI * f * (IZR k / IZR (fs - 1))) + sin (2 * PI * g * (IZR k / IZR (fs - 1)))) / 2)%R.
Proof.
  intros H Hk. unfold touch, linspace1. destruct (Z.eqb_spec fs 1); [lia|]. unfold M_gen1.linspace. rewrite map_map, rnth_map_arange by lia. rewrite Z.add_0_l.
  replace (0 + IZR k * ((1 - 0) / IZR (fs - 1)))%R with (IZR k / IZR (fs - 1))%R by (unfold Rdiv; ring). reflexivity.
Qed.
Lemma sin_mirror n f k : 1 <= n -> (sin (2 * PI * IZR f * (IZR (n - k) / IZR n)) = - sin (2 * PI * IZR f * (IZR k / IZR n)))%R.
Proof.
  intros H. assert (NZ : IZR n <> 0%R) by (apply IZR_neq; lia). rewrite minus_IZR. replace (2 * PI * IZR f * ((IZR n - IZR k) / IZR n))%R with (2 * PI * IZR f + - (2 * PI * IZR f * (IZR k / IZR n)))%R by (field; auto).
  rewrite sin_plus. assert (E := cis_2PI_k f). assert (E1 := f_equal fst E). assert (E2 := f_equal snd E). cbn in E1, E2. rewrite E1, E2, sin_neg. ring.
Qed.
(** The last sample repeats the first, one period being fs - 1 samples; the samples are odd about the middle,
    so their mean is zero. *)
Lemma c142_touch : forall fs f g, 2 <= fs -> let y := touch fs (IZR f) (IZR g) in
  zlen y = fs /\ rnth y 0 = 0%R /\ rnth y (fs - 1) = 0%R /\ (forall k, 0 <= k < fs -> rnth y (fs - 1 - k) = (- rnth y k)%R) /\ rsum (arange 0 fs) (rnth y) = 0%R.
Proof.
  intros fs f g H y. assert (Z0 : rnth y 0 = 0%R) by (unfold y; rewrite touch_at by lia; unfold Rdiv; rewrite !Rmult_0_l, !Rmult_0_r, sin_0; ring).
  assert (MI : forall k, 0 <= k < fs -> rnth y (fs - 1 - k) = (- rnth y k)%R) by (intros k Hk; unfold y; rewrite !touch_at, !sin_mirror by lia; field).
  split; [unfold y, touch, linspace1; destruct (Z.eqb_spec fs 1); [lia|]; unfold M_gen1.linspace; rewrite map_map, zlen_map_arange; lia|]. split; [exact Z0|]. split; [replace (fs - 1) with (fs - 1 - 0) by ring; rewrite MI, Z0 by lia; ring|]. split; [exact MI|].
  assert (S : rsum (arange 0 fs) (rnth y) = (- rsum (arange 0 fs) (rnth y))%R); [|lra]. rewrite rsum_arange_rev at 1. rewrite <- rsum_opp. apply rsum_ext. intros k Hk. apply in_arange in Hk. rewrite <- MI by lia. reflexivity.
Qed.

(** *** Its spectrum *)
Lemma sin_geo a b (n : nat) :
  (csum (arange 0 (Z.of_nat n)) (fun i => RtoC (sin (a * IZR i)) * cis (- (b * IZR i))) * (RtoC 1 - RtoC 2 * RtoC (cos a) * cis (- b) + cis (- b) * cis (- b)) =
   RtoC (sin a) * cis (- b) - RtoC (sin (a * INR n)) * cis (- (b * INR n)) + RtoC (sin (a * (INR n - 1))) * (cis (- (b * INR n)) * cis (- b)))%C.
Proof.
  induction n as [|n IH].
  - cbn [Z.of_nat INR]. rewrite arange_empty by lia. rewrite csum_nil, !Rmult_0_r, Ropp_0, cis_0, sin_0. replace (a * (0 - 1))%R with (- a)%R by ring. rewrite sin_neg, RtoC_opp. ring.
  - rewrite Nat2Z.inj_succ, <- Z.add_1_r, arange_snoc by lia. rewrite csum_app, csum_cons, csum_nil, Cmult_plus_distr_r, IH, <- INR_IZR_INZ, S_INR.
    replace (a * (INR n + 1 - 1))%R with (a * INR n)%R by ring. replace (- (b * (INR n + 1)))%R with (- (b * INR n) + - b)%R by ring. rewrite cis_plus.
    assert (E : RtoC (sin (a * (INR n + 1))) = (RtoC 2 * RtoC (cos a) * RtoC (sin (a * INR n)) - RtoC (sin (a * (INR n - 1))))%C).
    { rewrite <- !RtoC_mult, <- RtoC_minus. f_equal. replace (a * (INR n + 1))%R with (a * INR n + a)%R by ring. replace (a * (INR n - 1))%R with (a * INR n - a)%R by ring. rewrite sin_plus, sin_minus. ring. }
    rewrite E. ring.
Qed.
(** One sine of f cycles over fs - 1 samples, bin k of fs. *)
Definition sine_bin (fs f k : Z) : C := csum (arange 0 fs) (fun i => RtoC (sin (2 * PI * IZR f * (IZR i / IZR (fs - 1)))) * root fs (- (k * i)))%C.
Lemma c142_sine : forall fs f k, 2 <= fs -> let a := (2 * PI * IZR f / IZR (fs - 1))%R in let b := (2 * PI * IZR k / IZR fs)%R in
  (sine_bin fs f k * RtoC (2 * (cos b - cos a)) = RtoC (sin a) * (RtoC 1 - cis b))%C.
Proof.
  intros fs f k H a b. assert (NZ : IZR (fs - 1) <> 0%R) by (apply IZR_neq; lia). assert (FZ : IZR fs <> 0%R) by (apply IZR_neq; lia).
  assert (G := sin_geo a b (Z.to_nat fs)). rewrite INR_IZR_INZ, !Z2Nat.id in G by lia.
  assert (E : csum (arange 0 fs) (fun i => RtoC (sin (a * IZR i)) * cis (- (b * IZR i)))%C = sine_bin fs f k).
  { unfold sine_bin. apply csum_ext. intros i _. f_equal; [do 2 f_equal; unfold a; field; auto|]. unfold root. f_equal. unfold b. rewrite opp_IZR, mult_IZR. field. auto. }
  rewrite E in G. assert (CB : cis (- (b * IZR fs)) = RtoC 1). { replace (- (b * IZR fs))%R with (2 * PI * IZR (- k))%R by (unfold b; rewrite opp_IZR; field; auto). apply cis_2PI_k. }
  assert (P := cis_2PI_k f). assert (P1 := f_equal fst P). assert (P2 := f_equal snd P). cbn in P1, P2.
  assert (S0 : sin (a * (IZR fs - 1)) = 0%R) by (rewrite <- P2; f_equal; unfold a; rewrite minus_IZR in *; field; auto).
  assert (S1 : sin (a * IZR fs) = sin a). { replace (a * IZR fs)%R with (2 * PI * IZR f + a)%R by (unfold a; rewrite minus_IZR in *; field; auto). rewrite sin_plus, P1, P2. ring. }
  rewrite CB, S0, S1 in G. assert (BB : (cis b * cis (- b) = RtoC 1)%C) by (rewrite <- cis_plus, Rplus_opp_r; apply cis_0).
  assert (C2 : (RtoC (2 * cos b) = cis b + cis (- b))%C) by (apply injective_projections; cbn; rewrite ?cos_neg, ?sin_neg; ring).
  replace (RtoC (2 * (cos b - cos a))) with (RtoC (2 * cos b) - RtoC 2 * RtoC (cos a))%C by (rewrite <- RtoC_mult, <- RtoC_minus; f_equal; ring). rewrite C2.
  transitivity (cis b * (sine_bin fs f k * (RtoC 1 - RtoC 2 * RtoC (cos a) * cis (- b) + cis (- b) * cis (- b))))%C.
  - transitivity (sine_bin fs f k * (cis b - RtoC 2 * RtoC (cos a) * (cis b * cis (- b)) + (cis b * cis (- b)) * cis (- b)))%C; [rewrite BB; ring|ring].
  - rewrite G. transitivity (RtoC (sin a) * ((cis b * cis (- b)) - cis b))%C; [ring|]. rewrite BB. ring.
Qed.
(** The two frequencies never coincide: f cycles of fs - 1 samples is no multiple of 1/fs. *)
Lemma c142_apart : forall fs f k, 0 < f < fs - 1 -> 0 <= k < fs -> cos (2 * PI * IZR k / IZR fs) <> cos (2 * PI * IZR f / IZR (fs - 1)).
Proof.
  intros fs f k Hf Hk E. assert (NZ : IZR (fs - 1) <> 0%R) by (apply IZR_neq; lia). assert (FZ : IZR fs <> 0%R) by (apply IZR_neq; lia). assert (HP := PI_RGT_0).
  set (a := (2 * PI * IZR f / IZR (fs - 1))%R) in *. set (b := (2 * PI * IZR k / IZR fs)%R) in *.
  assert (Q : (sin ((a - b) / 2) * sin ((a + b) / 2) = 0)%R).
  { assert (E1 : cos b = cos ((a + b) / 2 - (a - b) / 2)) by (f_equal; field). assert (E2 : cos a = cos ((a + b) / 2 + (a - b) / 2)) by (f_equal; field). rewrite cos_minus in E1. rewrite cos_plus in E2. lra. }
  assert (D : forall z q, (IZR f / IZR (fs - 1) + IZR q * (IZR k / IZR fs) = IZR z)%R -> q = 1 \/ q = -1 -> False).
  { intros z q W Hq. assert (I : f * fs + q * k * (fs - 1) = z * (fs * (fs - 1))). { apply eq_IZR. rewrite plus_IZR, !mult_IZR. rewrite <- W. field. split; assumption. }
    assert (DV : (fs | q * k)) by (exists (f + q * k - z * (fs - 1)); replace ((f + q * k - z * (fs - 1)) * fs) with (f * fs + q * k * (fs - 1) - z * (fs * (fs - 1)) + q * k) by ring; rewrite I; ring). assert (K0 : k = 0). { destruct DV as [t Ht]. assert (T : t = 0); [|destruct Hq; subst; lia]. assert (- fs < t * fs < fs) by (destruct Hq; subst; lia). destruct (Z_lt_le_dec t 0); [nia|]. destruct (Z_lt_le_dec 0 t); [nia|lia]. }
    subst k. assert (F : f = z * (fs - 1)) by (apply (Z.mul_reg_r _ _ fs); lia). destruct (Z_lt_le_dec z 1); [|nia]. destruct (Z_lt_le_dec z 0); [nia|]. assert (z = 0) by lia. subst z. lia. }
  apply Rmult_integral in Q. destruct Q as [Q|Q]; apply sin_eq_0_0 in Q; destruct Q as [z Hz].
  - apply (D z (-1)); [|auto]. apply (Rmult_eq_reg_r PI); [|lra]. rewrite <- Hz. unfold a, b. field. auto.
  - apply (D z 1); [|auto]. apply (Rmult_eq_reg_r PI); [|lra]. rewrite <- Hz. unfold a, b. field. auto.
Qed.
(** So bin 0 is zero and, unless 2 f = fs - 1, every other bin is not: a sine of 697 cycles does not fill two bins only. *)
Lemma c142_leak : forall fs f, 2 <= fs -> 0 < f < fs - 1 -> 2 * f <> fs - 1 -> sine_bin fs f 0 = RtoC 0 /\
  forall k, 0 < k < fs -> sine_bin fs f k <> RtoC 0 /\
    (Cmod (sine_bin fs f k) * Rabs (cos (2 * PI * IZR k / IZR fs) - cos (2 * PI * IZR f / IZR (fs - 1))) = Rabs (sin (2 * PI * IZR f / IZR (fs - 1))) * sin (PI * IZR k / IZR fs))%R.
Proof.
  intros fs f H Hf H2. assert (NZ : (0 < IZR (fs - 1))%R) by (apply IZR_lt; lia). assert (FZ : (0 < IZR fs)%R) by (apply IZR_lt; lia). assert (HP := PI_RGT_0). split.
  - assert (G := c142_sine fs f 0 H). cbv zeta in G. assert (A := c142_apart fs f 0 Hf ltac:(lia)). replace (2 * PI * 0 / IZR fs)%R with 0%R in * by (field; lra). rewrite cis_0 in G.
    assert (G0 : (sine_bin fs f 0 * RtoC (2 * (cos 0 - cos (2 * PI * IZR f / IZR (fs - 1)))) = RtoC 0)%C) by (rewrite G; ring). destruct (Ceq_dec (sine_bin fs f 0) (RtoC 0)) as [Z|Z]; [exact Z|]. exfalso. apply (Cmult_neq_0 _ _ Z) in G0; [exact G0|]. intros Y. apply RtoC_inj in Y. apply A. lra.
  - intros k Hk. assert (G := c142_sine fs f k H). cbv zeta in G. assert (A := c142_apart fs f k Hf ltac:(lia)). set (a := (2 * PI * IZR f / IZR (fs - 1))%R) in *. set (b := (2 * PI * IZR k / IZR fs)%R) in *.
    assert (KB : (0 < PI * IZR k / IZR fs < PI)%R). { assert (0 < IZR k < IZR fs)%R by (split; apply IZR_lt; lia). split; [apply Rdiv_lt_0_compat; [apply Rmult_lt_0_compat; lra|lra]|]. apply (Rmult_lt_reg_r (IZR fs)); [lra|]. unfold Rdiv. rewrite Rmult_assoc, Rinv_l by lra. nra. }
    assert (SK := sin_gt_0 _ (proj1 KB) (proj2 KB)). assert (CH : Cmod (RtoC 1 - cis b)%C = (2 * sin (PI * IZR k / IZR fs))%R).
    { replace b with (2 * (PI * IZR k / IZR fs))%R by (unfold b, Rdiv; ring). set (h := (PI * IZR k / IZR fs)%R) in *. unfold Cmod. cbn [fst snd Cminus Cplus Copp RtoC cis]. replace ((1 + - cos (2 * h)) ^ 2 + (0 + - sin (2 * h)) ^ 2)%R with ((2 * sin h) * (2 * sin h))%R; [apply sqrt_square; lra|]. rewrite cos_2a_sin, sin_2a. assert (T := sin2_cos2 h). unfold Rsqr in T. replace (cos h * cos h)%R with (1 - sin h * sin h)%R by lra. nra. }
    assert (M : (Cmod (sine_bin fs f k) * Rabs (cos b - cos a) = Rabs (sin a) * sin (PI * IZR k / IZR fs))%R).
    { assert (E := f_equal Cmod G). rewrite !Cmod_mult, !Cmod_R, CH, Rabs_mult, (Rabs_pos_eq 2) in E by lra. lra. }
    split; [|exact M]. intros Z. rewrite Z, Cmod_0, Rmult_0_l in M. symmetry in M. apply Rmult_integral in M. destruct M as [M|M]; [|lra].
    assert (SA : sin a = 0%R) by (destruct (Req_dec (sin a) 0); [auto|]; exfalso; apply (Rabs_no_R0 (sin a)); auto). apply sin_eq_0_0 in SA. destruct SA as [z Hz]. assert (I : 2 * f = z * (fs - 1)). { apply eq_IZR. rewrite !mult_IZR. apply (Rmult_eq_reg_r PI); [|lra]. replace (IZR z * IZR (fs - 1) * PI)%R with (a * IZR (fs - 1))%R by (rewrite Hz; ring). unfold a. field. lra. }
    assert (z = 1) by nia. subst z. lia.
Qed.
(** The spectrum that is drawn is half the sum of the two. *)
Lemma c142_spectrum : forall fs f g k, 2 <= fs -> 0 <= k < fs -> (cnth (touch_fft fs (IZR f) (IZR g)) k * RtoC 2 = sine_bin fs f k + sine_bin fs g k)%C.
Proof.
  intros fs f g k H Hk. destruct (c142_touch fs f g H) as (L & _). unfold touch_fft. rewrite fft_nth by (rewrite zlen_map; lia). rewrite zlen_map, L. unfold sine_bin. rewrite <- csum_plus, <- csum_scal_r. apply csum_ext. intros i Hi. apply in_arange in Hi.
  rewrite (cnth_RtoC' (touch fs (IZR f) (IZR g)) i), touch_at by lia. set (u := sin _). set (v := sin _). replace (RtoC ((u + v) / 2)) with ((RtoC u + RtoC v) / RtoC 2)%C by (rewrite RtoC_div, RtoC_plus by lra; reflexivity). field. intros Y. apply RtoC_inj in Y. lra.
Qed.

(** *** Window lengths and places of the pulses in double precision *)
Lemma milli : b64 (1 / 1000) = (IZR 4611686018427388 * bpow radix2 (-62))%R.
Proof.
  rewrite (b64_round _ (-9) 4611686018427388); [reflexivity|change (bpow radix2 (-9 - 1)) with (/ 1024)%R; change (bpow radix2 (-9)) with (/ 512)%R; lra|]. change (bpow radix2 (53 - -9)) with 4611686018427387904%R. apply Rabs_def1; lra.
Qed.
Lemma trunc_int z : Ztrunc (IZR z) = z. Proof. apply Ztrunc_IZR. Qed.
(** The four windows of the program: powers of two. *)
Lemma c142_window : forall k, 0 <= k <= 48 -> win64 (2 ^ k) 8000 = 8 * 2 ^ k + 1.
Proof.
  intros k Hk. unfold win64. rewrite milli. assert (W : IZR (2 ^ k) = bpow radix2 k) by (rewrite <- (IZR_Zpower radix2) by lia; reflexivity). rewrite W.
  rewrite (double_b64 (bpow radix2 k * _)) by (exists 4611686018427388, (k - 62); split; [lia|unfold Zminus; rewrite bpow_plus; change (bpow radix2 (- (62))) with (bpow radix2 (-62)); ring]).
  assert (P := bpow_gt_0 radix2 k). assert (E3 : bpow radix2 (k + 4 - 1) = (bpow radix2 k * 8)%R) by (replace (k + 4 - 1) with (k + 3) by ring; rewrite bpow_plus; reflexivity). assert (E4 : bpow radix2 (k + 4) = (bpow radix2 k * 16)%R) by (rewrite bpow_plus; reflexivity).
  assert (M : bpow radix2 (-62) = (/ 4611686018427387904)%R) by reflexivity. rewrite M.
  rewrite (b64_round (bpow radix2 k * _ * 8000) (k + 4) (2 ^ 52)).
  - replace (IZR (2 ^ 52) * bpow radix2 (k + 4 - 53))%R with (IZR (8 * 2 ^ k)). 2:{ replace (k + 4 - 53) with (k + -49) by ring. rewrite bpow_plus, mult_IZR, W. change (bpow radix2 (-49)) with (/ 562949953421312)%R. change (2 ^ 52) with 4503599627370496. field. }
    rewrite <- plus_IZR. rewrite double_b64; [apply trunc_int|]. exists (8 * 2 ^ k + 1), 0. split; [|cbn; ring]. assert (2 ^ k <= 2 ^ 48) by (apply Z.pow_le_mono_r; lia). assert (0 < 2 ^ k) by (apply Z.pow_pos_nonneg; lia). change (2 ^ 48) with 281474976710656 in *. change (2 ^ 53) with 9007199254740992. lia.
  - rewrite E3, E4. nra.
  - replace (53 - (k + 4)) with (49 + - k) by ring. rewrite bpow_plus, bpow_opp. change (bpow radix2 49) with 562949953421312%R. change (2 ^ 52) with 4503599627370496.
    replace (bpow radix2 k * (4611686018427388 * / 4611686018427387904) * 8000 * (562949953421312 * / bpow radix2 k))%R with (4611686018427388 * / 4611686018427387904 * 8000 * 562949953421312)%R by (field; lra). apply Rabs_def1; lra.
Qed.
(** Not for every number of milliseconds: 4007 ms gives 32056 samples, an even number. *)
Lemma c142_window_refuted : exists w, 1 <= w /\ win64 w 8000 = 8 * w.
Proof.
  exists 4007. split; [lia|]. unfold win64. rewrite milli. assert (M : bpow radix2 (-62) = (/ 4611686018427387904)%R) by reflexivity. rewrite M.
  rewrite (b64_round (4007 * _) 3 4511480926718394).
  2:{ change (bpow radix2 (3 - 1)) with 4%R. change (bpow radix2 3) with 8%R. lra. } 2:{ change (bpow radix2 (53 - 3)) with 1125899906842624%R. apply Rabs_def1; lra. }
  change (bpow radix2 (3 - 53)) with (/ 1125899906842624)%R.
  rewrite (b64_round (4511480926718394 * _ * 8000) 15 8811486184996863).
  2:{ change (bpow radix2 (15 - 1)) with 16384%R. change (bpow radix2 15) with 32768%R. lra. } 2:{ change (bpow radix2 (53 - 15)) with 274877906944%R. apply Rabs_def1; lra. }
  change (bpow radix2 (15 - 53)) with (/ 274877906944)%R.
  rewrite double_b64 by (exists 8811761062903807, (-38); split; [lia|change (bpow radix2 (-38)) with (/ 274877906944)%R; lra]).
  rewrite Ztrunc_floor by lra. apply Zfloor_imp. change (8 * 4007) with 32056. change (32056 + 1) with 32057. lra.
Qed.
(** The product w * 0.001 is not w / 1000: 1001 ms gives 8009 samples, int(1001 / 1000 * 8000 + 1) would give 8008. *)
Lemma c142_window_1001 : win64 1001 8000 = 8009 /\ Ztrunc (b64 (b64 (b64 (1001 / 1000) * 8000) + 1)) = 8008.
Proof.
  split.
  - unfold win64. rewrite milli. assert (M : bpow radix2 (-62) = (/ 4611686018427387904)%R) by reflexivity. rewrite M.
    rewrite (b64_round (1001 * _) 1 4508103226997867).
    2:{ change (bpow radix2 (1 - 1)) with 1%R. change (bpow radix2 1) with 2%R. lra. } 2:{ change (bpow radix2 (53 - 1)) with 4503599627370496%R. apply Rabs_def1; lra. }
    change (bpow radix2 (1 - 53)) with (/ 4503599627370496)%R.
    rewrite (b64_round (4508103226997867 * _ * 8000) 13 8804889115230209).
    2:{ change (bpow radix2 (13 - 1)) with 4096%R. change (bpow radix2 13) with 8192%R. lra. } 2:{ change (bpow radix2 (53 - 13)) with 1099511627776%R. apply Rabs_def1; lra. }
    change (bpow radix2 (13 - 53)) with (/ 1099511627776)%R.
    rewrite double_b64 by (exists 8805988626857985, (-40); split; [lia|change (bpow radix2 (-40)) with (/ 1099511627776)%R; lra]).
    rewrite Ztrunc_floor by lra. apply Zfloor_imp. change (8009 + 1) with 8010. lra.
  - rewrite (b64_round (1001 / 1000) 1 4508103226997866).
    2:{ change (bpow radix2 (1 - 1)) with 1%R. change (bpow radix2 1) with 2%R. lra. } 2:{ change (bpow radix2 (53 - 1)) with 4503599627370496%R. apply Rabs_def1; lra. }
    change (bpow radix2 (1 - 53)) with (/ 4503599627370496)%R.
    rewrite (b64_round (4508103226997866 * _ * 8000) 13 8804889115230207).
    2:{ change (bpow radix2 (13 - 1)) with 4096%R. change (bpow radix2 13) with 8192%R. lra. } 2:{ change (bpow radix2 (53 - 13)) with 1099511627776%R. apply Rabs_def1; lra. }
    change (bpow radix2 (13 - 53)) with (/ 1099511627776)%R.
    rewrite double_b64 by (exists 8805988626857983, (-40); split; [lia|change (bpow radix2 (-40)) with (/ 1099511627776)%R; lra]).
    rewrite Ztrunc_floor by lra. apply Zfloor_imp. change (8008 + 1) with 8009. lra.
Qed.
Lemma c142_pulses : pulse64 (192 / 1000) 8000 = 1535 /\ pulse64 (196 / 1000) 8000 = 1567.
Proof.
  unfold pulse64. split.
  - rewrite (b64_round (192 / 1000) (-2) 6917529027641082). 2:{ change (bpow radix2 (-2 - 1)) with (/ 8)%R. change (bpow radix2 (-2)) with (/ 4)%R. lra. } 2:{ change (bpow radix2 (53 - -2)) with 36028797018963968%R. apply Rabs_def1; lra. }
    change (bpow radix2 (-2 - 53)) with (/ 36028797018963968)%R. rewrite (b64_round _ 11 6755399441055744). 2:{ change (bpow radix2 (11 - 1)) with 1024%R. change (bpow radix2 11) with 2048%R. lra. } 2:{ change (bpow radix2 (53 - 11)) with 4398046511104%R. apply Rabs_def1; lra. }
    change (bpow radix2 (11 - 53)) with (/ 4398046511104)%R. replace (6755399441055744 * / 4398046511104)%R with (IZR 1536) by lra. now rewrite trunc_int.
  - rewrite (b64_round (196 / 1000) (-2) 7061644215716938). 2:{ change (bpow radix2 (-2 - 1)) with (/ 8)%R. change (bpow radix2 (-2)) with (/ 4)%R. lra. } 2:{ change (bpow radix2 (53 - -2)) with 36028797018963968%R. apply Rabs_def1; lra. }
    change (bpow radix2 (-2 - 53)) with (/ 36028797018963968)%R. rewrite (b64_round _ 11 6896136929411072). 2:{ change (bpow radix2 (11 - 1)) with 1024%R. change (bpow radix2 11) with 2048%R. lra. } 2:{ change (bpow radix2 (53 - 11)) with 4398046511104%R. apply Rabs_def1; lra. }
    change (bpow radix2 (11 - 53)) with (/ 4398046511104)%R. replace (6896136929411072 * / 4398046511104)%R with (IZR 1568) by lra. now rewrite trunc_int.
Qed.

(** *** What a pulse changes in the transform with a rectangular window *)
Lemma bump_len x p v : zlen (bump x p v) = zlen x.
Proof. unfold bump. rewrite zlen_map_arange; unfold zlen; lia. Qed.
Lemma bump_at x p v k : 0 <= k < zlen x -> cnth (bump x p v) k = (if k =? p then cnth x k + v else cnth x k)%C.
Proof. intros H. unfold bump. rewrite cnth_map_arange by lia. now rewrite Z.add_0_l. Qed.
Lemma nth_rep {A} (a d : A) m : forall k, (k < m)%nat -> nth k (repeat a m) d = a.
Proof. induction m; intros k H; [lia|]. destruct k; [reflexivity|]. cbn [repeat nth]. apply IHm. lia. Qed.
Lemma ones_win h t : 0 <= h -> winf (repeat (RtoC 1) (Z.to_nat (2 * h + 1))) t = if Z.abs t <=? h then RtoC 1 else RtoC 0.
Proof.
  intros H. unfold winf, zlen. cbv zeta. rewrite repeat_length, Z2Nat.id by lia. replace ((2 * h + 1 - 1) / 2) with h by (Z.to_euclidean_division_equations; lia).
  destruct (Z.leb_spec (Z.abs t) h), (Z.leb_spec (- h) t), (Z.leb_spec t h); cbn [andb]; try lia; try reflexivity. unfold cnth. apply nth_rep. lia.
Qed.
Lemma STFT_bump x p v h n f c : 0 <= h -> 0 <= p < zlen x -> let w := repeat (RtoC 1) (Z.to_nat (2 * h + 1)) in
  STFT (bump x p v) w n f c = (STFT x w n f c + if Z.abs (p - c) <=? h then v * root n (- (f * (p - c))) else RtoC 0)%C.
Proof.
  intros Hh Hp w. unfold STFT. rewrite bump_len.
  transitivity (csum (arange 0 (zlen x)) (fun k => sigf x k * Cconj (winf w (k - c)) * root n (- (f * (k - c))) + (if k =? p then v * Cconj (winf w (p - c)) * root n (- (f * (p - c))) else RtoC 0))%C).
  - apply csum_ext. intros k Hk. apply in_arange in Hk. unfold sigf. rewrite bump_len. destruct (Z.leb_spec 0 k), (Z.ltb_spec k (zlen x)); cbn [andb]; try lia. rewrite bump_at by lia. destruct (Z.eqb_spec k p) as [->|]; ring.
  - rewrite csum_plus. f_equal. rewrite (csum_single _ p); [|apply NoDup_arange|apply in_arange; lia|intros k _ Q; destruct (Z.eqb_spec k p); [congruence|reflexivity]]. rewrite Z.eqb_refl. unfold w. rewrite ones_win by exact Hh. destruct (Z.abs (p - c) <=? h); rewrite Cconj_R; ring.
Qed.
Lemma c142_seen : forall x ts n h p v, 0 <= h -> 2 * h < n -> 0 <= p < zlen x -> let w := repeat (RtoC 1) (Z.to_nat (2 * h + 1)) in
  exists o o', stft x (Some ts) (Some n) (Some w) = Ok o /\ stft (bump x p v) (Some ts) (Some n) (Some w) = Ok o' /\
  forall f c, 0 <= f < n -> 0 <= c < ts_len ts ->
    (p - h <= c - 1 <= p + h -> Cmod (at2 (r_tfr o') f c - at2 (r_tfr o) f c)%C = Cmod v) /\
    (c - 1 < p - h \/ p + h < c - 1 -> at2 (r_tfr o') f c = at2 (r_tfr o) f c).
Proof.
  intros x ts n h p v Hh Hn Hp w. destruct (c09_stft_total x ts n w ltac:(lia)) as (o & Ho & _). destruct (c09_stft_total (bump x p v) ts n w ltac:(lia)) as (o' & Ho' & _). exists o, o'. split; [exact Ho|]. split; [exact Ho'|]. intros f c Hf Hc.
  assert (WL : 2 * ((zlen w - 1) / 2) < n) by (unfold w, zlen; rewrite repeat_length, Z2Nat.id by lia; Z.to_euclidean_division_equations; lia).
  destruct (c11_stft_closed_form x ts n w f c ltac:(lia) WL Hf Hc) as (o1 & H1 & V1). destruct (c11_stft_closed_form (bump x p v) ts n w f c ltac:(lia) WL Hf Hc) as (o2 & H2 & V2). assert (o1 = o) by congruence. assert (o2 = o') by congruence. subst o1 o2. rewrite V1, V2. unfold w. rewrite STFT_bump by auto. fold w.
  split; intros B; destruct (Z.leb_spec (Z.abs (p - (c - 1))) h); try lia.
  - replace (STFT x w n f (c - 1) + v * root n (- (f * (p - (c - 1)))) - STFT x w n f (c - 1))%C with (v * root n (- (f * (p - (c - 1)))))%C by ring. rewrite Cmod_mult. unfold root. rewrite Cmod_cis. ring.
  - ring.
Qed.
(** The signal of the two programs, and signal[p] += v for every integer p. *)
Lemma c142_signal : forall n fs f g, 0 <= n -> fs <> 0 -> let x := two_sines n fs f g in zlen x = n /\
  (forall k, 0 <= k < n -> cnth x k = RtoC (sin (2 * PI * f * IZR k / IZR fs) + sin (2 * PI * g * IZR k / IZR fs))) /\
  forall a b T k, f = IZR a -> g = IZR b -> (fs | a * T) -> (fs | b * T) -> 0 <= k < n -> 0 <= k + T < n -> cnth x (k + T) = cnth x k.
Proof.
  intros n fs f g Hn Hs x. assert (FZ : IZR fs <> 0%R) by (apply IZR_neq; lia).
  assert (V : forall k, 0 <= k < n -> cnth x k = RtoC (sin (2 * PI * f * IZR k / IZR fs) + sin (2 * PI * g * IZR k / IZR fs))) by (intros k Hk; unfold x, two_sines; rewrite cnth_map_arange by lia; rewrite Z.add_0_l; do 2 f_equal; f_equal; field; auto).
  split; [unfold x, two_sines; rewrite zlen_map_arange; lia|]. split; [exact V|]. intros a b T k -> -> [u Hu] [v Hv] Hk HT. rewrite !V by auto.
  assert (P : forall c z, c * T = z * fs -> sin (2 * PI * IZR c * IZR (k + T) / IZR fs) = sin (2 * PI * IZR c * IZR k / IZR fs)).
  { intros c z E. apply (f_equal IZR) in E. rewrite !mult_IZR in E. replace (2 * PI * IZR c * IZR (k + T) / IZR fs)%R with (2 * PI * IZR c * IZR k / IZR fs + 2 * PI * IZR z)%R. 2:{ rewrite plus_IZR. replace (2 * PI * IZR c * (IZR k + IZR T) / IZR fs)%R with (2 * PI * IZR c * IZR k / IZR fs + 2 * PI * (IZR c * IZR T) / IZR fs)%R by (field; auto). rewrite E. field. auto. }
    rewrite sin_plus. assert (W := cis_2PI_k z). assert (W1 := f_equal fst W). assert (W2 := f_equal snd W). cbn in W1, W2. rewrite W1, W2. ring. }
  now rewrite (P a u Hu), (P b v Hv).
Qed.
Lemma c142_index : forall x p v, (0 <= p < zlen x -> add_at x p v = Ok (bump x p v)) /\ (- zlen x <= p < 0 -> add_at x p v = Ok (bump x (zlen x + p) v)) /\ (p < - zlen x \/ zlen x <= p -> add_at x p v = Raise IndexError) /\
  forall q, zlen (bump x q v) = zlen x /\ forall k, 0 <= k < zlen x -> cnth (bump x q v) k = (cnth x k + if k =? q then v else RtoC 0)%C.
Proof.
  intros x p v. unfold add_at. split; [|split; [|split]].
  - intros H. rewrite Z.mod_small by lia. destruct (Z.leb_spec (- zlen x) p), (Z.ltb_spec p (zlen x)); cbn [andb]; try lia. reflexivity.
  - intros H. replace (p mod zlen x) with (zlen x + p) by (apply (Z.mod_unique p (zlen x) (-1)); lia). destruct (Z.leb_spec (- zlen x) p), (Z.ltb_spec p (zlen x)); cbn [andb]; try lia. reflexivity.
  - intros H. destruct (Z.leb_spec (- zlen x) p), (Z.ltb_spec p (zlen x)); cbn [andb]; try lia; reflexivity.
  - intros q. split; [apply bump_len|]. intros k Hk. rewrite bump_at by exact Hk. destruct (k =? q); ring.
Qed.
(** Columns that see both pulses. *)
Definition both (h p q cols : Z) : list Z := filter (fun c => (Z.abs (p - (c - 1)) <=? h) && (Z.abs (q - (c - 1)) <=? h)) (arange 0 cols).
Lemma c142_both : forall h p q cols, 0 <= h -> h <= p <= q -> q + h + 2 <= cols -> zlen (both h p q cols) = Z.max 0 (2 * h + 1 - (q - p)).
Proof.
  intros h p q cols Hh Hp Hq. unfold both. destruct (Z_lt_le_dec (2 * h) (q - p)) as [L|L].
  - replace (filter _ _) with (@nil Z); [change (zlen (@nil Z)) with 0; lia|]. symmetry. assert (N : forall l, filter (fun c => (Z.abs (p - (c - 1)) <=? h) && (Z.abs (q - (c - 1)) <=? h)) l = []); [|apply N]. induction l as [|c l IH]; [reflexivity|]. cbn [filter]. destruct (Z.leb_spec (Z.abs (p - (c - 1))) h), (Z.leb_spec (Z.abs (q - (c - 1))) h); cbn [andb]; auto; lia.
  - rewrite (arange_app 0 (q - h + 1) cols), (arange_app (q - h + 1) (p + h + 2) cols) by lia. rewrite !filter_app. 
    assert (N : forall l, (forall c, In c l -> c - 1 < q - h \/ p + h < c - 1) -> filter (fun c => (Z.abs (p - (c - 1)) <=? h) && (Z.abs (q - (c - 1)) <=? h)) l = []).
    { induction l as [|c l IH]; intros B; [reflexivity|]. cbn [filter]. specialize (B c (or_introl eq_refl)) as B0. destruct (Z.leb_spec (Z.abs (p - (c - 1))) h), (Z.leb_spec (Z.abs (q - (c - 1))) h); cbn [andb]; try lia; apply IH; intros d Hd; apply B; now right. }
    rewrite (N (arange 0 _)), (N (arange (p + h + 2) _)) by (intros c Hc; apply in_arange in Hc; lia). rewrite app_nil_r. cbn [app].
    assert (K : forall l, (forall c, In c l -> q - h <= c - 1 <= p + h) -> filter (fun c => (Z.abs (p - (c - 1)) <=? h) && (Z.abs (q - (c - 1)) <=? h)) l = l).
    { induction l as [|c l IH]; intros B; [reflexivity|]. cbn [filter]. specialize (B c (or_introl eq_refl)) as B0. destruct (Z.leb_spec (Z.abs (p - (c - 1))) h), (Z.leb_spec (Z.abs (q - (c - 1))) h); cbn [andb]; try lia. f_equal. apply IH. intros d Hd. apply B. now right. }
    rewrite K by (intros c Hc; apply in_arange in Hc; lia). rewrite arange_zlen. lia.
Qed.
(** The transform that is drawn, for any parameters that put the pulses inside the signal. *)
Lemma c142_drawn : forall n fs f1 f2 t1 t2 w p q h, pulse64 t1 fs = p -> pulse64 t2 fs = q -> win64 w fs = 2 * h + 1 -> 0 <= p < n -> 0 <= q < n -> 0 <= h -> 2 * h < n ->
  exists o, doc_uncertainty n fs f1 f2 t1 t2 w = Ok o /\ zlen (r_win o) = 2 * h + 1 /\ zlen (r_tfr o) = n /\
    forall f c, 0 <= f < n -> 0 <= c < n -> at2 (r_tfr o) f c = (STFT (two_sines n fs f1 f2) (r_win o) n f (c - 1) +
      (if Z.abs (p - (c - 1)) <=? h then RtoC 3 * root n (- (f * (p - (c - 1)))) else RtoC 0) + if Z.abs (q - (c - 1)) <=? h then RtoC 3 * root n (- (f * (q - (c - 1)))) else RtoC 0)%C.
Proof.
  intros n fs f1 f2 t1 t2 w0 p q h P1 P2 W0 Hp Hq Hh Hn. set (x0 := two_sines n fs f1 f2). assert (L0 : zlen x0 = n) by (unfold x0, two_sines; rewrite zlen_map_arange; lia). set (x1 := bump x0 p (RtoC 3)). assert (L1 : zlen x1 = n) by (unfold x1; rewrite bump_len; exact L0). set (x2 := bump x1 q (RtoC 3)). assert (L2 : zlen x2 = n) by (unfold x2; rewrite bump_len; exact L1).
  set (w := repeat (RtoC 1) (Z.to_nat (2 * h + 1))). assert (WZ : zlen w = 2 * h + 1) by (unfold w, zlen; rewrite repeat_length; lia). assert (WL : 2 * ((zlen w - 1) / 2) < n) by (rewrite WZ; Z.to_euclidean_division_equations; lia).
  assert (AD : forall x r, zlen x = n -> 0 <= r < n -> add_at x r (RtoC 3) = Ok (bump x r (RtoC 3))). { intros x r Lx Hr. unfold add_at. rewrite Lx, Z.mod_small by lia. destruct (Z.leb_spec (- n) r), (Z.ltb_spec r n); cbn [andb]; try lia. reflexivity. }
  assert (D : doc_uncertainty n fs f1 f2 t1 t2 w0 = stft x2 (Some (TsI (arange 0 n))) (Some n) (Some w)).
  { unfold doc_uncertainty. rewrite P1, P2, W0. fold x0 w. rewrite (AD x0 p L0 Hp). cbn [bind]. fold x1. rewrite (AD x1 q L1 Hq). cbn [bind]. fold x2. unfold stft, base_init. cbv zeta. rewrite L2. reflexivity. }
  assert (TL : ts_len (TsI (arange 0 n)) = n) by (cbn [ts_len]; rewrite arange_zlen; lia).
  destruct (c09_stft_total x2 (TsI (arange 0 n)) n w ltac:(lia)) as (o & Ho & _ & T & _). exists o. split; [now rewrite D|].
  assert (WO : r_win o = w). { unfold stft, stft_run in Ho. destruct (stft_tfr _ _ _ _ _); [|discriminate]. cbn [bind] in Ho. injection Ho as <-. reflexivity. }
  rewrite WO. split; [exact WZ|]. split; [now rewrite T|]. intros f c Hf Hc. destruct (c11_stft_closed_form x2 (TsI (arange 0 n)) n w f c ltac:(lia) WL Hf ltac:(lia)) as (o1 & H1 & V1). assert (o1 = o) by congruence. subst o1. rewrite V1. unfold x2, w. rewrite STFT_bump by lia. unfold x1. rewrite STFT_bump by lia. reflexivity.
Qed.
(** The program: only the shortest of its windows keeps the two pulses apart. *)
Lemma c142_program : forall k, 1 <= k <= 4 -> let h := 4 * 2 ^ k in
  pulse64 (192 / 1000) 8000 = 1535 /\ pulse64 (196 / 1000) 8000 = 1567 /\ win64 (2 ^ k) 8000 = 2 * h + 1 /\ 2 * h < 2048 /\
  zlen (both h 1535 1567 2048) = match k with 1 => 0 | 2 => 1 | 3 => 33 | _ => 97 end.
Proof.
  intros k Hk h. assert (HK : 8 <= h <= 64) by (assert (k = 1 \/ k = 2 \/ k = 3 \/ k = 4) as [-> | [-> | [-> | ->]]] by lia; unfold h; cbn; lia).
  destruct c142_pulses as [P1 P2]. split; [exact P1|]. split; [exact P2|]. split; [rewrite c142_window by lia; unfold h; ring|]. split; [lia|].
  rewrite c142_both by lia. unfold h. assert (k = 1 \/ k = 2 \/ k = 3 \/ k = 4) as [-> | [-> | [-> | ->]]] by lia; reflexivity.
Qed.
(** Five samples of one cycle: 0, 1, 0, -1, 0; bin 1 of 5 holds sin(pi/5) / cos(2 pi/5) in modulus. *)
Example c142_example : map (rnth (touch 5 1 1)) [0; 1; 2; 3; 4] = [0; 1; 0; -1; 0]%R /\ (Cmod (sine_bin 5 1 1) * Rabs (cos (2 * PI * 1 / 5)) = sin (PI * 1 / 5))%R.
Proof.
  assert (HP := PI_RGT_0). split.
  - cbn [map]. destruct (c142_touch 5 1 1 ltac:(lia)) as (_ & Z0 & Z4 & MI & _). assert (E1 : rnth (touch 5 1 1) 1 = 1%R) by (rewrite touch_at by lia; replace (2 * PI * 1 * (IZR 1 / IZR (5 - 1)))%R with (PI / 2)%R by (change (5 - 1) with 4; field); rewrite sin_PI2; field).
    assert (E3 := MI 1 ltac:(lia)). assert (E2 := MI 2 ltac:(lia)). change (5 - 1 - 1) with 3 in E3. change (5 - 1 - 2) with 2 in E2. change (5 - 1) with 4 in Z4. rewrite Z0, Z4, E1, E3, E1. replace (rnth (touch 5 1 1) 2) with 0%R by lra. repeat f_equal; lra.
  - assert (G := c142_sine 5 1 1 ltac:(lia)). cbv zeta in G. change (5 - 1) with 4 in G. assert (E := f_equal Cmod G). replace (2 * PI * 1 / 4)%R with (PI / 2)%R in E by field. rewrite cos_PI2, sin_PI2, Rminus_0_r in E.
    assert (F : (0 < 1 - 0)%R) by lra. destruct (c142_leak 5 1 ltac:(lia) ltac:(lia) ltac:(lia)) as [_ L]. destruct (L 1 ltac:(lia)) as [_ M]. change (5 - 1) with 4 in M. replace (2 * PI * 1 / 4)%R with (PI / 2)%R in M by field. rewrite cos_PI2, sin_PI2, Rminus_0_r, Rabs_R1, Rmult_1_l in M. exact M.
Qed.
