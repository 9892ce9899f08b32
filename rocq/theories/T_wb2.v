(** C86, continued: a default band of width zero. *)
From Coq Require Import Reals ZArith List Lia Lra Bool.
From Coquelicot Require Import Coquelicot.
From Flocq Require Import Core.
From Verif Require Import Py Scalars CSum DFT Spec M_base M_utils M_putils M_post M_gen1 M_gen2 M_gen3 M_aff M_wb P_base P_spec T_post T_utils T_putils T_dom T_gen1 T_gen2 T_hil T_key T_noise T_misc T_misc2 T_aff T_aff2 T_wb M_spw T_spw.
From Verif Require M_fp T_fp T_fp2.
Import ListNotations.
Local Open Scope Z_scope.

(** When the loudest part of the shifted envelope is one bin at a multiple of 0.05 the two default
    bounds coincide; with the default number of voices the call raises ValueError (a NaN is
    converted to an integer). *)
Lemma c86_empty_band : forall x z, 2 <= zlen x -> hilbert (map Re x) = Ok z ->
  let n := zlen x in let m := half_round n in
  (exists k, 0 <= k < m /\ cnth z ((k + (n + 1) / 2) mod n) <> RtoC 0) ->
  exists lo hi, bounds (envelope z m) lo hi /\
  let a := Rmax (1 / 100) (5 / 100 * IZR (Zfloor (10 * IZR lo / IZR m))) in
  let b := (5 / 100 * IZR (Zceil (10 * IZR hi / IZR m)))%R in
  (a = b -> wide_band x None None None = Raise ValueError).
Proof.
  intros x z Hn Hz n m (k & Hk & NZ). assert (LZ : zlen z = n) by (rewrite (hil_zlen _ _ Hz); now rewrite zlen_map). assert (M := middle n Hn). fold m in M.
  assert (NE : z <> []) by (intros ->; unfold zlen in LZ; cbn in LZ; lia).
  destruct (loud_bounds (envelope z m)) as (l & lo & hi & E1 & E2 & E3 & B).
  - intros v Hv. apply in_map_iff in Hv. destruct Hv as (i & <- & _). apply pow2_ge_0.
  - exists (Cmod (cnth z ((k + (n + 1) / 2) mod n)) ^ 2)%R. split; [|apply pow_lt, Cmod_gt_0, NZ]. unfold envelope. rewrite LZ. apply in_map_iff. exists k. split; [reflexivity|apply in_arange; lia].
  - exists lo, hi. split; [exact B|]. cbv zeta. intros AB. unfold wide_band. rewrite Hz. cbn [bind]. unfold wb_band. cbv zeta. rewrite LZ. fold m. rewrite envelope_eq by (auto; lia). rewrite E1. cbn [bind]. rewrite E2, E3. cbn [bind].
    assert (PM : (0 < IZR m)%R) by (apply IZR_lt; lia). destruct B as (mx & _ & BL & _).
    rewrite trunc_floor. 2:{ rewrite band_pos by lia. fold m. apply Rmult_le_pos; [|left; now apply Rinv_0_lt_compat]. assert (0 <= IZR lo)%R by (apply IZR_le; lia). lra. }
    rewrite !band_pos by lia. fold m. unfold wb_size. destruct (Req_EM_T _ _) as [_|Q]; [reflexivity|contradiction].
Qed.
Lemma root_4_half k : root 4 (k + 2) = (- root 4 k)%C.
Proof.
  rewrite root_plus, (root_half 2 ltac:(lia) : root 4 2 = _). apply injective_projections; cbn; ring.
Qed.
Lemma hil_alt : hilbert [0; 1; 0; 1]%R = Ok (map RtoC [0; 1; 0; 1]%R).
Proof.
  set (x := [0; 1; 0; 1]%R). unfold hilbert. change (zlen x =? 0) with false. cbv iota. f_equal. rewrite <- (ifft_fft (map RtoC x)) at 2. f_equal. set (X := fft (map RtoC x)). change (zlen x) with 4.
  assert (LX : zlen X = 4) by (unfold X; rewrite fft_zlen; reflexivity).
  assert (V : forall f, 0 <= f < 4 -> cnth X f = (root 4 (- f) + root 4 (- (f * 3)))%C).
  { intros f Hf. unfold X. rewrite fft_nth by (change (zlen (map RtoC x)) with 4; lia). change (zlen (map RtoC x)) with 4. change (arange 0 4) with [0; 1; 2; 3]. rewrite !csum_cons, csum_nil. change (cnth (map RtoC x) 0) with (RtoC 0). change (cnth (map RtoC x) 1) with (RtoC 1). change (cnth (map RtoC x) 2) with (RtoC 0). change (cnth (map RtoC x) 3) with (RtoC 1). replace (f * 1) with f by ring. ring. }
  assert (X1 : cnth X 1 = RtoC 0). { rewrite V by lia. change (- (1 * 3)) with (-3). change (- (1)) with (-3 + 2). rewrite root_4_half. ring. }
  assert (X3 : cnth X 3 = RtoC 0). { rewrite V by lia. change (- (3 * 3)) with (-9). change (- (3)) with (-9 + 2 + 2 + 2). rewrite !root_4_half. ring. }
  destruct X as [|a [|b [|c [|d [|? X]]]]]; unfold zlen in LX; cbn [length] in LX; try lia. change (b = RtoC 0) in X1. change (d = RtoC 0) in X3. change (arange 0 4) with [0; 1; 2; 3]. cbn [zipw]. change (hfac 4 0) with 1%R. change (hfac 4 1) with 2%R. change (hfac 4 2) with 1%R. change (hfac 4 3) with 0%R. rewrite X1, X3, !Cmult_1_r. repeat f_equal; ring.
Qed.
(** A tone at half the sampling rate, in exact arithmetic and in double precision (C116: the bin is
    exactly 5 cells of 0.05). *)
Lemma c86_empty_band_refuted : wide_band (map RtoC [0; 1; 0; 1]%R) None None None = Raise ValueError /\ M_fp.cells64 2 1 = 5%R.
Proof.
  split; [|exact (T_fp2.c116_quarter 1 ltac:(lia))]. assert (HR : half_round 4 = 2) by (destruct (half_round_spec 4) as [H|[H _]]; lia).
  destruct (c86_empty_band (map RtoC [0; 1; 0; 1]%R) (map RtoC [0; 1; 0; 1]%R) ltac:(cbn; lia) hil_alt) as (lo & hi & (mx & IM & H1 & H2 & H3 & H4 & H5) & E).
  - exists 1. change (zlen (map RtoC [0; 1; 0; 1]%R)) with 4. rewrite HR. split; [lia|]. change ((1 + (4 + 1) / 2) mod 4) with 3. change (RtoC 1 <> RtoC 0). intros Q. apply RtoC_inj in Q. lra.
  - change (zlen (map RtoC [0; 1; 0; 1]%R)) with 4 in *. rewrite HR in *.
    assert (EN : envelope (map RtoC [0; 1; 0; 1]%R) 2 = [0; 1]%R). { unfold envelope. change (zlen (map RtoC [0; 1; 0; 1]%R)) with 4. change (arange 0 2) with [0; 1]. cbn [map]. change (cnth _ ((0 + (4 + 1) / 2) mod 4)) with (RtoC 0). change (cnth _ ((1 + (4 + 1) / 2) mod 4)) with (RtoC 1). rewrite Cmod_0, Cmod_1. repeat f_equal; ring. }
    rewrite EN in *. change (zlen [0; 1]%R) with 2 in *. assert (MX : (mx = 1)%R) by (destruct IM as [[I|[I|[]]] B]; auto; specialize (B 1%R ltac:(cbn; auto)); lra). subst mx.
    assert (R0 : rnth [0; 1]%R 0 = 0%R) by reflexivity.
    assert (lo <> 0) by (intros ->; rewrite R0 in H3; lra). assert (hi <> 0) by (intros ->; rewrite R0 in H4; lra). assert (lo = 1) by lia. assert (hi = 1) by lia. subst lo hi. apply E. cbv zeta.
    replace (10 * 1 / 2)%R with (IZR 5) by field. rewrite Zfloor_IZR, Zceil_IZR. apply Rmax_right. lra.
Qed.
(** The same with one bound given.  The default lower bound is a Python float exactly when it is the
    0.01 of the list; two Python floats make 2.0 / R a ZeroDivisionError, whatever N is. *)
Lemma c86_equal_bounds : forall x z N, 2 <= zlen x -> hilbert (map Re x) = Ok z ->
  let n := zlen x in let m := half_round n in
  (exists k, 0 <= k < m /\ cnth z ((k + (n + 1) / 2) mod n) <> RtoC 0) ->
  exists lo hi, bounds (envelope z m) lo hi /\
  let a := Rmax (1 / 100) (5 / 100 * IZR (Zfloor (10 * IZR lo / IZR m))) in
  let b := (5 / 100 * IZR (Zceil (10 * IZR hi / IZR m)))%R in
  (10 * lo < m -> a = (1 / 100)%R /\ wide_band x None (Some a) N = Raise ZeroDivisionError) /\
  (m <= 10 * lo -> (1 / 100 < a)%R /\ wide_band x None (Some a) None = Raise ValueError) /\
  wide_band x (Some b) None None = Raise ValueError.
Proof.
  intros x z N Hn Hz n m (k & Hk & NZ). assert (LZ : zlen z = n) by (rewrite (hil_zlen _ _ Hz); now rewrite zlen_map). assert (M := middle n Hn). fold m in M.
  assert (NE : z <> []) by (intros ->; unfold zlen in LZ; cbn in LZ; lia).
  destruct (loud_bounds (envelope z m)) as (l & lo & hi & E1 & E2 & E3 & B).
  - intros v Hv. apply in_map_iff in Hv. destruct Hv as (i & <- & _). apply pow2_ge_0.
  - exists (Cmod (cnth z ((k + (n + 1) / 2) mod n)) ^ 2)%R. split; [|apply pow_lt, Cmod_gt_0, NZ]. unfold envelope. rewrite LZ. apply in_map_iff. exists k. split; [reflexivity|apply in_arange; lia].
  - exists lo, hi. split; [exact B|]. intros a b. assert (PM : (0 < IZR m)%R) by (apply IZR_lt; lia). destruct B as (mx & _ & BL & _). assert (P0 : (0 <= 10 * IZR lo / IZR m)%R). { apply Rmult_le_pos; [|left; now apply Rinv_0_lt_compat]. assert (0 <= IZR lo)%R by (apply IZR_le; lia). lra. }
    assert (BA : forall c, wb_band z None (Some c) = Ok (a, c)). { intros c. unfold wb_band. cbv zeta. rewrite LZ. fold m. rewrite envelope_eq by (auto; lia). rewrite E1. cbn [bind]. rewrite E2, E3. cbn [bind]. rewrite trunc_floor by (rewrite band_pos by lia; exact P0). rewrite !band_pos by lia. reflexivity. }
    assert (BB : forall c, wb_band z (Some c) None = Ok (c, b)). { intros c. unfold wb_band. cbv zeta. rewrite LZ. fold m. rewrite envelope_eq by (auto; lia). rewrite E1. cbn [bind]. rewrite E2, E3. cbn [bind]. rewrite !band_pos by lia. reflexivity. }
    unfold wide_band. rewrite Hz. cbn [bind]. rewrite BA, BB. cbn [bind]. split; [|split].
    + intros L. assert (F : Zfloor (10 * IZR lo / IZR m) = 0). { apply Zfloor_imp. split; [exact P0|]. cbn [Z.add]. apply (Rmult_lt_reg_r (IZR m)); [exact PM|]. unfold Rdiv. rewrite Rmult_assoc, Rinv_l, Rmult_1_r, Rmult_1_l by lra. rewrite <- mult_IZR. now apply IZR_lt. }
      assert (A : a = (1 / 100)%R) by (unfold a; rewrite F; apply Rmax_left; lra). split; [exact A|]. rewrite A. unfold wb_size, wb_python. destruct (Req_EM_T (1 / 100) (1 / 100)) as [_|Q]; [reflexivity|now elim Q].
    + intros L. assert (F : 1 <= Zfloor (10 * IZR lo / IZR m)). { apply Zfloor_lub. apply (Rmult_le_reg_r (IZR m)); [exact PM|]. unfold Rdiv. rewrite Rmult_assoc, Rinv_l, Rmult_1_r, Rmult_1_l by lra. rewrite <- mult_IZR. now apply IZR_le. }
      assert (A : (1 / 100 < a)%R). { unfold a. eapply Rlt_le_trans; [|apply Rmax_r]. apply IZR_le in F. lra. } split; [exact A|]. unfold wb_size, wb_python. destruct (Req_EM_T a a) as [_|Q]; [|now elim Q]. destruct (Req_EM_T a (1 / 100)); [lra|reflexivity].
    + unfold wb_size, wb_python. destruct (Req_EM_T b b) as [_|Q]; [reflexivity|now elim Q].
Qed.

(** ** C91: the default number of voices of the smoothed pseudo affine Wigner distribution *)
(** For any half length of the window, integer or not: half the number of dilations is the half
    length, rounded, in a wide band and the rounded 1 + 2 h fmax ln(fmax/fmin) in a narrow one. *)
Lemma c91_any_voices : forall x ts K h ng0 fmin fmax, (0 < fmin < fmax)%R -> (1 / 2 < num_val h)%R ->
  let b := (fmax * ln (fmax / fmin))%R in
  let mu := if Rlt_dec (2 * b) 1 then ZnearestE (1 + 2 * num_val h * b) else ZnearestE (num_val h) in
  let q := even_part (Zceil (fmax * IZR (2 * mu - 1) * ln (fmax / fmin))) in
  (q = 0 -> spw x ts K (Some h) ng0 (Some fmin) (Some fmax) None = Raise ValueError) /\
  (q <> 0 -> exists e, 1 <= e /\ q <= 2 ^ e /\ 2 ^ (e - 1) < q /\
    spw x ts K (Some h) ng0 (Some fmin) (Some fmax) None = spw x ts K (Some h) ng0 (Some fmin) (Some fmax) (Some (2 ^ e))).
Proof.
  intros x ts K h ng0 fmin fmax Hf Hh b mu q. assert (R1 := ratio_gt1 _ _ Hf). assert (U : (0 < ln (fmax / fmin))%R) by (rewrite <- ln_1; apply ln_increasing; lra). assert (P : (0 < b)%R) by (apply Rmult_lt_0_compat; lra).
  assert (MU : IZR (Zfloor (num_val (spw_mu h fmax (ln (fmax / fmin))))) = IZR mu).
  { apply f_equal. unfold spw_mu, mu. fold b. set (g := num_val h) in *. assert (EQ : (2 * g < g / b <-> 2 * b < 1)%R). { split; intros Q.
      - apply (Rmult_lt_compat_r b) in Q; [|exact P]. replace (g / b * b)%R with g in Q by (field; lra). nra.
      - apply (Rmult_lt_reg_r b); [exact P|]. replace (g / b * b)%R with g by (field; lra). nra. }
    destruct (Rlt_dec (2 * g) (g / b)) as [Q|Q]; destruct (Rlt_dec (2 * b) 1) as [W|W]; try (exfalso; tauto).
    - cbn [num_val]. rewrite Zfloor_IZR. f_equal. field. split; lra.
    - destruct h as [z|r]; cbn [num_val] in *; rewrite Zfloor_IZR; [|reflexivity]. unfold g. unfold Znearest; rewrite Zfloor_IZR; rewrite Rcompare_Lt by lra; reflexivity. }
  apply eq_IZR in MU. assert (M1 : 1 <= mu).
  { assert (X : forall r, (1 / 2 < r)%R -> 1 <= ZnearestE r). { intros r Hr. apply Z.le_ngt. intros L. assert (L0 : ZnearestE r <= 0) by lia. apply IZR_le in L0. assert (V := Znearest_half (fun n => negb (Z.even n)) r). apply Rabs_le_inv in V. lra. }
    unfold mu. destruct (Rlt_dec (2 * b) 1); apply X; [|exact Hh]. assert (0 < num_val h * b)%R by (apply Rmult_lt_0_compat; lra). lra. }
  destruct (c80_voices fmin fmax (2 * mu - 1) Hf ltac:(lia)) as [A B]. fold q in A, B.
  unfold spw. cbv zeta. cbn [bind]. unfold spw_voices. rewrite MU. split; intros Q.
  - now rewrite A by exact Q.
  - destruct (B Q) as (e & E & E1 & E2 & E3). exists e. rewrite E. exact (conj E1 (conj E2 (conj E3 eq_refl))).
Qed.
(** A half length of 2.5 is rounded to 2, the even neighbour: in the band from 0.5 / e to 0.5 the
    interval of 3 samples needs 2 voices. *)
Example c91_any_voices_example : forall x ts K ng0, spw x ts K (Some (Flt (5 / 2))) ng0 (Some (1 / 2 / exp 1)%R) (Some (1 / 2)%R) None
  = spw x ts K (Some (Flt (5 / 2))) ng0 (Some (1 / 2 / exp 1)%R) (Some (1 / 2)%R) (Some 2).
Proof.
  intros x ts K ng0. assert (E1 := exp_pos 1). assert (E2 : (1 < exp 1)%R) by (rewrite <- exp_0 at 1; apply exp_increasing; lra). assert (F : (0 < 1 / 2 / exp 1 < 1 / 2)%R). { split; [apply Rmult_lt_0_compat; [lra|now apply Rinv_0_lt_compat]|]. apply (Rmult_lt_reg_r (exp 1)); [exact E1|]. unfold Rdiv. rewrite Rmult_assoc, Rinv_l by lra. lra. }
  destruct (c91_any_voices x ts K (Flt (5 / 2)) ng0 (1 / 2 / exp 1) (1 / 2) F ltac:(cbn [num_val]; lra)) as [_ H]. replace (1 / 2 / (1 / 2 / exp 1))%R with (exp 1) in H by (field; lra). rewrite ln_exp in H. cbn [num_val] in H. destruct (Rlt_dec (2 * (1 / 2 * 1)) 1) as [Q|_]; [lra|].
  assert (N : ZnearestE (5 / 2) = 2). { unfold Znearest. assert (FL : Zfloor (5 / 2) = 2) by (apply Zfloor_imp; cbn; lra). rewrite FL. rewrite Rcompare_Eq by lra. reflexivity. }
  rewrite N in H. assert (C : Zceil (1 / 2 * IZR (2 * 2 - 1) * 1) = 2) by (apply Zceil_imp; cbn; lra). rewrite C in H. change (even_part 2) with 2 in H. destruct (H ltac:(lia)) as (e & L1 & L2 & L3 & ->). destruct (Z.eq_dec e 1) as [->|Ne]; [reflexivity|]. exfalso. assert (2 ^ 1 <= 2 ^ (e - 1)) by (apply Z.pow_le_mono_r; lia). lia.
Qed.
