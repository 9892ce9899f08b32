(** C133: what the programs of the docstrings show, for all sizes and parameters. *)
From Coq Require Import Reals ZArith List Lia Lra Bool.
From Coquelicot Require Import Coquelicot.
From Flocq Require Import Core.
From Verif Require Import Py Scalars CSum DFT Spec M_base M_stft M_reas M_post M_dom M_gen1 M_gen2 M_gen3 M_gallery M_docs P_base P_stft P_wvd T_putils T_stft T_post2 T_dom T_gen1 T_gen2 T_noise T_tone T_gallery T_gallery3 T_nd.
Import ListNotations.
Local Open Scope Z_scope.

Lemma sin_bound a : a <> 0%R -> (-1 < sin a / a < 1)%R.
Proof.
  intros Ha. assert (P : forall x, (0 < x)%R -> (-1 < sin x / x < 1)%R).
  { intros x Hx. assert (U := sin_lt_x x Hx). assert (L : (- x < sin x)%R). { destruct (Rlt_dec x PI) as [Q|Q]; [assert (S := sin_gt_0 x Hx Q); lra|]. assert (S := SIN_bound x). assert (V := PI_RGT_0). assert (V2 := PI2_1). lra. }
    split; apply (Rmult_lt_reg_r x); try lra; unfold Rdiv; rewrite Rmult_assoc, Rinv_l by lra; lra. }
  destruct (Rlt_dec 0 a) as [Q|Q]; [now apply P|]. replace (sin a / a)%R with (sin (- a) / - a)%R by (rewrite sin_neg; field; lra). apply P. lra.
Qed.

(** inst_freq of a sinusoidal modulation: the law one sample earlier, its deviation
    from the mid frequency shrunk by sin(a) / a with a = 2 pi / period. *)
Lemma c133_inst_freq : forall ang n fmin fmax per, (forall k z, is_angle z (ang k z)) -> 2 <= n -> (0 <= fmin < fmax)%R -> (fmax <= 1 / 2)%R -> per <> 0%R ->
  let a := (2 * PI / per)%R in let mid := ((fmin + fmax) / 2)%R in
  exists law fs, doc_inst_freq ang n fmin fmax per = Ok (Some (law, fs, arange 2 n)) /\ zlen law = n /\ zlen fs = n - 2 /\
  forall k, 0 <= k < n - 2 -> rnth fs k = (mid + (rnth law (k + 1) - mid) * (sin a / a))%R /\ (fmin < rnth fs k < fmax)%R.
Proof.
  intros ang n fmin fmax per HA Hn Hf Hf2 Hp a mid. assert (HP := PI_RGT_0).
  destruct (c57_fmsin n fmin fmax per (IZR n / 2) mid 1 ltac:(lra) Hp ltac:(unfold mid; lra) ltac:(auto)) as (E & _ & B & _). cbv zeta in *.
  set (p := sin_p fmin fmax per mid 1) in *. set (lw := sin_law fmin fmax per mid 1) in *.
  set (x := map (fun k => cis (p (IZR k - IZR n / 2)%R)) (arange 0 n)) in *. set (law := map (fun k => lw (IZR k - IZR n / 2)%R) (arange 0 n)) in *.
  assert (LX : zlen x = n) by (unfold x; rewrite zlen_map_arange; lia). assert (LL : zlen law = n) by (unfold law; rewrite zlen_map_arange; lia).
  destruct (c51_default ang x) as (fs & EF & LF). rewrite LX in EF, LF. rewrite Z.max_r in LF by lia.
  exists law, fs. split.
  { unfold doc_inst_freq. replace (fmsin n fmin fmax (Some per) None None 1) with (fmsin n fmin fmax (Some per) (Some (IZR n / 2)%R) (Some mid) 1).
    - rewrite E. cbn [bind]. rewrite EF. reflexivity.
    - unfold fmsin. replace mid with (1 / 2 * (fmin + fmax))%R by (unfold mid; field). reflexivity. }
  split; [exact LL|]. split; [exact LF|]. intros k Hk.
  assert (NA : a <> 0%R). { unfold a. intros Q. apply (Rmult_eq_compat_r per) in Q. unfold Rdiv in Q. rewrite Rmult_assoc, Rinv_l in Q by auto. lra. }
  assert (SB := sin_bound a NA). set (s := (sin a / a)%R) in *.
  assert (VL : rnth law (k + 1) = lw (IZR k + 1 - IZR n / 2)%R) by (unfold law; rewrite rnth_map_arange by lia; f_equal; rewrite Z.add_0_l, plus_IZR; ring).
  set (v := (mid + (rnth law (k + 1) - mid) * s)%R).
  assert (VB : (fmin < v < fmax)%R). { specialize (B (IZR k + 1 - IZR n / 2)%R). rewrite <- VL in B. unfold v, mid. set (q := rnth law (k + 1)) in *. set (h := ((fmax - fmin) / 2)%R). assert (H0 : (0 < h)%R) by (unfold h; lra).
    assert (D : (- h <= q - (fmin + fmax) / 2 <= h)%R) by (unfold h; lra). set (d := (q - (fmin + fmax) / 2)%R) in *.
    assert (A : (d * s < h /\ - h < d * s)%R) by (apply Rabs_def2; rewrite Rabs_mult; assert (D1 : (Rabs d <= h)%R) by (apply Rabs_le; exact D); assert (S1 : (Rabs s < 1)%R) by (apply Rabs_def1; lra); assert (S0 := Rabs_pos s); apply Rle_lt_trans with (h * Rabs s)%R; [apply Rmult_le_compat_r; lra|nra]). unfold h in A. lra. }
  assert (PH : (p (IZR (k + 2) - IZR n / 2) - p (IZR k - IZR n / 2) = 4 * PI * v)%R).
  { unfold v. rewrite VL. unfold p, lw, sin_p, sin_law. fold mid. set (phi := sin_phi fmin fmax mid 1). rewrite plus_IZR. set (t := (IZR k + 1 - IZR n / 2)%R).
    replace (IZR k + 2 - IZR n / 2)%R with (t + 1)%R by (unfold t; ring). replace (IZR k - IZR n / 2)%R with (t - 1)%R by (unfold t; ring).
    replace (2 * PI * (t + 1) / per + phi)%R with (2 * PI * t / per + phi + a)%R by (unfold a; field; auto). replace (2 * PI * (t - 1) / per + phi)%R with (2 * PI * t / per + phi - a)%R by (unfold a; field; auto).
    set (th := (2 * PI * t / per + phi)%R). rewrite sin_plus, sin_minus. unfold s, mid, a. field; repeat split; first [exact Hp|lra]. }
  assert (F : rnth fs k = v).
  { destruct (c51_exact ang x None fs (arange 2 n) k 1 1 (p (IZR (k + 2) - IZR n / 2)%R) (p (IZR k - IZR n / 2)%R) HA EF) as [X _].
    - rewrite arange_zlen. lia.
    - lra.
    - lra.
    - rewrite nth_arange by lia. rewrite (get_ok (RtoC 0)) by lia. fold (cnth x (2 + Z.of_nat (Z.to_nat k))). unfold x. rewrite cnth_map_arange by lia. replace (0 + (2 + Z.of_nat (Z.to_nat k))) with (k + 2) by lia. f_equal. ring.
    - rewrite nth_arange by lia. rewrite (get_ok (RtoC 0)) by lia. fold (cnth x (2 + Z.of_nat (Z.to_nat k) - 2)). unfold x. rewrite cnth_map_arange by lia. replace (0 + (2 + Z.of_nat (Z.to_nat k) - 2)) with k by lia. f_equal. ring.
    - rewrite X, PH; [field; lra|]. rewrite PH. split; nra. }
  rewrite F. split; [reflexivity|exact VB].
Qed.
(** With period 2 the modulation is invisible. *)
Lemma c133_blind : forall ang n fmin fmax, (forall k z, is_angle z (ang k z)) -> 2 <= n -> (0 <= fmin < fmax)%R -> (fmax <= 1 / 2)%R ->
  exists law fs, doc_inst_freq ang n fmin fmax 2 = Ok (Some (law, fs, arange 2 n)) /\ forall k, 0 <= k < n - 2 -> rnth fs k = ((fmin + fmax) / 2)%R.
Proof.
  intros ang n fmin fmax HA Hn H1 H2. destruct (c133_inst_freq ang n fmin fmax 2 HA Hn H1 H2 ltac:(lra)) as (law & fs & E & _ & _ & V). exists law, fs. split; [exact E|].
  intros k Hk. destruct (V k Hk) as [-> _]. replace (2 * PI / 2)%R with PI by field. rewrite sin_PI. unfold Rdiv. ring.
Qed.

(** The two laws one after the other. *)
Lemma c133_fmodany : forall n m, 2 <= n -> 1 <= m ->
  exists law s, doc_fmodany n m = Ok (Some (law, s)) /\ zlen law = n + m /\ zlen s = n + m /\
  (forall k, 0 <= k < n -> rnth law k = (1 / 2 * IZR k / IZR (n - 1))%R) /\
  (forall k, 0 <= k < m -> rnth law (n + k) = (1 / 4 + 1 / 5 * sin (2 * PI * (IZR k / IZR m - 1 / 2)))%R) /\
  (forall k, 0 <= k < n + m -> Cmod (cnth s k) = 1%R) /\ cnth s 1 = RtoC 1 /\
  (forall k, 0 < k < n + m -> cnth s k = (cnth s (k - 1) * cis (2 * PI * rnth law k))%C).
Proof.
  intros n m Hn Hm. assert (HP := PI_RGT_0).
  assert (A0 : (Rabs 0 <= 1 / 2)%R) by (rewrite Rabs_R0; lra). assert (A1 : (Rabs (1 / 2) <= 1 / 2)%R) by (rewrite Rabs_pos_eq; lra).
  destruct (c55_default n 0 (1 / 2) Hn) as [B ED].
  destruct (c55_chirp n 0 (1 / 2) (Some (IZR (half_round n))) Hn A0 A1) as (y1 & l1 & E1 & _ & L1 & V1 & _); [cbn [centre_of]; rewrite trunc_IZR; lia|].
  assert (NM : IZR m <> 0%R) by (apply not_0_IZR; lia).
  destruct (c57_fmsin m (5 / 100) (45 / 100) (IZR m) (IZR m / 2) ((5 / 100 + 45 / 100) / 2) 1 ltac:(lra) NM ltac:(lra) ltac:(auto)) as (E2 & _ & B2 & _). cbv zeta in *.
  set (lw := sin_law (5 / 100) (45 / 100) (IZR m) ((5 / 100 + 45 / 100) / 2) 1) in *. set (y2 := map _ (arange 0 m)) in E2. set (l2 := map (fun k => lw (IZR k - IZR m / 2)%R) (arange 0 m)) in *.
  assert (L2 : zlen l2 = m) by (unfold l2; rewrite zlen_map_arange; lia).
  assert (LL : zlen (l1 ++ l2) = n + m) by (unfold zlen in *; rewrite app_length; lia).
  assert (V1' : forall k, 0 <= k < n -> rnth (l1 ++ l2) k = (1 / 2 * IZR k / IZR (n - 1))%R).
  { intros k Hk. unfold rnth. rewrite app_nth1 by (unfold zlen in *; lia). fold (rnth l1 k). rewrite V1 by auto. unfold Rdiv. ring. }
  assert (V2' : forall k, 0 <= k < m -> rnth (l1 ++ l2) (n + k) = lw (IZR k - IZR m / 2)%R).
  { intros k Hk. unfold rnth. rewrite app_nth2 by (unfold zlen in *; lia). replace (Z.to_nat (n + k) - length l1)%nat with (Z.to_nat k) by (unfold zlen in *; lia). fold (rnth l2 k). unfold l2. rewrite rnth_map_arange by lia. reflexivity. }
  assert (W : within_half (l1 ++ l2)).
  { intros v Hv. destruct (In_nth _ _ 0%R Hv) as (j & Hj & EV). assert (HJ : 0 <= Z.of_nat j < n + m) by (unfold zlen in LL; lia). assert (EJ : rnth (l1 ++ l2) (Z.of_nat j) = v) by (unfold rnth; now rewrite Nat2Z.id). rewrite <- EJ.
    destruct (Z_lt_ge_dec (Z.of_nat j) n).
    - rewrite V1' by lia. assert (P : (0 <= IZR (Z.of_nat j) <= IZR (n - 1))%R) by (split; apply IZR_le; lia). assert (N1 : (0 < IZR (n - 1))%R) by (apply IZR_lt; lia). rewrite Rabs_pos_eq.
      + apply (Rmult_le_reg_r (IZR (n - 1))); [lra|]. unfold Rdiv. rewrite Rmult_assoc, Rinv_l by lra. lra.
      + unfold Rdiv. apply Rmult_le_pos; [lra|]. left. now apply Rinv_0_lt_compat.
    - replace (Z.of_nat j) with (n + (Z.of_nat j - n)) by lia. rewrite V2' by lia. specialize (B2 (IZR (Z.of_nat j - n) - IZR m / 2)%R). rewrite Rabs_pos_eq; lra. }
  assert (NE : l1 ++ l2 <> []) by (intros Q; rewrite Q in LL; unfold zlen in LL; cbn [length Z.of_nat] in LL; lia).
  destruct (c56_ok (l1 ++ l2) 1 NE W ltac:(lia) ltac:(lia)) as (s & ES).
  destruct (c56_signal None (l1 ++ l2) 1 s ES) as (LS & MS & OS & IS). rewrite LL in *. rewrite Z.mod_small in OS by lia.
  exists (l1 ++ l2), s. split.
  { unfold doc_fmodany. rewrite ED, E1. cbn [bind]. rewrite c57_fmsin_defaults, E2. cbn [bind]. rewrite ES. reflexivity. }
  split; [exact LL|]. split; [exact LS|]. split; [exact V1'|]. split; [|auto].
  intros k Hk. rewrite V2' by auto. unfold lw, sin_law, sin_phi.
  replace ((((5 / 100 + 45 / 100) / 2 - (5 / 100 + 45 / 100) / 2) / ((45 / 100 - 5 / 100) / 2)))%R with 0%R by field. rewrite acos_0.
  replace (2 * PI * (IZR k - IZR m / 2) / IZR m + - (1) * (PI / 2))%R with (- (PI / 2 - 2 * PI * (IZR k / IZR m - 1 / 2)))%R by (field; auto).
  rewrite cos_neg, cos_shift. field.
Qed.

(** Gaussian envelope times a tone or a chirp: the phase reference of the tone is
    sample c, one after the maximum of the envelope; that of the chirp is c - 1. *)
Lemma c133_fmconst : forall n c s f, 0 <= c < n -> (0 < s)%R -> (Rabs f <= 1 / 2)%R ->
  exists z, doc_fmconst n c s f = Ok (Some z) /\ zlen z = n /\
  (forall k, 0 <= k < n -> let g := exp (- PI * ((IZR k - (IZR c - 1)) / s) ^ 2) in Cmod (cnth z k) = g /\ cnth z k = (cis (2 * PI * f * IZR (k - c)) * RtoC g)%C) /\
  (1 <= c -> cnth z (c - 1) = Cconj (cis (2 * PI * f))) /\ cnth z c = RtoC (exp (- PI / s ^ 2)).
Proof.
  intros n c s f Hc Hs Hf. destruct (c53_amgauss n (IZR c) s ltac:(lia) Hs) as (a & EA & LA & _ & VA). destruct (c54_tone n f c Hc Hf) as (y & EY & LY & VY & _).
  assert (VZ : forall k, 0 <= k < n -> cnth (map (fun k => cnth y k * RtoC (rnth a k))%C (arange 0 n)) k = (cis (2 * PI * f * IZR (k - c)) * RtoC (exp (- PI * ((IZR k - (IZR c - 1)) / s) ^ 2)))%C).
  { intros k Hk. rewrite cnth_map_arange by lia. rewrite Z.add_0_l, VY, VA by lia. reflexivity. }
  exists (map (fun k => cnth y k * RtoC (rnth a k))%C (arange 0 n)). split.
  { unfold doc_fmconst. rewrite EA. cbn [bind]. rewrite EY. cbn [bind]. rewrite all_some_Some, modulated_ok, LY by lia. reflexivity. }
  split; [rewrite zlen_map_arange; lia|]. split; [|split].
  - intros k Hk g. rewrite VZ by auto. split; [|reflexivity]. rewrite Cmod_mult, Cmod_cis, Cmod_R, Rabs_pos_eq by (left; apply exp_pos). unfold g. ring.
  - intros H1. rewrite VZ by lia. replace (c - 1 - c) with (-1) by lia. rewrite minus_IZR. replace ((IZR c - 1 - (IZR c - 1)) / s)%R with 0%R by (field; lra). replace (- PI * 0 ^ 2)%R with 0%R by ring. rewrite exp_0, Cmult_1_r. rewrite <- cis_opp. f_equal. ring.
  - rewrite VZ by lia. rewrite Z.sub_diag. replace (2 * PI * f * 0)%R with 0%R by ring. rewrite cis_0, Cmult_1_l. do 2 f_equal. field. lra.
Qed.
Lemma c133_fmlin : forall n c s f1 f2, 2 <= n -> 1 <= c <= n -> (0 < s)%R -> (Rabs f1 <= 1 / 2)%R -> (Rabs f2 <= 1 / 2)%R ->
  exists z, doc_fmlin n c s f1 f2 = Ok (Some z) /\ zlen z = n /\
  (forall k, 0 <= k < n -> Cmod (cnth z k) = exp (- PI * ((IZR k - (IZR c - 1)) / s) ^ 2)) /\ cnth z (c - 1) = RtoC 1.
Proof.
  intros n c s f1 f2 Hn Hc Hs H1 H2. destruct (c53_amgauss n (IZR c) s ltac:(lia) Hs) as (a & EA & LA & _ & VA).
  destruct (c55_chirp n f1 f2 (Some (IZR c)) Hn H1 H2) as (y & l & EY & LY & _ & _ & _ & _ & MY & OY & _); [cbn [centre_of]; rewrite trunc_IZR; lia|].
  cbn [centre_of] in OY. rewrite trunc_IZR, Z.mod_small in OY by lia.
  exists (map (fun k => cnth y k * RtoC (rnth a k))%C (arange 0 n)). split.
  { unfold doc_fmlin. rewrite EA. cbn [bind]. rewrite EY. cbn [bind]. rewrite modulated_ok, LY by lia. reflexivity. }
  split; [rewrite zlen_map_arange; lia|]. split.
  - intros k Hk. rewrite cnth_map_arange by lia. rewrite Z.add_0_l, Cmod_mult, MY, VA, Cmod_R, Rabs_pos_eq by (auto; left; apply exp_pos). ring.
  - rewrite cnth_map_arange by lia. rewrite Z.add_0_l, OY, VA by lia. rewrite minus_IZR. replace ((IZR c - 1 - (IZR c - 1)) / s)%R with 0%R by (field; lra). replace (- PI * 0 ^ 2)%R with 0%R by ring. rewrite exp_0. ring.
Qed.

(** inst_freq of Doppler noise of n - 1 samples at the instants a .. b - 1. *)
Lemma c133_dopnoise : forall ang rand n sf ft dist v tc c a b L, (forall k z, is_angle z (ang k z)) -> sampler rand -> 2 <= n -> sf <> 0%R -> dist <> 0%R -> c <> 0%R ->
  (2 <= a -> b <= n - 1 -> doc_dopnoise ang rand n sf ft dist v tc c a b L = Ok None \/
   exists fs, doc_dopnoise ang rand n sf ft dist v tc c a b L = Ok (Some (fs, arange a b)) /\ zlen fs = Z.max 0 (b - a) /\ forall f, In f fs -> (0 <= f <= 1 / 2)%R) /\
  (a < b -> n - 1 < b -> doc_dopnoise ang rand n sf ft dist v tc c a b L = Ok None \/ doc_dopnoise ang rand n sf ft dist v tc c a b L = Raise IndexError).
Proof.
  intros ang rand n sf ft dist v tc c a b L HA HS Hn Hs Hd Hc. destruct (c60_dopnoise rand n sf ft dist v tc c HS Hn Hs Hd Hc) as (r & law & y & an & E & _ & _ & _ & _ & _ & HR).
  unfold doc_dopnoise. rewrite E. cbn [bind]. destruct r as [z|]; [|split; auto]. destruct HR as (LZ & _).
  destruct (c51_outcome ang z (Some (arange a b))) as [HO HI]. cbv zeta iota in *. rewrite LZ in *. split.
  - intros H1 H2. right. destruct HO as (fs & EF & LF & _); [intros i Hi; apply in_arange in Hi; lia|]. exists fs. rewrite EF. cbn [bind]. split; [reflexivity|]. split; [rewrite LF, arange_zlen; lia|].
    intros f Hf. exact (c51_range ang z _ fs _ HA EF f Hf).
  - intros H1 H2. right. rewrite HI; [reflexivity|]. exists (b - 1). split; [apply in_arange; lia|lia].
Qed.

(** Transform of a window of 2h+1 samples at frequency offset d. *)
Definition window_dft (w : list R) (d : R) : C :=
  let h := (zlen w - 1) / 2 in csum (arange (- h) (h + 1)) (fun t => RtoC (rnth w (h + t)) * cis (2 * PI * (d * IZR t)))%C.

Lemma winf_real (w : list R) t : let h := (zlen w - 1) / 2 in winf (map RtoC w) t = if (- h <=? t) && (t <=? h) then RtoC (rnth w (h + t)) else RtoC 0.
Proof. cbv zeta. unfold winf. rewrite zlen_map. destruct (_ && _); [|reflexivity]. unfold cnth, rnth. now rewrite (map_nth RtoC w 0%R). Qed.
(** Where the window sees only a tone. *)
Lemma stft_tone_part x w n f s F c0 : 1 <= n -> let h := (zlen w - 1) / 2 in 0 <= h -> 0 <= s - h -> s + h < zlen x ->
  (forall k, s - h <= k <= s + h -> cnth x k = cis (2 * PI * F * IZR (k - c0))) ->
  Cmod (STFT x (map RtoC w) n f s) = Cmod (window_dft w (F - IZR f / IZR n)).
Proof.
  intros Hn h Hh H1 H2 HX. unfold STFT. rewrite (csum_incl (arange (s - h) (s + h + 1))); [|apply NoDup_arange|apply NoDup_arange| |].
  - replace (arange (s - h) (s + h + 1)) with (arange (- h + s) (h + 1 + s)) by (f_equal; lia). rewrite arange_shift, csum_map. unfold window_dft. fold h.
    rewrite (csum_ext _ _ (fun t => cis (2 * PI * F * IZR (s - c0)) * (RtoC (rnth w (h + t)) * cis (2 * PI * ((F - IZR f / IZR n) * IZR t))))%C); [rewrite csum_scal_l, Cmod_mult, Cmod_cis; ring|].
    intros t Ht. apply in_arange in Ht. rewrite sigf_in, HX by lia. replace (t + s - s) with t by lia. rewrite winf_real. fold h. rewrite (proj2 (Z.leb_le _ _)), (proj2 (Z.leb_le _ _)) by lia. cbn [andb]. rewrite Cconj_R. unfold root.
    transitivity (RtoC (rnth w (h + t)) * (cis (2 * PI * F * IZR (t + s - c0)) * cis (2 * PI * IZR (- (f * t)) / IZR n)))%C; [ring|]. rewrite <- cis_plus.
    transitivity (RtoC (rnth w (h + t)) * (cis (2 * PI * F * IZR (s - c0)) * cis (2 * PI * ((F - IZR f / IZR n) * IZR t))))%C; [|ring]. rewrite <- cis_plus. do 2 f_equal.
    rewrite opp_IZR, mult_IZR, !minus_IZR, plus_IZR. field. apply not_0_IZR. lia.
  - intros u Hu. apply in_arange in Hu. apply in_arange. lia.
  - intros u Hu NU. rewrite in_arange in NU. rewrite winf_real. fold h. replace ((- h <=? u - s) && (u - s <=? h)) with false; [rewrite Cconj_R; ring|]. symmetry. apply andb_false_iff. destruct (Z_lt_dec (u - s) (- h)); [left; apply Z.leb_gt; lia|right; apply Z.leb_gt; lia].
Qed.
(** Two tones of n samples one after the other: each column whose window lies in one
    half shows the transform of the Hamming window about the frequency of that half;
    no entry of such a column exceeds the sum of the window, reached on the bin. *)
Lemma c133_stft : forall n f1 f2, 1 <= n -> (Rabs f1 <= 1 / 2)%R -> (Rabs f2 <= 1 / 2)%R ->
  let w := make_window (2 * n) in let h := (zlen w - 1) / 2 in
  exists o, doc_stft n f1 f2 = Ok (Some o) /\ zlen (r_tfr o) = 2 * n /\ (forall c, In c (r_tfr o) -> zlen c = 2 * n) /\
  forall f c, 0 <= f < 2 * n -> 0 <= c < 2 * n ->
    (h <= c - 1 < n - h -> Cmod (at2 (r_tfr o) f c) = Cmod (window_dft w (f1 - IZR f / (2 * IZR n)))) /\
    (n + h <= c - 1 < 2 * n - h -> Cmod (at2 (r_tfr o) f c) = Cmod (window_dft w (f2 - IZR f / (2 * IZR n)))).
Proof.
  intros n f1 f2 Hn H1 H2 w h. destruct (tone_ok n f1 Hn H1) as (y1 & l1 & E1 & L1 & V1). destruct (tone_ok n f2 Hn H2) as (y2 & l2 & E2 & L2 & V2).
  set (x := y1 ++ y2). assert (LX : zlen x = 2 * n) by (unfold x, zlen in *; rewrite app_length; lia).
  assert (NE : x <> []) by (intros Q; rewrite Q in LX; unfold zlen in LX; cbn [length Z.of_nat] in LX; lia).
  destruct (c09_stft_total_default x NE) as (o & EO & LO & LC). rewrite LX in *. exists o. split.
  { unfold doc_stft. rewrite E1. cbn [bind]. rewrite E2. cbn [bind]. rewrite !all_some_Some. fold x. rewrite EO. reflexivity. }
  split; [exact LO|]. split; [exact LC|]. intros f c Hf Hc.
  assert (W := c08_default_window (2 * n) ltac:(lia)). destruct W as (WO & WL & _). fold w in WO, WL.
  assert (HH : 0 <= h) by (unfold h; destruct (Z.eq_dec (zlen w) 0) as [Q|Q]; [rewrite Q in WO; discriminate|assert (P := zlen_nonneg w); apply Z.div_pos; lia]).
  assert (HW : 2 * h < 2 * n) by (unfold h; Z.to_euclidean_division_equations; lia).
  assert (S : at2 (r_tfr o) f c = STFT x (map RtoC w) (2 * n) f (c - 1)).
  { apply (stft_at x (TsI (arange 0 (2 * n)))); try lia; [rewrite zlen_map; fold h; lia|cbn [ts_len]; rewrite arange_zlen; lia|]. rewrite <- EO. unfold stft, base_init. rewrite LX. reflexivity. }
  rewrite S. replace (2 * IZR n)%R with (IZR (2 * n)) by (rewrite mult_IZR; reflexivity).
  assert (X1 : forall k, 0 <= k < n -> cnth x k = cnth y1 k) by (intros k Hk; unfold cnth, x; apply app_nth1; unfold zlen in L1; lia).
  assert (X2 : forall k, n <= k < 2 * n -> cnth x k = cnth y2 (k - n)) by (intros k Hk; unfold cnth, x; rewrite app_nth2 by (unfold zlen in L1; lia); f_equal; unfold zlen in L1; lia).
  split; intros HC.
  - apply (stft_tone_part x w (2 * n) f (c - 1) f1 (half_round n)); fold h; try lia. intros k Hk. rewrite X1 by lia. apply V1. lia.
  - apply (stft_tone_part x w (2 * n) f (c - 1) f2 (n + half_round n)); fold h; try lia. intros k Hk. rewrite X2, V2 by lia. replace (k - (n + half_round n)) with (k - n - half_round n) by lia. reflexivity.
Qed.
(** The window's transform is largest at offset 0, where it is the sum of the window. *)
Lemma c133_window : forall n d q, 1 <= n -> let w := make_window n in
  (Cmod (window_dft w d) <= rsum w (fun v => v))%R /\ Cmod (window_dft w (IZR q)) = rsum w (fun v => v).
Proof.
  intros n d q Hn w. destruct (c08_default_window n Hn) as (WO & WL & WB & _). fold w in WO, WL, WB. set (h := (zlen w - 1) / 2).
  assert (LW : zlen w = 2 * h + 1). { unfold h. rewrite Zodd_mod in WO. apply Zeq_bool_eq in WO. Z.to_euclidean_division_equations. lia. }
  assert (SW : rsum (arange (- h) (h + 1)) (fun t => rnth w (h + t)) = rsum w (fun v => v)).
  { rewrite (T_putils.rsum_nth w). replace (arange (- h) (h + 1)) with (arange (0 + - h) (zlen w + - h)) by (f_equal; lia). rewrite arange_shift, rsum_map. apply rsum_ext. intros k _. f_equal. lia. }
  assert (PW : forall t, In t (arange (- h) (h + 1)) -> (0 <= rnth w (h + t))%R) by (intros t Ht; apply in_arange in Ht; assert (B := WB (h + t) ltac:(lia)); lra).
  split.
  - unfold window_dft. fold h. apply Rle_trans with (1 := Cmod_csum _ _). right. rewrite <- SW. apply rsum_ext. intros t Ht. rewrite Cmod_mult, Cmod_cis, Cmod_R, Rabs_pos_eq by auto. ring.
  - unfold window_dft. fold h. rewrite (csum_ext _ _ (fun t => RtoC (rnth w (h + t)))).
    + rewrite <- (RtoC_rsum (arange (- h) (h + 1)) (fun t => rnth w (h + t))), SW, Cmod_R. apply Rabs_pos_eq. rewrite <- SW. apply rsum_nonneg. exact PW.
    + intros t _. rewrite <- mult_IZR, cis_2PI_k. ring.
Qed.

Example c133_fmodany_example : exists law s, doc_fmodany 2 2 = Ok (Some (law, s)) /\ law = [0; 1 / 2; 1 / 4; 1 / 4]%R /\ cnth s 2 = Ci /\ cnth s 3 = RtoC (-1).
Proof.
  destruct (c133_fmodany 2 2 ltac:(lia) ltac:(lia)) as (law & s & E & L & _ & V1 & V2 & _ & O & I). exists law, s. split; [exact E|].
  assert (A0 := V1 0 ltac:(lia)). assert (A1 := V1 1 ltac:(lia)). assert (A2 := V2 0 ltac:(lia)). assert (A3 := V2 1 ltac:(lia)).
  change (2 + 0) with 2 in A2. change (2 + 1) with 3 in A3. change (IZR (2 - 1)) with 1%R in A0, A1.
  replace (2 * PI * (0 / 2 - 1 / 2))%R with (- PI)%R in A2 by field. rewrite sin_neg, sin_PI in A2. replace (2 * PI * (1 / 2 - 1 / 2))%R with 0%R in A3 by field. rewrite sin_0 in A3.
  replace (1 / 4 + 1 / 5 * - 0)%R with (1 / 4)%R in A2 by field. replace (1 / 4 + 1 / 5 * 0)%R with (1 / 4)%R in A3 by field. replace (1 / 2 * 0 / 1)%R with 0%R in A0 by field. replace (1 / 2 * 1 / 1)%R with (1 / 2)%R in A1 by field.
  assert (Q : cis (2 * PI * (1 / 4)) = Ci) by (replace (2 * PI * (1 / 4))%R with (PI / 2)%R by field; unfold cis; now rewrite cos_PI2, sin_PI2).
  assert (B2 := I 2 ltac:(lia)). assert (B3 := I 3 ltac:(lia)). change (2 - 1) with 1 in B2. change (3 - 1) with 2 in B3. rewrite O, A2, Q in B2. rewrite B2, A3, Q in B3.
  split; [|split; [rewrite B2; ring|rewrite B3; apply injective_projections; cbn; ring]].
  rewrite (rl_map law), L. change (arange 0 (2 + 2)) with [0; 1; 2; 3]. cbn [map]. now rewrite A0, A1, A2, A3.
Qed.
Example c133_inst_freq_example : forall ang, (forall k z, is_angle z (ang k z)) ->
  exists law f, doc_inst_freq ang 3 0 (1 / 2) 4 = Ok (Some (law, [f], [2])) /\ rnth law 1 = (1 / 4 - sqrt 2 / 8)%R /\ f = (1 / 4 - sqrt 2 / (4 * PI))%R.
Proof.
  intros ang HA. assert (HP := PI_RGT_0). destruct (c57_fmsin 3 0 (1 / 2) 4 (3 / 2) (1 / 4) 1 ltac:(lra) ltac:(lra) ltac:(lra) ltac:(auto)) as (E & _). cbv zeta in E.
  destruct (c133_inst_freq ang 3 0 (1 / 2) 4 HA ltac:(lia) ltac:(lra) ltac:(lra) ltac:(lra)) as (law & fs & D & L & LF & V). cbv zeta in V. destruct (V 0 ltac:(lia)) as [F _]. change (0 + 1) with 1 in F.
  destruct fs as [|f [|g fs]]; [discriminate|clear LF|exfalso; unfold zlen in LF; cbn [length] in LF; lia]. change (arange 2 3) with [2] in D. exists law, f. split; [exact D|].
  assert (LA : rnth law 1 = (1 / 4 - sqrt 2 / 8)%R).
  { unfold doc_inst_freq in D. replace (fmsin 3 0 (1 / 2) (Some 4%R) None None 1) with (fmsin 3 0 (1 / 2) (Some 4%R) (Some (3 / 2)%R) (Some (1 / 4)%R) 1) in D by (unfold fmsin; replace (1 / 4)%R with (1 / 2 * (0 + 1 / 2))%R by field; reflexivity).
    rewrite E in D. cbn [bind] in D. destruct (inst_freq ang _ None) as [[ff tt]|]; cbn [bind] in D; [|discriminate]. assert (EL : map (fun k => sin_law 0 (1 / 2) 4 (1 / 4) 1 (IZR k - 3 / 2)%R) (arange 0 3) = law) by congruence.
    rewrite <- EL. rewrite rnth_map_arange by lia. unfold sin_law, sin_phi. replace ((1 / 4 - (0 + 1 / 2) / 2) / ((1 / 2 - 0) / 2))%R with 0%R by field. rewrite acos_0. change (IZR (0 + 1)) with 1%R.
    replace (2 * PI * (1 - 3 / 2) / 4 + - (1) * (PI / 2))%R with (- (PI / 2 - (- (PI / 4))))%R by field. rewrite cos_neg, cos_shift, sin_neg, sin_PI4.
    assert (S2 := sqrt_sqrt 2 ltac:(lra)). assert (P2 := sqrt_lt_R0 2 ltac:(lra)). replace (1 / sqrt 2)%R with (sqrt 2 / 2)%R by (apply (Rmult_eq_reg_r (2 * sqrt 2)); [field_simplify; [lra|lra]|nra]). field. }
  split; [exact LA|]. change (rnth [f] 0) with f in F. rewrite F, LA. replace (2 * PI / 4)%R with (PI / 2)%R by field. rewrite sin_PI2. field. lra.
Qed.
Example c133_stft_example : exists o, doc_stft 128 (1 / 4) (2 / 5) = Ok (Some o) /\ zlen (r_tfr o) = 256 /\ Cmod (at2 (r_tfr o) 64 40) = rsum (make_window 256) (fun v => v).
Proof.
  destruct (c133_stft 128 (1 / 4) (2 / 5) ltac:(lia)) as (o & E & L & _ & V); [rewrite Rabs_pos_eq; lra|rewrite Rabs_pos_eq; lra|]. change (2 * 128) with 256 in *. exists o. split; [exact E|]. split; [exact L|].
  destruct (c08_default_window 256 ltac:(lia)) as (WO & WL & _). assert (ZW : zlen (make_window 256) = 65).
  { change (256 / 4) with 64 in WL. destruct (Z.eq_dec (zlen (make_window 256)) 64) as [Q|Q]; [rewrite Q in WO; discriminate|lia]. }
  destruct (V 64 40 ltac:(lia) ltac:(lia)) as [X _]. rewrite ZW in X. change ((65 - 1) / 2) with 32 in X. rewrite X by lia.
  replace (1 / 4 - 64 / (2 * 128))%R with (IZR 0) by (simpl; field). apply (proj2 (c133_window 256 0 0 ltac:(lia))).
Qed.
