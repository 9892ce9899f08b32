(** C149: the Morlet scalogram of a tone. *)
From Coq Require Import Reals ZArith List Lia Lra Bool.
From Coquelicot Require Import Coquelicot.
From Flocq Require Import Core.
From Verif Require Import Py Scalars CSum DFT Spec M_base M_utils M_putils M_dom M_gen1 M_gen2 M_gen3 M_aff P_base T_utils T_putils T_dom T_gen1 T_gen2 T_hil T_key T_noise T_misc T_misc2 T_aff T_aff2 T_cells T_nmom T_anl.
Import ListNotations.
Local Open Scope Z_scope.

(** Fourier transform of the Gaussian envelope of half-length nha (truncated at round(nha) samples), d away
    from its centre frequency. *)
Definition spread (nha d : R) : R :=
  rsum (arange (- ZnearestE nha) (ZnearestE nha + 1)) (fun s => exp (- (2 * ln 10 / nha ^ 2) * IZR s ^ 2) * cos (2 * PI * d * IZR s))%R.

Lemma sum_even K (e : Z -> R) th : 0 <= K -> (forall s, e (- s) = e s) ->
  csum (arange (- K) (K + 1)) (fun s => RtoC (e s) * cis (th * IZR s))%C = RtoC (rsum (arange (- K) (K + 1)) (fun s => e s * cos (th * IZR s))%R).
Proof.
  intros HK E. set (S := csum _ _).
  assert (S2 : S = csum (arange (- K) (K + 1)) (fun s => RtoC (e s) * Cconj (cis (th * IZR s)))%C).
  { unfold S. rewrite csum_arange_rev. apply csum_ext. intros s _. replace (- K + (K + 1) - 1 - s) with (- s) by lia. rewrite E, opp_IZR, <- cis_opp. do 2 f_equal. ring. }
  assert (D : (RtoC 2 * S = RtoC 2 * RtoC (rsum (arange (- K) (K + 1)) (fun s => e s * cos (th * IZR s))%R))%C).
  { transitivity (S + S)%C; [replace (RtoC 2) with (RtoC 1 + RtoC 1)%C by (rewrite <- RtoC_plus; apply (f_equal RtoC); ring); ring|]. rewrite S2 at 2. unfold S. rewrite <- csum_plus, RtoC_rsum, <- csum_scal_l. apply csum_ext. intros s _.
    rewrite RtoC_mult. unfold cis, Cconj, RtoC, Cplus, Cmult. cbn [fst snd]. apply injective_projections; cbn [fst snd]; ring. }
  apply (f_equal (fun z => / RtoC 2 * z)%C) in D. assert (N2 : RtoC 2 <> RtoC 0) by (intros Q; apply RtoC_inj in Q; lra). rewrite !Cmult_assoc, !Cinv_l, !Cmult_1_l in D by auto. exact D.
Qed.
Lemma cwt_tone n f c nha g t : 0 < n -> 0 <= ZnearestE nha -> ZnearestE nha <= t < n - ZnearestE nha ->
  cwt (map (fun k => c * root n (f * k))%C (arange 0 n)) (ZnearestE nha) (morlet_at nha g) t = (c * root n (f * t) * RtoC (spread nha (g - IZR f / IZR n)))%C.
Proof.
  intros Hn HK Ht. set (K := ZnearestE nha) in *. unfold cwt. rewrite zlen_map_arange, Z.sub_0_r by lia.
  rewrite (csum_incl (arange (- K + t) (K + 1 + t)) (arange 0 n)); try apply NoDup_arange.
  2:{ intros s Hs. apply in_arange in Hs. apply in_arange. lia. }
  2:{ intros s _ NS. rewrite in_arange in NS. destruct (Z.leb_spec (Z.abs (t - s)) K); [lia|]. apply Cmult_0_r. }
  rewrite csum_arange_shift, csum_arange_rev. unfold spread. fold K.
  rewrite <- (sum_even K (fun s => exp (- (2 * ln 10 / nha ^ 2) * IZR s ^ 2)) (2 * PI * (g - IZR f / IZR n))) by (auto; intros s; rewrite opp_IZR; f_equal; ring).
  rewrite <- csum_scal_l. apply csum_ext. intros s Hs. apply in_arange in Hs. replace (- K + (K + 1) - 1 - s + t) with (t - s) by lia. rewrite cnth_map_arange by lia. rewrite Z.add_0_l.
  replace (t - (t - s)) with s by lia. destruct (Z.leb_spec (Z.abs s) K); [|lia]. unfold morlet_at, root. set (ex := RtoC (exp _)).
  transitivity (c * ex * (cis (2 * PI * IZR (f * (t - s)) / IZR n) * cis (2 * PI * g * IZR s)))%C; [ring|]. transitivity (c * ex * (cis (2 * PI * IZR (f * t) / IZR n) * cis (2 * PI * (g - IZR f / IZR n) * IZR s)))%C; [|ring].
  rewrite <- !cis_plus. do 2 f_equal. repeat rewrite ?mult_IZR, ?minus_IZR. field. apply not_0_IZR. lia.
Qed.
Lemma rsum_abs {T} (l : list T) g : (Rabs (rsum l g) <= rsum l (fun a => Rabs (g a)))%R.
Proof. induction l as [|a l IH]; [rewrite !rsum_nil, Rabs_R0; lra|]. rewrite !rsum_cons. eapply Rle_trans; [apply Rabs_triang|]. lra. Qed.
(** A voice answers most to its own frequency. *)
Lemma c149_own : forall nha d, 0 <= ZnearestE nha -> (Rabs (spread nha d) <= spread nha 0)%R /\ (1 <= spread nha 0)%R.
Proof.
  intros nha d HK. split.
  - unfold spread. eapply Rle_trans; [apply rsum_abs|]. apply rsum_le. intros s _. rewrite Rabs_mult, Rabs_pos_eq by (left; apply exp_pos). apply Rmult_le_compat_l; [left; apply exp_pos|]. replace (2 * PI * 0 * IZR s)%R with 0%R by ring. rewrite cos_0. apply Rabs_le. split; [apply (COS_bound (2 * PI * d * IZR s))|apply COS_bound].
  - unfold spread. set (K := ZnearestE nha) in *. set (F := fun s => _). rewrite (arange_app (- K) 0 (K + 1)), (arange_cons 0 (K + 1)), rsum_app, rsum_cons by lia.
    assert (P : forall s, (0 <= F s)%R) by (intros s; unfold F; replace (2 * PI * 0 * IZR s)%R with 0%R by ring; rewrite cos_0, Rmult_1_r; left; apply exp_pos).
    assert (F0 : F 0 = 1%R) by (unfold F; rewrite pow_i, !Rmult_0_r, exp_0, cos_0 by lia; ring). rewrite F0.
    assert (A := rsum_nonneg (arange (- K) 0) F ltac:(intros; apply P)). assert (B := rsum_nonneg (arange (0 + 1) (K + 1)) F ltac:(intros; apply P)). lra.
Qed.
(** The normalisation (lines 244-249) counts the bins 1 + round(fmin (N - 2)) to 1 + round(fmax (N - 2)): a tone on bin f is either wholly inside or wholly outside. *)
Lemma scal_mult_tone n f c fmin fmax : 0 < 2 * f < n -> (0 < fmin < fmax)%R -> (fmax <= 1 / 2)%R ->
  let a := 1 + ZnearestE (fmin * IZR (n - 2)) in let b := 1 + ZnearestE (fmax * IZR (n - 2)) in
  scal_mult (map (fun k => c * root n (f * k))%C (arange 0 n)) n fmin fmax = if (a <=? f) && (f <=? b) then (Cmod c ^ 2 * IZR n ^ 2)%R else 0%R.
Proof.
  intros Hf Hb Hm a b. set (z := map _ _). assert (LZ : zlen z = n) by (unfold z; rewrite zlen_map_arange; lia).
  assert (N2 : (0 < IZR (n - 2))%R) by (apply IZR_lt; lia).
  assert (A0 : 0 <= ZnearestE (fmin * IZR (n - 2))). { rewrite <- (Zrnd_IZR ZnearestE 0). apply Zrnd_le. apply valid_rnd_N. cbn [IZR]. nra. }
  assert (AB : ZnearestE (fmin * IZR (n - 2)) <= ZnearestE (fmax * IZR (n - 2))). { apply Zrnd_le. apply valid_rnd_N. nra. }
  assert (BN : b <= n - 1).
  { assert (Q := Znearest_half (fun x => negb (Z.even x)) (fmax * IZR (n - 2))). apply Rabs_le_inv in Q. assert (Q2 : (IZR (ZnearestE (fmax * IZR (n - 2))) <= IZR (n - 2) / 2 + 1 / 2)%R) by nra.
    assert (2 * ZnearestE (fmax * IZR (n - 2)) <= n - 1); [|unfold b; lia]. apply le_IZR. rewrite mult_IZR. rewrite (minus_IZR n 2) in Q2 at 2. rewrite (minus_IZR n 1). lra. }
  assert (V : forall k, 0 <= k < n -> (Cmod (cnth (fft z) k) ^ 2 = if k =? f then Cmod c ^ 2 * IZR n ^ 2 else 0)%R).
  { intros k Hk. rewrite fft_nth by lia. rewrite LZ. rewrite (csum_ext _ _ (fun s => c * root n (s * (f - k)))%C).
    - rewrite csum_scal_l, root_orth by lia. destruct (Z.eqb_spec k f) as [->|NE].
      + rewrite Z.sub_diag, Z.mod_0_l by lia. cbn [Z.eqb]. rewrite Cmod_mult, Cmod_R, Rabs_pos_eq by (apply IZR_le; lia). ring.
      + destruct (Z.eqb_spec ((f - k) mod n) 0) as [E|_]; [|rewrite Cmult_0_r, Cmod_0; ring]. exfalso. apply Z.mod_divide in E; [|lia]. destruct E as [q E]. assert (q = 0) by nia. nia.
    - intros s Hs. apply in_arange in Hs. unfold z. rewrite cnth_map_arange, Z.add_0_l by lia. rewrite <- Cmult_assoc, <- root_plus. do 2 f_equal. ring. }
  unfold scal_mult. fold a b. rewrite <- (map_id (pyslice (fft z) a (b + 1))), (pyslice_map (fft z) a (b + 1) (fun v => v)), rsum_map by (rewrite ?fft_zlen; unfold a, b in *; lia).
  rewrite (rsum_ext _ _ (fun k => if k =? f then Cmod c ^ 2 * IZR n ^ 2 else 0)%R) by (intros k Hk; apply in_arange in Hk; apply V; unfold a in *; lia).
  destruct (Z.leb_spec a f), (Z.leb_spec f b); cbn [andb].
  2-4: apply rsum_0; intros k Hk; apply in_arange in Hk; destruct (Z.eqb_spec k f); [lia|reflexivity].
  rewrite (arange_app a f (b + 1)), (arange_cons f (b + 1)), rsum_app, rsum_cons, Z.eqb_refl by lia.
  rewrite (rsum_0 (arange a f)), (rsum_0 (arange (f + 1) (b + 1))); [ring| |]; intros k Hk; apply in_arange in Hk; destruct (Z.eqb_spec k f); try lia; reflexivity.
Qed.
Lemma integral_sign mat n x y v : 2 <= n -> 1 <= zlen mat -> (forall r, In r mat -> zlen r = n) -> 2 <= zlen x -> zlen y = zlen mat -> (0 <= rnth x 1 - rnth x 0)%R ->
  (forall k, 0 <= k < zlen mat - 1 -> (rnth y k <= rnth y (k + 1)%Z)%R) -> (forall i j, 0 <= i < zlen mat -> 0 <= j < n -> (0 <= ent mat i j)%R) -> integrate_2d mat n (Some x) (Some y) = Ok v -> (0 <= v)%R.
Proof.
  intros Hn Hm Hr Hx Hy Dx Dy P H. rewrite integrate_formula in H by (auto; lia). assert (IJ : forall a b : R, Ok a = Ok b -> a = b) by congruence. apply IJ in H. rewrite <- H. clear H IJ. unfold trapz. apply rsum_nonneg. intros k Hk. apply in_arange in Hk.
  assert (G : forall i, 0 <= i < zlen mat -> (0 <= (rsum (arange 0 n) (ent mat i) - ent mat i 0 / 2 - ent mat i (n - 1) / 2) * (rnth x 1 - rnth x 0))%R).
  { intros i Hi. apply Rmult_le_pos; auto. replace n with (n - 1 + 1) at 1 by lia. rewrite arange_snoc, rsum_app, rsum_cons, rsum_nil by lia. rewrite (arange_cons 0 (n - 1)), rsum_cons by lia.
    assert (A := rsum_nonneg (arange (0 + 1) (n - 1)) (ent mat i) ltac:(intros j Hj; apply in_arange in Hj; apply P; lia)). assert (B := P i 0 Hi ltac:(lia)). assert (C := P i (n - 1) Hi ltac:(lia)). lra. }
  assert (G1 := G k ltac:(lia)). assert (G2 := G (k + 1) ltac:(lia)). assert (D := Dy k ltac:(lia)). apply Rmult_le_pos; lra.
Qed.
Lemma integral_scaled mat mat' n x y v c : 2 <= n -> 1 <= zlen mat -> zlen mat' = zlen mat -> (forall r, In r mat -> zlen r = n) -> (forall r, In r mat' -> zlen r = n) -> 2 <= zlen x -> zlen y = zlen mat ->
  (forall i j, 0 <= i < zlen mat -> 0 <= j < n -> ent mat' i j = (c * ent mat i j)%R) -> integrate_2d mat n (Some x) (Some y) = Ok v -> integrate_2d mat' n (Some x) (Some y) = Ok (c * v)%R.
Proof.
  intros Hn Hm L Hr Hr' Hx Hy E H. rewrite integrate_formula in * by (auto; lia). assert (IJ : forall a b : R, Ok a = Ok b -> a = b) by congruence. apply IJ in H. rewrite <- H. clear H IJ. f_equal. rewrite L. unfold trapz. rewrite <- rsum_scal_l. apply rsum_ext. intros k Hk. apply in_arange in Hk.
  assert (S : forall i, 0 <= i < zlen mat -> rsum (arange 0 n) (ent mat' i) = (c * rsum (arange 0 n) (ent mat i))%R). { intros i Hi. rewrite <- rsum_scal_l. apply rsum_ext. intros j Hj. apply in_arange in Hj. apply E; lia. }
  rewrite !S, !E by lia. unfold Rdiv. ring.
Qed.
(** The scalogram of a tone on bin f of N: away from the edges every voice is constant in time, and its
    level is the squared transform of its envelope at the distance of the tone, over its scale.  A tone outside the band gives zero. *)
Lemma c149_tone : forall x ts fmin fmax wp c f m t g wt, let n := zlen x in
  (forall k, 0 <= k < n -> Re (cnth x k) = Re (c * root n (f * k))%C) -> 0 < 2 * f < n -> c <> RtoC 0 -> (0 < fmin < fmax)%R -> (fmax <= 1 / 2)%R -> (1 / 2 < wp)%R ->
  scalogram x ts (Some fmin) (Some fmax) None (Some (Wnum wp)) = Ok (Some m, t, g, wt) ->
  let lo := 1 + ZnearestE (fmin * IZR (n - 2)) in let hi := 1 + ZnearestE (fmax * IZR (n - 2)) in
  let a := fun i => Rpower (fmax / fmin) (1 - IZR i / IZR (n - 1)) in let h := fun i => (fmin * Rpower (fmax / fmin) (IZR i / IZR (n - 1)))%R in
  (lo <= f <= hi -> exists k, (0 < k)%R /\ forall i j, 0 <= i < n -> ZnearestE (wp * a i) <= j < n - ZnearestE (wp * a i) -> ent m i j = (k * (spread (wp * a i) (h i - IZR f / IZR n)) ^ 2 / a i)%R) /\
  (~ lo <= f <= hi -> forall i j, 0 <= i < n -> 0 <= j < n -> ent m i j = 0%R).
Proof.
  intros x ts fmin fmax wp c f m t g wt n X Hf C0 Hb Hm Hw H lo hi a h. assert (N2 : 2 <= zlen x) by (unfold n in Hf; lia).
  destruct (c83_scalogram x ts fmin fmax wp N2 Hb (or_introl Hw)) as (z & Hz & tfr & E & J & HJ & J0 & J1). fold n in Hz, E, HJ, J0, J1. rewrite E in H.
  assert (ET : tfr = Some m) by congruence. destruct (Req_dec J 0) as [Q|JN]; [rewrite (J0 Q) in ET; discriminate|]. destruct (J1 JN) as (m' & Em & Lm & Rm & k & V & I). assert (m' = m) by congruence. subst m'. clear J0 J1 E ET Em.
  assert (EX : map (fun v => Re v - rsum x Re / IZR n)%R x = map (fun k => Re (c * root n (f * k))%C) (arange 0 n)).
  { assert (M0 : rsum x Re = 0%R).
    { rewrite (list_as_map x), rsum_map. fold n. rewrite (rsum_ext _ _ (fun k => Re (c * root n (k * f))%C)) by (intros j Hj; apply in_arange in Hj; rewrite X by lia; do 3 f_equal; lia). rewrite <- Re_csum, csum_scal_l, root_orth by lia.
      destruct (Z.eqb_spec (f mod n) 0) as [Q|_]; [rewrite Z.mod_small in Q by lia; lia|]. rewrite Cmult_0_r. reflexivity. }
    rewrite M0. rewrite (list_as_map x) at 1. rewrite map_map. fold n. apply map_ext_in. intros j Hj. apply in_arange in Hj. rewrite X by lia. unfold Rdiv. ring. }
  rewrite EX, c144_tone in Hz by lia. assert (IZ : forall u v : list C, Ok u = Ok v -> u = v) by congruence. apply IZ in Hz. subst z. clear IZ. set (z := map (fun k => c * root n (f * k))%C (arange 0 n)) in *.
  assert (A1 : forall i, 0 <= i < n -> (1 <= scal_a fmin fmax n i)%R) by (intros i Hi; apply (scal_a_at fmin fmax n i Hb); unfold n in *; lia).
  assert (V0 : forall i j, 0 <= i < n -> (0 <= voice z fmin fmax wp n i j)%R).
  { intros i j Hi. specialize (A1 i Hi). unfold voice. cbv zeta. destruct (Rlt_dec 0 wp); (apply Rmult_le_pos; [apply pow2_ge_0|left; apply Rinv_0_lt_compat; lra]). }
  set (rows := map (fun i => map (voice z fmin fmax wp n i) (arange 0 n)) (arange 0 n)) in *.
  assert (LR : zlen rows = n) by (unfold rows; rewrite zlen_map_arange; unfold n in *; lia). assert (RR : forall r, In r rows -> zlen r = n) by (intros r Hr; unfold rows in Hr; apply in_map_iff in Hr; destruct Hr as (i & <- & _); rewrite zlen_map_arange; unfold n in *; lia).
  assert (ER : forall i j, 0 <= i < n -> 0 <= j < n -> ent rows i j = voice z fmin fmax wp n i j). { intros i j Hi Hj. unfold ent, rows. rewrite nth_map_arange by lia. rewrite Z.add_0_l. rewrite rnth_map_arange, Z.add_0_l by lia. reflexivity. }
  assert (LT : zlen (map IZR (arange 0 n)) = n) by (rewrite zlen_map_arange; unfold n in *; lia). assert (LG : zlen (geo_grid fmin fmax n) = n) by (unfold geo_grid; rewrite zlen_map_arange; unfold n in *; lia).
  assert (JP : (0 < J)%R).
  { assert (0 <= J)%R; [|lra]. apply (integral_sign rows n (map IZR (arange 0 n)) (geo_grid fmin fmax n)); auto; try lia.
    - rewrite !rnth_map_arange by (unfold n in *; lia). cbn. lra.
    - intros q Hq. rewrite LR in Hq. rewrite !geo_at by (auto; unfold n in *; lia). apply Rmult_le_compat_l; [lra|]. apply Rle_Rpower; [left; apply (ratio_gt1 _ _ Hb)|]. apply Rmult_le_compat_r; [left; apply Rinv_0_lt_compat, IZR_lt; unfold n in *; lia|]. apply IZR_le. lia.
    - intros i j Hi Hj. rewrite LR in Hi. rewrite ER by auto. auto. }
  assert (IK : integrate_2d m n (Some (map IZR (arange 0 n))) (Some (geo_grid fmin fmax n)) = Ok (k * J)%R).
  { apply (integral_scaled rows); auto; try lia. intros i j Hi Hj. rewrite LR in Hi. rewrite V, ER by auto. reflexivity. }
  rewrite IK in I. assert (IJ : forall a b : R, Ok a = Ok b -> a = b) by congruence. apply IJ in I. clear IJ. unfold z in I. rewrite scal_mult_tone in I by auto. cbv zeta in I. fold lo hi in I. fold z in I.
  assert (NP : (0 < IZR n)%R) by (apply IZR_lt; lia). split.
  - intros Hin. replace ((lo <=? f) && (f <=? hi)) with true in I by (symmetry; apply andb_true_intro; split; apply Z.leb_le; lia).
    assert (CP : (0 < Cmod c)%R) by (apply Cmod_gt_0; auto). exists (k * Cmod c ^ 2)%R. split.
    + assert (0 < k * J)%R. { rewrite I. apply Rmult_lt_0_compat; [apply Rmult_lt_0_compat; apply pow_lt; lra|apply Rinv_0_lt_compat; lra]. } assert (0 < k)%R by nra. apply Rmult_lt_0_compat; [lra|apply pow_lt; lra].
    + intros i j Hi Hj. assert (Ha := A1 i Hi). assert (KP : 0 <= ZnearestE (wp * a i)). { assert (1 <= ZnearestE (wp * a i)); [|lia]. apply near_ge_1. change (a i) with (scal_a fmin fmax n i). nra. }
      rewrite V by lia. unfold voice. cbv zeta. destruct (Rlt_dec 0 wp) as [_|]; [|lra]. change (scal_a fmin fmax n i) with (a i). change (scal_f fmin fmax n i) with (h i). unfold z. rewrite cwt_tone by (auto; lia). rewrite !Cmod_mult, Cmod_root, Cmod_R, Rmult_1_r. rewrite Rpow_mult_distr, pow2_abs. unfold Rdiv. ring.
  - intros Hout i j Hi Hj. replace ((lo <=? f) && (f <=? hi)) with false in I by (symmetry; apply andb_false_iff; destruct (Z_le_dec lo f); [right|left]; apply Z.leb_gt; lia).
    assert (k = 0%R). { assert (k * J = 0)%R by (rewrite I; unfold Rdiv; ring). nra. } rewrite V by auto. subst k. ring.
Qed.
Lemma integral_none mat n x y : 2 <= n -> 2 <= zlen mat -> (forall r, In r mat -> zlen r = n) -> 2 <= zlen x -> zlen y = zlen mat -> (0 < rnth x 1 - rnth x 0)%R ->
  (forall k, 0 <= k < zlen mat - 1 -> (rnth y k < rnth y (k + 1)%Z)%R) -> (forall i j, 0 <= i < zlen mat -> 0 <= j < n -> (0 <= ent mat i j)%R) -> integrate_2d mat n (Some x) (Some y) = Ok 0%R ->
  forall i j, 0 <= i < zlen mat -> 0 <= j < n -> ent mat i j = 0%R.
Proof.
  intros Hn Hm Hr Hx Hy Dx Dy P H. rewrite integrate_formula in H by (auto; lia). assert (IJ : forall a b : R, Ok a = Ok b -> a = b) by congruence. apply IJ in H. clear IJ. unfold trapz in H.
  set (G := fun i => ((rsum (arange 0 n) (ent mat i) - ent mat i 0 / 2 - ent mat i (n - 1) / 2) * (rnth x 1 - rnth x 0))%R) in *.
  assert (SP : forall i, 0 <= i < zlen mat -> (rsum (arange 0 n) (ent mat i) = ent mat i 0 + rsum (arange 1 (n - 1)) (ent mat i) + ent mat i (n - 1))%R).
  { intros i Hi. replace n with (n - 1 + 1) at 1 by lia. rewrite arange_snoc, rsum_app, rsum_cons, rsum_nil by lia. rewrite (arange_cons 0 (n - 1)), rsum_cons by lia. change (0 + 1) with 1. ring. }
  assert (MP : forall i, 0 <= i < zlen mat -> (0 <= rsum (arange 1 (n - 1)) (ent mat i))%R) by (intros i Hi; apply rsum_nonneg; intros j Hj; apply in_arange in Hj; apply P; lia).
  assert (GP : forall i, 0 <= i < zlen mat -> (0 <= G i)%R).
  { intros i Hi. unfold G. apply Rmult_le_pos; [|lra]. rewrite SP by auto. assert (A := MP i Hi). assert (B := P i 0 Hi ltac:(lia)). assert (C := P i (n - 1) Hi ltac:(lia)). lra. }
  assert (T0 : forall k, 0 <= k < zlen mat - 1 -> ((rnth y (k + 1)%Z - rnth y k) / 2 * (G k + G (k + 1)%Z) = 0)%R).
  { intros k Hk. apply (rsum_nonneg_0 (arange 0 (zlen mat - 1)) (fun k => (rnth y (k + 1)%Z - rnth y k) / 2 * (G k + G (k + 1)%Z))%R); [|exact H|apply in_arange; lia].
    intros q Hq. apply in_arange in Hq. assert (A := GP q ltac:(lia)). assert (B := GP (q + 1) ltac:(lia)). assert (D := Dy q ltac:(lia)). apply Rmult_le_pos; lra. }
  assert (G0 : forall i, 0 <= i < zlen mat -> G i = 0%R).
  { assert (Q : forall k, 0 <= k < zlen mat - 1 -> G k = 0%R /\ G (k + 1) = 0%R).
    { intros k Hk. assert (A := GP k ltac:(lia)). assert (B := GP (k + 1) ltac:(lia)). assert (D := Dy k Hk). specialize (T0 k Hk). apply Rmult_integral in T0. destruct T0; lra. }
    intros i Hi. destruct (Z.eq_dec i 0) as [->|]; [apply (Q 0); lia|]. replace i with (i - 1 + 1) by lia. apply (Q (i - 1)). lia. }
  intros i j Hi Hj. specialize (G0 i Hi). unfold G in G0. apply Rmult_integral in G0. destruct G0 as [G0|]; [|lra]. rewrite SP in G0 by auto. assert (A := MP i Hi). assert (B := P i 0 Hi ltac:(lia)). assert (C := P i (n - 1) Hi ltac:(lia)).
  destruct (Z.eq_dec j 0) as [->|]; [lra|]. destruct (Z.eq_dec j (n - 1)) as [->|]; [lra|].
  apply (rsum_nonneg_0 (arange 1 (n - 1)) (ent mat i)); [intros q Hq; apply in_arange in Hq; apply P; lia|lra|apply in_arange; lia].
Qed.
(** There is a result (rather than NaN) as soon as one voice of which the wavelet fits inside the signal answers to the tone. *)
Lemma c149_returns : forall x ts fmin fmax wp c f i, let n := zlen x in
  (forall k, 0 <= k < n -> Re (cnth x k) = Re (c * root n (f * k))%C) -> 0 < 2 * f < n -> c <> RtoC 0 -> (0 < fmin < fmax)%R -> (1 / 2 < wp)%R ->
  let a := fun i => Rpower (fmax / fmin) (1 - IZR i / IZR (n - 1)) in let h := fun i => (fmin * Rpower (fmax / fmin) (IZR i / IZR (n - 1)))%R in
  0 <= i < n -> 2 * ZnearestE (wp * a i) < n -> spread (wp * a i) (h i - IZR f / IZR n) <> 0%R ->
  exists m g wt, scalogram x ts (Some fmin) (Some fmax) None (Some (Wnum wp)) = Ok (Some m, arange 0 n, g, wt) /\ zlen m = n /\
    forall i j, 0 <= i < n -> 2 * ZnearestE (wp * a i) <= j < n ->
      cnth (nth (Z.to_nat i) wt []) j = (c * root n (f * (j - ZnearestE (wp * a i))) * RtoC (spread (wp * a i) (h i - IZR f / IZR n)) / RtoC (sqrt (a i)))%C.
Proof.
  intros x ts fmin fmax wp c f i0 n X Hf C0 Hb Hw a h Hi0 Fit Sp. assert (N2 : 2 <= zlen x) by (unfold n in Hf; lia).
  destruct (c83_scalogram x ts fmin fmax wp N2 Hb (or_introl Hw)) as (z & Hz & tfr & E & J & HJ & _ & J1). fold n in Hz, E, HJ, J1.
  assert (EX : map (fun v => Re v - rsum x Re / IZR n)%R x = map (fun k => Re (c * root n (f * k))%C) (arange 0 n)).
  { assert (M0 : rsum x Re = 0%R).
    { rewrite (list_as_map x), rsum_map. fold n. rewrite (rsum_ext _ _ (fun k => Re (c * root n (k * f))%C)) by (intros j Hj; apply in_arange in Hj; rewrite X by lia; do 3 f_equal; lia). rewrite <- Re_csum, csum_scal_l, root_orth by lia.
      destruct (Z.eqb_spec (f mod n) 0) as [Q|_]; [rewrite Z.mod_small in Q by lia; lia|]. rewrite Cmult_0_r. reflexivity. }
    rewrite M0. rewrite (list_as_map x) at 1. rewrite map_map. fold n. apply map_ext_in. intros j Hj. apply in_arange in Hj. rewrite X by lia. unfold Rdiv. ring. }
  rewrite EX, c144_tone in Hz by lia. assert (IZ : forall u v : list C, Ok u = Ok v -> u = v) by congruence. apply IZ in Hz. subst z. clear IZ. set (z := map (fun k => c * root n (f * k))%C (arange 0 n)) in *.
  assert (A1 : forall i, 0 <= i < n -> (1 <= scal_a fmin fmax n i)%R) by (intros i Hi; apply (scal_a_at fmin fmax n i Hb); unfold n in *; lia).
  assert (KP : forall i, 0 <= i < n -> 0 <= ZnearestE (wp * a i)). { intros i Hi. assert (1 <= ZnearestE (wp * a i)); [|lia]. apply near_ge_1. assert (Q := A1 i Hi). change (a i) with (scal_a fmin fmax n i). nra. }
  set (rows := map (fun i => map (voice z fmin fmax wp n i) (arange 0 n)) (arange 0 n)) in *.
  assert (LR : zlen rows = n) by (unfold rows; rewrite zlen_map_arange; unfold n in *; lia). assert (RR : forall r, In r rows -> zlen r = n) by (intros r Hr; unfold rows in Hr; apply in_map_iff in Hr; destruct Hr as (i & <- & _); rewrite zlen_map_arange; unfold n in *; lia).
  assert (ER : forall i j, 0 <= i < n -> 0 <= j < n -> ent rows i j = voice z fmin fmax wp n i j). { intros i j Hi Hj. unfold ent, rows. rewrite nth_map_arange by lia. rewrite Z.add_0_l. rewrite rnth_map_arange, Z.add_0_l by lia. reflexivity. }
  assert (JN : J <> 0%R).
  { intros Q. rewrite Q in HJ. assert (Z0 := integral_none rows n (map IZR (arange 0 n)) (geo_grid fmin fmax n)).
    assert (V0 : ent rows i0 (ZnearestE (wp * a i0)) = 0%R).
    { apply Z0; auto; try lia; clear Z0.
      - rewrite zlen_map_arange; unfold n in *; lia.
      - unfold geo_grid; rewrite zlen_map_arange; unfold n in *; lia.
      - rewrite !rnth_map_arange by (unfold n in *; lia). cbn. lra.
      - intros q Hq. rewrite LR in Hq. rewrite !geo_at by (auto; unfold n in *; lia). apply Rmult_lt_compat_l; [lra|]. apply Rpower_lt; [apply (ratio_gt1 _ _ Hb)|]. apply Rmult_lt_compat_r; [apply Rinv_0_lt_compat, IZR_lt; unfold n in *; lia|]. apply IZR_lt. lia.
      - intros i j Hi Hj. rewrite LR in Hi. rewrite ER by auto. assert (QA := A1 i Hi). unfold voice. cbv zeta. destruct (Rlt_dec 0 wp); (apply Rmult_le_pos; [apply pow2_ge_0|left; apply Rinv_0_lt_compat; lra]).
      - split; [apply KP; auto|]. assert (QK := KP i0 Hi0). lia. }
    assert (QK := KP i0 Hi0). rewrite ER in V0 by lia. unfold voice in V0. cbv zeta in V0. destruct (Rlt_dec 0 wp) as [_|]; [|lra]. change (scal_a fmin fmax n i0) with (a i0) in V0. change (scal_f fmin fmax n i0) with (h i0) in V0. unfold z in V0. rewrite cwt_tone in V0 by (auto; lia).
    rewrite !Cmod_mult, Cmod_root, Cmod_R, Rmult_1_r in V0. assert (0 < Cmod c)%R by (apply Cmod_gt_0; auto). assert (0 < Rabs (spread (wp * a i0) (h i0 - IZR f / IZR n)))%R by (apply Rabs_pos_lt; auto). assert (QA := A1 i0 Hi0). change (scal_a fmin fmax n i0) with (a i0) in QA.
    assert (0 < (Cmod c * Rabs (spread (wp * a i0) (h i0 - IZR f / IZR n))) ^ 2 / a i0)%R; [|lra]. apply Rmult_lt_0_compat; [apply pow_lt; now apply Rmult_lt_0_compat|apply Rinv_0_lt_compat; lra]. }
  destruct (J1 JN) as (m & -> & Lm & _). exists m. eexists. eexists. split; [exact E|]. split; [exact Lm|].
  intros i j Hi Hj. assert (QK := KP i Hi). rewrite nth_map_arange by lia. rewrite Z.add_0_l, cnth_map_arange, Z.add_0_l by lia. unfold voice_wt. cbv zeta. destruct (Rlt_dec 0 wp) as [_|]; [|lra]. change (scal_a fmin fmax n i) with (a i). change (scal_f fmin fmax n i) with (h i). unfold z. rewrite cwt_tone by (auto; lia). reflexivity.
Qed.
(** cos(pi k / 2) on four samples, band 1/8 to 1/4, wavelets of half-length 1: the last voice is at the frequency of the tone, is constant on samples 1 and 2, and is positive there. *)
Example c149_example : exists m g wt, scalogram [RtoC 1; RtoC 0; RtoC (-1); RtoC 0] None (Some (1 / 8)%R) (Some (1 / 4)%R) None (Some (Wnum 1%R)) = Ok (Some m, [0; 1; 2; 3], g, wt) /\
  ent m 3 1 = ent m 3 2 /\ (0 < ent m 3 1)%R.
Proof.
  set (x := [RtoC 1; RtoC 0; RtoC (-1); RtoC 0]).
  assert (R4 : forall k, root 4 (1 * k) = cis (PI / 2 * IZR k)) by (intros k; unfold root; f_equal; rewrite mult_IZR; field).
  assert (X : forall k, 0 <= k < zlen x -> Re (cnth x k) = Re (RtoC 1 * root (zlen x) (1 * k))%C).
  { intros k Hk. change (zlen x) with 4 in *. rewrite R4, Cmult_1_l. unfold cis, Re. cbn [fst]. assert (k = 0 \/ k = 1 \/ k = 2 \/ k = 3) as [-> | [-> | [-> | ->]]] by lia.
    - rewrite Rmult_0_r, cos_0. reflexivity.
    - rewrite Rmult_1_r, cos_PI2. reflexivity.
    - replace (PI / 2 * 2)%R with PI by field. rewrite cos_PI. reflexivity.
    - replace (PI / 2 * 3)%R with (3 * (PI / 2))%R by field. rewrite cos_3PI2. reflexivity. }
  assert (Hb : (0 < 1 / 8 < 1 / 4)%R) by lra. assert (RA : (1 / 4 / (1 / 8) = 2)%R) by field.
  assert (A3 : Rpower (1 / 4 / (1 / 8)) (1 - IZR 3 / IZR (zlen x - 1)) = 1%R) by (change (zlen x - 1) with 3; replace (1 - IZR 3 / IZR 3)%R with 0%R by field; apply Rpower_O; lra).
  assert (F3 : (1 / 8 * Rpower (1 / 4 / (1 / 8)) (IZR 3 / IZR (zlen x - 1)) = 1 / 4)%R) by (change (zlen x - 1) with 3; replace (IZR 3 / IZR 3)%R with 1%R by field; rewrite Rpower_1 by lra; field).
  assert (K1 : ZnearestE (1 * 1) = 1) by (rewrite Rmult_1_r; apply (Zrnd_IZR ZnearestE 1)).
  assert (SP := c149_own (1 * 1) 0 ltac:(rewrite K1; lia)). destruct SP as [_ SP].
  destruct (c149_returns x None (1 / 8) (1 / 4) 1 (RtoC 1) 1 3 X ltac:(change (zlen x) with 4; lia) ltac:(intros Q; apply RtoC_inj in Q; lra) Hb ltac:(lra)) as (m & g & wt & H & _).
  - change (zlen x) with 4. lia.
  - rewrite A3, K1. change (zlen x) with 4. lia.
  - rewrite A3, F3. change (zlen x) with 4. replace (1 / 4 - 1 / 4)%R with 0%R by ring. lra.
  - exists m, g, wt. split; [exact H|].
    destruct (c149_tone x None (1 / 8) (1 / 4) 1 (RtoC 1) 1 m _ g wt X ltac:(change (zlen x) with 4; lia) ltac:(intros Q; apply RtoC_inj in Q; lra) Hb ltac:(lra) ltac:(lra) H) as [T _].
    destruct T as (k & KP & T).
    { change (zlen x) with 4. change (4 - 2) with 2. assert (L : ZnearestE (1 / 8 * IZR 2) = 0) by (apply near_0; lra). assert (U : ZnearestE (1 / 4 * IZR 2) = 0) by (apply near_0; lra). rewrite L, U. lia. }
    assert (Q : forall j, 1 <= j < 3 -> ent m 3 j = (k * spread (1 * 1) 0 ^ 2 / 1)%R).
    { intros j Hj. rewrite T; rewrite ?A3, ?K1; [|change (zlen x) with 4; lia|change (zlen x) with 4; lia]. rewrite F3. change (zlen x) with 4. replace (1 / 4 - 1 / 4)%R with 0%R by ring. reflexivity. }
    rewrite !Q by lia. split; [reflexivity|]. unfold Rdiv. rewrite Rinv_1, Rmult_1_r. apply Rmult_lt_0_compat; [lra|apply pow_lt; lra].
Qed.
