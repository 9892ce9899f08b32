(** C64, C66, C78, C79: klauder, altes, gdpower. *)
From Coq Require Import Reals ZArith List Lia Lra Bool Permutation.
From Coquelicot Require Import Coquelicot.
From Flocq Require Import Core.
From Verif Require Import Py Scalars CSum DFT Spec M_base M_utils M_putils M_dom M_gen1 M_gen2 M_gen3 P_base T_utils T_putils T_dom T_gen1 T_gen2 T_hil T_key T_noise T_misc.
Import ListNotations.
Local Open Scope Z_scope.

Lemma rev_arange_at a b : rev (arange a b) = map (fun k => a + b - 1 - k) (arange a b).
Proof.
  destruct (Z_le_gt_dec b a) as [Q|Q]; [rewrite arange_empty by lia; reflexivity|].
  apply (nth_ext _ _ 0 (a + b - 1 - 0)); [now rewrite rev_length, map_length|]. intros k Hk. rewrite rev_length, arange_length in Hk.
  rewrite rev_nth by (rewrite arange_length; lia). rewrite (map_nth (fun k => a + b - 1 - k)). rewrite arange_length, !nth_arange by lia. lia.
Qed.
Lemma firstn_map_arange {A} (g : Z -> A) a b m : a <= m <= b -> firstn (Z.to_nat (m - a)) (map g (arange a b)) = map g (arange a m).
Proof.
  intros H. rewrite (arange_app a m b) by lia. rewrite map_app, firstn_app. rewrite firstn_all2 by (rewrite map_length, arange_length; lia).
  rewrite map_length, arange_length. replace (Z.to_nat (m - a) - Z.to_nat (m - a))%nat with 0%nat by lia. apply app_nil_r.
Qed.
Lemma skipn_map_arange {A} (g : Z -> A) a b m : a <= m <= b -> skipn (Z.to_nat (m - a)) (map g (arange a b)) = map g (arange m b).
Proof.
  intros H. rewrite (arange_app a m b) by lia. rewrite map_app, skipn_app. rewrite skipn_all2 by (rewrite map_length, arange_length; lia).
  rewrite map_length, arange_length. replace (Z.to_nat (m - a) - Z.to_nat (m - a))%nat with 0%nat by lia. reflexivity.
Qed.

(** *** C64: klauder *)
(** Spectrum: bin j of 2m holds exp(-2 pi a f) f^(2 pi a f0 - 1/2) at the
    frequency f = j / 2m, mirrored beyond m. *)
Definition klauder_bin (m : Z) (att f0 : R) (j : Z) : R :=
  if j =? 0 then 0%R else (exp (- 2 * PI * att * (IZR j / IZR (2 * m))) * Rpower (IZR j / IZR (2 * m)) (2 * PI * att * f0 - 1 / 2))%R.
Definition klauder_spec (m : Z) (att f0 : R) (j : Z) : R := klauder_bin m att f0 (if j <? m then j else 2 * m - j).
Lemma klauder_wave n att f0 : let m := n / 2 in 1 <= m ->
  let wave := 0%R :: skipn 1 (map (klauder_mod att f0) (linspace1 0 (1 / 2) (m + 1))) in
  prefix wave m ++ rev (slice wave 1 (m + 1)) = map (klauder_spec m att f0) (arange 0 (2 * m)).
Proof.
  intros m Hm wave.
  assert (EW : wave = map (klauder_bin m att f0) (arange 0 (m + 1))).
  { unfold wave. rewrite (arange_cons 0 (m + 1)) by lia. cbn [map]. f_equal. unfold linspace1. destruct (Z.eqb_spec (m + 1) 1); [lia|]. unfold linspace. rewrite map_map.
    rewrite (arange_cons 0 (m + 1)) by lia. cbn [map skipn]. apply map_ext_in. intros k Hk. apply in_arange in Hk. unfold klauder_bin. destruct (Z.eqb_spec k 0); [lia|].
    assert (HM : IZR m <> 0%R) by (apply not_0_IZR; lia). unfold klauder_mod. replace (0 + IZR k * ((1 / 2 - 0) / IZR (m + 1 - 1)))%R with (IZR k / IZR (2 * m))%R; [reflexivity|].
    replace (m + 1 - 1) with m by lia. rewrite mult_IZR. field. auto. }
  rewrite EW. unfold prefix, slice. replace (Z.to_nat m) with (Z.to_nat (m - 0)) by lia. rewrite firstn_map_arange by lia.
  replace (Z.to_nat 1) with (Z.to_nat (1 - 0)) by lia. rewrite skipn_map_arange by lia. rewrite firstn_all2 by (rewrite map_length, arange_length; lia).
  rewrite <- map_rev, rev_arange_at. rewrite (arange_app 0 m (2 * m)), map_app by lia. f_equal.
  - apply map_ext_in. intros k Hk. apply in_arange in Hk. unfold klauder_spec. destruct (Z.ltb_spec k m); [reflexivity|lia].
  - rewrite map_map. replace (arange m (2 * m)) with (arange (1 + (m - 1)) (m + 1 + (m - 1))) by (f_equal; lia). rewrite arange_shift, map_map.
    apply map_ext_in. intros k Hk. apply in_arange in Hk. unfold klauder_spec. destruct (Z.ltb_spec (k + (m - 1)) m) as [Q|Q].
    + lia.
    + f_equal. lia.
Qed.
Lemma fftshift_map {A} (g : Z -> A) m : 0 <= m -> fftshift (map g (arange 0 (2 * m))) = map (fun k => g ((k + m) mod (2 * m))) (arange 0 (2 * m)).
Proof.
  intros Hm. destruct (Z.eq_dec m 0) as [->|N0]; [reflexivity|]. unfold fftshift. rewrite zlen_map_arange by lia. replace ((2 * m - 0 + 1) / 2) with m by (Z.to_euclidean_division_equations; lia).
  replace (Z.to_nat m) with (Z.to_nat (m - 0)) by lia. rewrite skipn_map_arange, firstn_map_arange by lia. rewrite (arange_app 0 m (2 * m)) at 1 by lia. rewrite map_app. f_equal.
  - replace (arange m (2 * m)) with (arange (0 + m) (m + m)) by (f_equal; lia). rewrite arange_shift, map_map. apply map_ext_in. intros k Hk. apply in_arange in Hk. rewrite Z.mod_small by lia. reflexivity.
  - replace (arange m (2 * m)) with (arange (0 + m) (m + m)) by (f_equal; lia). rewrite arange_shift, map_map. apply map_ext_in. intros k Hk. apply in_arange in Hk. f_equal. apply Zmod_unique with 1; lia.
Qed.
(** The inverse transform of a symmetric non-negative spectrum. *)
Definition ktime (m : Z) (W : Z -> R) (k : Z) : R := (/ IZR (2 * m) * rsum (arange 0 (2 * m)) (fun f => W f * cos (2 * PI * IZR (f * k) / IZR (2 * m))))%R.
Lemma root_re n k : root n k = (cos (2 * PI * IZR k / IZR n), sin (2 * PI * IZR k / IZR n)).
Proof. reflexivity. Qed.
Lemma ktime_ifft m W k : 1 <= m -> (forall f, 0 < f < 2 * m -> W (2 * m - f) = W f) -> 0 <= k < 2 * m ->
  cnth (ifft (map RtoC (map W (arange 0 (2 * m))))) k = RtoC (ktime m W k).
Proof.
  intros Hm HS Hk. set (N := 2 * m) in *. assert (HN : IZR N <> 0%R) by (apply not_0_IZR; lia).
  rewrite map_map. assert (L : zlen (map (fun x => RtoC (W x)) (arange 0 N)) = N) by (rewrite zlen_map_arange; lia). rewrite ifft_nth by lia. rewrite L.
  assert (E : csum (arange 0 N) (fun f => cnth (map (fun x => RtoC (W x)) (arange 0 N)) f * root N (f * k))%C = csum (arange 0 N) (fun f => RtoC (W f) * root N (f * k))%C).
  { apply csum_ext. intros f Hf. apply in_arange in Hf. rewrite cnth_map_arange by lia. now rewrite Z.add_0_l. }
  rewrite E. set (S := csum (arange 0 N) (fun f => RtoC (W f) * root N (f * k))%C).
  assert (SYM : forall f, 0 <= f < N -> W ((- f) mod N) = W f).
  { intros f Hf. destruct (Z.eq_dec f 0) as [->|]; [now rewrite Z.mod_0_l by lia|]. replace ((- f) mod N) with (N - f) by (rewrite Z.mod_opp_l_nz; rewrite ?Z.mod_small by lia; lia). apply HS. lia. }
  assert (SC : Cconj S = S).
  { unfold S. rewrite csum_conj. rewrite (csum_ext _ _ (fun f => (fun g => RtoC (W g) * root N (g * k))%C ((- f) mod N))).
    - rewrite <- (csum_map (fun f => (- f) mod N) (arange 0 N) (fun g => RtoC (W g) * root N (g * k))%C). apply csum_perm, perm_mod_opp. lia.
    - intros f Hf. apply in_arange in Hf. cbv beta. rewrite Cconj_mult, Cconj_R, root_conj, SYM, root_mod_mul_l by lia. do 2 f_equal. ring. }
  assert (SR : S = RtoC (Re S)). { destruct S as [a b]. unfold Cconj in SC. cbn in SC. injection SC as Q. unfold RtoC, Re. cbn. f_equal. lra. }
  rewrite SR. unfold ktime. rewrite <- RtoC_inv by auto. rewrite <- RtoC_mult. fold N. do 2 f_equal. unfold S. clearbody N. clear. induction (arange 0 N) as [|f l IH]; [reflexivity|]. rewrite csum_cons, rsum_cons.
  rewrite <- IH. rewrite root_re. unfold Re, Cplus, Cmult, RtoC. cbn [fst snd]. ring.
Qed.
Lemma ktime_even m W k : 1 <= m -> ktime m W ((- k) mod (2 * m)) = ktime m W (k mod (2 * m)).
Proof.
  intros Hm. unfold ktime. f_equal. apply rsum_ext. intros f _. f_equal.
  assert (E : forall j, cos (2 * PI * IZR (f * (j mod (2 * m))) / IZR (2 * m)) = cos (2 * PI * IZR (f * j) / IZR (2 * m))).
  { intros j. assert (Q := root_mod_mul_r (2 * m) f j ltac:(lia)). rewrite !root_re in Q. now injection Q. }
  rewrite !E. rewrite Z.mul_opp_r, opp_IZR. rewrite <- cos_neg. f_equal. unfold Rdiv. ring.
Qed.
Lemma ktime_le m W k : 1 <= m -> (forall f, 0 <= f < 2 * m -> (0 <= W f)%R) -> (Rabs (ktime m W k) <= ktime m W 0%Z)%R.
Proof.
  intros Hm HW. unfold ktime. assert (HN : (0 < / IZR (2 * m))%R) by (apply Rinv_0_lt_compat, IZR_lt; lia). rewrite Rabs_mult, (Rabs_right (/ _)) by lra. apply Rmult_le_compat_l; [lra|].
  apply Rabs_le. rewrite <- rsum_opp. split; apply rsum_le; intros f Hf; apply in_arange in Hf; rewrite Z.mul_0_r; replace (2 * PI * 0 / IZR (2 * m))%R with 0%R by (unfold Rdiv; ring); rewrite cos_0;
  assert (B := COS_bound (2 * PI * IZR (f * k) / IZR (2 * m))); specialize (HW f Hf); nra.
Qed.
Lemma klauder_bin_pos m att f0 j : j <> 0 -> (0 < klauder_bin m att f0 j)%R.
Proof. intros H. unfold klauder_bin. destruct (Z.eqb_spec j 0); [lia|]. apply Rmult_lt_0_compat; apply exp_pos. Qed.
Lemma c64_klauder : forall n att f0, 2 <= n -> (0 < f0 < 1 / 2)%R ->
  let m := n / 2 in
  exists x, klauder n att f0 = Ok (Some x) /\ zlen x = 2 * m /\ rsum x (fun v => v ^ 2)%R = 1%R /\
  (exists E, (0 < E)%R /\ forall k, 0 <= k < 2 * m -> rnth x k = (ktime m (klauder_spec m att f0) ((k + m) mod (2 * m)) / E)%R) /\
  (forall k, 0 <= k < m -> rnth x (m + k) = rnth x (m - k)) /\
  (0 < rnth x m)%R /\ (forall k, 0 <= k < 2 * m -> (Rabs (rnth x k) <= rnth x m)%R).
Proof.
  intros n att f0 Hn Hf m. assert (Hm : 1 <= m) by (unfold m; Z.to_euclidean_division_equations; lia).
  unfold klauder. destruct (Z.leb_spec n 0); [lia|]. destruct (Rlt_dec f0 (1 / 2)); [|lra]. destruct (Rlt_dec 0 f0); [|lra]. cbv zeta.
  assert (KW := klauder_wave n att f0 Hm). cbv zeta in KW. fold m in KW. fold m. rewrite KW. rewrite zlen_map_arange by lia. destruct (Z.eqb_spec (2 * m - 0) 0); [lia|].
  set (W := klauder_spec m att f0) in *.
  assert (W0 : forall f, 0 <= f < 2 * m -> (0 <= W f)%R).
  { intros f Hf'. unfold W, klauder_spec. set (j := if f <? m then f else 2 * m - f). destruct (Z.eq_dec j 0) as [->|Nj]; [unfold klauder_bin; cbn; lra|]. left. now apply klauder_bin_pos. }
  assert (WS : forall f, 0 < f < 2 * m -> W (2 * m - f) = W f).
  { intros f Hf'. unfold W, klauder_spec. f_equal. destruct (Z.ltb_spec (2 * m - f) m), (Z.ltb_spec f m); lia. }
  set (T := ktime m W).
  assert (EI : ifft (map RtoC (map W (arange 0 (2 * m)))) = map (fun k => RtoC (T k)) (arange 0 (2 * m))).
  { rewrite (list_as_map (ifft _)). rewrite ifft_zlen, zlen_map, zlen_map_arange by lia. rewrite Z.sub_0_r. apply map_ext_in. intros k Hk. apply in_arange in Hk. now apply ktime_ifft. }
  rewrite EI, fftshift_map by lia. set (w := map _ (arange 0 (2 * m))).
  set (V := fun k => T ((k + m) mod (2 * m))).
  assert (T0 : (0 < T 0%Z)%R).
  { unfold T, ktime. apply Rmult_lt_0_compat; [apply Rinv_0_lt_compat, IZR_lt; lia|]. apply rsum_pos; [|exists m; split; [apply in_arange; lia|]].
    - intros f Hf'. apply in_arange in Hf'. rewrite Z.mul_0_r. replace (2 * PI * 0 / IZR (2 * m))%R with 0%R by (unfold Rdiv; ring). rewrite cos_0. specialize (W0 f Hf'). lra.
    - rewrite Z.mul_0_r. replace (2 * PI * 0 / IZR (2 * m))%R with 0%R by (unfold Rdiv; ring). rewrite cos_0, Rmult_1_r. unfold W, klauder_spec. apply Rgt_not_eq, klauder_bin_pos. destruct (Z.ltb_spec m m); lia. }
  assert (VM : V m = T 0) by (unfold V; f_equal; replace (m + m) with (2 * m) by lia; apply Z_mod_same_full).
  assert (EN : cnorm w = sqrt (rsum (arange 0 (2 * m)) (fun k => V k ^ 2)%R)).
  { unfold cnorm, w. rewrite rsum_map. f_equal. apply rsum_ext. intros k _. rewrite Cmod_R, pow2_abs. reflexivity. }
  assert (E0 : (0 < rsum (arange 0 (2 * m)) (fun k => V k ^ 2))%R).
  { apply rsum_pos; [intros; apply pow2_ge_0|exists m; split; [apply in_arange; lia|]]. rewrite VM. nra. }
  set (E := rsum (arange 0 (2 * m)) (fun k => V k ^ 2)%R) in *. assert (SE := sqrt_lt_R0 _ E0). rewrite EN. destruct (Req_EM_T (sqrt E) 0); [lra|].
  exists (map (fun k => V k / sqrt E)%R (arange 0 (2 * m))). split; [unfold w; rewrite map_map; reflexivity|].
  assert (X : forall k, 0 <= k < 2 * m -> rnth (map (fun k => V k / sqrt E)%R (arange 0 (2 * m))) k = (V k / sqrt E)%R) by (intros k Hk; rewrite rnth_map_arange by lia; now rewrite Z.add_0_l).
  split; [rewrite zlen_map_arange; lia|]. split; [|split; [|split; [|split]]].
  - rewrite rsum_map. rewrite (rsum_ext _ _ (fun k => V k ^ 2 / E)%R).
    + rewrite rsum_div. fold E. apply Rinv_r. lra.
    + intros k _. unfold Rdiv. rewrite Rpow_mult_distr, pow_inv, pow2_sqrt by lra. reflexivity.
  - exists (sqrt E). split; [auto|]. exact X.
  - intros k Hk. rewrite !X by lia. f_equal. unfold V. assert (Q := ktime_even m W k Hm). fold T in Q.
    replace ((m + k + m) mod (2 * m)) with (k mod (2 * m)) by (replace (m + k + m) with (k + 1 * (2 * m)) by ring; now rewrite Z_mod_plus_full).
    replace ((m - k + m) mod (2 * m)) with ((- k) mod (2 * m)) by (replace (m - k + m) with (- k + 1 * (2 * m)) by ring; now rewrite Z_mod_plus_full). now symmetry.
  - rewrite X, VM by lia. apply Rdiv_lt_0_compat; lra.
  - intros k Hk. rewrite !X, VM by lia. rewrite Rabs_div, (Rabs_right (sqrt E)) by lra. apply Rmult_le_compat_r; [left; now apply Rinv_0_lt_compat|]. now apply ktime_le.
Qed.
Lemma c64_klauder_raises : forall n att f0,
  (n <= 0 -> klauder n att f0 = Raise AssertionError) /\
  (0 < n -> (f0 <= 0 \/ 1 / 2 <= f0)%R -> klauder n att f0 = Raise AssertionError) /\
  (n = 1 -> (0 < f0 < 1 / 2)%R -> klauder n att f0 = Raise ValueError).
Proof.
  intros n att f0. unfold klauder. split; [|split].
  - intros H. destruct (Z.leb_spec n 0); [auto|lia].
  - intros H H'. destruct (Z.leb_spec n 0); [lia|]. destruct (Rlt_dec f0 (1 / 2)); [|auto]. destruct (Rlt_dec 0 f0); [lra|auto].
  - intros -> H. destruct (Z.leb_spec 1 0); [lia|]. destruct (Rlt_dec f0 (1 / 2)); [|lra]. destruct (Rlt_dec 0 f0); [|lra]. reflexivity.
Qed.
Lemma c64_klauder_odd_refuted : forall n att f0, 3 <= n -> Z.odd n = true -> (0 < f0 < 1 / 2)%R -> exists x, klauder n att f0 = Ok (Some x) /\ zlen x = n - 1.
Proof.
  intros n att f0 Hn HO Hf. destruct (c64_klauder n att f0 ltac:(lia) Hf) as (x & E & L & _). exists x. split; [exact E|]. rewrite L.
  assert (M := Zmod_odd n). rewrite HO in M. assert (D := Z.div_mod n 2 ltac:(lia)). lia.
Qed.
Example c64_klauder_example : exists x, klauder 2 10 (1 / 5) = Ok (Some x) /\ zlen x = 2 /\ rnth x 1 = sqrt (1 / 2) /\ rnth x 0 = (- sqrt (1 / 2))%R.
Proof.
  destruct (c64_klauder 2 10 (1 / 5)) as (x & E & L & N & (S & HS & V) & _ & P & _); [lia|lra|]. exists x. split; [exact E|]. split; [exact L|]. change (2 / 2) with 1 in *.
  assert (V1 := V 1 ltac:(lia)). assert (V0 := V 0 ltac:(lia)). change ((1 + 1) mod (2 * 1)) with 0 in V1. change ((0 + 1) mod (2 * 1)) with 1 in V0.
  unfold ktime in V0, V1. change (2 * 1) with 2 in *. change (arange 0 2) with [0; 1] in *. unfold rsum in V0, V1. cbn [fold_right] in V0, V1.
  assert (W0 : klauder_spec 1 10 (1 / 5) 0 = 0%R) by reflexivity. rewrite W0 in V0, V1. set (w := klauder_spec 1 10 (1 / 5) 1) in *.
  replace (2 * PI * IZR (1 * 1) / 2)%R with PI in V0 by (cbn; field). rewrite cos_PI in V0. replace (2 * PI * IZR (1 * 0) / 2)%R with 0%R in V1 by (cbn; unfold Rdiv; ring). rewrite cos_0 in V1.
  assert (OPP : rnth x 0 = (- rnth x 1)%R) by (rewrite V0, V1; unfold Rdiv; ring).
  assert (SQ : (2 * rnth x 1 ^ 2 = 1)%R).
  { rewrite <- N. unfold zlen in L. destruct x as [|x0 [|x1 [|]]]; cbn [length] in L; try lia. unfold rnth in *. change (Z.to_nat 1) with 1%nat in *. change (Z.to_nat 0) with 0%nat in *. cbn [nth] in *. unfold rsum. cbn [fold_right]. rewrite OPP. ring. }
  assert (R1 : rnth x 1 = sqrt (1 / 2)). { symmetry. apply sqrt_lem_1; lra. } split; [exact R1|]. now rewrite OPP, R1.
Qed.

(** *** C64: altes *)
(** Sample k is taken at t_k = n fmin / (fmax - fmin) + k. *)
Definition altes_t (n : Z) (fmin fmax : R) (k : R) : R := (IZR n * fmin / (fmax - fmin) + k)%R.
Definition altes_mid (n : Z) (fmin fmax : R) : R := (IZR n * sqrt (fmin * fmax) / (fmax - fmin))%R.
Definition altes_env (n : Z) (fmin fmax alpha k : R) : R :=
  Rpower alpha (- (2 * ln (altes_t n fmin fmax k / altes_mid n fmin fmax) / ln (fmax / fmin)) ^ 2).
Definition altes_g (fmin fmax alpha : R) : R := exp ((ln (fmax / fmin)) ^ 2 / (8 * ln alpha)).
Definition altes_phase (n : Z) (fmin fmax alpha k : R) : R :=
  (2 * PI * (altes_g fmin fmax alpha * (IZR n * fmin * fmax / (fmax - fmin)) * ln (altes_t n fmin fmax k / altes_mid n fmin fmax)))%R.
Lemma ratio_gt_1 fmin fmax : (0 < fmin < fmax)%R -> (0 < ln (fmax / fmin))%R.
Proof.
  intros H. rewrite <- ln_1. apply ln_increasing; [lra|]. apply (Rmult_lt_reg_r fmin); [lra|]. unfold Rdiv. rewrite Rmult_assoc, Rinv_l by lra. lra.
Qed.
Lemma c64_altes : forall n fmin fmax alpha, 1 <= n -> (0 < fmin < fmax)%R -> (0 < alpha)%R -> alpha <> 1%R ->
  let raw k := (altes_env n fmin fmax alpha (IZR k) * cos (altes_phase n fmin fmax alpha (IZR k)))%R in
  let E := rsum (arange 0 n) (fun k => raw k ^ 2)%R in
  (E = 0%R -> altes n fmin fmax alpha = None) /\
  (E <> 0%R -> exists x, altes n fmin fmax alpha = Some x /\ zlen x = n /\ rsum x (fun v => v ^ 2)%R = 1%R /\
    forall k, 0 <= k < n -> rnth x k = (raw k / sqrt E)%R).
Proof.
  intros n fmin fmax alpha Hn Hf Ha Ha1 raw E. set (L := ln (fmax / fmin)). assert (HL : (0 < L)%R) by now apply ratio_gt_1.
  assert (LA : ln alpha <> 0%R) by (intros A0; apply Ha1; rewrite <- (exp_ln alpha), A0 by lra; apply exp_0). assert (HN : (0 < IZR n)%R) by (apply IZR_lt; lia).
  unfold altes. fold L. cbv zeta. rewrite ln_exp. fold (altes_g fmin fmax alpha) || idtac.
  assert (EB : sqrt (2 * (L ^ 2 / (8 * ln alpha)) * ln alpha) = (L / 2)%R).
  { apply sqrt_lem_1; [|lra|field; lra]. replace (2 * (L ^ 2 / (8 * ln alpha)) * ln alpha)%R with (L ^ 2 / 4)%R by (field; lra). nra. }
  rewrite EB. set (r := sqrt (fmax / fmin)). assert (RP : (1 < fmax / fmin)%R) by (apply (Rmult_lt_reg_r fmin); [lra|]; unfold Rdiv; rewrite Rmult_assoc, Rinv_l by lra; lra).
  assert (Er : exp (L / 2) = r).
  { unfold r, L. rewrite <- (sqrt_square (exp _)) by (left; apply exp_pos). f_equal. rewrite <- exp_plus. replace (ln (fmax / fmin) / 2 + ln (fmax / fmin) / 2)%R with (ln (fmax / fmin)) by lra. apply exp_ln. lra. }
  assert (R0 : (0 < r)%R) by (apply sqrt_lt_R0; lra). assert (R2 : (r * r = fmax / fmin)%R) by (apply sqrt_sqrt; lra).
  assert (R1 : (1 < r)%R) by (destruct (Rle_dec r 1); nra).
  assert (Em : exp (- (L / 2)) = (/ r)%R) by (rewrite exp_Ropp, Er; reflexivity). rewrite Er, Em.
  assert (FM : fmax = (r * r * fmin)%R) by (rewrite R2; field; lra).
  assert (S0 : sqrt (fmin * fmax) = (r * fmin)%R) by (apply sqrt_lem_1; [nra|nra|rewrite FM; ring]).
  set (t0 := (IZR n / (r - / r))%R).
  assert (D1 : (r - / r <> 0)%R) by (intros Q; apply (f_equal (Rmult r)) in Q; rewrite Rmult_minus_distr_l, Rinv_r in Q by lra; nra).
  assert (D2 : (r * r - 1 <> 0)%R) by nra.
  assert (T0 : t0 = altes_mid n fmin fmax). { unfold t0, altes_mid. rewrite S0, FM. field. repeat split; try lra; try nra. }
  assert (T1 : (t0 * / r)%R = (IZR n * fmin / (fmax - fmin))%R). { unfold t0. rewrite FM. field. repeat split; try lra; try nra. }
  assert (EX : map (fun t => exp (- (ln (t / t0) ^ 2) / (2 * (L ^ 2 / (8 * ln alpha)))) * cos (2 * PI * (- t0 * sqrt (fmin * fmax) * altes_g fmin fmax alpha * (L ^ 2 / (8 * ln alpha))) * ln (t / t0) / (L ^ 2 / (8 * ln alpha))))%R (prefix (linspace (t0 * / r) (t0 * r) (n + 1)) n) = map raw (arange 0 n)).
  { unfold prefix, linspace. replace (Z.to_nat n) with (Z.to_nat (n - 0)) by lia. rewrite firstn_map_arange by lia. rewrite map_map. apply map_ext. intros k. unfold raw.
    replace (t0 * / r + IZR k * ((t0 * r - t0 * / r) / IZR (n + 1 - 1)))%R with (altes_t n fmin fmax (IZR k)).
    - f_equal.
      + unfold altes_env, Rpower. fold L. rewrite <- T0. f_equal. set (u := ln (altes_t n fmin fmax (IZR k) / t0)). field. split; lra.
      + unfold altes_phase. fold L. rewrite <- T0. rewrite <- cos_neg. f_equal. set (u := ln (altes_t n fmin fmax (IZR k) / t0)). set (g := altes_g fmin fmax alpha).
        replace (IZR n * fmin * fmax / (fmax - fmin))%R with (t0 * sqrt (fmin * fmax))%R.
        * field. split; lra.
        * unfold t0. rewrite S0, FM. field. repeat split; try lra; try nra.
    - unfold altes_t. rewrite <- T1. f_equal. replace (n + 1 - 1) with n by lia. unfold t0. field. repeat split; try lra; try nra. }
  unfold altes_g in EX. fold L in EX. rewrite EX. unfold unit_norm. unfold rnorm. rewrite rsum_map. fold E.
  assert (E0 : (0 <= E)%R) by (apply rsum_nonneg; intros; apply pow2_ge_0). split; intros HE.
  - rewrite HE, sqrt_0. destruct (Req_EM_T 0 0); [reflexivity|lra].
  - assert (SE : (0 < sqrt E)%R) by (apply sqrt_lt_R0; lra). destruct (Req_EM_T (sqrt E) 0); [lra|]. eexists. split; [reflexivity|]. rewrite map_map. split; [rewrite zlen_map_arange; lia|]. split.
    + rewrite rsum_map. rewrite (rsum_ext _ _ (fun k => raw k ^ 2 / E)%R).
      * rewrite rsum_div. fold E. apply Rinv_r. auto.
      * intros k _. unfold Rdiv. rewrite Rpow_mult_distr, pow_inv, pow2_sqrt by lra. reflexivity.
    + intros k Hk. rewrite rnth_map_arange by lia. now rewrite Z.add_0_l.
Qed.
(** The envelope is 1/alpha at both ends of the interval, 1 at its geometric
    middle and never more. *)
Lemma altes_ends n fmin fmax : 1 <= n -> (0 < fmin < fmax)%R ->
  ln (altes_t n fmin fmax 0 / altes_mid n fmin fmax) = (- (ln (fmax / fmin) / 2))%R /\
  ln (altes_t n fmin fmax (IZR n) / altes_mid n fmin fmax) = (ln (fmax / fmin) / 2)%R.
Proof.
  intros Hn Hf. assert (HN : (0 < IZR n)%R) by (apply IZR_lt; lia). assert (SP : (0 < sqrt (fmin * fmax))%R) by (apply sqrt_lt_R0; nra).
  assert (SS : (sqrt (fmin * fmax) * sqrt (fmin * fmax) = fmin * fmax)%R) by (apply sqrt_sqrt; nra).
  assert (HALF : forall u v, (0 < u -> 0 < v -> u * u = v -> ln u = ln v / 2)%R). { intros u v Hu Hv Q. rewrite <- Q, ln_mult by auto. lra. }
  unfold altes_t, altes_mid. set (s := sqrt (fmin * fmax)) in *. split.
  - replace ((IZR n * fmin / (fmax - fmin) + 0) / (IZR n * s / (fmax - fmin)))%R with (fmin / s)%R by (field; repeat split; lra).
    rewrite (HALF (fmin / s)%R (fmin / fmax)%R).
    + replace (fmin / fmax)%R with (/ (fmax / fmin))%R by (field; lra). rewrite ln_Rinv by (apply Rdiv_lt_0_compat; lra). lra.
    + apply Rdiv_lt_0_compat; lra.
    + apply Rdiv_lt_0_compat; lra.
    + replace (fmin / s * (fmin / s))%R with (fmin * fmin / (s * s))%R by (field; lra). rewrite SS. field. lra.
  - replace ((IZR n * fmin / (fmax - fmin) + IZR n) / (IZR n * s / (fmax - fmin)))%R with (fmax / s)%R by (field; repeat split; lra).
    apply HALF; [apply Rdiv_lt_0_compat; lra|apply Rdiv_lt_0_compat; lra|].
    replace (fmax / s * (fmax / s))%R with (fmax * fmax / (s * s))%R by (field; lra). rewrite SS. field. lra.
Qed.
Lemma c64_altes_envelope : forall n fmin fmax alpha, 1 <= n -> (0 < fmin < fmax)%R -> (1 < alpha)%R ->
  altes_env n fmin fmax alpha 0 = (/ alpha)%R /\ altes_env n fmin fmax alpha (IZR n) = (/ alpha)%R /\
  (forall k, (0 < altes_env n fmin fmax alpha k <= 1)%R).
Proof.
  intros n fmin fmax alpha Hn Hf Ha. destruct (altes_ends n fmin fmax Hn Hf) as [A B]. assert (HL := ratio_gt_1 fmin fmax Hf).
  assert (LA : (0 < ln alpha)%R) by (rewrite <- ln_1; apply ln_increasing; lra).
  unfold altes_env. rewrite A, B. split; [|split].
  - replace (- (2 * - (ln (fmax / fmin) / 2) / ln (fmax / fmin)) ^ 2)%R with (Ropp 1) by (field; lra). rewrite Rpower_Ropp, Rpower_1 by lra. reflexivity.
  - replace (- (2 * (ln (fmax / fmin) / 2) / ln (fmax / fmin)) ^ 2)%R with (Ropp 1) by (field; lra). rewrite Rpower_Ropp, Rpower_1 by lra. reflexivity.
  - intros k. split; [apply exp_pos|]. unfold Rpower. apply exp_le_1. set (u := (2 * _ / _)%R). assert (Q := pow2_ge_0 u). nra.
Qed.
(** *** C79: the frequency sweeps [g fmin, g fmax] with g > 1. *)
Lemma c79_sweep : forall n fmin fmax alpha, 1 <= n -> (0 < fmin < fmax)%R -> (1 < alpha)%R ->
  let g := altes_g fmin fmax alpha in
  (1 < g)%R /\
  (forall k, (0 <= k)%R -> is_derive (altes_phase n fmin fmax alpha) k (2 * PI * (g * (IZR n * fmin * fmax / (fmax - fmin)) / altes_t n fmin fmax k))%R) /\
  is_derive (altes_phase n fmin fmax alpha) 0%R (2 * PI * (g * fmax))%R /\
  is_derive (altes_phase n fmin fmax alpha) (IZR n) (2 * PI * (g * fmin))%R.
Proof.
  intros n fmin fmax alpha Hn Hf Ha g. assert (HL := ratio_gt_1 fmin fmax Hf). assert (LA : (0 < ln alpha)%R) by (rewrite <- ln_1; apply ln_increasing; lra).
  assert (HN : (0 < IZR n)%R) by (apply IZR_lt; lia).
  assert (D : forall k, (0 <= k)%R -> is_derive (altes_phase n fmin fmax alpha) k (2 * PI * (g * (IZR n * fmin * fmax / (fmax - fmin)) / altes_t n fmin fmax k))%R).
  { intros k Hk. assert (SP : (0 < sqrt (fmin * fmax))%R) by (apply sqrt_lt_R0; nra). assert (MP : (0 < altes_mid n fmin fmax)%R) by (apply Rdiv_lt_0_compat; nra).
    assert (TP : (0 < altes_t n fmin fmax k)%R) by (unfold altes_t; assert (0 < IZR n * fmin / (fmax - fmin))%R by (apply Rdiv_lt_0_compat; nra); lra).
    unfold altes_phase. fold g. set (M := altes_mid n fmin fmax) in *. unfold altes_t in *. auto_derive.
    - apply Rmult_lt_0_compat; [exact TP|now apply Rinv_0_lt_compat].
    - set (U := (IZR n * fmin / (fmax - fmin))%R) in *. field. repeat split; lra. }
  split; [|split; [exact D|split]].
  - unfold g, altes_g. rewrite <- exp_0 at 1. apply exp_increasing. apply Rdiv_lt_0_compat; nra.
  - specialize (D 0%R ltac:(lra)). replace (g * fmax)%R with (g * (IZR n * fmin * fmax / (fmax - fmin)) / altes_t n fmin fmax 0)%R; [exact D|]. unfold altes_t. field. repeat split; try lra; nra.
  - specialize (D (IZR n) ltac:(lra)). replace (g * fmin)%R with (g * (IZR n * fmin * fmax / (fmax - fmin)) / altes_t n fmin fmax (IZR n))%R; [exact D|]. unfold altes_t. field. repeat split; try lra; nra.
Qed.
(** With the default band 0.05 .. 0.5 the first instantaneous frequency is
    beyond 1/2. *)
Lemma c79_default_refuted : forall n, 1 <= n -> exists d : R, is_derive (altes_phase n (5 / 100) (1 / 2) 300) 0%R (2 * PI * d)%R /\ (1 / 2 < d)%R.
Proof.
  intros n Hn. destruct (c79_sweep n (5 / 100) (1 / 2) 300) as (G & _ & D & _); [lia|lra|lra|]. eexists. split; [exact D|]. lra.
Qed.

(** *** C66, C78: gdpower *)
Lemma fft_demean (X : list C) f : 0 <= f < zlen X ->
  cnth (fft (map (fun z => z - cmean (ifft X))%C (ifft X))) f = if f =? 0 then RtoC 0 else cnth X f.
Proof.
  intros Hf. set (c := cmean (ifft X)). set (y := ifft X). assert (LY : zlen y = zlen X) by apply ifft_zlen.
  assert (NZ : IZR (zlen X) <> 0%R) by (apply IZR_neq; lia).
  rewrite fft_nth by (rewrite zlen_map, LY; lia). rewrite zlen_map, LY.
  rewrite (csum_ext _ _ (fun k => cnth y k * root (zlen X) (- (f * k)) - c * root (zlen X) (- (k * f)))%C).
  2:{ intros k Hk. apply in_arange in Hk. assert (Q : cnth (map (fun z => z - c)%C y) k = (cnth y k - c)%C).
      { unfold cnth. rewrite (nth_indep _ _ ((RtoC 0 - c)%C)) by (rewrite map_length; unfold zlen in LY, Hk; lia). exact (map_nth (fun z => (z - c)%C) y (RtoC 0) (Z.to_nat k)). }
      rewrite Q, (Z.mul_comm k f). ring. }
  rewrite csum_minus, csum_scal_l, root_orth_neg by lia.
  assert (F : forall g, 0 <= g < zlen X -> csum (arange 0 (zlen X)) (fun k => cnth y k * root (zlen X) (- (g * k)))%C = cnth X g).
  { intros g Hg. transitivity (cnth (fft (ifft X)) g); [|now rewrite fft_ifft]. rewrite fft_nth by (rewrite ifft_zlen; lia). now rewrite ifft_zlen. }
  rewrite F by lia. rewrite Z.mod_small by lia. destruct (Z.eqb_spec f 0) as [->|N]; [|ring].
  unfold c, cmean. fold y. rewrite LY. assert (S : csum y (fun z => z) = cnth X 0).
  { rewrite <- (F 0) by lia. rewrite (list_as_map y) at 1. rewrite csum_map, LY. apply csum_ext. intros k _. rewrite Z.mul_0_l. change (- 0) with 0. rewrite root_0. ring. }
  rewrite S. field. intros Q. apply RtoC_inj in Q. lra.
Qed.
Lemma csum_fft0 (x : list C) : 0 < zlen x -> csum x (fun z => z) = cnth (fft x) 0.
Proof.
  intros H. rewrite fft_nth by lia. rewrite (list_as_map x) at 1. rewrite csum_map. apply csum_ext. intros k _. rewrite Z.mul_0_l. change (- 0) with 0. rewrite root_0. ring.
Qed.
Lemma fft_scale_div (x : list C) (E : R) f : 0 <= f < zlen x ->
  cnth (fft (map (fun z => z / RtoC E)%C x)) f = (cnth (fft x) f / RtoC E)%C.
Proof.
  intros Hf. rewrite !fft_nth by (rewrite ?zlen_map; lia). rewrite zlen_map. unfold Cdiv. rewrite <- csum_scal_r. apply csum_ext. intros k Hk. apply in_arange in Hk.
  assert (Q : cnth (map (fun z => z * / RtoC E)%C x) k = (cnth x k * / RtoC E)%C).
  { unfold cnth. rewrite (nth_indep _ _ ((RtoC 0 * / RtoC E)%C)) by (rewrite map_length; unfold zlen in Hk; lia). exact (map_nth (fun z => (z * / RtoC E)%C) x (RtoC 0) (Z.to_nat k)). }
  rewrite Q. ring.
Qed.
(** The frequencies of the model: (j + 1) / (2 m), m the number of bins. *)
Lemma gd_bins_map n : 1 <= n -> gd_bins n = map (fun j => IZR (j + 1) / (2 * IZR (cdiv n 2)))%R (arange 0 (cdiv n 2)).
Proof.
  intros Hn. assert (H := cdiv_spec n 2 ltac:(lia)). set (m := cdiv n 2) in *. unfold gd_bins. fold m. unfold linspace. change 1%nat with (Z.to_nat (1 - 0)). rewrite skipn_map_arange by lia.
  replace (arange 1 (m + 1)) with (map (fun j => j + 1) (arange 0 m)) by (symmetry; exact (arange_shift 0 m 1)). rewrite map_map. apply map_ext. intros j. replace (m + 1 - 1) with m by lia. field. apply IZR_neq. lia.
Qed.
Lemma gdpower_pos n degree rate : 1 <= n -> gdpower n degree rate =
  if Req_EM_T rate 0 then Raise TypeError
  else if Req_EM_T degree 1 then Raise TypeError
  else
    let nu := gd_bins n in
    let head := map (fun v => cis (- (2 * PI * gd_phase n degree rate v)) * RtoC (Rpower v ((degree - 2) / 6)))%C nu in
    let x := ifft (prefix (head ++ repeat (RtoC 0) (Z.to_nat n)) n) in
    let gpd := map (fun v => gd_t0 n degree + Rabs (rsign rate - 1) / 2 * (IZR n + 1) + gd_coeff n degree rate * Rpower v (degree - 1))%R nu in
    let x := map (fun z => z - cmean x)%C x in
    Ok (if Req_EM_T (cnorm x) 0 then None else Some (map (fun z => z / RtoC (cnorm x))%C x), gpd, nu).
Proof.
  intros Hn. assert (Hm := cdiv_spec n 2 ltac:(lia)). unfold gdpower. destruct (Z.ltb_spec (cdiv n 2 + 1) 0); [lia|]. destruct (Req_EM_T rate 0); [reflexivity|].
  destruct (Z.ltb_spec n 0); [lia|]. destruct (Z.eqb_spec n 0); [lia|]. destruct (Req_EM_T degree 1); [|reflexivity].
  unfold anapulse, hilbert. rewrite zlen_map_arange by lia. destruct (Z.eqb_spec (n - 0) 0); [lia|]. reflexivity.
Qed.
Definition gd_freq (n f : Z) : R := (IZR (f + 1) / (2 * IZR (cdiv n 2)))%R.
Definition gd_amp (degree v : R) : R := Rpower v ((degree - 2) / 6).
Lemma c66_gdpower : forall n degree rate, 3 <= n -> rate <> 0%R -> degree <> 1%R ->
  let m := cdiv n 2 in
  exists x gpd nu, gdpower n degree rate = Ok (Some x, gpd, nu) /\
    zlen x = n /\ energy x = 1%R /\ csum x (fun z => z) = RtoC 0 /\
    zlen nu = m /\ zlen gpd = m /\ (forall j, 0 <= j < m -> rnth nu j = gd_freq n j) /\
    exists E, (0 < E)%R /\ (IZR n * E ^ 2 = rsum (arange 1 m) (fun f => gd_amp degree (gd_freq n f) ^ 2))%R /\
      forall f, 0 <= f < n -> cnth (fft x) f =
        if (0 <? f) && (f <? m) then (cis (- (2 * PI * gd_phase n degree rate (gd_freq n f))) * RtoC (gd_amp degree (gd_freq n f) / E))%C else RtoC 0.
Proof.
  intros n degree rate Hn Hr Hd m. assert (Hm := cdiv_spec n 2 ltac:(lia)). fold m in Hm. rewrite gdpower_pos by lia. destruct (Req_EM_T rate 0); [lra|]. destruct (Req_EM_T degree 1); [lra|]. cbv zeta.
  rewrite gd_bins_map by lia. fold m. set (nu := map (fun j => IZR (j + 1) / (2 * IZR m))%R (arange 0 m)).
  set (gpd := map (fun v => gd_t0 n degree + Rabs (rsign rate - 1) / 2 * (IZR n + 1) + gd_coeff n degree rate * Rpower v (degree - 1))%R nu).
  set (hd := fun j : Z => (cis (- (2 * PI * gd_phase n degree rate (gd_freq n j))) * RtoC (gd_amp degree (gd_freq n j)))%C).
  assert (EH : map (fun v => cis (- (2 * PI * gd_phase n degree rate v)) * RtoC (Rpower v ((degree - 2) / 6)))%C nu = map hd (arange 0 m)) by (unfold nu; now rewrite map_map).
  rewrite EH.
  set (X := prefix (map hd (arange 0 m) ++ repeat (RtoC 0) (Z.to_nat n)) n).
  assert (LX : zlen X = n). { unfold X, prefix, zlen. rewrite firstn_length, app_length, map_length, arange_length, repeat_length. lia. }
  assert (VX : forall f, 0 <= f < n -> cnth X f = if f <? m then hd f else RtoC 0).
  { intros f Hf. unfold X, prefix, cnth. rewrite nth_firstn by lia. destruct (Z.ltb_spec f m).
    - rewrite app_nth1 by (rewrite map_length, arange_length; lia). rewrite nth_map_arange by lia. now rewrite Z.add_0_l.
    - rewrite app_nth2 by (rewrite map_length, arange_length; lia). apply nth_repeat. }
  set (y := map (fun z => z - cmean (ifft X))%C (ifft X)). assert (LY : zlen y = n) by (unfold y; rewrite zlen_map, ifft_zlen; exact LX).
  assert (VY : forall f, 0 <= f < n -> cnth (fft y) f = if (0 <? f) && (f <? m) then hd f else RtoC 0).
  { intros f Hf. unfold y. rewrite fft_demean by lia. destruct (Z.eqb_spec f 0) as [->|]; [reflexivity|]. rewrite VX by lia. destruct (Z.ltb_spec 0 f); [|lia]. reflexivity. }
  assert (HM : forall f, Cmod (hd f) = gd_amp degree (gd_freq n f)).
  { intros f. unfold hd. rewrite Cmod_mult, Cmod_cis, Rmult_1_l, Cmod_R. apply Rabs_pos_eq. left. apply exp_pos. }
  assert (EN : (IZR n * energy y = rsum (arange 1 m) (fun f => gd_amp degree (gd_freq n f) ^ 2))%R).
  { rewrite <- LY at 1. rewrite <- fft_energy. rewrite LY. rewrite (arange_app 0 1 n), (arange_app 1 m n) by lia. rewrite !rsum_app.
    rewrite (rsum_ext (arange 0 1) _ (fun _ => 0%R)), (rsum_ext (arange m n) _ (fun _ => 0%R)).
    - rewrite (rsum_0 (arange 0 1)), (rsum_0 (arange m n)) by auto. rewrite Rplus_0_l, Rplus_0_r. apply rsum_ext. intros f Hf. apply in_arange in Hf. unfold pw. rewrite VY by lia. destruct (Z.ltb_spec 0 f); [|lia]. destruct (Z.ltb_spec f m); [|lia]. cbn [andb]. now rewrite HM.
    - intros f Hf. apply in_arange in Hf. unfold pw. rewrite VY by lia. destruct (Z.ltb_spec f m); [lia|]. rewrite andb_false_r, Cmod_0. ring.
    - intros f Hf. apply in_arange in Hf. unfold pw. rewrite VY by lia. destruct (Z.ltb_spec 0 f); [lia|]. cbn [andb]. rewrite Cmod_0. ring. }
  assert (HN : (0 < IZR n)%R) by (apply IZR_lt; lia).
  assert (EP : (0 < energy y)%R).
  { apply (Rmult_lt_reg_l (IZR n)); [lra|]. rewrite Rmult_0_r, EN. apply rsum_pos; [intros; apply pow2_ge_0|]. exists 1. split; [apply in_arange; lia|]. apply pow_nonzero. apply Rgt_not_eq, exp_pos. }
  assert (CN : cnorm y = sqrt (energy y)) by reflexivity. rewrite CN. set (E := sqrt (energy y)). assert (E0 : (0 < E)%R) by now apply sqrt_lt_R0.
  assert (E2 : (E ^ 2 = energy y)%R) by (apply pow2_sqrt; lra).
  destruct (Req_EM_T E 0); [lra|]. exists (map (fun z => z / RtoC E)%C y), gpd, nu. split; [reflexivity|].
  assert (EC : RtoC E <> RtoC 0) by (intros Q; apply RtoC_inj in Q; lra).
  assert (SP : forall f, 0 <= f < n -> cnth (fft (map (fun z => z / RtoC E)%C y)) f = if (0 <? f) && (f <? m) then (cis (- (2 * PI * gd_phase n degree rate (gd_freq n f))) * RtoC (gd_amp degree (gd_freq n f) / E))%C else RtoC 0).
  { intros f Hf. rewrite fft_scale_div by lia. rewrite VY by lia. destruct ((0 <? f) && (f <? m)).
    - unfold hd. rewrite RtoC_div by lra. unfold Cdiv. now rewrite Cmult_assoc.
    - unfold Cdiv. ring. }
  split; [now rewrite zlen_map|]. split.
  { unfold energy. rewrite rsum_map. rewrite (rsum_ext _ _ (fun z => Cmod z ^ 2 / energy y)%R).
    - rewrite rsum_div. fold (energy y). field. lra.
    - intros z _. rewrite Cmod_div by auto. rewrite Cmod_R, (Rabs_pos_eq E) by lra. unfold Rdiv. rewrite Rpow_mult_distr, pow_inv, E2. reflexivity. }
  split. { rewrite csum_fft0 by (rewrite zlen_map; lia). rewrite SP by lia. reflexivity. }
  split; [unfold nu; rewrite zlen_map_arange; lia|]. split; [unfold gpd, nu; rewrite zlen_map, zlen_map_arange; lia|].
  split. { intros j Hj. unfold nu. rewrite rnth_map_arange by lia. now rewrite Z.add_0_l. }
  exists E. split; [exact E0|]. split; [rewrite E2; exact EN|exact SP].
Qed.
(** One or two points: the only bin is removed with the mean, 0/0. *)
Lemma c66_short_refuted : forall n degree rate, 1 <= n <= 2 -> rate <> 0%R -> degree <> 1%R -> exists gpd nu, gdpower n degree rate = Ok (None, gpd, nu).
Proof.
  intros n degree rate Hn Hr Hd. assert (Hm := cdiv_spec n 2 ltac:(lia)). assert (M1 : cdiv n 2 = 1) by lia. rewrite gdpower_pos by lia. destruct (Req_EM_T rate 0); [lra|]. destruct (Req_EM_T degree 1); [lra|]. cbv zeta.
  rewrite gd_bins_map by lia. rewrite M1. rewrite map_map. set (hd := fun j : Z => _ : C). do 2 eexists.
  set (X := prefix (map hd (arange 0 1) ++ repeat (RtoC 0) (Z.to_nat n)) n).
  assert (LX : zlen X = n). { unfold X, prefix, zlen. rewrite firstn_length, app_length, map_length, arange_length, repeat_length. lia. }
  set (y := map (fun z => z - cmean (ifft X))%C (ifft X)). assert (LY : zlen y = n) by (unfold y; rewrite zlen_map, ifft_zlen; exact LX).
  assert (VY : forall f, 0 <= f < n -> cnth (fft y) f = RtoC 0).
  { intros f Hf. unfold y. rewrite fft_demean by lia. destruct (Z.eqb_spec f 0) as [->|]; [reflexivity|]. unfold X, prefix, cnth. rewrite nth_firstn by lia. rewrite app_nth2 by (rewrite map_length, arange_length; lia). apply nth_repeat. }
  assert (HN : (0 < IZR n)%R) by (apply IZR_lt; lia).
  assert (EN : (IZR n * energy y = 0)%R). { rewrite <- LY at 1. rewrite <- fft_energy. rewrite LY. apply rsum_0. intros f Hf. apply in_arange in Hf. unfold pw. rewrite VY by lia. rewrite Cmod_0. ring. }
  assert (CN : cnorm y = sqrt (energy y)) by reflexivity. rewrite CN. replace (energy y) with 0%R by (apply (Rmult_eq_reg_l (IZR n)); lra). rewrite sqrt_0. destruct (Req_EM_T 0 0); [reflexivity|lra].
Qed.
(** The outcome of every call with an integer number of points. *)
Lemma c66_outcome : forall n degree rate,
  (1 <= n -> (rate = 0%R \/ degree = 1%R -> gdpower n degree rate = Raise TypeError) /\
             (rate <> 0%R -> degree <> 1%R -> exists x gpd nu, gdpower n degree rate = Ok (x, gpd, nu))) /\
  (n < -3 -> gdpower n degree rate = Raise ValueError) /\
  (-3 <= n <= 0 -> rate = 0%R -> gdpower n degree rate = Raise TypeError) /\
  (-3 <= n < 0 -> rate <> 0%R -> gdpower n degree rate = Raise ValueError) /\
  (n = 0 -> rate <> 0%R -> gdpower n degree rate = Raise (if Rlt_dec degree 1 then if Rlt_dec (degree * rate) 0 then ZeroDivisionError else ValueError else ValueError)).
Proof.
  intros n degree rate. assert (Hm := cdiv_spec n 2 ltac:(lia)). split; [|split; [|split; [|split]]].
  - intros Hn. rewrite gdpower_pos by lia. split.
    + intros [H|H]; destruct (Req_EM_T rate 0); try reflexivity; try contradiction. destruct (Req_EM_T degree 1); [reflexivity|contradiction].
    + intros H1 H2. destruct (Req_EM_T rate 0); [contradiction|]. destruct (Req_EM_T degree 1); [contradiction|]. do 3 eexists. reflexivity.
  - intros Hn. unfold gdpower. destruct (Z.ltb_spec (cdiv n 2 + 1) 0); [reflexivity|lia].
  - intros Hn Hr. unfold gdpower. destruct (Z.ltb_spec (cdiv n 2 + 1) 0); [lia|]. destruct (Req_EM_T rate 0); [reflexivity|contradiction].
  - intros Hn Hr. unfold gdpower. destruct (Z.ltb_spec (cdiv n 2 + 1) 0); [lia|]. destruct (Req_EM_T rate 0); [contradiction|]. destruct (Z.ltb_spec n 0); [reflexivity|lia].
  - intros -> Hr. unfold gdpower. change (cdiv 0 2 + 1 <? 0) with false. change (0 <? 0) with false. change (0 =? 0) with true. cbv iota. destruct (Req_EM_T rate 0); [contradiction|].
    destruct (Req_EM_T degree 1) as [->|]; [cbn; destruct (Rlt_dec 1 1); [lra|reflexivity]|]. destruct (Req_EM_T degree 0) as [->|].
    + destruct (Rlt_dec 0 1); [|lra]. rewrite Rmult_0_l. destruct (Rlt_dec 0 0); [lra|reflexivity].
    + destruct (Rlt_dec degree 1); [|reflexivity]. destruct (Rlt_dec (degree * rate) 0); reflexivity.
Qed.
Lemma c66_raises : forall n degree rate,
  (-3 <= n /\ rate = 0%R \/ 1 <= n /\ degree = 1%R) <-> gdpower n degree rate = Raise TypeError.
Proof.
  intros n degree rate. destruct (c66_outcome n degree rate) as (A & B & C & D & E). split.
  - intros [[Hn H]|[Hn H]].
    + destruct (Z_le_gt_dec 1 n); [apply A; auto|apply C; [lia|auto]].
    + apply A; auto.
  - intros H. destruct (Z_lt_le_dec n (-3)) as [L|L]; [rewrite B in H by lia; discriminate|]. destruct (Req_EM_T rate 0) as [->|NR]; [left; auto|].
    destruct (Z_lt_le_dec n 0) as [L0|L0]; [rewrite D in H by (lia || auto); discriminate|]. destruct (Z.eq_dec n 0) as [N0|N0].
    + rewrite E in H by auto. destruct (Rlt_dec degree 1); [|discriminate]. destruct (Rlt_dec (degree * rate) 0); discriminate.
    + destruct (Req_EM_T degree 1) as [->|ND]; [right; split; [lia|auto]|]. destruct (A ltac:(lia)) as [_ A']. destruct (A' NR ND) as (x & g & u & Q). rewrite Q in H. discriminate.
Qed.
(** The returned delays, and the delays the spectrum has. *)
Definition gd_law (n : Z) (degree rate v : R) : R :=
  ((if Rlt_dec degree 1 then IZR n / 10 else 0) +
   (if Req_EM_T degree 0 then rate else if Rlt_dec degree 1 then Rpower (IZR n) (degree * rate) else IZR n * Rpower 2 (degree - 1) * rate) * Rpower v (degree - 1))%R.
Lemma c66_delay : forall n degree rate x gpd nu, 1 <= n -> gdpower n degree rate = Ok (x, gpd, nu) ->
  (forall j, 0 <= j < cdiv n 2 -> rnth gpd j = (gd_law n degree rate (gd_freq n j) + (if Rlt_dec rate 0 then IZR n + 1 else 0))%R) /\
  (forall v, (0 < v)%R -> is_derive (gd_phase n degree rate) v (gd_law n degree rate v)).
Proof.
  intros n degree rate x gpd nu Hn H. rewrite gdpower_pos in H by lia. destruct (Req_EM_T rate 0); [discriminate|]. destruct (Req_EM_T degree 1); [discriminate|]. injection H as _ <- <-. split.
  - intros j Hj. rewrite gd_bins_map by lia. rewrite map_map. rewrite rnth_map_arange by lia. rewrite Z.add_0_l. fold (gd_freq n j). unfold gd_law, gd_coeff, gd_t0, rsign.
    destruct (Rlt_dec rate 0).
    + replace (-1 - 1)%R with (-2)%R by lra. replace (Rabs (-2)) with 2%R by (rewrite Rabs_left; lra). lra.
    + destruct (Req_EM_T rate 0); [lra|]. replace (1 - 1)%R with 0%R by lra. rewrite Rabs_R0. lra.
  - intros v Hv. unfold gd_phase, gd_law, gd_t0, gd_coeff. destruct (Req_EM_T degree 0) as [->|N0].
    + destruct (Rlt_dec 0 1); [|lra]. auto_derive; [lra|]. replace (0 - 1)%R with (Ropp 1) by lra. rewrite Rpower_Ropp, Rpower_1 by lra. field. lra.
    + set (t := if Rlt_dec degree 1 then (IZR n / 10)%R else 0%R). set (d := if Rlt_dec degree 1 then _ else _). unfold Rpower at 1. auto_derive; [lra|].
      unfold Rpower. replace ((degree - 1) * ln v)%R with (degree * ln v + - ln v)%R by ring. rewrite exp_plus, exp_Ropp, exp_ln by lra. field. lra.
Qed.
Example c66_example : exists x gpd nu, gdpower 3 2 1 = Ok (Some x, gpd, nu) /\ zlen x = 3 /\ energy x = 1%R /\ nu = [1 / 4; 1 / 2]%R /\ gpd = [3 / 2; 3]%R /\
  cnth (fft x) 0 = RtoC 0 /\ Cmod (cnth (fft x) 1) = sqrt 3 /\ cnth (fft x) 2 = RtoC 0.
Proof.
  destruct (c66_gdpower 3 2 1) as (x & gpd & nu & H & L & EN & _ & LN & LG & VN & E & E0 & E2 & S); [lia|lra|lra|]. destruct (c66_delay 3 2 1 _ _ _ ltac:(lia) H) as [G _].
  change (cdiv 3 2) with 2 in *. exists x, gpd, nu. split; [exact H|]. split; [exact L|]. split; [exact EN|].
  assert (F0 : gd_freq 3 0 = (1 / 4)%R) by (unfold gd_freq; change (cdiv 3 2) with 2; cbn; lra). assert (F1 : gd_freq 3 1 = (1 / 2)%R) by (unfold gd_freq; change (cdiv 3 2) with 2; cbn; lra).
  split; [|split].
  - unfold zlen in LN. destruct nu as [|a [|b [|]]]; cbn [length] in LN; try lia. assert (A := VN 0 ltac:(lia)). assert (B := VN 1 ltac:(lia)). rewrite F0 in A. rewrite F1 in B. unfold rnth in A, B. change (Z.to_nat 0) with 0%nat in A. change (Z.to_nat 1) with 1%nat in B. cbn [nth] in A, B. now rewrite A, B.
  - unfold zlen in LG. destruct gpd as [|a [|b [|]]]; cbn [length] in LG; try lia. assert (A := G 0 ltac:(lia)). assert (B := G 1 ltac:(lia)). rewrite F0 in A. rewrite F1 in B. unfold rnth in A, B. change (Z.to_nat 0) with 0%nat in A. cbn [nth] in A. change (Z.to_nat 1) with 1%nat in B. cbn [nth] in B.
    unfold gd_law in A, B. destruct (Rlt_dec 2 1); [lra|]. destruct (Req_EM_T 2 0); [lra|]. destruct (Rlt_dec 1 0); [lra|]. replace (2 - 1)%R with 1%R in A, B by lra. rewrite !Rpower_1 in A, B by lra. f_equal; [lra|]. f_equal. lra.
  - assert (A : gd_amp 2 (1 / 2) = 1%R). { unfold gd_amp. replace ((2 - 2) / 6)%R with 0%R by lra. apply Rpower_O. lra. }
    change (arange 1 2) with [1] in E2. unfold rsum in E2. cbn [fold_right] in E2. rewrite F1, A in E2. rewrite !S by lia. cbn [Z.ltb Z.compare andb Pos.compare Pos.compare_cont]. split; [reflexivity|]. split; [|reflexivity].
    rewrite F1, A, Cmod_mult, Cmod_cis, Cmod_R. rewrite Rabs_pos_eq by (left; apply Rdiv_lt_0_compat; lra). rewrite Rmult_1_l. symmetry. apply sqrt_lem_1; [lra|left; apply Rdiv_lt_0_compat; lra|].
    replace (1 / E * (1 / E))%R with (/ (E ^ 2))%R by (field; lra). replace (E ^ 2)%R with (/ 3)%R by lra. now rewrite Rinv_inv.
Qed.
(** C78: linear in the rate for degree 0 or above 1; for the other degrees
    the delay is a power of n whose exponent holds the rate. *)
Lemma c78_linear : forall n degree rate a v, degree = 0%R \/ (1 < degree)%R ->
  (gd_law n degree (a * rate) v - gd_law n degree 0 v = a * (gd_law n degree rate v - gd_law n degree 0 v))%R.
Proof.
  intros n degree rate a v H. unfold gd_law. destruct (Req_EM_T degree 0) as [->|].
  - ring.
  - destruct H as [H|H]; [lra|]. destruct (Rlt_dec degree 1); [lra|]. ring.
Qed.
Lemma c78_power : forall n degree rate v, (degree < 1)%R -> degree <> 0%R ->
  (gd_law n degree rate v = IZR n / 10 + Rpower (IZR n) (degree * rate) * Rpower v (degree - 1))%R /\ (IZR n / 10 < gd_law n degree rate v)%R.
Proof.
  intros n degree rate v H N. assert (Q : (gd_law n degree rate v = IZR n / 10 + Rpower (IZR n) (degree * rate) * Rpower v (degree - 1))%R).
  { unfold gd_law. destruct (Rlt_dec degree 1); [|lra]. destruct (Req_EM_T degree 0); [lra|]. reflexivity. }
  split; [exact Q|]. rewrite Q. assert (P := Rmult_lt_0_compat _ _ (exp_pos (degree * rate * ln (IZR n))) (exp_pos ((degree - 1) * ln v))). unfold Rpower. lra.
Qed.
(** Opposite rates: the delays are on the same side. *)
Lemma c78_refuted : forall n v, 3 <= n -> (0 < v)%R -> exists degree rate,
  (degree < 1)%R /\ degree <> 0%R /\ (0 < gd_law n degree rate v - IZR n / 10)%R /\ (0 < gd_law n degree (- rate) v - IZR n / 10)%R.
Proof.
  intros n v Hn Hv. exists (-1)%R, 1%R. split; [lra|]. split; [lra|]. destruct (c78_power n (-1) 1 v) as [_ A]; [lra|lra|]. destruct (c78_power n (-1) (Ropp 1) v) as [_ B]; [lra|lra|]. split; lra.
Qed.
Example c78_example : gd_law 4 2 3 (1 / 4) = 6%R /\ gd_law 4 (1 / 2) 4 (1 / 4) = (4 / 10 + 32)%R.
Proof.
  split.
  - unfold gd_law. destruct (Rlt_dec 2 1); [lra|]. destruct (Req_EM_T 2 0); [lra|]. replace (2 - 1)%R with 1%R by lra. rewrite !Rpower_1 by lra. lra.
  - destruct (c78_power 4 (1 / 2) 4 (1 / 4)) as [-> _]; [lra|lra|]. f_equal. replace (1 / 2 * 4)%R with (INR 2) by (cbn; lra). rewrite Rpower_pow by lra. replace (1 / 2 - 1)%R with (Ropp (/ 2)) by lra. rewrite Rpower_Ropp, Rpower_sqrt by lra.
    replace (sqrt (1 / 4)) with (1 / 2)%R by (symmetry; apply sqrt_lem_1; lra). lra.
Qed.

(** The two bounds may be given in either order. *)
Lemma c64_altes_swap : forall n fmin fmax alpha, (0 < fmin)%R -> (0 < fmax)%R -> altes n fmin fmax alpha = altes n fmax fmin alpha.
Proof.
  intros n fmin fmax alpha H1 H2. unfold altes. cbv zeta. rewrite (Rmult_comm fmax fmin).
  replace ((ln (fmax / fmin)) ^ 2)%R with ((ln (fmin / fmax)) ^ 2)%R; [reflexivity|]. rewrite !ln_div by lra. ring.
Qed.
(** With an attenuation below 1 the envelope is largest at the edges. *)
Lemma c64_altes_inverted : forall n fmin fmax alpha, 1 <= n -> (0 < fmin < fmax)%R -> (0 < alpha < 1)%R ->
  altes_env n fmin fmax alpha 0 = (/ alpha)%R /\ altes_env n fmin fmax alpha (IZR n) = (/ alpha)%R /\
  (forall k, (1 <= altes_env n fmin fmax alpha k)%R).
Proof.
  intros n fmin fmax alpha Hn Hf Ha. destruct (altes_ends n fmin fmax Hn Hf) as [A B]. assert (HL := ratio_gt_1 fmin fmax Hf).
  assert (LA : (ln alpha < 0)%R) by (rewrite <- ln_1; apply ln_increasing; lra).
  unfold altes_env. rewrite A, B. split; [|split].
  - replace (- (2 * - (ln (fmax / fmin) / 2) / ln (fmax / fmin)) ^ 2)%R with (Ropp 1) by (field; lra). rewrite Rpower_Ropp, Rpower_1; lra.
  - replace (- (2 * (ln (fmax / fmin) / 2) / ln (fmax / fmin)) ^ 2)%R with (Ropp 1) by (field; lra). rewrite Rpower_Ropp, Rpower_1; lra.
  - intros k. unfold Rpower. rewrite <- exp_0 at 1. set (q := (2 * ln (altes_t n fmin fmax k / altes_mid n fmin fmax) / ln (fmax / fmin))%R).
    assert (Q := pow2_ge_0 q). destruct (Req_dec (- q ^ 2 * ln alpha) 0) as [->|NE]; [lra|]. apply Rlt_le, exp_increasing. nra.
Qed.
