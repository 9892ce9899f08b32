(** C87-C89: the affine classes: default band, kernel, interpolation. *)
From Coq Require Import Reals ZArith List Lia Lra Bool.
From Coquelicot Require Import Coquelicot.
From Flocq Require Import Core.
From Verif Require Import Py Scalars CSum DFT Spec M_base M_utils M_putils M_post M_gen1 M_gen2 M_gen3 M_aff M_wb P_base P_spec T_post T_utils T_putils T_dom T_gen1 T_gen2 T_hil T_key T_noise T_misc T_misc2 T_aff T_aff2 T_wb.
Import ListNotations.
Local Open Scope Z_scope.

(** *** C87: the default band *)
(** Power of bin k of the samples lo, ..., lo + n - 1 of the real signal. *)
Definition power (s : list R) (k : Z) : R := (Cmod (csum (arange 0 (zlen s)) (fun i => RtoC (rnth s i) * root (zlen s) (- (k * i)))%C) ^ 2)%R.
Lemma half_power_eq s : s <> [] -> half_power s = map (power s) (arange 0 (half_round (zlen s))).
Proof.
  intros NE. assert (L : 0 < zlen s) by (destruct s; [contradiction|unfold zlen; cbn; lia]). set (n := zlen s) in *. assert (HR := half_round_range n L).
  unfold half_power. fold n. assert (NE' : map RtoC s <> []) by (destruct s; [contradiction|discriminate]). rewrite fftshift_at by exact NE'. rewrite zlen_map. fold n. set (h := (n + 1) / 2). set (z := map _ (arange 0 n)).
  assert (LZ : zlen z = n) by (unfold z; rewrite zlen_map_arange; lia). rewrite (list_as_map (fft z)), fft_zlen, LZ, map_map. unfold prefix. replace (Z.to_nat (half_round n)) with (Z.to_nat (half_round n - 0)) by (f_equal; lia). rewrite firstn_map_arange by lia.
  apply map_ext_in. intros k Hk. apply in_arange in Hk. unfold power. fold n. rewrite fft_nth by lia. rewrite LZ.
  rewrite (csum_ext _ _ (fun i => (fun j => RtoC (rnth s j) * root n (- (k * (j - h))))%C ((i + h) mod n))).
  - rewrite (csum_mod_shift n h (fun j => RtoC (rnth s j) * root n (- (k * (j - h))))%C) by lia.
    rewrite (csum_ext _ _ (fun j => root n (k * h) * (RtoC (rnth s j) * root n (- (k * j))))%C).
    + rewrite csum_scal_l, Cmod_mult, Cmod_root, Rmult_1_l. reflexivity.
    + intros j _. replace (- (k * (j - h))) with (k * h + - (k * j)) by ring. rewrite root_plus. ring.
  - intros i Hi. apply in_arange in Hi. unfold z. rewrite cnth_map_arange by lia. rewrite Z.add_0_l. set (j := (i + h) mod n). assert (Hj : 0 <= j < n) by (apply Z.mod_pos_bound; lia).
    assert (EJ : cnth (map RtoC s) j = RtoC (rnth s j)) by (unfold cnth, rnth; exact (map_nth RtoC s 0%R (Z.to_nat j))). rewrite EJ. f_equal.
    rewrite <- (root_mod n (- (k * i))), <- (root_mod n (- (k * (j - h)))) by lia. f_equal. unfold j. replace (- (k * ((i + h) mod n - h))) with (k * h - k * ((i + h) mod n)) by ring.
    rewrite Zminus_mod, Z.mul_mod_idemp_r, <- Zminus_mod by lia. f_equal. ring.
Qed.
Lemma c87_band : forall x ts lo hi, zmin_list ts = Ok lo -> zmax_list ts = Ok hi -> 0 <= lo -> hi < zlen x -> lo < hi ->
  let s := map (fun i => Re (cnth x i)) (arange lo (hi + 1)) in let m := half_round (zlen s) in
  (exists k, 0 <= k < m /\ power s k <> 0%R) ->
  exists i j, bounds (map (power s) (arange 0 m)) i j /\
  affine_band x ts None None = Ok (Rmax (1 / 100) (5 / 100 * IZR (Zfloor (10 * IZR i / IZR m))), 5 / 100 * IZR (Zceil (10 * IZR j / IZR m)))%R.
Proof.
  intros x ts lo hi Elo Ehi Hlo Hhi LH s m (k & Hk & NZ). assert (LS : zlen s = hi + 1 - lo) by (unfold s; rewrite zlen_map_arange; lia).
  assert (NE : s <> []) by (intros Q; rewrite Q in LS; unfold zlen in LS; cbn in LS; lia).
  assert (ES : pyslice (map Re x) lo (hi + 1) = s).
  { unfold pyslice, pyclip. rewrite zlen_map. destruct (Z.ltb_spec lo 0); [lia|]. destruct (Z.ltb_spec (hi + 1) 0); [lia|]. rewrite !Z.min_l by lia. unfold s. rewrite (list_as_map x) at 1. rewrite map_map. unfold slice.
    replace (Z.to_nat lo) with (Z.to_nat (lo - 0)) by (f_equal; lia). rewrite skipn_map_arange by lia. replace (hi + 1 - lo) with ((hi + 1) - lo) by lia. now rewrite firstn_map_arange by lia. }
  unfold affine_band. rewrite Elo, Ehi. cbn [bind]. rewrite ES. destruct (Z.eqb_spec (zlen s) 0); [lia|]. rewrite half_power_eq by exact NE. fold m. set (sp := map (power s) (arange 0 m)).
  destruct (loud_bounds sp) as (l & i & j & E1 & E2 & E3 & B).
  - intros v Hv. apply in_map_iff in Hv. destruct Hv as (? & <- & _). apply pow2_ge_0.
  - exists (power s k). split; [apply in_map_iff; exists k; split; [reflexivity|apply in_arange; lia]|]. assert (0 <= power s k)%R by apply pow2_ge_0. lra.
  - exists i, j. split; [exact B|]. assert (SN : sp <> []) by (intros Q; destruct B as (mx & [IM _] & _); rewrite Q in IM; contradiction). destruct (rmax_ok sp SN) as (mx & -> & _). cbn [bind].
    unfold default_fmin, default_fmax. rewrite E1. cbn [bind]. rewrite E2, E3. cbn [bind]. rewrite !band_pos by lia. reflexivity.
Qed.
(** The band lies in [0, 1/2] and brackets every bin above one hundredth of
    the maximum (taken at frequency k / (2 m)), down to 0.01. *)
Lemma c87_brackets : forall sp i j, bounds sp i j -> let m := zlen sp in
  let a := Rmax (1 / 100) (5 / 100 * IZR (Zfloor (10 * IZR i / IZR m))) in let b := (5 / 100 * IZR (Zceil (10 * IZR j / IZR m)))%R in
  (1 / 100 <= a < 1 / 2)%R /\ (0 <= b <= 1 / 2)%R /\
  forall mx k, is_max sp mx -> 0 <= k < m -> (mx / 100 < rnth sp k)%R -> (IZR k / IZR (2 * m) <= b)%R /\ (a <= IZR k / IZR (2 * m) \/ a = 1 / 100)%R.
Proof.
  intros sp i j (mx & IM & B1 & B2 & _ & _ & B3) m a b. assert (PM : (0 < IZR m)%R) by (apply IZR_lt; unfold m; lia).
  assert (FI : forall v, (0 <= v)%R -> (v < 10)%R -> (0 <= IZR (Zfloor v) <= 9)%R).
  { intros v V0 V1. assert (0 <= Zfloor v) by (apply Zfloor_lub; exact V0). assert (Zfloor v < 10) by (apply lt_IZR; apply Rle_lt_trans with v; [apply Zfloor_lb|exact V1]). split; apply IZR_le; lia. }
  assert (Q : forall k, 0 <= k < m -> (0 <= 10 * IZR k / IZR m < 10)%R).
  { intros k Hk. assert (0 <= IZR k)%R by (apply IZR_le; lia). assert (IZR k < IZR m)%R by (apply IZR_lt; lia). split; [apply Rmult_le_pos; [lra|left; now apply Rinv_0_lt_compat]|].
    apply (Rmult_lt_reg_r (IZR m)); [lra|]. unfold Rdiv. rewrite Rmult_assoc, Rinv_l by lra. lra. }
  split; [|split].
  - unfold a. assert (F := FI _ (proj1 (Q i ltac:(unfold m; lia))) (proj2 (Q i ltac:(unfold m; lia)))). split; [apply Rmax_l|]. apply Rmax_lub_lt; lra.
  - unfold b. assert (QJ := Q j ltac:(unfold m; lia)). assert (Zceil (10 * IZR j / IZR m) <= 10) by (apply Zceil_glb; lra). assert (0 <= Zceil (10 * IZR j / IZR m)) by (apply le_IZR; apply Rle_trans with (1 := proj1 QJ), Zceil_ub).
    assert (IZR (Zceil (10 * IZR j / IZR m)) <= 10)%R by (apply IZR_le; lia). assert (0 <= IZR (Zceil (10 * IZR j / IZR m)))%R by (apply IZR_le; lia). lra.
  - intros mx' k IM' Hk HP. rewrite (is_max_unique _ _ _ IM' IM) in HP. assert (IJ := B3 k Hk HP). assert (EF : (IZR k / IZR (2 * m) = 5 / 100 * (10 * IZR k / IZR m))%R) by (rewrite mult_IZR; field; lra).
    assert (MO : forall u v, (IZR u <= IZR v)%R -> (10 * IZR u / IZR m <= 10 * IZR v / IZR m)%R) by (intros u v UV; apply Rmult_le_compat_r; [left; now apply Rinv_0_lt_compat|lra]).
    assert (LI := MO i k ltac:(apply IZR_le; lia)). assert (LJ := MO k j ltac:(apply IZR_le; lia)). split.
    + rewrite EF. unfold b. assert (C1 := Zceil_ub (10 * IZR j / IZR m)). lra.
    + rewrite EF. unfold a. assert (F1 := Zfloor_lb (10 * IZR i / IZR m)). destruct (Rle_dec (5 / 100 * IZR (Zfloor (10 * IZR i / IZR m))) (1 / 100)) as [L|L].
      * right. now apply Rmax_left.
      * left. rewrite Rmax_right by lra. lra.
Qed.
(** A silent segment, or one of a single sample, has no band. *)
Lemma c87_silent : forall x ts lo hi fmin, zmin_list ts = Ok lo -> zmax_list ts = Ok hi -> 0 <= lo -> hi < zlen x ->
  let s := map (fun i => Re (cnth x i)) (arange lo (hi + 1)) in
  (forall k, 0 <= k < half_round (zlen s) -> power s k = 0%R) ->
  affine_band x ts fmin None = Raise ValueError /\ affine_band x ts None fmin = Raise ValueError.
Proof.
  intros x ts lo hi fmin Elo Ehi Hlo Hhi s NZ. assert (LH : lo <= hi) by (destruct (zmin_spec _ _ Elo) as [A _]; destruct (zmax_spec _ _ Ehi) as [_ B]; auto).
  assert (LS : zlen s = hi + 1 - lo) by (unfold s; rewrite zlen_map_arange; lia). assert (NE : s <> []) by (intros Q; rewrite Q in LS; unfold zlen in LS; cbn in LS; lia).
  assert (ES : pyslice (map Re x) lo (hi + 1) = s).
  { unfold pyslice, pyclip. rewrite zlen_map. destruct (Z.ltb_spec lo 0); [lia|]. destruct (Z.ltb_spec (hi + 1) 0); [lia|]. rewrite !Z.min_l by lia. unfold s. rewrite (list_as_map x) at 1. rewrite map_map. unfold slice.
    replace (Z.to_nat lo) with (Z.to_nat (lo - 0)) by (f_equal; lia). rewrite skipn_map_arange by lia. now rewrite firstn_map_arange by lia. }
  assert (W : forall a b, (a = None \/ b = None) -> affine_band x ts a b = Raise ValueError).
  { intros a b AB. unfold affine_band. rewrite Elo, Ehi. cbn [bind]. rewrite ES. destruct (Z.eqb_spec (zlen s) 0); [lia|]. rewrite half_power_eq by exact NE. set (m := half_round (zlen s)) in *. set (sp := map (power s) (arange 0 m)).
    destruct (Z.eq_dec m 0) as [M0|M0].
    - assert (sp = []) by (unfold sp; now rewrite M0). rewrite H. cbn [rmax_list bind]. destruct AB as [-> | ->]; [destruct b|destruct a]; reflexivity.
    - assert (HR := half_round_range (zlen s) ltac:(lia)). fold m in HR. assert (SN : sp <> []) by (unfold sp; intros Q; apply map_eq_nil in Q; apply (f_equal (@length Z)) in Q; rewrite arange_length in Q; cbn in Q; lia).
      assert (EL : loud sp = Ok []) by (apply loud_silent; [exact SN|]; intros v Hv; apply in_map_iff in Hv; destruct Hv as (k & <- & Hk); apply in_arange in Hk; apply NZ; lia).
      destruct (rmax_ok sp SN) as (mx & -> & _). cbn [bind]. unfold default_fmin, default_fmax. rewrite EL. cbn [bind zmin_list zmax_list]. destruct AB as [-> | ->]; [destruct b|destruct a]; reflexivity. }
  split; apply W; auto.
Qed.
Lemma bounds_unique sp i j : bounds sp i j -> forall mx k, is_max sp mx -> 0 <= k < zlen sp -> (forall l, 0 <= l < zlen sp -> (mx / 100 < rnth sp l)%R <-> l = k) -> i = k /\ j = k.
Proof. intros (mx' & IM & B1 & B2 & L1 & L2 & _) mx k IM' Hk U. rewrite (is_max_unique _ _ _ IM IM') in *. split; apply U; auto; lia. Qed.
(** A quarter-rate tone gets a band of width zero, a constant one that ends below its start. *)
Example c87_example : affine_band [RtoC 1; RtoC 0; RtoC (-1); RtoC 0] (arange 0 4) None None = Ok (1 / 4, 1 / 4)%R /\ affine_band [RtoC 1; RtoC 1; RtoC 1; RtoC 1] (arange 0 4) None None = Ok (1 / 100, 0)%R.
Proof.
  assert (H4 : half_round 4 = 2) by (destruct (half_round_spec 4) as [H|[H _]]; lia).
  assert (R2 : root 4 (-2) = RtoC (-1)) by exact root4_m2. assert (R1 : root 4 (-1) = (- Ci)%C) by exact root4_m1.
  assert (R3 : root 4 (-3) = Ci). { change (-3) with (-2 + -1). rewrite root_plus, R1, R2. apply injective_projections; cbn; ring. }
  assert (PW : forall a b c d : R, power [a; b; c; d] 0 = ((a + b + c + d) ^ 2)%R /\ power [a; b; c; d] 1 = ((a - c) ^ 2 + (b - d) ^ 2)%R).
  { intros a b c d. unfold power. change (zlen [a; b; c; d]) with 4. change (arange 0 4) with [0; 1; 2; 3]. rewrite !csum_cons, !csum_nil. change (- (0 * 0)) with 0. change (- (0 * 1)) with 0. change (- (0 * 2)) with 0. change (- (0 * 3)) with 0. change (- (1 * 0)) with 0. change (- (1 * 1)) with (-1). change (- (1 * 2)) with (-2). change (- (1 * 3)) with (-3).
    rewrite !root_0, R1, R2, R3. unfold rnth. change (Z.to_nat 0) with 0%nat. change (Z.to_nat 1) with 1%nat. change (Z.to_nat 2) with 2%nat. change (Z.to_nat 3) with 3%nat. cbn [nth]. rewrite !Cmod_sqr. split; cbn; ring. }
  assert (RN : forall u v : R, rnth [u; v] 0 = u /\ rnth [u; v] 1 = v) by (intros; split; reflexivity).
  split.
  - set (x := [RtoC 1; RtoC 0; RtoC (-1); RtoC 0]). destruct (c87_band x (arange 0 4) 0 3 eq_refl eq_refl ltac:(lia) ltac:(change (zlen x) with 4; lia) ltac:(lia)) as (i & j & B & E).
    { exists 1. change (half_round _) with (half_round 4). rewrite H4. split; [lia|]. change (power [1; 0; -1; 0]%R 1 <> 0%R). rewrite (proj2 (PW 1 0 (-1) 0)%R). lra. }
    change (half_round (zlen _)) with (half_round 4) in B, E. rewrite H4 in B, E. change (map (power _) (arange 0 2)) with [power [1; 0; -1; 0]%R 0; power [1; 0; -1; 0]%R 1] in B. rewrite (proj1 (PW 1 0 (-1) 0)%R), (proj2 (PW 1 0 (-1) 0)%R) in B.
    replace ((1 + 0 + -1 + 0) ^ 2)%R with 0%R in B by ring. replace ((1 - -1) ^ 2 + (0 - 0) ^ 2)%R with 4%R in B by ring.
    destruct (bounds_unique _ _ _ B 4%R 1) as [-> ->].
    + split; [right; now left|]. intros w [<-|[<-|[]]]; lra.
    + change (zlen [0; 4]%R) with 2. lia.
    + change (zlen [0; 4]%R) with 2. intros l Hl. assert (D : l = 0 \/ l = 1) by lia. destruct D as [-> | ->]; rewrite ?(proj1 (RN 0 4)%R), ?(proj2 (RN 0 4)%R); split; intros; try lra; try lia.
    + rewrite E. replace (10 * 1 / 2)%R with (IZR 5) by (cbn; field). rewrite Zfloor_IZR, Zceil_IZR. rewrite Rmax_right by lra. do 2 f_equal; field.
  - set (x := [RtoC 1; RtoC 1; RtoC 1; RtoC 1]). destruct (c87_band x (arange 0 4) 0 3 eq_refl eq_refl ltac:(lia) ltac:(change (zlen x) with 4; lia) ltac:(lia)) as (i & j & B & E).
    { exists 0. change (half_round _) with (half_round 4). rewrite H4. split; [lia|]. change (power [1; 1; 1; 1]%R 0 <> 0%R). rewrite (proj1 (PW 1 1 1 1)%R). lra. }
    change (half_round (zlen _)) with (half_round 4) in B, E. rewrite H4 in B, E. change (map (power _) (arange 0 2)) with [power [1; 1; 1; 1]%R 0; power [1; 1; 1; 1]%R 1] in B. rewrite (proj1 (PW 1 1 1 1)%R), (proj2 (PW 1 1 1 1)%R) in B.
    replace ((1 + 1 + 1 + 1) ^ 2)%R with 16%R in B by ring. replace ((1 - 1) ^ 2 + (1 - 1) ^ 2)%R with 0%R in B by ring.
    destruct (bounds_unique _ _ _ B 16%R 0) as [-> ->].
    + split; [now left|]. intros w [<-|[<-|[]]]; lra.
    + change (zlen [16; 0]%R) with 2. lia.
    + change (zlen [16; 0]%R) with 2. intros l Hl. assert (D : l = 0 \/ l = 1) by lia. destruct D as [-> | ->]; rewrite ?(proj1 (RN 16 0)%R), ?(proj2 (RN 16 0)%R); split; intros; try lra; try lia.
    + rewrite E. replace (10 * 0 / 2)%R with (IZR 0) by (cbn; field). rewrite Zfloor_IZR, Zceil_IZR. rewrite !Rmult_0_r, Rmax_left by lra. reflexivity.
Qed.

(** *** C88: what the three distributions compute *)
(** The spectrum sampled at the voices of z interpolated on the voice axis
    (2 nv points, zero padded) at voice i + lam. *)
Definition dil (S : Z -> C) (nv i : Z) (lam : R) : C :=
  (csum (arange (- nv) nv) (fun P => csum (arange 0 nv) (fun k => S k * cis (2 * PI * (IZR P * (IZR (k - i) - lam)) / IZR (2 * nv)))) / RtoC (IZR (2 * nv)))%C.
(** The logarithm of the dilation and the weight of each class at u. *)
Definition dlog (k : afk) (u : R) : R :=
  match k with
  | Unt => ln (sqrt (1 + (u / 2) ^ 2) + u / 2)
  | Dfl => 2 * ln (1 + u / 4)
  | Bert => if Req_EM_T u 0 then 0 else ln (u / 2 * exp (u / 2) / sinh (u / 2))
  end%R.
Definition weight (k : afk) (u : R) : R :=
  match k with
  | Unt => 1
  | Dfl => / (1 - u ^ 2 / 16)
  | Bert => if Req_EM_T u 0 then 1 else u / 2 / sinh (u / 2)
  end%R.
(** Value at u of the kernel of voice i. *)
Definition kern (k : afk) (S : Z -> C) (q : R) (nv i : Z) (u : R) : C :=
  (RtoC (weight k u) * (dil S nv i (dlog k (- u) / ln q) * Cconj (dil S nv i (dlog k u / ln q))))%C.

Lemma sum_shifted n (f : Z -> C) : 0 < n -> (forall k, f (k + 2 * n) = f k) -> csum (arange 0 (2 * n)) f = csum (arange (- n) n) f.
Proof.
  intros Hn Pf. rewrite <- (csum_mod_shift (2 * n) n f) by lia. replace (arange (- n) n) with (arange (0 + - n) (2 * n + - n)) by (f_equal; lia). rewrite csum_arange_shift.
  apply csum_ext. intros k Hk. apply in_arange in Hk. destruct (Z.lt_ge_cases (k + n) (2 * n)) as [L|L].
  - rewrite Z.mod_small by lia. rewrite <- (Pf (k + - n)). f_equal. lia.
  - f_equal. symmetry. apply (Z.mod_unique_pos _ _ 1); lia.
Qed.
Lemma mellin_p (v : list C) nv p : 1 <= nv -> zlen v = 2 * nv -> 0 <= p < 2 * nv -> cnth (mellin v) p = (csum (arange 0 (2 * nv)) (fun k => cnth v k * root (2 * nv) ((p - nv) * k)) / RtoC (IZR (2 * nv)))%C.
Proof.
  intros Hn LV Hp. unfold mellin. rewrite (list_as_map (ifft v)), ifft_zlen, LV, fftshift_map by lia. rewrite cnth_map_arange by lia. rewrite Z.add_0_l. rewrite ifft_nth by (rewrite LV; apply Z.mod_pos_bound; lia). rewrite LV. unfold Cdiv. rewrite Cmult_comm. f_equal.
  apply csum_ext. intros k _. f_equal. rewrite root_mod_mul_r by lia. replace (k * (p + nv)) with ((p - nv) * k + 2 * nv * k) by ring. now rewrite root_period by lia.
Qed.
Lemma dilate_at k q nv L (v : list C) i : 1 <= nv -> zlen v = 2 * nv -> (forall p, nv <= p < 2 * nv -> cnth v p = RtoC 0) -> ln q <> 0%R -> 0 <= i < nv ->
  cnth (aff_dilate k q nv L (mellin v)) i = (RtoC (exp (aff_half k * L)) * dil (cnth v) nv i (L / ln q))%C.
Proof.
  intros Hn LV PV LQ Hi. unfold aff_dilate. rewrite cnth_prefix by lia. rewrite fftshift_map by lia. set (z := map _ (arange 0 (2 * nv))). assert (LZ : zlen z = 2 * nv) by (unfold z; rewrite zlen_map_arange; lia).
  rewrite fft_nth by lia. rewrite LZ. unfold dil.
  set (g := fun P => csum (arange 0 nv) (fun k0 => cnth v k0 * cis (2 * PI * (IZR P * (IZR (k0 - i) - L / ln q)) / IZR (2 * nv)))%C).
  assert (P0 : IZR (2 * nv) <> 0%R) by (apply IZR_neq; lia). assert (Pn : IZR nv <> 0%R) by (apply IZR_neq; lia).
  rewrite (csum_ext _ _ (fun j => RtoC (exp (aff_half k * L)) / RtoC (IZR (2 * nv)) * g ((j + nv) mod (2 * nv) - nv)%Z)%C).
  - rewrite csum_scal_l. rewrite (csum_mod_shift (2 * nv) nv (fun j => g (j - nv))) by lia.
    replace (arange (- nv) nv) with (arange (0 + - nv) (2 * nv + - nv)) by (f_equal; lia). rewrite csum_arange_shift. unfold Cdiv. rewrite <- Cmult_assoc. f_equal. rewrite Cmult_comm. reflexivity.
  - intros j Hj. apply in_arange in Hj. unfold z. rewrite cnth_map_arange by lia. rewrite Z.add_0_l. set (p := (j + nv) mod (2 * nv)). assert (Hp : 0 <= p < 2 * nv) by (apply Z.mod_pos_bound; lia).
    rewrite (mellin_p v nv) by lia. rewrite (arange_app 0 nv (2 * nv)) by lia. rewrite csum_app. rewrite (csum_0 (arange nv (2 * nv))) by (intros k' Hk'; apply in_arange in Hk'; rewrite PV by lia; ring). rewrite Cplus_0_r.
    assert (RJ : root (2 * nv) (- (i * j)) = root (2 * nv) (- (i * (p - nv)))).
    { rewrite <- (root_mod _ (- (i * j))), <- (root_mod _ (- (i * (p - nv)))) by lia. f_equal. unfold p. replace (- (i * ((j + nv) mod (2 * nv) - nv))) with (i * nv - i * ((j + nv) mod (2 * nv))) by ring. rewrite Zminus_mod, Z.mul_mod_idemp_r, <- Zminus_mod by lia. f_equal. ring. }
    rewrite RJ. unfold g. unfold Cdiv.
    set (c1 := cis (- (2 * PI * aff_beta q nv p * L))). set (e1 := RtoC (exp (aff_half k * L))).
    transitivity (e1 * / RtoC (IZR (2 * nv)) * (csum (arange 0 nv) (fun k0 => cnth v k0 * root (2 * nv) ((p - nv) * k0)) * (c1 * root (2 * nv) (- (i * (p - nv))))))%C; [ring|]. f_equal. rewrite <- csum_scal_r. apply csum_ext. intros k0 _. rewrite <- Cmult_assoc. f_equal.
    unfold c1, root. rewrite <- !cis_plus. f_equal. unfold aff_beta. rewrite !minus_IZR, !opp_IZR, !mult_IZR, !minus_IZR. field. split; assumption.
Qed.
(** Dilation by a whole number c of voices is an exact shift, with zeros beyond the last voice. *)
Lemma c88_shift : forall (S : Z -> C) nv i c, 1 <= nv -> 0 <= i < nv -> - nv <= c <= nv ->
  dil S nv i (IZR c) = if ((0 <=? i + c) && (i + c <? nv))%Z then S (i + c)%Z else RtoC 0.
Proof.
  intros S nv i c Hn Hi Hc. unfold dil. assert (P0 : RtoC (IZR (2 * nv)) <> RtoC 0) by (intros Q; apply RtoC_inj in Q; revert Q; apply IZR_neq; lia). rewrite csum_swap.
  rewrite (csum_ext _ _ (fun k => S k * (if ((k - i - c) mod (2 * nv) =? 0)%Z then RtoC (IZR (2 * nv)) else RtoC 0))%C).
  - destruct ((0 <=? i + c) && (i + c <? nv)) eqn:B.
    + apply andb_prop in B. destruct B as [B1 B2]. apply Z.leb_le in B1. apply Z.ltb_lt in B2. rewrite (csum_single _ (i + c)).
      * replace (i + c - i - c) with 0 by ring. rewrite Z.mod_0_l by lia. cbn [Z.eqb]. field. exact P0.
      * apply NoDup_arange.
      * apply in_arange. lia.
      * intros k Hk NK. apply in_arange in Hk. destruct (Z.eqb_spec ((k - i - c) mod (2 * nv)) 0) as [Q|Q]; [|ring]. exfalso. apply Z.mod_divide in Q; [|lia]. destruct Q as [w Q]. assert (w = 0) by nia. subst w. lia.
    + rewrite csum_0; [field; exact P0|]. intros k Hk. apply in_arange in Hk. destruct (Z.eqb_spec ((k - i - c) mod (2 * nv)) 0) as [Q|Q]; [|ring]. exfalso. apply Z.mod_divide in Q; [|lia]. destruct Q as [w Q].
      assert (-2 < w < 2) by nia. apply andb_false_iff in B. rewrite Z.leb_gt, Z.ltb_ge in B. assert (w = 0 \/ w = 1 \/ w = -1) as [-> |[-> | ->]] by lia; lia.
  - intros k Hk. rewrite csum_scal_l. f_equal. rewrite <- root_orth by lia. rewrite <- (sum_shifted nv (fun P => cis (2 * PI * (IZR P * (IZR (k - i) - IZR c)) / IZR (2 * nv)))).
    + apply csum_ext. intros P _. unfold root. f_equal. rewrite <- minus_IZR, <- (mult_IZR P). reflexivity.
    + lia.
    + intros P. change (cis (2 * PI * (IZR (P + 2 * nv) * (IZR (k - i) - IZR c)) / IZR (2 * nv)) = cis (2 * PI * (IZR P * (IZR (k - i) - IZR c)) / IZR (2 * nv))). rewrite <- !minus_IZR, <- !mult_IZR.
      change (root (2 * nv) ((P + 2 * nv) * (k - i - c)) = root (2 * nv) (P * (k - i - c))). replace ((P + 2 * nv) * (k - i - c)) with (P * (k - i - c) + 2 * nv * (k - i - c)) by ring. apply root_period. lia.
Qed.
Lemma sinh_odd v : sinh (- v) = (- sinh v)%R.
Proof. unfold sinh. rewrite Ropp_involutive. lra. Qed.
Lemma sinh_ratio v : v <> 0%R -> (0 < v / sinh v)%R.
Proof.
  assert (P : forall w, (0 < w)%R -> (0 < w / sinh w)%R). { intros w W. apply Rdiv_lt_0_compat; [exact W|]. unfold sinh. assert (exp (- w) < exp w)%R by (apply exp_increasing; lra). lra. }
  intros V. destruct (Rlt_dec 0 v) as [H|H]; [now apply P|]. replace (v / sinh v)%R with (- v / sinh (- v))%R by (rewrite sinh_odd; field; intros Q; unfold sinh in Q; assert (exp v < exp (- v))%R by (apply exp_increasing; lra); lra). apply P. lra.
Qed.
Lemma aff_log_m k u : k <> Bert \/ u <> 0%R -> aff_log k (-1) u = dlog k (- u) /\ aff_log k 1 u = dlog k u.
Proof.
  intros H. destruct k; cbn [aff_log dlog].
  - destruct H as [H|H]; [congruence|]. destruct (Req_EM_T (- u) 0); [lra|]. destruct (Req_EM_T u 0); [lra|]. assert (S0 : sinh (u / 2) <> 0%R). { intros Q. assert (P := sinh_ratio (u / 2) ltac:(lra)). rewrite Q in P. unfold Rdiv in P. rewrite Rinv_0 in P. lra. }
    split; f_equal; [|now rewrite Rmult_1_l]. replace (- u / 2)%R with (- (u / 2))%R by field. rewrite sinh_odd. replace (-1 * (u / 2))%R with (- (u / 2))%R by ring. field. exact S0.
  - split; do 2 f_equal; field.
  - split; f_equal; [|now rewrite Rmult_1_l]. replace (- u / 2)%R with (- (u / 2))%R by field. replace ((- (u / 2)) ^ 2)%R with ((u / 2) ^ 2)%R by ring. ring.
Qed.
Lemma weight_eq k u : (k = Dfl -> (-4 < u < 4)%R) -> (exp (aff_half k * dlog k (- u)) * exp (aff_half k * dlog k u) = weight k u)%R.
Proof.
  intros D. rewrite <- exp_plus, <- Rmult_plus_distr_l. destruct k; cbn [aff_half dlog weight].
  - destruct (Req_EM_T (- u) 0); destruct (Req_EM_T u 0); try lra.
    + replace (1 / 2 * (0 + 0))%R with 0%R by ring. apply exp_0.
    + assert (P := sinh_ratio (u / 2) ltac:(lra)). assert (S0 : sinh (u / 2) <> 0%R) by (intros Q; rewrite Q in P; unfold Rdiv in P; rewrite Rinv_0 in P; lra).
      replace (- u / 2)%R with (- (u / 2))%R by field. rewrite sinh_odd. replace (- (u / 2) * exp (- (u / 2)) / - sinh (u / 2))%R with (u / 2 / sinh (u / 2) * exp (- (u / 2)))%R by (field; exact S0).
      replace (u / 2 * exp (u / 2) / sinh (u / 2))%R with (u / 2 / sinh (u / 2) * exp (u / 2))%R by (field; exact S0). rewrite !ln_mult, !ln_exp by (try exact P; apply exp_pos). replace (1 / 2 * _)%R with (ln (u / 2 / sinh (u / 2))) by field. now apply exp_ln.
  - specialize (D eq_refl). replace (- (1 / 2) * (2 * ln (1 + - u / 4) + 2 * ln (1 + u / 4)))%R with (- (ln (1 + - u / 4) + ln (1 + u / 4)))%R by field. rewrite <- ln_mult by lra. rewrite exp_Ropp, exp_ln by (apply Rmult_lt_0_compat; lra). f_equal. field.
  - assert (Q : (1 + (u / 2) ^ 2 = 1 + (- u / 2) ^ 2)%R) by field. rewrite <- Q. set (a := sqrt (1 + (u / 2) ^ 2)). assert (A2 : (a * a = 1 + (u / 2) ^ 2)%R) by (unfold a; apply sqrt_sqrt; nra). assert (A0 : (0 <= a)%R) by apply sqrt_pos.
    assert (AB : (Rabs (u / 2) < a)%R). { apply Rsqr_incrst_0; [|apply Rabs_pos|exact A0]. rewrite <- Rsqr_abs. unfold Rsqr. nra. } apply Rabs_def2 in AB. rewrite <- ln_mult by lra. replace ((a + - u / 2) * (a + u / 2))%R with 1%R by nra. rewrite ln_1, Rmult_0_r. apply exp_0.
Qed.
Lemma u_at umax m1 j : 1 <= m1 -> 0 <= j < 2 * m1 -> (0 < umax)%R -> aff_u umax m1 j = (IZR (j - m1) * umax / IZR m1)%R.
Proof.
  intros Hm Hj Hu. unfold aff_u. assert (M0 : (0 < IZR m1)%R) by (apply IZR_lt; lia). assert (M1 : IZR (2 * m1 - 1) <> 0%R) by (apply IZR_neq; lia). destruct (Z.eqb_spec j m1) as [->|NE].
  - rewrite Z.sub_diag. field. lra.
  - replace (umax - - umax)%R with (2 * umax)%R by ring. rewrite Rabs_pos_eq by lra. rewrite minus_IZR in M1 |- *. rewrite minus_IZR. rewrite mult_IZR in *. field. lra.
Qed.
Lemma aff_row_at k q umax nv m1 (v : list C) j i : 1 <= nv -> zlen v = 2 * nv -> (forall p, nv <= p < 2 * nv -> cnth v p = RtoC 0) -> ln q <> 0%R -> 0 <= i < nv ->
  1 <= m1 -> 0 <= j < 2 * m1 -> (0 < umax)%R -> (k = Dfl -> (umax < 4)%R) ->
  cnth (aff_row k q umax nv m1 v j) i = kern k (cnth v) q nv i (IZR (j - m1) * umax / IZR m1).
Proof.
  intros Hn LV PV LQ Hi Hm Hj Hu HD. set (u := (IZR (j - m1) * umax / IZR m1)%R). assert (M0 : (0 < IZR m1)%R) by (apply IZR_lt; lia).
  assert (UB : k = Dfl -> (-4 < u < 4)%R).
  { intros Q. specialize (HD Q). assert (- IZR m1 <= IZR (j - m1) <= IZR m1)%R by (rewrite <- opp_IZR; split; apply IZR_le; lia). unfold u. split; apply (Rmult_lt_reg_r (IZR m1)); try lra; unfold Rdiv; rewrite Rmult_assoc, Rinv_l by lra; nra. }
  assert (U0 : j = m1 -> u = 0%R) by (intros ->; unfold u; rewrite Z.sub_diag; unfold Rdiv; ring).
  assert (U1 : j <> m1 -> u <> 0%R). { intros NE Q. unfold u in Q. apply Rmult_integral in Q. destruct Q as [Q|Q]; [apply Rmult_integral in Q; destruct Q as [Q|Q]; [apply eq_IZR in Q; lia|lra]|]. assert (0 < / IZR m1)%R by now apply Rinv_0_lt_compat. lra. }
  unfold aff_row. rewrite u_at by auto. fold u.
  assert (G : k <> Bert \/ j <> m1 -> cnth (zipw (fun a b => a * Cconj b)%C (aff_dilate k q nv (aff_log k (-1) u) (mellin v)) (aff_dilate k q nv (aff_log k 1 u) (mellin v))) i = kern k (cnth v) q nv i u).
  { intros H. assert (LD : forall L, zlen (aff_dilate k q nv L (mellin v)) = nv). { intros L. unfold aff_dilate. apply prefix_zlen. rewrite fft_zlen, fftshift_map by lia. rewrite zlen_map_arange; lia. }
    rewrite cnth_zipw by (rewrite !LD; lia). rewrite !dilate_at by auto. destruct (aff_log_m k u) as [-> ->]; [destruct H; auto|]. unfold kern. rewrite <- weight_eq by exact UB. rewrite RtoC_mult, Cconj_mult. replace (Cconj (RtoC (exp (aff_half k * dlog k u)))) with (RtoC (exp (aff_half k * dlog k u))) by (apply injective_projections; cbn; ring). ring. }
  destruct (Z.eqb_spec j m1) as [E|NE]; [|destruct k; apply G; right; exact NE]. destruct k; [|apply G; left; discriminate..].
  rewrite cnth_zipw by (rewrite !prefix_zlen; lia). rewrite !cnth_prefix by lia. rewrite U0 by exact E. unfold kern. cbn [dlog weight]. rewrite Ropp_0. destruct (Req_EM_T 0 0); [|lra]. unfold Rdiv. rewrite Rmult_0_l. rewrite c88_shift by lia. rewrite Z.add_0_r.
  destruct (Z.leb_spec 0 i); [|lia]. destruct (Z.ltb_spec i nv); [|lia]. cbn [andb]. ring.
Qed.
(** Row i, instant c of the matrix before interpolation. *)
Definition affine_sum (k : afk) (S : Z -> C) (q umax : R) (nv m1 i : Z) (f : R) (c : Z) : R :=
  (f / IZR (2 * m1) * Re (csum (arange (- m1) m1) (fun d => kern k S q nv i (IZR d * umax / IZR m1) * root (2 * m1) (- (d * (c - (m1 - 1)))))%C))%R.
Lemma cnth_rev (l : list C) c : 0 <= c < zlen l -> cnth (rev l) c = cnth l (zlen l - 1 - c).
Proof. intros H. unfold cnth, zlen in *. rewrite rev_nth by lia. f_equal. lia. Qed.
Lemma fftshift_len (l : list C) : zlen (fftshift l) = zlen l.
Proof. unfold fftshift. set (j := Z.to_nat _). clearbody j. unfold zlen. rewrite app_length, skipn_length, firstn_length. lia. Qed.
Lemma rnth_re (l : list C) c : 0 <= c < zlen l -> rnth (map Re l) c = Re (cnth l c).
Proof. intros H. unfold rnth, cnth, zlen in *. rewrite (nth_indep _ _ (Re (RtoC 0))) by (rewrite map_length; lia). now rewrite map_nth. Qed.
Lemma ffr_at m1 (g : Z -> C) c : 1 <= m1 -> 0 <= c < 2 * m1 ->
  cnth (rev (fftshift (ifft (fftshift (map g (arange 0 (2 * m1))))))) c = (csum (arange (- m1) m1) (fun d => g (d + m1)%Z * root (2 * m1) (- (d * (c - (m1 - 1))))) / RtoC (IZR (2 * m1)))%C.
Proof.
  intros Hm Hc. rewrite (fftshift_map g m1) by lia. set (h := map _ _). assert (LH : zlen h = 2 * m1) by (unfold h; rewrite zlen_map_arange; lia). assert (LI : zlen (ifft h) = 2 * m1) by (rewrite ifft_zlen; exact LH).
  rewrite cnth_rev by (rewrite fftshift_len; lia). rewrite fftshift_len, LI. rewrite (list_as_map (ifft h)), LI. rewrite fftshift_map by lia. rewrite cnth_map_arange by lia. rewrite Z.add_0_l. set (t := (2 * m1 - 1 - c + m1) mod (2 * m1)).
  assert (Ht : 0 <= t < 2 * m1) by (apply Z.mod_pos_bound; lia). rewrite ifft_nth by lia. rewrite LH.
  rewrite (csum_ext (arange 0 (2 * m1)) _ (fun f => g ((f + m1) mod (2 * m1)) * root (2 * m1) (f * (3 * m1 - 1 - c)))%C).
  2:{ intros f Hf. apply in_arange in Hf. unfold h. rewrite cnth_map_arange by lia. rewrite Z.add_0_l. f_equal. unfold t. rewrite root_mod_mul_r by lia. f_equal. f_equal. lia. }
  rewrite sum_shifted.
  - rewrite Cmult_comm. unfold Cdiv. f_equal. apply csum_ext. intros d Hd. apply in_arange in Hd. rewrite Z.mod_small by lia. f_equal. replace (d * (3 * m1 - 1 - c)) with (- (d * (c - (m1 - 1))) + 2 * m1 * d) by ring. now rewrite root_period by lia.
  - lia.
  - intros d. f_equal; [f_equal; replace (d + 2 * m1 + m1) with (d + m1 + 1 * (2 * m1)) by ring; apply Z.mod_add; lia|]. replace ((d + 2 * m1) * (3 * m1 - 1 - c)) with (d * (3 * m1 - 1 - c) + 2 * m1 * (3 * m1 - 1 - c)) by ring. now rewrite root_period by lia.
Qed.
Lemma tffr_at k q umax nv m1 (v : list C) geo i c : 1 <= nv -> zlen v = 2 * nv -> (forall p, nv <= p < 2 * nv -> cnth v p = RtoC 0) -> ln q <> 0%R -> 0 <= i < nv ->
  1 <= m1 -> 0 <= c < 2 * m1 -> (0 < umax)%R -> (k = Dfl -> (umax < 4)%R) ->
  rnth (nth (Z.to_nat i) (aff_tffr k q umax nv m1 v geo) []) c = affine_sum k (cnth v) q umax nv m1 i (rnth geo i) c.
Proof.
  intros Hn LV PV LQ Hi Hm Hc Hu HD. unfold aff_tffr. rewrite nth_map_arange by lia. rewrite Z.add_0_l. rewrite rnth_re. 2:{ unfold zlen. rewrite rev_length. fold (zlen (fftshift (ifft (fftshift (aff_col k q umax nv m1 v geo i))))). rewrite fftshift_len, ifft_zlen, fftshift_len. unfold aff_col. rewrite zlen_map_arange; lia. }
  unfold aff_col. rewrite ffr_at by lia. unfold affine_sum. assert (M2 : IZR (2 * m1) <> 0%R) by (apply IZR_neq; lia).
  rewrite (csum_ext _ _ (fun d => RtoC (rnth geo i) * (kern k (cnth v) q nv i (IZR d * umax / IZR m1) * root (2 * m1) (- (d * (c - (m1 - 1))))))%C).
  2:{ intros d Hd. apply in_arange in Hd. rewrite aff_row_at by (auto; lia). replace (d + m1 - m1) with d by ring. ring. }
  rewrite csum_scal_l. set (w := csum _ _). rewrite Cmult_comm. unfold Cdiv. rewrite <- RtoC_inv by exact M2. destruct w as [a b]. cbn. field. exact M2.
Qed.
Lemma dlog_0 k : dlog k 0 = 0%R.
Proof. destruct k; cbn [dlog]. - destruct (Req_EM_T 0 0); [reflexivity|lra]. - replace (1 + 0 / 4)%R with 1%R by field. rewrite ln_1. ring. - replace (1 + (0 / 2) ^ 2)%R with 1%R by field. rewrite sqrt_1. replace (1 + 0 / 2)%R with 1%R by field. apply ln_1. Qed.
Lemma kern_0 k S q nv i : 1 <= nv -> 0 <= i < nv -> kern k S q nv i 0 = RtoC (Cmod (S i) ^ 2).
Proof.
  intros Hn Hi. unfold kern. rewrite Ropp_0, dlog_0. unfold Rdiv. rewrite Rmult_0_l, c88_shift by lia. rewrite Z.add_0_r. destruct (Z.leb_spec 0 i); [|lia]. destruct (Z.ltb_spec i nv); [|lia]. cbn [andb].
  assert (W : weight k 0 = 1%R) by (destruct k; cbn [weight]; [destruct (Req_EM_T 0 0); [reflexivity|lra]|replace (1 - 0 ^ 2 / 16)%R with 1%R by field; apply Rinv_1|reflexivity]). rewrite W, Cmult_1_l. destruct (S i) as [a b]. rewrite Cmod_sqr. apply injective_projections; cbn; ring.
Qed.
(** The kernel at u and at - u are conjugate, and at 0 it is the power of the voice. *)
Lemma c88_kernel : forall k S q nv i u, 1 <= nv -> 0 <= i < nv -> (k = Dfl -> (-4 < u < 4)%R) ->
  kern k S q nv i (- u) = Cconj (kern k S q nv i u) /\ kern k S q nv i 0 = RtoC (Cmod (S i) ^ 2).
Proof.
  intros k S q nv i u Hn Hi D. split; [|now apply kern_0]. unfold kern. rewrite Ropp_involutive. rewrite !Cconj_mult. rewrite Cconj_invol. assert (W : weight k (- u) = weight k u).
  { destruct k; cbn [weight]; [|f_equal; field|reflexivity]. destruct (Req_EM_T (- u) 0); destruct (Req_EM_T u 0); try lra. replace (- u / 2)%R with (- (u / 2))%R by field. rewrite sinh_odd. assert (P := sinh_ratio (u / 2) ltac:(lra)). field. intros Q. rewrite Q in P. unfold Rdiv in P. rewrite Rinv_0 in P. lra. }
  rewrite W. replace (Cconj (RtoC (weight k u))) with (RtoC (weight k u)) by (apply injective_projections; cbn; ring). ring.
Qed.
(** Summed over the instants, a row of the matrix is the frequency times the power of the voice. *)
Lemma c88_marginal : forall k S q umax nv m1 i f, 1 <= nv -> 0 <= i < nv -> 1 <= m1 ->
  rsum (arange 0 (2 * m1)) (affine_sum k S q umax nv m1 i f) = (f * Cmod (S i) ^ 2)%R.
Proof.
  intros k S q umax nv m1 i f Hn Hi Hm. unfold affine_sum. rewrite rsum_scal_l. assert (M2 : IZR (2 * m1) <> 0%R) by (apply IZR_neq; lia).
  assert (RS : forall (l : list Z) (g : Z -> C), rsum l (fun c => Re (g c)) = Re (csum l g)). { intros l g. induction l as [|a l IH]; [rewrite rsum_nil, csum_nil; reflexivity|]. rewrite rsum_cons, csum_cons, IH. reflexivity. }
  rewrite RS, csum_swap. rewrite (csum_ext _ _ (fun d => kern k S q nv i (IZR d * umax / IZR m1) * (if d =? 0 then RtoC (IZR (2 * m1)) else RtoC 0))%C).
  - rewrite (csum_single (arange (- m1) m1) 0). + rewrite Z.eqb_refl. rewrite !Rmult_0_l. unfold Rdiv at 2. rewrite Rmult_0_l, kern_0 by lia. cbn. field. exact M2.
    + apply NoDup_arange. + apply in_arange. lia. + intros d _ Hd. destruct (Z.eqb_spec d 0); [contradiction|]. ring.
  - intros d Hd. apply in_arange in Hd. rewrite csum_scal_l. f_equal. rewrite (csum_ext _ _ (fun c => root (2 * m1) (d * (m1 - 1)) * root (2 * m1) (- (c * d)))%C) by (intros c _; rewrite <- root_plus; f_equal; ring). rewrite csum_scal_l, root_orth_neg by lia.
    destruct (Z.eqb_spec d 0) as [->|N0]; [rewrite Z.mod_0_l by lia; cbn [Z.eqb]; rewrite Z.mul_0_l, root_0; ring|]. destruct (Z.eqb_spec (d mod (2 * m1)) 0) as [E|_]; [|ring]. exfalso. apply Z.mod_divide in E; [|lia]. destruct E as [z Hz]. assert (z = 0 \/ z <= -1 \/ 1 <= z) as [Z0|[Z1|Z1]] by lia; nia.
Qed.
(** The spectrum of the real part of x at frequency f, instant half_len N at the origin. *)
Definition centred_spectrum (x : list C) (f : R) : C := csum (arange 0 (zlen x)) (fun n => RtoC (Re (cnth x n)) * cis (- (2 * PI * (IZR (n - half_len (zlen x)) * f))))%C.
Definition gamma_at (fmax : R) (N m1 j : Z) : R := (fmax * (IZR (N - 1) / 2) * (IZR (2 * j - (2 * m1 - 1)) / IZR (2 * m1 - 1)))%R.
(** Points of the gamma axis used for the frequency f. *)
Definition gamma_in (fmax f : R) (N m1 : Z) : list Z :=
  filter (fun j => if Rle_dec (Rabs (gamma_at fmax N m1 j)) (f * (IZR (N - 1) / 2)) then true else false) (arange 0 (2 * m1)).
Lemma zeros_at n p : cnth (zeros n) p = RtoC 0.
Proof. unfold cnth, zeros. destruct (nth_in_or_default (Z.to_nat p) (repeat (RtoC 0) (Z.to_nat n)) (RtoC 0)) as [H|H]; [|exact H]. now apply repeat_spec in H. Qed.
Lemma geo_sample_at (x : list C) geo nv : zlen geo = nv -> 0 <= nv -> let v := geo_sample (map Re x) geo in
  zlen v = 2 * nv /\ (forall p, nv <= p < 2 * nv -> cnth v p = RtoC 0) /\ forall p, 0 <= p < nv -> cnth v p = centred_spectrum x (rnth geo p).
Proof.
  intros LG Hn v. set (w := map (fun f => csum (arange 0 (zlen (map Re x))) (fun i => RtoC (rnth (map Re x) i) * cis (- (2 * PI * (IZR (i - half_len (zlen (map Re x))) * f))))%C) geo).
  assert (EV : v = w ++ zeros (zlen geo)) by reflexivity. assert (LW : zlen w = nv) by (unfold w; now rewrite zlen_map). clearbody v. subst v. rewrite LG. split; [|split].
  - unfold zlen in *. rewrite app_length. unfold zeros. rewrite repeat_length. lia.
  - intros p Hp. unfold cnth. rewrite app_nth2 by (unfold zlen in LW; lia). replace (Z.to_nat p - length w)%nat with (Z.to_nat (p - nv)) by (unfold zlen in LW; lia). apply zeros_at.
  - intros p Hp. unfold cnth at 1. rewrite app_nth1 by (unfold zlen in LW; lia). unfold w. rewrite zlen_map. unfold centred_spectrum, rnth at 2. set (F := fun f : R => _). rewrite (nth_indep _ _ (F 0%R)) by (rewrite map_length; unfold zlen in LG; lia). rewrite map_nth.
    unfold F. apply csum_ext. intros n Hn'. apply in_arange in Hn'. now rewrite rnth_re by lia.
Qed.
Lemma dil_ext S T nv i lam : (forall p, 0 <= p < nv -> S p = T p) -> dil S nv i lam = dil T nv i lam.
Proof. intros H. unfold dil. f_equal. apply csum_ext. intros P _. apply csum_ext. intros k Hk. apply in_arange in Hk. now rewrite H by lia. Qed.
Lemma affine_sum_ext k S T q umax nv m1 i f c : (forall p, 0 <= p < nv -> S p = T p) -> affine_sum k S q umax nv m1 i f c = affine_sum k T q umax nv m1 i f c.
Proof. intros H. unfold affine_sum. do 2 f_equal. apply csum_ext. intros d _. f_equal. unfold kern. now rewrite !(dil_ext S T) by auto. Qed.
Lemma gamma_grid fmax N m1 : 1 <= m1 -> M_gen1.linspace (- fmax * (IZR (N - 1) / 2)) (fmax * (IZR (N - 1) / 2)) (2 * m1) = map (gamma_at fmax N m1) (arange 0 (2 * m1)).
Proof. intros Hm. unfold M_gen1.linspace. apply map_ext. intros j. unfold gamma_at. assert (IZR (2 * m1 - 1) <> 0%R) by (apply IZR_neq; lia). rewrite (minus_IZR (2 * j)), mult_IZR. field. auto. Qed.
(** The rows before normalisation. *)
Definition voice_row (spl : list R -> list R -> list R -> list R) (o : aff) (i : Z) : list R :=
  let N := zlen (a_sig o) in let nv := a_nv o in
  let f := (fun p => a_fmin o * Rpower (a_fmax o / a_fmin o) (IZR p / IZR (nv - 1)))%R in
  let q := Rpower (a_fmax o / a_fmin o) (1 / IZR (nv - 1)) in
  let js := gamma_in (a_fmax o) (f i) N (a_m1 o) in
  spl (map (gamma_at (a_fmax o) N (a_m1 o)) js)
      (map (affine_sum (a_kind o) (fun p => centred_spectrum (a_sig o) (f p)) q (a_umax o) nv (a_m1 o) i (f i)) js)
      (map (fun t => (IZR t - IZR (N - 1) / 2 - match a_kind o with Unt => 1 | _ => 0 end) * f i)%R (a_ts o)).
Lemma filter_ext_in' {A} (f g : A -> bool) l : (forall a, In a l -> f a = g a) -> filter f l = filter g l.
Proof. apply filter_ext_in. Qed.
Lemma ratio_pos fmin fmax : (0 < fmin < fmax)%R -> (1 < fmax / fmin)%R.
Proof. intros H. apply (Rmult_lt_reg_r fmin); [lra|]. unfold Rdiv. rewrite Rmult_assoc, Rinv_l by lra. lra. Qed.
Lemma interp_eq spl o : (0 < a_fmin o < a_fmax o)%R -> 2 <= a_nv o -> 1 <= a_m1 o -> (0 < a_umax o)%R -> (a_kind o = Dfl -> (a_umax o < 4)%R) ->
  let nv := a_nv o in let geo := geo_grid (a_fmin o) (a_fmax o) nv in
  aff_interp spl (match a_kind o with Unt => 1 | _ => 0 end) geo (a_ts o) (zlen (map Re (a_sig o))) nv (a_m1 o)
    (aff_tffr (a_kind o) (geo_q (a_fmin o) (a_fmax o) nv) (a_umax o) nv (a_m1 o) (geo_sample (map Re (a_sig o)) geo) geo) =
  mapM (fun i => if zlen (gamma_in (a_fmax o) (a_fmin o * Rpower (a_fmax o / a_fmin o) (IZR i / IZR (nv - 1))) (zlen (a_sig o)) (a_m1 o)) <=? 3 then Raise TypeError else Ok (voice_row spl o i)) (arange 0 nv).
Proof.
  intros Hf Hn Hm Hu HD nv geo. fold nv in Hn. set (N := zlen (a_sig o)). assert (R1 := ratio_pos _ _ Hf). assert (LG : zlen geo = nv) by (unfold geo, geo_grid; rewrite zlen_map_arange; lia).
  unfold aff_interp. rewrite zlen_map. fold N. rewrite (get_ok 0%R) by lia. cbn [bind]. assert (GL : rnth geo (nv - 1) = a_fmax o) by (apply c69_grid; auto). fold (rnth geo (nv - 1)). rewrite GL, gamma_grid by exact Hm.
  destruct (geo_sample_at (a_sig o) geo nv LG ltac:(lia)) as (LS & PS & VS). set (v := geo_sample (map Re (a_sig o)) geo) in *. apply mapM_ext. intros i Hi. apply in_arange in Hi.
  assert (GI : rnth geo i = (a_fmin o * Rpower (a_fmax o / a_fmin o) (IZR i / IZR (nv - 1)))%R) by (apply geo_at; auto). set (fi := (a_fmin o * _)%R) in GI.
  assert (IND : filter (fun j => (if Rle_dec (- rnth geo i * (IZR (N - 1) / 2)) (rnth (map (gamma_at (a_fmax o) N (a_m1 o)) (arange 0 (2 * a_m1 o))) j) then true else false) && (if Rle_dec (rnth (map (gamma_at (a_fmax o) N (a_m1 o)) (arange 0 (2 * a_m1 o))) j) (rnth geo i * (IZR (N - 1) / 2)) then true else false)) (arange 0 (2 * a_m1 o)) = gamma_in (a_fmax o) fi N (a_m1 o)).
  { unfold gamma_in. apply filter_ext_in. intros j Hj. apply in_arange in Hj. rewrite rnth_map_arange by lia. rewrite Z.add_0_l, GI. set (g := gamma_at _ _ _ _). set (T := (fi * (IZR (N - 1) / 2))%R). replace (- fi * (IZR (N - 1) / 2))%R with (- T)%R by (unfold T; ring).
    destruct (Rle_dec (Rabs g) T) as [A|A]; [apply Rabs_le_between in A; destruct (Rle_dec (- T) g); [|lra]; destruct (Rle_dec g T); [reflexivity|lra]|]. destruct (Rle_dec (- T) g); [|reflexivity]. destruct (Rle_dec g T); [|reflexivity]. exfalso. apply A. apply Rabs_le_between. lra. }
  rewrite zlen_map_arange by lia. replace (2 * a_m1 o - 0) with (2 * a_m1 o) by ring. cbv zeta. rewrite IND. destruct (zlen (gamma_in _ _ _ _) <=? 3); [reflexivity|]. f_equal. unfold voice_row. cbv zeta. fold N nv fi.
  assert (IN : forall j, In j (gamma_in (a_fmax o) fi N (a_m1 o)) -> 0 <= j < 2 * a_m1 o) by (intros j Hj; unfold gamma_in in Hj; apply filter_In in Hj; destruct Hj as [Hj _]; now apply in_arange in Hj). f_equal.
  - apply map_ext_in. intros j Hj. apply IN in Hj. now rewrite rnth_map_arange, Z.add_0_l by lia.
  - apply map_ext_in. intros j Hj. apply IN in Hj. assert (QL : (0 < ln (geo_q (a_fmin o) (a_fmax o) nv))%R).
    { unfold geo_q, Rpower. rewrite ln_exp. assert (0 < ln (a_fmax o / a_fmin o))%R by (rewrite <- ln_1; apply ln_increasing; lra). assert (0 < IZR (nv - 1))%R by (apply IZR_lt; lia). assert (0 < 1 / IZR (nv - 1))%R by (apply Rdiv_lt_0_compat; lra). nra. }
    rewrite tffr_at by (auto; try lia; lra). rewrite GI. apply affine_sum_ext. intros p Hp. rewrite VS by exact Hp. f_equal. now apply geo_at.
  - apply map_ext. intros t. now rewrite GI.
Qed.
Lemma gamma_count fmax f N m1 : 2 <= N -> 1 <= m1 -> (0 < f <= fmax)%R -> (zlen (gamma_in fmax f N m1) <=? 3) = if Rlt_dec (f * IZR (2 * m1 - 1)) (3 * fmax) then true else false.
Proof.
  intros HN Hm Hf. assert (M0 : (0 < IZR (2 * m1 - 1))%R) by (apply IZR_lt; lia). assert (T0 : (0 < IZR (N - 1) / 2)%R) by (apply Rdiv_lt_0_compat; [apply IZR_lt; lia|lra]).
  assert (MEM : forall j, In j (gamma_in fmax f N m1) <-> 0 <= j < 2 * m1 /\ (fmax * IZR (Z.abs (2 * j - (2 * m1 - 1))) <= f * IZR (2 * m1 - 1))%R).
  { intros j. unfold gamma_in. rewrite filter_In, in_arange. apply and_iff_compat_l. unfold gamma_at. set (D := IZR (2 * j - (2 * m1 - 1))). set (T := (IZR (N - 1) / 2)%R) in *. rewrite abs_IZR. fold D. set (M := IZR (2 * m1 - 1)) in *.
    assert (E : Rabs (fmax * T * (D / M)) = (fmax * Rabs D * (T / M))%R). { unfold Rdiv. rewrite !Rabs_mult, Rabs_inv, (Rabs_pos_eq M), (Rabs_pos_eq T), (Rabs_pos_eq fmax) by lra. ring. }
    rewrite E. replace (f * T)%R with (f * M * (T / M))%R by (field; lra). assert (TM : (0 < T / M)%R) by (apply Rdiv_lt_0_compat; lra).
    destruct (Rle_dec _ _) as [A|A]; split; intros B; try discriminate; auto. - now apply Rmult_le_reg_r in A. - exfalso. apply A. apply Rmult_le_compat_r; lra. }
  assert (ND : NoDup (gamma_in fmax f N m1)) by (apply NoDup_filter, NoDup_arange). destruct (Rlt_dec (f * IZR (2 * m1 - 1)) (3 * fmax)) as [H|H].
  - apply Z.leb_le. assert (L : (length (gamma_in fmax f N m1) <= length [m1 - 1; m1]%Z)%nat); [|unfold zlen; cbn in L; lia]. apply NoDup_incl_length; [exact ND|]. intros j Hj. apply MEM in Hj. destruct Hj as [J1 J2].
    assert (IZR (Z.abs (2 * j - (2 * m1 - 1))) < 3)%R by (apply (Rmult_lt_reg_l fmax); lra). apply lt_IZR in H0. cbn [In]. lia.
  - apply Z.leb_gt. assert (M2 : 2 <= m1). { destruct (Z.eq_dec m1 1) as [->|]; [|lia]. exfalso. apply H. change (2 * 1 - 1) with 1. lra. }
    assert (L : (length [m1 - 2; m1 - 1; m1; m1 + 1]%Z <= length (gamma_in fmax f N m1))%nat); [|unfold zlen; cbn in L; lia]. apply NoDup_incl_length; [repeat constructor; cbn [In]; lia|].
    intros j Hj. apply MEM. cbn [In] in Hj. split; [lia|]. assert (A : Z.abs (2 * j - (2 * m1 - 1)) <= 3) by lia. apply IZR_le in A. nra.
Qed.
Lemma new_inv k x ts fmin fmax nv o : 1 <= zlen x -> (0 < fmin < fmax)%R -> aff_new k x ts (Some fmin) (Some fmax) nv = Ok o ->
  a_kind o = k /\ a_sig o = x /\ a_fmin o = fmin /\ a_fmax o = fmax /\ a_ts o = match ts with Some t => t | None => arange 0 (zlen x) end /\
  a_umax o = aff_root k (fmax / fmin) /\ half_len (zlen x) <= a_m1 o /\ match nv with Some v => a_nv o = v | None => 2 <= a_nv o end /\
  (0 < a_umax o)%R /\ (k = Dfl -> (a_umax o < 4)%R).
Proof.
  intros HN Hf H. assert (R1 := ratio_pos _ _ Hf). assert (RP := aff_root_pos k _ R1). unfold aff_new, affine_band in H. cbn [bind] in H. rewrite umax_root in H by exact R1.
  assert (UM : bind (aff_size k (zlen x) fmax (aff_root k (fmax / fmin))) (fun mt => let '(m1, T) := mt in bind (match nv with Some v => Ok v | None => get_nvoices fmin fmax T end) (fun nv => Ok (mkaff k x match ts with Some t => t | None => arange 0 (zlen x) end fmin fmax (aff_root k (fmax / fmin)) m1 nv))) = Ok o).
  { destruct k; [destruct (Rlt_dec (exp 4) (fmax / fmin)); [discriminate|exact H]|exact H..]. }
  clear H. assert (VP : (0 < fmax * aff_root k (fmax / fmin))%R) by (apply Rmult_lt_0_compat; lra). destruct (size_spec k (zlen x) fmax _ HN VP) as [S1 S2].
  assert (D4 : k = Dfl -> (aff_root k (fmax / fmin) < 4)%R) by (intros ->; assert (W := c71_solves _ R1); cbv zeta in W; rewrite umaxdfla_eq in W by exact R1; cbn [aff_root]; lra).
  destruct (Rlt_dec (IZR (half_len (zlen x))) (IZR (aff_bound k (zlen x)) * (fmax * aff_root k (fmax / fmin)))) as [L|L].
  - destruct (S1 L) as (E & _ & P). rewrite E in UM. cbn [bind] in UM. destruct nv as [v|].
    + cbn [bind] in UM. injection UM as <-. cbn. repeat split; auto. lia.
    + destruct (get_nvoices fmin fmax _) as [v|] eqn:G; [|discriminate]. cbn [bind] in UM. injection UM as <-. cbn. repeat split; auto; [lia|].
      assert (T1 : 1 <= 2 * aff_pad (zlen x) (fmax * aff_root k (fmax / fmin)) - 1) by (destruct (half_len_spec (zlen x) HN); lia).
      destruct (c80_voices fmin fmax _ Hf T1) as [G1 G2]. cbv zeta in G1, G2. set (qq := even_part _) in *. destruct (Z.eq_dec qq 0) as [Q|Q]; [rewrite (G1 Q) in G; discriminate|]. destruct (G2 ltac:(auto)) as (e & E1 & EG & _). assert (v = 2 ^ e) by congruence. subst v. replace e with (1 + (e - 1)) by lia. rewrite Z.pow_add_r by lia. assert (1 <= 2 ^ (e - 1)) by (assert (0 < 2 ^ (e - 1)) by (apply Z.pow_pos_nonneg; lia); lia). lia.
  - rewrite S2 in UM by lra. cbn [bind] in UM. destruct nv as [v|]; [|discriminate]. cbn [bind] in UM. injection UM as <-. cbn. repeat split; auto. lia.
Qed.
(** Each returned row is a common constant times the spline through the points of its voice. *)
Lemma c88_run : forall spl form k x ts fmin fmax nv o tfr t f, 1 <= zlen x -> (0 < fmin < fmax)%R -> aff_new k x ts (Some fmin) (Some fmax) nv = Ok o ->
  aff_run spl form o = Ok (Some tfr, t, f) -> exists K, forall i, 0 <= i < a_nv o -> nth (Z.to_nat i) tfr [] = map (fun v => v * K)%R (voice_row spl o i).
Proof.
  intros spl form k x ts fmin fmax nv o tfr t f HN Hf HO H. destruct (new_inv _ _ _ _ _ _ _ HN Hf HO) as (K1 & X1 & F1 & F2 & _ & U1 & M1 & _ & U2 & U3). destruct (half_len_spec _ HN) as [HL _].
  unfold aff_run in H. cbv zeta in H. destruct (Z.eqb_spec (a_nv o) 1); [discriminate|]. destruct (Z.leb_spec (a_nv o) 0); [discriminate|]. destruct (match a_kind o with Unt => negb form | _ => false end); [discriminate|].
  rewrite interp_eq in H by (rewrite ?F1, ?F2, ?K1; auto; lia). destruct (mapM _ _) as [rows|] eqn:EM in H; [|discriminate]. cbn [bind] in H. destruct (aff_mult _ _ _ _) as [E|]; [|discriminate]. cbn [bind] in H.
  destruct (aff_normal E rows _ _ _) as [r|] eqn:EN; [|discriminate]. cbn [bind] in H. injection H as -> _ _. unfold aff_normal in EN. destruct (integrate_2d _ _ _ _) as [I|]; [|discriminate]. cbn [bind] in EN. destruct (Req_EM_T I 0) as [|NI]; [discriminate|]. injection EN as <-.
  exists (E / I / IZR (a_nv o))%R. intros i Hi. destruct (mapM_ok_inv _ _ _ EM) as [L P].
  assert (NA : nth_error (arange 0 (a_nv o)) (Z.to_nat i) = Some i). { rewrite <- (map_id (arange 0 (a_nv o))). destruct (nth_error (map (fun z => z) (arange 0 (a_nv o))) (Z.to_nat i)) as [w|] eqn:Q. - assert (W := nth_error_nth _ _ 0 Q). rewrite nth_map_arange in W by lia. f_equal. lia. - apply nth_error_None in Q. rewrite map_length, arange_length in Q. lia. }
  destruct (P _ _ NA) as (b & Hb & FB). destruct (_ <=? 3) in FB; [discriminate|]. injection FB as <-. rewrite (nth_indep _ _ (map (fun v => v * E / I / IZR (a_nv o))%R [])) by (rewrite map_length; apply nth_error_Some; congruence). rewrite map_nth. rewrite (nth_error_nth _ _ [] Hb).
  apply map_ext. intros v. assert (IZR (a_nv o) <> 0%R) by (apply IZR_neq; lia). field. auto.
Qed.
Example c88_example : let S := fun k => RtoC (IZR (k + 1)) in
  dil S 3 0 (IZR 2) = RtoC 3 /\ dil S 3 2 (IZR 1) = RtoC 0 /\ rsum (arange 0 8) (affine_sum Bert S 2 1 3 4 1 (1 / 10)) = (4 / 10)%R.
Proof.
  intros S. split; [now rewrite c88_shift by lia|]. split; [now rewrite c88_shift by lia|]. change 8 with (2 * 4). rewrite c88_marginal by lia. unfold S. change (1 + 1) with 2. rewrite Cmod_R, Rabs_pos_eq by lra. field.
Qed.

(** *** C89: when the interpolation of the affine distributions works *)
Lemma c89_outcome : forall spl form k x ts fmin fmax nv o, (forall u v w, zlen (spl u v w) = zlen w) -> 2 <= zlen x -> (0 < fmin < fmax)%R ->
  aff_new k x ts (Some fmin) (Some fmax) nv = Ok o -> 2 <= a_nv o -> 2 <= zlen (a_ts o) -> (k = Unt -> form = true) ->
  if Rlt_dec (IZR (2 * a_m1 o - 1)) (3 * (fmax / fmin)) then aff_run spl form o = Raise TypeError
  else exists tfr, aff_run spl form o = Ok (tfr, a_ts o, geo_grid fmin fmax (a_nv o)).
Proof.
  intros spl form k x ts fmin fmax nv o SL HN Hf HO Hv Ht HF. destruct (new_inv k x ts fmin fmax nv o ltac:(lia) Hf HO) as (K1 & X1 & F1 & F2 & _ & U1 & M1 & _ & U2 & U3). destruct (half_len_spec (zlen x) ltac:(lia)) as [HL _]. assert (R1 := ratio_pos _ _ Hf).
  assert (N1 : (0 < IZR (a_nv o - 1))%R) by (apply IZR_lt; lia). assert (HM : 1 <= a_m1 o) by lia.
  assert (CNT : forall i, 0 <= i < a_nv o -> let fi := (a_fmin o * Rpower (a_fmax o / a_fmin o) (IZR i / IZR (a_nv o - 1)))%R in (fmin <= fi <= fmax)%R /\ (zlen (gamma_in (a_fmax o) fi (zlen (a_sig o)) (a_m1 o)) <=? 3) = if Rlt_dec (fi * IZR (2 * a_m1 o - 1)) (3 * fmax) then true else false).
  { intros i Hi fi. assert (B : (fmin <= fi <= fmax)%R). { unfold fi. rewrite F1, F2. assert (I0 : (0 <= IZR i / IZR (a_nv o - 1) <= 1)%R). { assert (0 <= IZR i <= IZR (a_nv o - 1))%R by (split; apply IZR_le; lia). split; [apply Rdiv_le_0_compat; lra|]. apply (Rmult_le_reg_r (IZR (a_nv o - 1))); [lra|]. unfold Rdiv. rewrite Rmult_assoc, Rinv_l by lra. lra. }
      assert (P0 : (1 <= Rpower (fmax / fmin) (IZR i / IZR (a_nv o - 1)))%R) by (rewrite <- (Rpower_O (fmax / fmin)) at 1 by lra; apply Rle_Rpower; lra). assert (P1 : (Rpower (fmax / fmin) (IZR i / IZR (a_nv o - 1)) <= fmax / fmin)%R) by (rewrite <- (Rpower_1 (fmax / fmin)) at 2 by lra; apply Rle_Rpower; lra).
      split; [nra|]. apply (Rmult_le_compat_l fmin) in P1; [|lra]. replace (fmin * (fmax / fmin))%R with fmax in P1 by (field; lra). exact P1. }
    split; [exact B|]. rewrite F2, X1. apply gamma_count; lia || lra. }
  assert (F0 : (a_fmin o * Rpower (a_fmax o / a_fmin o) (IZR 0 / IZR (a_nv o - 1)))%R = fmin) by (rewrite F1, F2; unfold Rdiv at 2; rewrite Rmult_0_l, Rpower_O by lra; ring).
  unfold aff_run. cbv zeta. destruct (Z.eqb_spec (a_nv o) 1); [lia|]. destruct (Z.leb_spec (a_nv o) 0); [lia|].
  assert (FF : match a_kind o with Unt => negb form | _ => false end = false) by (rewrite K1; destruct k; [reflexivity..|rewrite HF; reflexivity]). rewrite FF. rewrite interp_eq by (rewrite ?F1, ?F2, ?K1; auto; lia).
  assert (EQ : (IZR (2 * a_m1 o - 1) < 3 * (fmax / fmin))%R <-> (fmin * IZR (2 * a_m1 o - 1) < 3 * fmax)%R).
  { split; intros Q. - apply (Rmult_lt_compat_l fmin) in Q; [|lra]. replace (fmin * (3 * (fmax / fmin)))%R with (3 * fmax)%R in Q by (field; lra). exact Q. - apply (Rmult_lt_reg_l fmin); [lra|]. replace (fmin * (3 * (fmax / fmin)))%R with (3 * fmax)%R by (field; lra). exact Q. }
  destruct (Rlt_dec (IZR (2 * a_m1 o - 1)) (3 * (fmax / fmin))) as [L|L].
  - rewrite (arange_cons 0) by lia. cbn [mapM]. destruct (CNT 0 ltac:(lia)) as [_ C0]. cbv zeta in C0. rewrite C0, F0. destruct (Rlt_dec (fmin * _) _) as [|Q]; [reflexivity|]. exfalso. apply Q. now apply EQ.
  - rewrite (mapM_ok _ (voice_row spl o)). 2:{ intros i Hi. apply in_arange in Hi. destruct (CNT i Hi) as [B Ci]. cbv zeta in Ci. rewrite Ci. destruct (Rlt_dec _ _) as [Q|]; [|reflexivity]. exfalso. apply L, EQ. assert (0 < IZR (2 * a_m1 o - 1))%R by (apply IZR_lt; lia). apply Rle_lt_trans with (2 := Q). apply Rmult_le_compat_r; lra. }
    cbn [bind]. unfold aff_mult. destruct (hil_ok (map Re (a_sig o))) as [z Hz]; [rewrite X1; destruct x; [unfold zlen in HN; cbn in HN; lia|discriminate]|]. rewrite Hz. cbn [bind].
    unfold aff_normal. rewrite integrate_formula. 2:lia. 2:{ rewrite zlen_map_arange; lia. } 2:{ intros r Hr. apply in_map_iff in Hr. destruct Hr as (i & <- & _). unfold voice_row. cbv zeta. rewrite SL. apply zlen_map. } 2:{ now rewrite zlen_map. } 2:{ unfold geo_grid. rewrite !zlen_map_arange; lia. }
    cbn [bind]. rewrite F1, F2. destruct (Req_EM_T _ 0); cbn [bind]; eexists; reflexivity.
Qed.
(** A signal of 3 fmax / fmin + 1 samples is always long enough; a short one is not. *)
Lemma c89_long : forall spl form k x ts fmin fmax nv o, (forall u v w, zlen (spl u v w) = zlen w) -> 2 <= zlen x -> (0 < fmin < fmax)%R ->
  aff_new k x ts (Some fmin) (Some fmax) nv = Ok o -> 2 <= a_nv o -> 2 <= zlen (a_ts o) -> (k = Unt -> form = true) -> (3 * (fmax / fmin) <= IZR (zlen x - 1))%R ->
  exists tfr, aff_run spl form o = Ok (tfr, a_ts o, geo_grid fmin fmax (a_nv o)).
Proof.
  intros spl form k x ts fmin fmax nv o SL HN Hf HO Hv Ht HF HL. assert (W := c89_outcome spl form k x ts fmin fmax nv o SL HN Hf HO Hv Ht HF). destruct (new_inv k x ts fmin fmax nv o ltac:(lia) Hf HO) as (_ & _ & _ & _ & _ & _ & M1 & _). destruct (half_len_spec (zlen x) ltac:(lia)) as [_ HB].
  destruct (Rlt_dec _ _) as [Q|_]; [|exact W]. exfalso. assert (IZR (zlen x - 1) <= IZR (2 * a_m1 o - 1))%R by (apply IZR_le; lia). lra.
Qed.
Lemma c89_form : forall spl o, a_kind o = Unt -> 2 <= a_nv o -> aff_run spl false o = Raise IndexError.
Proof. intros spl o K H. unfold aff_run. cbv zeta. destruct (Z.eqb_spec (a_nv o) 1); [lia|]. destruct (Z.leb_spec (a_nv o) 0); [lia|]. rewrite K. reflexivity. Qed.
Example c89_example : forall spl (x : list C), (forall u v w, zlen (spl u v w) = zlen w) -> zlen x = 2 ->
  exists o, aff_new Unt x None (Some (1 / 10)%R) (Some (4 / 10)%R) (Some 4) = Ok o /\ aff_run spl true o = Raise TypeError.
Proof.
  intros spl x SL HN. assert (Hf : (0 < 1 / 10 < 4 / 10)%R) by lra. assert (W := c70_outcome Unt x _ _ ltac:(lia) Hf). cbv zeta in W. destruct W as (_ & _ & _ & _ & E). destruct (E ltac:(discriminate) 4) as (o & EO & NV & EM). exists o. split; [exact EO|].
  destruct (new_inv Unt x None (1 / 10) (4 / 10) (Some 4) o ltac:(lia) Hf EO) as (_ & _ & _ & _ & T1 & _). assert (O := c89_outcome spl true Unt x None _ _ (Some 4) o SL ltac:(lia) Hf EO ltac:(lia)). rewrite T1, HN in O. specialize (O ltac:(change (zlen (arange 0 2)) with 2; lia) ltac:(reflexivity)).
  destruct (Rlt_dec _ _) as [_|Q] in O; [exact O|]. exfalso. apply Q. replace (3 * (4 / 10 / (1 / 10)))%R with 12%R by field. rewrite EM, HN. change (half_len 2) with 1. change (aff_bound Unt 2) with 2. replace (4 / 10 / (1 / 10))%R with 4%R by field.
  cbn [aff_root]. replace (sqrt 4) with 2%R by (symmetry; apply sqrt_lem_1; lra). unfold aff_pad. change (half_len 2) with 1. replace (1 * (2 * (4 / 10 * (2 - / 2)) - 1))%R with (1 / 5)%R by field.
  assert (Z0 : ZnearestE (1 / 5) = 0) by (apply Znearest_imp; rewrite Rabs_pos_eq; lra). rewrite Z0. destruct (Rlt_dec 1 _); apply IZR_lt; reflexivity.
Qed.
Lemma c89_short_refuted : exists x fmin fmax nv, (0 < fmin < fmax)%R /\ 2 <= zlen x /\ 2 <= nv /\ forall spl, (forall u v w, zlen (spl u v w) = zlen w) ->
  exists o, aff_new Unt x None (Some fmin) (Some fmax) (Some nv) = Ok o /\ aff_run spl true o = Raise TypeError.
Proof. exists [RtoC 1; RtoC 0], (1 / 10)%R, (4 / 10)%R, 4. split; [lra|]. split; [discriminate|]. split; [lia|]. intros spl SL. now apply c89_example. Qed.
(** ** The time instants choose a slice as Python does: negative ones count from the end *)
Lemma zmin_arange p q : p < q -> zmin_list (arange p q) = Ok p.
Proof.
  intros H. rewrite arange_cons by lia. cbn [zmin_list]. f_equal. assert (G : forall l a, (forall b, In b l -> a <= b) -> fold_left Z.min l a = a) by (induction l as [|b l IH]; intros a Q; cbn; [reflexivity|rewrite Z.min_l by (apply Q; now left); apply IH; intros; apply Q; now right]). apply G. intros b Hb. apply in_arange in Hb. lia.
Qed.
Lemma zmax_arange p q : p < q -> zmax_list (arange p q) = Ok (q - 1).
Proof.
  intros H. replace q with (q - 1 + 1) at 1 by lia. destruct (Z.eq_dec p (q - 1)) as [->|N].
  - rewrite arange_cons by lia. cbn [zmax_list]. f_equal. assert (E : arange (q - 1 + 1) (q - 1 + 1) = []) by (unfold arange; rewrite Z.sub_diag; reflexivity). now rewrite E.
  - rewrite arange_snoc by lia. rewrite (arange_cons p) by lia. cbn [app zmax_list]. rewrite fold_left_app. cbn [fold_left]. f_equal. apply Z.max_r.
    assert (G : forall l a b, a <= b -> (forall c, In c l -> c <= b) -> fold_left Z.max l a <= b) by (induction l as [|c l IH]; intros a b Q S; cbn; [exact Q|apply IH; [apply Z.max_lub; [exact Q|apply S; now left]|intros; apply S; now right]]). apply G; [lia|]. intros c Hc. apply in_arange in Hc. lia.
Qed.
Lemma c87_span : forall x ts lo hi fmin fmax, zmin_list ts = Ok lo -> zmax_list ts = Ok hi -> fmin = None \/ fmax = None ->
  let n := zlen x in
  let p := if lo <? 0 then Z.max 0 (lo + n) else Z.min lo n in
  let q := if hi + 1 <? 0 then Z.max 0 (hi + 1 + n) else Z.min (hi + 1) n in
  (q <= p -> affine_band x ts fmin fmax = Raise ValueError) /\
  (p < q -> affine_band x ts fmin fmax = affine_band x (arange p q) fmin fmax).
Proof.
  intros x ts lo hi fmin fmax Elo Ehi MB n p q. assert (nn := zlen_nonneg x). fold n in nn.
  assert (SL : pyslice (map Re x) lo (hi + 1) = slice (map Re x) p q) by (unfold pyslice, pyclip; rewrite zlen_map; reflexivity).
  assert (PQ : 0 <= p /\ 0 <= q <= n) by (unfold p, q; destruct (Z.ltb_spec lo 0), (Z.ltb_spec (hi + 1) 0); lia). split; intros H.
  - assert (E0 : slice (map Re x) p q = []) by (unfold slice; replace (Z.to_nat (q - p)) with 0%nat by lia; reflexivity). unfold affine_band. rewrite Elo, Ehi. cbn [bind]. rewrite SL, E0. destruct MB as [-> | ->]; [|destruct fmin]; reflexivity.
  - assert (S2 : pyslice (map Re x) p (q - 1 + 1) = slice (map Re x) p q). { replace (q - 1 + 1) with q by ring. unfold pyslice, pyclip. rewrite zlen_map. fold n. destruct (Z.ltb_spec p 0); [lia|]. destruct (Z.ltb_spec q 0); [lia|]. rewrite !Z.min_l by lia. reflexivity. }
    unfold affine_band. rewrite Elo, Ehi, (zmin_arange p q H), (zmax_arange p q H). cbn [bind]. rewrite SL, S2. reflexivity.
Qed.
Example c87_span_example : let x := [RtoC 1; RtoC 0; RtoC (-1); RtoC 0] in
  affine_band x [-4; -3; -2] None None = affine_band x [0; 1; 2] None None /\ affine_band x [-9; 3] None None = affine_band x [0; 1; 2; 3] None None /\ affine_band x [-3; -1] None None = Raise ValueError.
Proof.
  intros x. split; [|split].
  - exact (proj2 (c87_span x [-4; -3; -2] (-4) (-2) None None eq_refl eq_refl (or_introl eq_refl)) ltac:(reflexivity)).
  - exact (proj2 (c87_span x [-9; 3] (-9) 3 None None eq_refl eq_refl (or_introl eq_refl)) ltac:(reflexivity)).
  - exact (proj1 (c87_span x [-3; -1] (-3) (-1) None None eq_refl eq_refl (or_introl eq_refl)) ltac:(discriminate)).
Qed.
