(** C60-C62: noise generators, sigmerge, scale. *)
From Coq Require Import Reals ZArith List Lia Lra Bool.
From Coquelicot Require Import Coquelicot.
From Flocq Require Import Core.
From Verif Require Import Py Scalars CSum DFT Spec M_base M_utils M_dom M_gen1 M_gen2 P_base T_utils T_putils T_dom T_gen1 T_gen2 T_hil T_key.
Import ListNotations.
Local Open Scope Z_scope.

(** A generator of random arrays: m numbers for every m >= 0. *)
Definition sampler (rand : Z -> list R) : Prop := forall m, 0 <= m -> zlen (rand m) = m.
(** The least power of two that is at least n. *)
Definition pow2_above (n N : Z) : Prop := exists p, 0 <= p /\ N = 2 ^ p /\ n <= N /\ forall q, 0 <= q -> n <= 2 ^ q -> N <= 2 ^ q.

Lemma nextpow2_above n : 1 <= n -> exists p, nextpow2 (IZR n) = Ok p /\ 0 <= p /\ pow2_above n (2 ^ p).
Proof.
  intros Hn. destruct (c02_nextpow2_least (IZR n)) as (p & E & L & M); [apply IZR_lt; lia|]. exists p. split; [exact E|].
  assert (HP : 0 <= p).
  { destruct (Z_le_dec 0 p); [auto|]. exfalso. assert (Q : (powerRZ 2 p <= powerRZ 2 (-1))%R) by (rewrite <- !(bpow_powerRZ radix2); apply bpow_le; lia).
    replace (powerRZ 2 (-1)) with (1 / 2)%R in Q by (unfold powerRZ; change (Pos.to_nat 1) with 1%nat; field). assert (1 <= IZR n)%R by (apply IZR_le; lia). lra. }
  assert (PZ : forall q, 0 <= q -> powerRZ 2 q = IZR (2 ^ q)) by (intros q Hq; rewrite <- (bpow_powerRZ radix2); symmetry; apply (IZR_Zpower radix2); lia).
  split; [auto|]. exists p. split; [auto|]. split; [auto|]. split.
  - rewrite PZ in L by auto. now apply le_IZR.
  - intros q Hq Q. apply Z.pow_le_mono_r; [lia|]. apply M. rewrite PZ by auto. now apply IZR_le.
Qed.

(** [z]: the last n samples of the analytic signal of [x], divided by the
    standard deviation of x and by the square root of 2. *)
Definition noise_spec (n : Z) (x : list R) (z : list C) : Prop :=
  zlen z = n /\ exists a, analytic_of x a /\ zlen a = zlen x /\
  forall k, 0 <= k < n -> cnth z k = (cnth a (zlen x - n + k) / RtoC (rstd x) / RtoC (sqrt 2))%C.
Lemma noise_tail_spec n x : 1 <= n <= zlen x ->
  (rstd x = 0%R -> noise_tail n x = Ok None) /\
  (rstd x <> 0%R -> exists z, noise_tail n x = Ok (Some z) /\ noise_spec n x z).
Proof.
  intros Hn. assert (NE : x <> []) by (intros Q; rewrite Q in Hn; unfold zlen in Hn; cbn in Hn; lia). destruct (hil_ok x NE) as [a EA].
  assert (LA := hil_zlen x a EA). unfold noise_tail. rewrite EA. cbn [bind]. unfold take. rewrite map_map.
  rewrite mapM_map.
  rewrite (mapM_ok (fun k => get a (zlen x - (n - 1 - k) - 1)) (fun k => cnth a (zlen x - n + k))).
  2:{ intros k Hk. apply in_arange in Hk. rewrite (get_ok (RtoC 0)) by lia. unfold cnth. do 3 f_equal. lia. }
  cbn [bind]. split; intros HS.
  - destruct (Req_EM_T _ _); [reflexivity|contradiction].
  - destruct (Req_EM_T _ _); [contradiction|]. eexists. split; [reflexivity|]. split; [rewrite zlen_map, zlen_map_arange; lia|].
    exists a. split; [now apply c59_hilbert|]. split; [auto|]. intros k Hk. rewrite map_map, cnth_map_arange by lia. now rewrite Z.add_0_l.
Qed.
Lemma c60_noisecg : forall rand n, sampler rand ->
  (n <= 0 -> noisecg rand n = Raise AssertionError) /\
  (1 <= n <= 2 -> noisecg rand n = Raise TypeError) /\
  (3 <= n -> exists N, pow2_above n N /\
     (rstd (rand N) = 0%R -> noisecg rand n = Ok (Row None)) /\
     (rstd (rand N) <> 0%R -> exists z, noisecg rand n = Ok (Row (Some z)) /\ noise_spec n (rand N) z)).
Proof.
  intros rand n HR. unfold noisecg. split; [|split].
  - intros H. destruct (Z.leb_spec n 0); [auto|lia].
  - intros H. destruct (Z.leb_spec n 0); [lia|]. destruct (Z.leb_spec n 2); [auto|lia].
  - intros H. destruct (Z.leb_spec n 0); [lia|]. destruct (Z.leb_spec n 2); [lia|]. destruct (nextpow2_above n) as (p & E & HP & PA); [lia|]. rewrite E. cbn [bind].
    exists (2 ^ p). split; [exact PA|]. destruct PA as (_ & _ & _ & LN & _). assert (L := HR (2 ^ p) ltac:(lia)).
    destruct (noise_tail_spec n (rand (2 ^ p))) as [T1 T2]; [lia|]. split; intros HS; [now rewrite T1|]. destruct (T2 HS) as (z & -> & Sz). exists z. auto.
Qed.
Lemma c60_noisecu : forall rand r1 r2 n, sampler rand -> zlen r1 = n -> zlen r2 = n \/ n < 0 ->
  (n < 0 -> noisecu rand r1 r2 n = Raise ValueError) /\
  (0 <= n <= 2 -> exists z, noisecu rand r1 r2 n = Ok (Column z) /\ zlen z = n /\
     forall k, 0 <= k < n -> cnth z k = ((rnth r1 k - 1 / 2) * sqrt 6, (rnth r2 k - 1 / 2) * sqrt 6)%R) /\
  (3 <= n -> exists N, let x := map (fun v => v - 1 / 2)%R (rand N) in pow2_above n N /\
     (rstd x = 0%R -> noisecu rand r1 r2 n = Ok (Row None)) /\
     (rstd x <> 0%R -> exists z, noisecu rand r1 r2 n = Ok (Row (Some z)) /\ noise_spec n x z)).
Proof.
  intros rand r1 r2 n HR L1 L2. unfold noisecu. split; [|split].
  - intros H. destruct (Z.leb_spec n 2); [|lia]. destruct (Z.ltb_spec n 0); [auto|lia].
  - intros H. destruct (Z.leb_spec n 2); [|lia]. destruct (Z.ltb_spec n 0); [lia|]. eexists. split; [reflexivity|]. split; [rewrite zipw_zlen; lia|].
    intros k Hk. unfold cnth. rewrite (zipw_nth _ _ _ _ 0%R 0%R) by (unfold zlen in *; lia). reflexivity.
  - intros H. destruct (Z.leb_spec n 2); [lia|]. destruct (nextpow2_above n) as (p & E & HP & PA); [lia|]. rewrite E. cbn [bind].
    exists (2 ^ p). split; [exact PA|]. destruct PA as (_ & _ & _ & LN & _). assert (L := HR (2 ^ p) ltac:(lia)).
    set (x := map _ (rand (2 ^ p))). assert (LX : zlen x = 2 ^ p) by (unfold x; now rewrite zlen_map).
    destruct (noise_tail_spec n x) as [T1 T2]; [lia|]. split; intros HS; [now rewrite T1|]. destruct (T2 HS) as (z & -> & Sz). exists z. auto.
Qed.
(** When n is a power of two nothing is cut: real part of standard deviation
    1 / sqrt 2. *)
Lemma rstd_div x c : (0 < c)%R -> rstd (map (fun v => v / c)%R x) = (rstd x / c)%R.
Proof.
  intros Hc. unfold rstd. assert (EM : rmean (map (fun v => v / c)%R x) = (rmean x / c)%R).
  { unfold rmean. rewrite zlen_map, rsum_map. rewrite (rsum_div x (fun v => v) c). unfold Rdiv. ring. }
  rewrite EM, map_map. replace (rstd x / c)%R with (rstd x / c)%R by auto.
  assert (ES : rmean (map (fun v => (v / c - rmean x / c) ^ 2)%R x) = (rmean (map (fun v => (v - rmean x) ^ 2)%R x) / (c * c))%R).
  { unfold rmean at 1 3. rewrite !zlen_map, !rsum_map. rewrite (rsum_ext _ _ (fun v => (v - rmean x) ^ 2 / (c * c))%R) by (intros v _; field; lra).
    rewrite rsum_div. unfold Rdiv. ring. }
  rewrite ES, sqrt_div_alt, sqrt_square by nra. reflexivity.
Qed.
Lemma re_div z (a : R) : a <> 0%R -> Re (z / RtoC a)%C = (Re z / a)%R.
Proof. intros H. unfold Cdiv. rewrite <- RtoC_inv by auto. destruct z. cbn. unfold Rdiv. ring. Qed.
Lemma sqrt2_pos : (0 < sqrt 2)%R.
Proof. apply sqrt_lt_R0. lra. Qed.
Lemma c60_unit_variance : forall x z, rstd x <> 0%R -> noise_spec (zlen x) x z -> rstd (map Re z) = (1 / sqrt 2)%R.
Proof.
  intros x z HS (LZ & a & (RA & _) & LA & V). assert (S0 : (0 <= rstd x)%R) by apply sqrt_pos. assert (S2 := sqrt2_pos).
  assert (EZ : map Re z = map (fun v => v / (rstd x * sqrt 2))%R x).
  { apply (nth_ext _ _ 0%R (0 / (rstd x * sqrt 2))%R); [rewrite !map_length; unfold zlen in LZ; lia|]. intros k Hk. rewrite map_length in Hk.
    rewrite (nth_indep _ 0%R (Re (RtoC 0))) by now rewrite map_length. rewrite map_nth, (map_nth (fun v => v / (rstd x * sqrt 2))%R x 0%R).
    specialize (V (Z.of_nat k) ltac:(unfold zlen in *; lia)). unfold cnth in V. rewrite Nat2Z.id in V. rewrite V.
    replace (Z.to_nat (zlen x - zlen x + Z.of_nat k)) with k by lia. rewrite !re_div by (auto; lra).
    rewrite <- RA at 2. rewrite (nth_indep _ 0%R (Re (RtoC 0))) by (rewrite map_length; unfold zlen in *; lia). rewrite map_nth. field. split; [lra|auto]. }
  rewrite EZ, rstd_div by nra. field. split; [lra|auto].
Qed.
Lemma c60_short_refuted : forall rand r1 r2 n, 1 <= n <= 2 -> zlen r1 = n -> zlen r2 = n ->
  noisecg rand n = Raise TypeError /\ exists z, noisecu rand r1 r2 n = Ok (Column z).
Proof.
  intros rand r1 r2 n Hn L1 L2. unfold noisecg, noisecu. destruct (Z.leb_spec n 0); [lia|]. destruct (Z.leb_spec n 2); [|lia]. destruct (Z.ltb_spec n 0); [lia|]. split; [auto|eauto].
Qed.

(** *** dopnoise *)
Lemma slice_length {A} (l : list A) a b : 0 <= a -> length (slice l a b) = Nat.min (Z.to_nat (b - a)) (length l - Z.to_nat a).
Proof. intros. unfold slice. rewrite firstn_length, skipn_length. reflexivity. Qed.
Lemma nth_skipn {A} (l : list A) n k d : nth k (skipn n l) d = nth (n + k) l d.
Proof. revert l. induction n; intros l; [reflexivity|]. destruct l; [cbn; now destruct k|]. cbn. apply IHn. Qed.
Lemma slice_nth {A} (l : list A) a b k d : 0 <= a -> 0 <= k < b - a -> nth (Z.to_nat k) (slice l a b) d = nth (Z.to_nat (a + k)) l d.
Proof. intros Ha Hk. unfold slice. rewrite nth_firstn by lia. rewrite nth_skipn. f_equal. lia. Qed.
Lemma ar_length x law x2 x1 y2 y1 : length law = length x -> length (ar_filter x law x2 x1 y2 y1) = length x.
Proof. revert law x2 x1 y2 y1. induction x as [|v x IH]; intros [|f law] x2 x1 y2 y1 H; cbn in *; try lia. rewrite IH; lia. Qed.
(** The filter satisfies its difference equation. *)
Lemma ar_nth x law x2 x1 y2 y1 k : length law = length x -> (k < length x)%nat ->
  let X := x2 :: x1 :: x in let Y := y2 :: y1 :: ar_filter x law x2 x1 y2 y1 in
  nth (S (S k)) Y 0%R = (nth (S (S k)) X 0 - 81 / 100 * (nth k X 0 + nth k Y 0) + 2 * (9 / 10) * cos (2 * PI * nth k law 0) * nth (S k) Y 0)%R.
Proof.
  revert law x2 x1 y2 y1 k. induction x as [|v x IH]; intros [|f law] x2 x1 y2 y1 k HL Hk; cbn in HL, Hk; try lia. cbv zeta. destruct k as [|k].
  - cbn [nth ar_filter]. reflexivity.
  - specialize (IH law x1 v y1 (v - 81 / 100 * (x2 + y2) + 2 * (9 / 10) * cos (2 * PI * f) * y1)%R k ltac:(lia) ltac:(lia)). cbv zeta in IH.
    cbn [ar_filter]. cbv zeta. cbn [nth] in IH |- *. exact IH.
Qed.

(** Position, distance and normalised frequency of the moving source at index t. *)
Definition dop_time (n : Z) (sf tc : R) (t : Z) : R := ((IZR (t + 1) - tc - IZR n) / sf)%R.
Definition dop_dist (n : Z) (sf tc dist v : R) (t : Z) : R := sqrt (dist ^ 2 + (v * dop_time n sf tc t) ^ 2).
Definition dop_freq (n : Z) (sf tc dist v ft c : R) (t : Z) : R := ((1 - v ^ 2 * dop_time n sf tc t / dop_dist n sf tc dist v t / c) * ft / sf)%R.
(** White noise through the second order filter with poles 0.9 exp(+-2 i pi f_t). *)
Definition filtered (x y : list R) (f : Z -> R) : Prop :=
  zlen y = zlen x /\ rnth y 0 = 0%R /\ rnth y 1 = 0%R /\
  forall t, 2 <= t < zlen x -> (rnth y t - 18 / 10 * cos (2 * PI * f t) * rnth y (t - 1) + 81 / 100 * rnth y (t - 2) = rnth x t - 81 / 100 * rnth x (t - 2))%R.

Lemma c60_dopnoise : forall rand n sf ft dist v tc c, sampler rand -> 2 <= n -> sf <> 0%R -> dist <> 0%R -> c <> 0%R ->
  let f := dop_freq n sf tc dist v ft c in
  exists r law y a, dopnoise rand n sf ft dist v (Some tc) c = Ok (r, law) /\
  zlen law = n - 1 /\ (forall k, 0 <= k < n - 1 -> rnth law k = f (n + 1 + k)) /\
  filtered (rand (2 * n)) y f /\ analytic_of (map (fun k => rnth y (n + 1 + k)) (arange 0 (n - 1))) a /\ zlen a = n - 1 /\
  let w := map (fun k => cnth a k / RtoC (sqrt (dop_dist n sf tc dist v (n + 1 + k))))%C (arange 0 (n - 1)) in
  match r with
  | None => energy w = 0%R
  | Some z => zlen z = n - 1 /\ energy z = 1%R /\ forall k, 0 <= k < n - 1 -> cnth z k = (cnth w k / RtoC (sqrt (energy w)))%C
  end.
Proof.
  intros rand n sf ft dist v tc c HR Hn _ _ _ f. assert (LX := HR (2 * n) ltac:(lia)). set (x := rand (2 * n)) in *.
  unfold dopnoise, draw. destruct (Z.ltb_spec (2 * n) 0); [lia|]. cbn [bind]. fold x.
  set (tm := map _ (arange 1 (2 * n + 1))).
  assert (ETM : tm = map (dop_time n sf tc) (arange 0 (2 * n))).
  { unfold tm. replace (arange 1 (2 * n + 1)) with (arange (0 + 1) (2 * n + 1)) by reflexivity. rewrite arange_shift, map_map. apply map_ext. intros k. unfold dop_time. reflexivity. }
  set (ds := map (fun t => sqrt (dist ^ 2 + (v * t) ^ 2)) tm). set (law := map _ tm).
  assert (EDS : ds = map (dop_dist n sf tc dist v) (arange 0 (2 * n))) by (unfold ds; rewrite ETM, map_map; reflexivity).
  assert (ELW : law = map f (arange 0 (2 * n))) by (unfold law; rewrite ETM, map_map; reflexivity).
  assert (LL : length law = length x) by (rewrite ELW, map_length, arange_length; unfold zlen in LX; lia).
  destruct x as [|x0 [|x1 x']] eqn:EX; [unfold zlen in LX; cbn [length] in LX; lia|unfold zlen in LX; cbn [length] in LX; lia|].
  set (y := 0%R :: 0%R :: ar_filter x' (skipn 2 law) x0 x1 0 0).
  assert (LS : length (skipn 2 law) = length x') by (rewrite skipn_length, LL; cbn; lia).
  assert (LY : zlen y = zlen (x0 :: x1 :: x')) by (unfold zlen, y; cbn [length]; rewrite ar_length by auto; reflexivity).
  assert (FY : filtered (x0 :: x1 :: x') y f).
  { split; [auto|]. split; [reflexivity|]. split; [reflexivity|]. intros t Ht.
    assert (HT := ar_nth x' (skipn 2 law) x0 x1 0 0 (Z.to_nat (t - 2)) LS ltac:(unfold zlen in Ht; cbn [length] in Ht; lia)). cbv zeta in HT. fold y in HT.
    unfold rnth. replace (Z.to_nat t) with (S (S (Z.to_nat (t - 2)))) by lia. replace (Z.to_nat (t - 1)) with (S (Z.to_nat (t - 2))) by lia. rewrite HT.
    rewrite nth_skipn. replace (nth (2 + Z.to_nat (t - 2)) law 0%R) with (f t).
    - lra.
    - rewrite ELW. replace (2 + Z.to_nat (t - 2))%nat with (Z.to_nat t) by lia. rewrite (nth_indep _ 0%R (f 0)) by (rewrite map_length, arange_length; lia).
      rewrite map_nth. rewrite nth_arange by lia. f_equal. lia. }
  assert (LSY : zlen (slice y (n + 1) (2 * n + 1)) = n - 1) by (unfold zlen in *; rewrite slice_length by lia; lia).
  assert (ESY : slice y (n + 1) (2 * n + 1) = map (fun k => rnth y (n + 1 + k)) (arange 0 (n - 1))).
  { apply (nth_ext _ _ 0%R (rnth y (n + 1 + 0))); [rewrite map_length, arange_length; unfold zlen in LSY; lia|]. intros k Hk. unfold zlen in LSY.
    rewrite (map_nth (fun k => rnth y (n + 1 + k)) (arange 0 (n - 1)) 0 k). rewrite nth_arange by lia. replace k with (Z.to_nat (Z.of_nat k)) at 1 by lia. rewrite slice_nth by lia. unfold rnth. repeat f_equal; lia. }
  assert (SL : forall (g : Z -> R), slice (map g (arange 0 (2 * n))) (n + 1) (2 * n + 1) = map (fun k => g (n + 1 + k)) (arange 0 (n - 1))).
  { intros g. apply (nth_ext _ _ 0%R (g (n + 1 + 0))); [rewrite slice_length by lia; rewrite !map_length, !arange_length; lia|]. intros k Hk. rewrite slice_length, map_length, arange_length in Hk by lia.
    rewrite (map_nth (fun k => g (n + 1 + k)) (arange 0 (n - 1)) 0 k). rewrite nth_arange by lia. replace k with (Z.to_nat (Z.of_nat k)) at 1 by lia. rewrite slice_nth by lia.
    rewrite (nth_indep _ 0%R (g 0)) by (rewrite map_length, arange_length; lia). rewrite map_nth, nth_arange by lia. f_equal. lia. }
  rewrite EDS, ELW, !SL. rewrite ESY. destruct (hil_ok (map (fun k => rnth y (n + 1 + k)) (arange 0 (n - 1)))) as [a EA].
  { intros Q. apply (f_equal zlen) in Q. rewrite zlen_map_arange in Q by lia. unfold zlen in Q. cbn in Q. lia. }
  rewrite EA. cbn [bind]. assert (LA : zlen a = n - 1) by (rewrite (hil_zlen _ _ EA), zlen_map_arange; lia).
  set (dd := fun k => dop_dist n sf tc dist v (n + 1 + k)).
  set (w := map (fun k => cnth a k / RtoC (sqrt (dd k)))%C (arange 0 (n - 1))).
  assert (EB : bcast (fun z d => z / RtoC (sqrt d))%C a (map dd (arange 0 (n - 1))) = Ok w).
  { rewrite (list_as_map a) at 1. rewrite LA. apply (bcast_map (fun z d => z / RtoC (sqrt d))%C (cnth a) dd). }
  rewrite EB. cbn [bind]. fold (energy w).
  eexists _, _, y, a. split; [reflexivity|]. split; [rewrite zlen_map_arange; lia|]. split; [intros k Hk; rewrite rnth_map_arange by lia; now rewrite Z.add_0_l|].
  split; [exact FY|]. split; [now apply c59_hilbert|]. split; [auto|]. cbv zeta. fold dd. change (map _ (arange 0 (n - 1))) with w at 1 2.
  assert (E0 : (0 <= energy w)%R) by (apply rsum_nonneg; intros; apply pow2_ge_0).
  destruct (Req_EM_T (sqrt (energy w)) 0) as [Q|Q]; [now apply sqrt_eq_0|].
  assert (LW : zlen w = n - 1) by (unfold w; rewrite zlen_map_arange; lia). split; [now rewrite zlen_map|]. split.
  - unfold energy at 1. rewrite rsum_map. rewrite (rsum_ext _ _ (fun z => Cmod z ^ 2 / energy w)%R).
    + rewrite rsum_div. fold (energy w). apply Rinv_r. intros Z0. apply Q. now rewrite Z0, sqrt_0.
    + intros z _. rewrite Cmod_div by (intros Z0; apply RtoC_inj in Z0; auto). rewrite Cmod_R, (Rabs_right (sqrt (energy w))) by (apply Rle_ge, sqrt_pos).
      unfold Rdiv. rewrite Rpow_mult_distr, pow_inv. rewrite pow2_sqrt by auto. reflexivity.
  - intros k Hk. unfold cnth at 1. rewrite (nth_indep _ (RtoC 0) (RtoC 0 / RtoC (sqrt (energy w)))%C) by (rewrite map_length; unfold zlen in LW; lia).
    exact (map_nth (fun z => z / RtoC (sqrt (energy w)))%C w (RtoC 0) (Z.to_nat k)).
Qed.
Lemma c60_dopnoise_raises : forall rand n sf ft dist v tc c, sampler rand -> n <= 1 -> dopnoise rand n sf ft dist v tc c = Raise ValueError.
Proof.
  intros rand n sf ft dist v tc c HR Hn. unfold dopnoise, draw. destruct (Z.ltb_spec (2 * n) 0); [reflexivity|]. cbn [bind]. cbv zeta. assert (LX := HR (2 * n) ltac:(lia)).
  match goal with |- (_ <- hilbert (slice ?Y ?a ?b) ;; _) = _ => assert (LS : slice Y a b = []) end.
  { unfold slice. match goal with |- firstn _ (skipn ?a ?Y) = _ => assert (LY : (length Y <= Z.to_nat (2 * n))%nat) end.
    - unfold zlen in LX. destruct (rand (2 * n)) as [|x0 [|x1 x']]; cbn [length map] in *; try lia.
      assert (E : n = 1) by lia. subst n. destruct x'; cbn in LX |- *; lia.
    - rewrite skipn_all2 by lia. apply firstn_nil. }
  rewrite LS. reflexivity.
Qed.
Lemma c60_dopnoise_default : forall rand n sf ft dist v c, dopnoise rand n sf ft dist v None c = dopnoise rand n sf ft dist v (Some (IZR (n / 2))) c.
Proof.
  intros. unfold dopnoise. replace (Zfloor (IZR n / 2)) with (n / 2); [reflexivity|]. symmetry. apply Zfloor_imp.
  assert (Q := Z.div_mod n 2 ltac:(lia)). assert (B := Z.mod_pos_bound n 2 ltac:(lia)). rewrite plus_IZR.
  assert (Q1 : IZR n = (2 * IZR (n / 2) + IZR (n mod 2))%R) by (rewrite <- mult_IZR, <- plus_IZR; f_equal; exact Q).
  assert (0 <= IZR (n mod 2))%R by (apply IZR_le; lia). assert (IZR (n mod 2) <= 1)%R by (apply IZR_le; lia). lra.
Qed.
Lemma c60_dopnoise_length_refuted : forall rand sf ft dist v tc c, sampler rand -> sf <> 0%R -> dist <> 0%R -> c <> 0%R ->
  exists n r law, dopnoise rand n sf ft dist v (Some tc) c = Ok (r, law) /\ zlen law <> n.
Proof.
  intros rand sf ft dist v tc c HR H1 H2 H3. destruct (c60_dopnoise rand 2 sf ft dist v tc c HR) as (r & law & y & a & E & L & _); [lia|auto|auto|auto|]. exists 2, r, law. split; [exact E|]. rewrite L. discriminate.
Qed.

(** *** C61 *)
Lemma c61_ratio : forall x1 x2 ratio s, zlen x1 = zlen x2 -> sigmerge x1 x2 ratio = Ok (Some s) ->
  zlen s = zlen x1 /\
  exists h, (0 <= h)%R /\ (forall k, 0 <= k < zlen x1 -> cnth s k = (cnth x1 k + RtoC h * cnth x2 k)%C) /\
  mean_energy x1 = (Rpower 10 (ratio / 10) * mean_energy (map (fun z => RtoC h * z)%C x2))%R.
Proof.
  intros x1 x2 ratio s HL H. unfold sigmerge, bcast in H. rewrite (proj2 (Nat.eqb_eq (length x1) (length x2))) in H by (unfold zlen in HL; lia). cbn [bind] in H.
  destruct (Req_EM_T (mean_energy x2) 0) as [|N0]; [discriminate|]. injection H as <-. set (h := merge_gain x1 x2 ratio).
  split; [now apply zipw_zlen|]. exists h. split; [apply sqrt_pos|]. split.
  - intros k Hk. unfold cnth. rewrite (zipw_nth _ _ _ _ (RtoC 0) (RtoC 0)) by (unfold zlen in *; lia). reflexivity.
  - assert (P : (0 < Rpower 10 (ratio / 10))%R) by apply exp_pos. set (T := Rpower 10 (ratio / 10)) in *.
    assert (ME : forall x, (0 <= mean_energy x)%R).
    { intros x. unfold mean_energy, rmean. rewrite rsum_map. assert (Q : (0 <= rsum x (fun z => Cmod z ^ 2))%R) by (apply rsum_nonneg; intros; apply pow2_ge_0).
      destruct x as [|z x]; [unfold rsum; cbn; unfold Rdiv; lra|]. rewrite zlen_map. apply Rmult_le_pos; [exact Q|]. left. apply Rinv_0_lt_compat, IZR_lt. unfold zlen. cbn. lia. }
    assert (EH : mean_energy (map (fun z => RtoC h * z)%C x2) = (h ^ 2 * mean_energy x2)%R).
    { unfold mean_energy, rmean. rewrite !zlen_map, !rsum_map. rewrite (rsum_ext _ _ (fun z => h ^ 2 * Cmod z ^ 2)%R).
      - rewrite rsum_scal_l. unfold Rdiv. ring.
      - intros z _. rewrite Cmod_mult, Cmod_R, Rpow_mult_distr, pow2_abs. reflexivity. }
    assert (M1 := ME x1). assert (M2 := ME x2). rewrite EH. unfold h, merge_gain. fold T. rewrite pow2_sqrt.
    + field. split; lra.
    + apply Rmult_le_pos; [auto|]. left. apply Rinv_0_lt_compat. nra.
Qed.
(** In decibels. *)
Lemma c61_decibels : forall x1 x2 ratio s, zlen x1 = zlen x2 -> (0 < mean_energy x1)%R -> sigmerge x1 x2 ratio = Ok (Some s) ->
  let added := map (fun k => cnth s k - cnth x1 k)%C (arange 0 (zlen x1)) in
  (10 * (ln (mean_energy x1 / mean_energy added) / ln 10) = ratio)%R.
Proof.
  intros x1 x2 ratio s HL HP H added. destruct (c61_ratio x1 x2 ratio s HL H) as (LS & h & Hh & V & E).
  assert (EA : added = map (fun z => RtoC h * z)%C x2).
  { unfold added. rewrite (list_as_map x2) at 1. rewrite map_map, HL. apply map_ext_in. intros k Hk. apply in_arange in Hk. rewrite V by lia. ring. }
  rewrite EA. set (A := mean_energy (map _ x2)) in *. assert (P : (0 < Rpower 10 (ratio / 10))%R) by apply exp_pos. assert (NA : A <> 0%R) by (intros Q; rewrite Q in E; lra).
  rewrite E. replace (Rpower 10 (ratio / 10) * A / A)%R with (Rpower 10 (ratio / 10)) by (field; auto). unfold Rpower. rewrite ln_exp.
  assert (L10 : (0 < ln 10)%R) by (rewrite <- ln_1; apply ln_increasing; lra). field. lra.
Qed.
Lemma c61_outcome : forall x1 x2 ratio,
  (zlen x1 = zlen x2 -> mean_energy x2 <> 0%R -> exists s, sigmerge x1 x2 ratio = Ok (Some s)) /\
  (zlen x1 = zlen x2 -> mean_energy x2 = 0%R -> sigmerge x1 x2 ratio = Ok None) /\
  (zlen x1 <> zlen x2 -> zlen x1 <> 1 -> zlen x2 <> 1 -> sigmerge x1 x2 ratio = Raise ValueError).
Proof.
  intros x1 x2 ratio. unfold sigmerge, bcast. split; [|split].
  - intros HL HE. rewrite (proj2 (Nat.eqb_eq (length x1) (length x2))) by (unfold zlen in HL; lia). cbn [bind]. destruct (Req_EM_T _ _); [contradiction|eauto].
  - intros HL HE. rewrite (proj2 (Nat.eqb_eq (length x1) (length x2))) by (unfold zlen in HL; lia). cbn [bind]. destruct (Req_EM_T _ _); [auto|contradiction].
  - intros HL H1 H2. rewrite (proj2 (Nat.eqb_neq (length x1) (length x2))) by (unfold zlen in HL; lia).
    destruct x1 as [|a [|b x1]]; destruct x2 as [|c [|d x2]]; try reflexivity; unfold zlen in *; cbn in *; lia.
Qed.
(** Broadcasting: a component of one sample is added to every sample, and conversely; the mean
    energies are those of the arrays passed. *)
Lemma c61_broadcast : forall z x ratio, (zlen x <> 1 -> mean_energy x <> 0%R -> exists h, (0 <= h)%R /\
    sigmerge [z] x ratio = Ok (Some (map (fun v => z + RtoC h * v)%C x)) /\ (h ^ 2 * mean_energy x * Rpower 10 (ratio / 10) = Cmod z ^ 2)%R) /\
  (zlen x <> 1 -> z <> RtoC 0 -> exists h, (0 <= h)%R /\
    sigmerge x [z] ratio = Ok (Some (map (fun v => v + RtoC h * z)%C x)) /\ (h ^ 2 * Cmod z ^ 2 * Rpower 10 (ratio / 10) = mean_energy x)%R) /\
  (zlen x <> 1 -> mean_energy x = 0%R -> sigmerge [z] x ratio = Ok None) /\ (sigmerge x [RtoC 0] ratio = Ok None).
Proof.
  assert (ME1 : forall z, mean_energy [z] = (Cmod z ^ 2)%R) by (intros z; unfold mean_energy, rmean; cbn [map length]; rewrite rsum_cons, rsum_nil; unfold zlen; cbn [length]; change (Z.of_nat 1) with 1; field).
  assert (MN : forall x, (0 <= mean_energy x)%R).
  { intros x. unfold mean_energy, rmean. destruct x as [|v x]; [cbn [map]; rewrite rsum_nil; unfold Rdiv; rewrite Rmult_0_l; lra|]. apply Rmult_le_pos; [apply rsum_nonneg; intros r Hr; apply in_map_iff in Hr; destruct Hr as (y & <- & _); apply pow2_ge_0|]. apply Rlt_le, Rinv_0_lt_compat. apply IZR_lt. unfold zlen. rewrite map_length. cbn [length]. lia. }
  assert (PW : forall r, (0 < Rpower 10 (r / 10))%R) by (intros r; apply exp_pos).
  assert (SQ : forall a b r, (0 <= a)%R -> (0 < b)%R -> (sqrt (a / (b * Rpower 10 (r / 10))) ^ 2 * b * Rpower 10 (r / 10) = a)%R).
  { intros a b r Ha Hb. rewrite pow2_sqrt; [field; split; [apply Rgt_not_eq, PW|lra]|]. apply Rmult_le_pos; [lra|]. apply Rlt_le, Rinv_0_lt_compat, Rmult_lt_0_compat; auto. }
  assert (BL : forall (f : C -> C -> C) z x, zlen x <> 1 -> bcast f [z] x = Ok (map (fun v => f z v) x)).
  { intros f z [|a [|b x]] H; [reflexivity|exfalso; apply H; reflexivity|reflexivity]. }
  assert (BR : forall (f : C -> C -> C) z x, bcast f x [z] = Ok (map (fun v => f v z) x)).
  { intros f z [|a [|b x]]; reflexivity. }
  intros z x ratio. unfold sigmerge, merge_gain. rewrite !ME1. repeat split.
  - intros L NE. exists (sqrt (Cmod z ^ 2 / (mean_energy x * Rpower 10 (ratio / 10)))). split; [apply sqrt_pos|]. rewrite (BL (fun a b => a + RtoC (sqrt (Cmod z ^ 2 / (mean_energy x * Rpower 10 (ratio / 10)))) * b)%C) by exact L. cbn [bind]. destruct (Req_EM_T (mean_energy x) 0); [contradiction|]. split; [reflexivity|]. apply SQ; [apply pow2_ge_0|]. destruct (MN x); lra.
  - intros L NZ. exists (sqrt (mean_energy x / (Cmod z ^ 2 * Rpower 10 (ratio / 10)))). split; [apply sqrt_pos|]. rewrite (BR (fun a b => a + RtoC (sqrt (mean_energy x / (Cmod z ^ 2 * Rpower 10 (ratio / 10)))) * b)%C). cbn [bind]. assert (P : (0 < Cmod z ^ 2)%R) by (apply pow_lt, Cmod_gt_0, NZ). destruct (Req_EM_T (Cmod z ^ 2) 0); [lra|]. split; [reflexivity|]. apply SQ; [apply MN|exact P].
  - intros L E. rewrite BL by exact L. cbn [bind]. destruct (Req_EM_T (mean_energy x) 0); [reflexivity|contradiction].
  - rewrite (BR (fun a b => a + RtoC (sqrt (mean_energy x / (Cmod (RtoC 0) ^ 2 * Rpower 10 (ratio / 10)))) * b)%C). cbn [bind]. destruct (Req_EM_T (Cmod (RtoC 0) ^ 2) 0) as [|N]; [reflexivity|]. exfalso. apply N. rewrite Cmod_0. ring.
Qed.
Example c61_example : sigmerge [RtoC 2; RtoC 0] [RtoC 0; RtoC 1] 0 = Ok (Some [RtoC 2; RtoC 2]).
Proof.
  unfold sigmerge, bcast. cbn [length Nat.eqb]. cbn [bind zipw]. unfold merge_gain, mean_energy, rmean, zlen. cbn [map length Z.of_nat rsum fold_right Pos.of_succ_nat Pos.succ].
  rewrite !Cmod_R. rewrite (Rabs_right 2), (Rabs_right 0), (Rabs_right 1) by lra. replace (0 / 10)%R with 0%R by lra. rewrite Rpower_O by lra.
  destruct (Req_EM_T _ _) as [Q|Q]; [lra|]. replace ((2 ^ 2 + (0 ^ 2 + 0)) / 2 / ((0 ^ 2 + (1 ^ 2 + 0)) / 2 * 1))%R with (2 * 2)%R by field. rewrite sqrt_square by lra. do 3 f_equal; [|f_equal]; ring.
Qed.

(** *** C62 *)
Lemma c62_refuted : forall T N fmin fmax, exists e, scale_outcome T N fmin fmax = Raise e.
Proof. intros. unfold scale_outcome. repeat match goal with |- exists e, (if ?b then _ else _) = _ => destruct b; [eauto|] end. eauto. Qed.
(** The furthest that any call gets: 128 samples and 128 voices. *)
(** Which exception: an empty signal cannot be made analytic; the frequencies are divided by fmin and
    rooted by N - 1; every other signal must have 128 samples and 128 bins, and then the dimension
    2 Mmax of the result is a float. *)
Lemma c62_outcome : forall T N fmin fmax, 0 <= T ->
  let r := scale_outcome T N fmin fmax in
  (T = 0 -> r = Raise ValueError) /\
  (0 < T -> fmin = 0%R \/ N = 1 \/ (fmax = 0%R /\ N < 1) -> r = Raise ZeroDivisionError) /\
  (0 < T -> fmin <> 0%R -> N <> 1 -> ~ (fmax = 0%R /\ N < 1) -> r = Raise (if (T =? 128) && (N =? 128) then TypeError else ValueError)).
Proof.
  intros T N fmin fmax HT r. unfold r, scale_outcome. repeat split.
  - intros ->. reflexivity.
  - intros HP C. destruct (Z.eqb_spec T 0); [lia|]. destruct (Req_EM_T fmin 0); [reflexivity|]. destruct (Z.eqb_spec N 1); [reflexivity|]. destruct C as [C|[C|[C1 C2]]]; try contradiction. destruct (Req_EM_T fmax 0); [|contradiction]. destruct (Z.ltb_spec N 1); [reflexivity|lia].
  - intros HP F1 F2 F3. destruct (Z.eqb_spec T 0); [lia|]. destruct (Req_EM_T fmin 0); [contradiction|]. destruct (Z.eqb_spec N 1); [contradiction|]. destruct (Req_EM_T fmax 0).
    + destruct (Z.ltb_spec N 1); [exfalso; apply F3; auto|]. destruct (Z.eqb_spec T 128), (Z.eqb_spec (Z.max 0 N) 128), (Z.eqb_spec N 128); cbn; try reflexivity; lia.
    + destruct (Z.eqb_spec T 128), (Z.eqb_spec (Z.max 0 N) 128), (Z.eqb_spec N 128); cbn; try reflexivity; lia.
Qed.
Example c62_example : scale_outcome 128 128 (1 / 10) (1 / 2) = Raise TypeError.
Proof. unfold scale_outcome. cbn [Z.eqb Pos.eqb]. destruct (Req_EM_T (1 / 10) 0); [lra|]. destruct (Req_EM_T (1 / 2) 0); [lra|]. reflexivity. Qed.
(** Four Gaussian draws give four samples. *)
Example c60_example : exists z, noisecg two_draws 4 = Ok (Row (Some z)) /\ zlen z = 4.
Proof.
  destruct (c60_noisecg two_draws 4) as (_ & _ & H); [intros m Hm; now apply two_uniform|]. destruct (H ltac:(lia)) as (N & (p & HP & EN & LN & MN) & _ & B).
  assert (N4 : N = 4) by (specialize (MN 2 ltac:(lia) ltac:(lia)); change (2 ^ 2) with 4 in MN; lia). subst N. rewrite N4 in B.
  destruct B as (z & E & L & _); [|eauto]. unfold rstd. intros Q. apply sqrt_eq_0 in Q.
  - unfold rmean, two_draws, zlen in Q. change (arange 0 4) with [0; 1; 2; 3] in Q. cbn [map length Z.of_nat Pos.of_succ_nat Pos.succ rsum fold_right Z.eqb] in Q. lra.
  - unfold rmean, two_draws, zlen. change (arange 0 4) with [0; 1; 2; 3]. cbn [map length Z.of_nat Pos.of_succ_nat Pos.succ rsum fold_right Z.eqb]. lra.
Qed.
