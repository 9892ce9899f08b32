(** C131: the programs of the gallery. *)
From Coq Require Import Reals ZArith List Lia Lra Bool.
From Coquelicot Require Import Coquelicot.
From Flocq Require Import Core.
From Verif Require Import Py Scalars CSum DFT Spec M_base M_stft M_cohen M_amb M_reas M_post M_dom M_gen1 M_gen2 M_gallery M_plot
  P_base P_wvd T_wvd T_gen1 T_noise T_reas T_post T_plot T_dom T_ifm.
Import ListNotations.
Local Open Scope Z_scope.

Lemma chirp_ok n f1 f2 : 2 <= n -> (Rabs f1 <= 1 / 2)%R -> (Rabs f2 <= 1 / 2)%R ->
  exists x l, fmlin n f1 f2 None = Ok (x, l) /\ zlen x = n /\ (forall k, 0 <= k < n -> Cmod (cnth x k) = 1%R).
Proof.
  intros Hn H1 H2. destruct (c55_default n f1 f2 Hn) as [B E]. rewrite E.
  destruct (c55_chirp n f1 f2 (Some (IZR (half_round n))) Hn H1 H2) as (y & law & E1 & L & _ & _ & _ & _ & M & _); [cbn [centre_of]; rewrite trunc_IZR; lia|].
  exists y, law. auto.
Qed.

(** A chirp of n samples: the run raises for n = 5, 9, 13, ...; otherwise it
    returns and every kind of plot is drawn. *)
Lemma c131_chirp_wv : forall n f1 f2, 2 <= n -> (Rabs f1 <= 1 / 2)%R -> (Rabs f2 <= 1 / 2)%R ->
  (n mod 4 = 1 -> chirp_wv n f1 f2 = Raise IndexError) /\
  (n mod 4 <> 1 -> exists o, chirp_wv n f1 f2 = Ok o /\ forall k tf sq th, exists p, wvd_picture k tf sq th o = Ok p).
Proof.
  intros n f1 f2 Hn H1 H2. destruct (chirp_ok n f1 f2 Hn H1 H2) as (x & l & E & L & _). unfold chirp_wv. rewrite E. cbn [bind].
  assert (NE : x <> []) by (intros ->; unfold zlen in L; cbn in L; lia). destruct (c21_wvd_default x NE) as [D1 D2]. rewrite L in *.
  split.
  - intros HM. apply D1. split; [auto|]. destruct (Z.eq_dec n 2) as [->|]; [discriminate|]. destruct (Z.eq_dec n 3) as [->|]; [discriminate|]. destruct (Z.eq_dec n 4) as [->|]; [discriminate|]. lia.
  - intros HM. destruct D2 as [o O]; [lia|]. exists o. split; [exact O|]. intros k tf sq th. apply (c93_wvd_default x); [lia|exact O].
Qed.

Lemma mean_energy_0 z : zlen z <> 0 -> mean_energy z = 0%R -> forall k, 0 <= k < zlen z -> cnth z k = RtoC 0.
Proof.
  intros HZ H k Hk. unfold mean_energy, rmean in H.
  assert (N0 : (0 < IZR (zlen (map (fun v => Cmod v ^ 2)%R z)))%R) by (apply IZR_lt; rewrite zlen_map; unfold zlen in *; lia).
  assert (S0 : rsum (map (fun v => Cmod v ^ 2)%R z) (fun v => v) = 0%R).
  { unfold Rdiv in H. apply Rmult_integral in H. destruct H as [H|H]; [exact H|]. exfalso. assert (Q := Rinv_0_lt_compat _ N0). lra. }
  assert (X : (Cmod (cnth z k) ^ 2 = 0)%R).
  { apply (rsum_nonneg_0 (map (fun v => Cmod v ^ 2)%R z) (fun v => v)); [|exact S0|].
    - intros a Ha. apply in_map_iff in Ha. destruct Ha as (b & <- & _). apply pow2_ge_0.
    - apply in_map_iff. exists (cnth z k). split; [reflexivity|]. unfold cnth. apply nth_In. unfold zlen in Hk. lia. }
  apply Cmod_eq_0. assert (G := Cmod_ge_0 (cnth z k)).
  nra.
Qed.

(** 2^p samples of noise have energy as soon as the draws are not constant. *)
Lemma noise_energy rand p : sampler rand -> 2 <= p -> rstd (rand (2 ^ p)) <> 0%R ->
  exists z, noisecg rand (2 ^ p) = Ok (Row (Some z)) /\ zlen z = 2 ^ p /\ mean_energy z <> 0%R.
Proof.
  intros HS Hp HR. assert (P4 : 2 ^ 2 <= 2 ^ p) by (apply Z.pow_le_mono_r; lia). change (2 ^ 2) with 4 in P4.
  destruct (c60_noisecg rand (2 ^ p) HS) as (_ & _ & H). destruct (H ltac:(lia)) as (N & (q & Hq & EN & G & M) & _ & H').
  assert (N = 2 ^ p) by (specialize (M p ltac:(lia) ltac:(lia)); lia). rewrite H0 in H'. destruct (H' HR) as (z & E & SP). exists z.
  assert (LX := HS (2 ^ p) ltac:(lia)). assert (LZ : zlen z = 2 ^ p) by apply SP. split; [exact E|]. split; [exact LZ|]. intros ZE.
  assert (U : rstd (map Re z) = (1 / sqrt 2)%R) by (apply (c60_unit_variance (rand (2 ^ p)) z HR); rewrite LX; exact SP).
  assert (ZZ : map Re z = map (fun _ => 0%R) z).
  { apply map_ext_in. intros v Hv. apply (In_nth _ _ (RtoC 0)) in Hv. destruct Hv as (k & Hk & <-).
    assert (Q := mean_energy_0 z ltac:(lia) ZE (Z.of_nat k) ltac:(unfold zlen; lia)). unfold cnth in Q. rewrite Nat2Z.id in Q. rewrite Q. reflexivity. }
  assert (M0 : forall l : list C, rmean (map (fun _ => 0%R) l) = 0%R).
  { intros l. unfold rmean. rewrite rsum_0; [unfold Rdiv; ring|]. intros a Ha. apply in_map_iff in Ha. destruct Ha as (? & <- & _). reflexivity. }
  assert (S0 : rstd (map Re z) = 0%R).
  { rewrite ZZ. unfold rstd. rewrite M0, map_map. replace (map (fun _ : C => ((0 - 0) ^ 2)%R) z) with (map (fun _ : C => 0%R) z) by (apply map_ext; intros; ring). rewrite M0. apply sqrt_0. }
  rewrite S0 in U. assert (Q := sqrt_lt_R0 2 ltac:(lra)). unfold Rdiv in U. assert (X := Rinv_0_lt_compat _ Q). lra.
Qed.

Lemma hough_ok x m n : x <> [] -> ~ (zlen x mod 4 = 1 /\ 5 <= zlen x) -> 1 <= m -> 1 <= n ->
  exists ht rho theta, hough_of m n x = Ok (ht, rho, theta) /\ shape ht m n.
Proof.
  intros NE H Hm Hn. destruct (c21_wvd_default x NE) as [_ D]. destruct (D H) as [o O]. unfold hough_of. rewrite O. cbn [bind].
  assert (LP : 1 <= zlen x) by (destruct x; [congruence|unfold zlen; cbn; lia]). set (N := zlen x) in *.
  assert (L : zlen (image_of o N) = N) by (unfold image_of; rewrite zlen_map, arange_zlen; lia).
  assert (HR : rect (image_of o N) N).
  { intros r Hr. unfold image_of in Hr. apply in_map_iff in Hr. destruct Hr as (f & <- & _). rewrite zlen_map, arange_zlen. lia. }
  destruct (T_post.rmax_ok (concat (image_of o N))) as (v & _ & MV).
  { intros E. unfold image_of in E. rewrite (arange_cons 0 N) in E by lia. cbn [map concat] in E. discriminate. }
  destruct (c41_entries (image_of o N) N m n v HR ltac:(lia) LP Hm Hn MV) as (ht & rho & theta & EH & SH & _). exists ht, rho, theta. auto.
Qed.

(** The image given to the Hough transform: row f, column t is the real part of the entry (f, t) of the distribution. *)
Lemma c131_hough_image : forall x m n o, wvd x None None = Ok o ->
  exists image, hough_of m n x = hough image (zlen x) (Some m) (Some n) /\ zlen image = zlen x /\ rect image (zlen x) /\
  forall f t, 0 <= f < zlen x -> 0 <= t < zlen x -> pix image f t = Re (at2 (r_tfr o) f t).
Proof.
  intros x m n o O. exists (image_of o (zlen x)). unfold hough_of. rewrite O. cbn [bind]. split; [reflexivity|]. assert (0 <= zlen x) by (unfold zlen; lia). split; [unfold image_of; rewrite zlen_map, arange_zlen; lia|]. split.
  - intros r Hr. unfold image_of in Hr. apply in_map_iff in Hr. destruct Hr as (f & <- & _). rewrite zlen_map, arange_zlen. lia.
  - intros f t Hf Ht. unfold pix, image_of. rewrite nth_map_arange by lia. rewrite rnth_map_arange by lia. now rewrite !Z.add_0_l.
Qed.
(** What the programs do with a merged signal of 2^p samples. *)
Definition shown (x : list C) : Prop :=
  (exists o, wvd x None None = Ok o /\ forall k tf sq th, exists p, wvd_picture k tf sq th o = Ok p) /\
  forall m n, 1 <= m -> 1 <= n -> exists ht rho theta, hough_of m n x = Ok (ht, rho, theta) /\ shape ht m n.
Lemma shown_ok x : 2 <= zlen x -> zlen x mod 4 <> 1 -> shown x.
Proof.
  intros L HM. assert (NE : x <> []) by (intros ->; unfold zlen in L; cbn in L; lia). split.
  - destruct (c21_wvd_default x NE) as [_ D]. destruct D as [o O]; [tauto|]. exists o. split; [exact O|]. intros. eapply c93_wvd_default; eauto.
  - intros m n Hm Hn. apply hough_ok; auto. tauto.
Qed.
Lemma pow2_mod4 p : 2 <= p -> 4 <= 2 ^ p /\ 2 ^ p mod 4 = 0.
Proof.
  intros Hp. replace p with (2 + (p - 2)) by lia. rewrite Z.pow_add_r by lia. change (2 ^ 2) with 4. assert (0 < 2 ^ (p - 2)) by (apply Z.pow_pos_nonneg; lia).
  split; [lia|]. rewrite Z.mul_comm. apply Z.mod_mul. lia.
Qed.

Lemma c131_noisy_chirp : forall rand p f1 f2 r, sampler rand -> 2 <= p -> rstd (rand (2 ^ p)) <> 0%R -> (Rabs f1 <= 1 / 2)%R -> (Rabs f2 <= 1 / 2)%R ->
  exists x, noisy_chirp rand (2 ^ p) f1 f2 r = Ok (Some x) /\ zlen x = 2 ^ p /\ shown x.
Proof.
  intros rand p f1 f2 r HS Hp HR H1 H2. destruct (pow2_mod4 p Hp) as [P4 PM].
  destruct (chirp_ok (2 ^ p) f1 f2 ltac:(lia) H1 H2) as (x & l & E & L & _). destruct (noise_energy rand p HS Hp HR) as (z & EZ & LZ & NZ).
  unfold noisy_chirp. rewrite E. cbn [bind]. rewrite EZ. cbn [bind]. destruct (c61_outcome x z r) as (O & _). destruct O as [s S]; [lia|auto|].
  exists s. destruct (c61_ratio x z r s ltac:(lia) S) as (LS & _). split; [exact S|]. split; [lia|]. apply shown_ok; rewrite LS, L; [lia|]. rewrite PM. discriminate.
Qed.

(** With constant draws (the standard deviation divides) the noise is NaN. *)
Lemma c131_constant_draws : forall rand p f1 f2 r, sampler rand -> 2 <= p -> rstd (rand (2 ^ p)) = 0%R -> (Rabs f1 <= 1 / 2)%R -> (Rabs f2 <= 1 / 2)%R ->
  noisy_chirp rand (2 ^ p) f1 f2 r = Ok None.
Proof.
  intros rand p f1 f2 r HS Hp HR H1 H2. destruct (pow2_mod4 p Hp) as [P4 PM].
  destruct (chirp_ok (2 ^ p) f1 f2 ltac:(lia) H1 H2) as (x & l & E & L & _).
  destruct (c60_noisecg rand (2 ^ p) HS) as (_ & _ & H). destruct (H ltac:(lia)) as (N & (q & Hq & EN & G & M) & H' & _).
  assert (X : N = 2 ^ p) by (specialize (M p ltac:(lia) ltac:(lia)); lia). rewrite X in H'. unfold noisy_chirp. rewrite E. cbn [bind]. rewrite (H' HR). reflexivity.
Qed.

Lemma c131_two_chirps : forall n f1 f2 g1 g2 r, 2 <= n -> (Rabs f1 <= 1 / 2)%R -> (Rabs f2 <= 1 / 2)%R -> (Rabs g1 <= 1 / 2)%R -> (Rabs g2 <= 1 / 2)%R ->
  exists x, two_chirps n f1 f2 g1 g2 r = Ok (Some x) /\ zlen x = n /\ (n mod 4 <> 1 -> shown x).
Proof.
  intros n f1 f2 g1 g2 r Hn H1 H2 H3 H4. destruct (chirp_ok n f1 f2 Hn H1 H2) as (x & l & E & L & _). destruct (chirp_ok n g1 g2 Hn H3 H4) as (y & l' & E' & L' & U).
  unfold two_chirps. rewrite E. cbn [bind]. rewrite E'. cbn [bind]. destruct (c61_outcome x y r) as (O & _). destruct O as [s S]; [lia| |].
  - intros Z. assert (Q := mean_energy_0 y ltac:(lia) Z 0 ltac:(lia)). specialize (U 0 ltac:(lia)). rewrite Q, Cmod_0 in U. lra.
  - exists s. destruct (c61_ratio x y r s ltac:(lia) S) as (LS & _). split; [exact S|]. split; [lia|]. intros HM. apply shown_ok; rewrite LS, L; auto.
Qed.

(** plot_5_4_2_hough_simultaneous_chirp.py and plot_5_4_2_hough_noisy_chirp.py as they stand. *)
Example c131_hough_example : (exists x ht rho theta, two_chirps 64 0 (4 / 10) (3 / 10) (1 / 2) 1 = Ok (Some x) /\ hough_of 64 64 x = Ok (ht, rho, theta) /\ shape ht 64 64) /\
  forall rand, sampler rand -> rstd (rand 64) <> 0%R ->
  exists x ht rho theta, noisy_chirp rand 64 0 (3 / 10) 1 = Ok (Some x) /\ hough_of 64 64 x = Ok (ht, rho, theta) /\ shape ht 64 64.
Proof.
  assert (A : forall v, (0 <= v <= 1 / 2)%R -> (Rabs v <= 1 / 2)%R) by (intros v Hv; rewrite Rabs_right; lra). split.
  - destruct (c131_two_chirps 64 0 (4 / 10) (3 / 10) (1 / 2) 1) as (x & E & L & S); try (apply A; lra); [lia|]. destruct (S ltac:(discriminate)) as [_ H].
    destruct (H 64 64 ltac:(lia) ltac:(lia)) as (ht & rho & theta & E' & SH). exists x, ht, rho, theta. auto.
  - intros rand HS HR. destruct (c131_noisy_chirp rand 6 0 (3 / 10) 1 HS ltac:(lia) HR) as (x & E & L & _ & H); try (apply A; lra).
    destruct (H 64 64 ltac:(lia) ltac:(lia)) as (ht & rho & theta & E' & SH). exists x, ht, rho, theta. auto.
Qed.

Lemma modulated_ok x y : zlen x = zlen y -> modulated x (map Some y) = Some (map (fun k => cnth x k * RtoC (rnth y k))%C (arange 0 (zlen x))).
Proof.
  intros L. unfold modulated.
  replace (zipw _ x (map Some y)) with (map (fun k => Some (cnth x k * RtoC (rnth y k))%C) (arange 0 (zlen x))).
  - apply (all_some_ok (fun k => Some (cnth x k * RtoC (rnth y k))%C) (fun k => cnth x k * RtoC (rnth y k))%C). intros; reflexivity.
  - rewrite (list_as_map x) at 2. assert (EY : map Some y = map (fun k => Some (rnth y k)) (arange 0 (zlen x))).
    { rewrite L. apply (nth_ext _ _ None None); [rewrite !map_length, arange_length; unfold zlen; lia|]. intros k Hk. rewrite map_length in Hk.
      rewrite (nth_indep _ None (Some 0%R)) by now rewrite map_length. rewrite map_nth.
      assert (Q := nth_map_arange (fun k => Some (rnth y k)) 0 (zlen y) (Z.of_nat k) None). rewrite Nat2Z.id in Q. rewrite Q by (unfold zlen; lia). cbn. unfold rnth. now rewrite Nat2Z.id. }
    rewrite EY, zipw_map. reflexivity.
Qed.

(** The envelope never vanishes, so the modulated chirp has energy and keeps the phases of the chirp. *)
Lemma gauss_chirp_ok n f1 f2 t s : 2 <= n -> (Rabs f1 <= 1 / 2)%R -> (Rabs f2 <= 1 / 2)%R -> (forall v, s = Some v -> (0 < v)%R) ->
  exists x c l g, gauss_chirp n f1 f2 t s = Ok (Some x) /\ fmlin n f1 f2 None = Ok (c, l) /\ zlen x = n /\
  forall k, 0 <= k < n -> (0 < g k)%R /\ cnth x k = (cnth c k * RtoC (g k))%C.
Proof.
  intros Hn H1 H2 HS. destruct (chirp_ok n f1 f2 Hn H1 H2) as (c & l & E & L & _).
  set (t' := match t with Some t => t | None => IZR (half_round n) end). set (s' := match s with Some s => s | None => (2 * sqrt (IZR n))%R end).
  assert (PS : (0 < s')%R) by (unfold s'; destruct s as [v|]; [apply HS; reflexivity|assert (Q := sqrt_lt_R0 (IZR n) ltac:(apply IZR_lt; lia)); lra]).
  assert (EA : amgauss n t s = amgauss n (Some t') (Some s')) by (unfold amgauss; rewrite !am_args_ok by lia; reflexivity).
  destruct (c53_amgauss n t' s' ltac:(lia) PS) as (y & EY & LY & _ & V).
  exists (map (fun k => cnth c k * RtoC (rnth y k))%C (arange 0 n)), c, l, (rnth y). unfold gauss_chirp. rewrite E. cbn [bind]. rewrite EA, EY. cbn [bind].
  rewrite modulated_ok, L by lia. split; [reflexivity|]. split; [reflexivity|]. split; [rewrite zlen_map_arange; lia|].
  intros k Hk. split; [rewrite V by auto; apply exp_pos|]. unfold cnth at 1. rewrite nth_map_arange by lia. reflexivity.
Qed.

Lemma c131_localization : forall n f1 f2 t s, 2 <= n -> (Rabs f1 <= 1 / 2)%R -> (Rabs f2 <= 1 / 2)%R -> (forall v, s = Some v -> (0 < v)%R) ->
  exists x, gauss_chirp n f1 f2 t s = Ok (Some x) /\
  (exists tm T, loctime x = Ok (Some (tm, T)) /\ (0 <= tm <= IZR (n - 1))%R /\ (0 < T)%R) /\
  (n mod 4 <> 1 -> exists fm B, locfreq x = Ok (Some (fm, B)) /\ (- (2 / 3) <= fm < 1 / 2)%R /\ (0 <= B)%R) /\
  (n mod 4 = 1 -> locfreq x = Raise ValueError) /\
  (forall ang, exists fs, inst_freq ang x None = Ok (fs, arange 2 n) /\ zlen fs = n - 2) /\
  (forall fs, exists v, group_delay x (Some fs) = Ok v /\ zlen v = zlen fs).
Proof.
  intros n f1 f2 t s Hn H1 H2 HS. destruct (gauss_chirp_ok n f1 f2 t s Hn H1 H2 HS) as (x & c & l & g & E & EC & L & V). exists x. split; [exact E|].
  destruct (chirp_ok n f1 f2 Hn H1 H2) as (c' & l' & E' & _ & U). assert (c' = c) by congruence. subst c'.
  assert (NZ : forall k, 0 <= k < n -> cnth x k <> RtoC 0).
  { intros k Hk Q. destruct (V k Hk) as [P Ek]. specialize (U k Hk). rewrite Ek in Q. apply (f_equal Cmod) in Q. rewrite Cmod_mult, Cmod_R, Cmod_0, U, Rabs_right in Q by lra. lra. }
  assert (EN : energy x <> 0%R).
  { rewrite energy_pw. intros Q. apply (NZ 0 ltac:(lia)). assert (X : pw x 0 = 0%R).
    { apply (rsum_nonneg_0 (arange 0 (zlen x)) (pw x)); [intros; apply pw_nonneg|exact Q|apply in_arange; lia]. }
    unfold pw in X. apply Cmod_eq_0. assert (G := Cmod_ge_0 (cnth x 0)). nra. }
  split; [|split; [|split; [|split]]].
  - rewrite c49_formula. destruct (Req_EM_T (energy x) 0); [contradiction|]. exists (tcentre x), (tspread x). split; [reflexivity|].
    destruct (c49_bounds x EN) as [B1 B2]. rewrite L in B1. split; [exact B1|]. destruct B2 as [B2|B2]; [exact B2|]. exfalso.
    symmetry in B2. apply (c49_zero_spread x EN) in B2. destruct B2 as (k & Hk & _ & Z). rewrite L in *. destruct (Z.eq_dec k 0); [apply (NZ 1 ltac:(lia)), Z; lia|apply (NZ 0 ltac:(lia)), Z; lia].
  - intros HM. rewrite c50_formula by (rewrite L; auto; lia). destruct (Req_EM_T (energy x) 0); [contradiction|]. exists (fcentre x), (fspread x). split; [reflexivity|].
    destruct (c50_bounds x ltac:(lia) EN) as ((B1 & B2) & B3 & _). rewrite L in *. split; [|exact B3].
    assert (N0 : (2 <= IZR n)%R) by (apply IZR_le; lia). split.
    + eapply Rle_trans; [|exact B1]. apply (Rmult_le_reg_r (IZR n)); [lra|]. unfold Rdiv. rewrite (Rmult_assoc (- IZR ((n + 1) / 2))), Rinv_l by lra.
      assert (Q : 3 * ((n + 1) / 2) <= 2 * n) by (Z.to_euclidean_division_equations; lia). apply IZR_le in Q. rewrite !mult_IZR in Q. lra.
    + eapply Rle_lt_trans; [exact B2|]. apply (Rmult_lt_reg_r (IZR n)); [lra|]. unfold Rdiv. rewrite (Rmult_assoc (IZR (n / 2 - 1))), Rinv_l by lra.
      assert (Q : 2 * (n / 2 - 1) < n) by (Z.to_euclidean_division_equations; lia). apply IZR_lt in Q. rewrite mult_IZR in Q. lra.
  - intros HM. apply c50_raises; rewrite L; auto. destruct (Z.eq_dec n 2) as [->|]; [discriminate|]. destruct (Z.eq_dec n 3) as [->|]; [discriminate|]. destruct (Z.eq_dec n 4) as [->|]; [discriminate|]. lia.
  - intros ang. destruct (c51_default ang x) as (fs & EF & LF). exists fs. rewrite L in *. split; [exact EF|lia].
  - intros fs. rewrite c52_formula. eexists. split; [reflexivity|]. apply zlen_map.
Qed.

(** inst_freq reads the law of the chirp off, one sample late, whatever the envelope
    (plot_2_3_instantaneous_frequency.py, plot_2_4_grp_delay_inst_freq_comprison.py). *)
Lemma c131_inst_freq : forall ang n f1 f2 t s, (forall k z, is_angle z (ang k z)) -> 3 <= n -> (0 <= f1 <= 1 / 2)%R -> (0 <= f2 <= 1 / 2)%R -> f1 <> f2 ->
  (forall v, s = Some v -> (0 < v)%R) ->
  exists x c l fs gs, gauss_chirp n f1 f2 t s = Ok (Some x) /\ fmlin n f1 f2 None = Ok (c, l) /\
  inst_freq ang x None = Ok (fs, arange 2 n) /\ inst_freq ang c None = Ok (gs, arange 2 n) /\
  forall k, 0 <= k < n - 2 -> rnth fs k = rnth l (k + 1) /\ rnth gs k = rnth l (k + 1).
Proof.
  intros ang n f1 f2 t s HA Hn H1 H2 NE HS. assert (A1 : (Rabs f1 <= 1 / 2)%R) by (rewrite Rabs_right; lra). assert (A2 : (Rabs f2 <= 1 / 2)%R) by (rewrite Rabs_right; lra).
  destruct (gauss_chirp_ok n f1 f2 t s ltac:(lia) A1 A2 HS) as (x & c & l & g & E & EC & L & V).
  destruct (c55_default n f1 f2 ltac:(lia)) as [B ED].
  destruct (c55_chirp n f1 f2 (Some (IZR (half_round n))) ltac:(lia) A1 A2) as (y & law & E1 & LC & LL & EL & _ & _ & M & _ & _ & PH); [cbn [centre_of]; rewrite trunc_IZR; lia|].
  assert (y = c /\ law = l) as [-> ->] by (rewrite ED in EC; split; congruence).
  destruct (c51_default ang x) as (fs & EF & LF). destruct (c51_default ang c) as (gs & EG & LG). rewrite L in *. rewrite LC in *.
  exists x, c, l, fs, gs. split; [exact E|]. split; [exact EC|]. split; [exact EF|]. split; [exact EG|].
  assert (HP := PI_RGT_0). assert (IN : forall k, 0 <= k < n - 2 -> (0 < rnth l (k + 1) < 1 / 2)%R).
  { intros k Hk. rewrite EL by lia. assert (P : (0 < IZR (k + 1) < IZR (n - 1))%R) by (split; apply IZR_lt; lia). set (a := IZR (k + 1)) in *. set (b := IZR (n - 1)) in *.
    assert (Q : (0 < a / b < 1)%R). { split; [apply Rdiv_lt_0_compat; lra|]. apply (Rmult_lt_reg_r b); [lra|]. unfold Rdiv. rewrite Rmult_assoc, Rinv_l by lra. lra. }
    replace (f1 + (f2 - f1) * a / b)%R with (f1 + (f2 - f1) * (a / b))%R by (unfold Rdiv; ring). set (q := (a / b)%R) in *. destruct (Rlt_dec f1 f2); [split; nra|assert (f2 < f1)%R by lra; split; nra]. }
  assert (EQ : forall f v, (0 <= f <= 1 / 2)%R -> (0 < v < 1 / 2)%R -> cis (4 * PI * v) = cis (4 * PI * f) -> f = v).
  { intros f v Hf Hv EC'. assert (U : cis (4 * PI * v - 4 * PI * f) = RtoC 1) by (unfold Rminus; rewrite cis_plus, cis_opp, EC'; apply cis_conj_mul).
    apply cis_1_inv in U. destruct U as (k & U). assert (D : (2 * (v - f) = IZR k)%R) by (apply Rmult_eq_reg_l with (2 * PI)%R; lra).
    assert (K : (IZR k < 1 /\ -1 < IZR k)%R) by lra. destruct K as [K1 K2]. apply lt_IZR in K1, K2. assert (k = 0) by lia. subst k. lra. }
  assert (RG : forall z hs, inst_freq ang z None = Ok (hs, arange 2 n) -> zlen hs = Z.max 0 (n - 2) -> forall k, 0 <= k < n - 2 -> (0 <= rnth hs k <= 1 / 2)%R).
  { intros z hs HH LH k Hk. apply (c51_range ang z None hs (arange 2 n) HA HH). unfold rnth. apply nth_In. unfold zlen in LH. lia. }
  intros k Hk. specialize (PH k Hk). assert (M2 := M (k + 2) ltac:(lia)). assert (M0 := M k ltac:(lia)).
  assert (CC : (cnth c (k + 2) * Cconj (cnth c k) = cis (4 * PI * rnth l (k + 1)))%C).
  { rewrite PH. transitivity (cis (4 * PI * rnth l (k + 1)) * (cnth c k * Cconj (cnth c k)))%C; [ring|]. rewrite <- Cmod2_conj, M0. replace (1 ^ 2)%R with 1%R by ring. ring. }
  split.
  - apply EQ; [apply (RG x fs EF LF k Hk)|apply IN; auto|].
    assert (P := inst_phase ang x fs (arange 2 n) k HA EF ltac:(lia)). destruct (V k ltac:(lia)) as [G0 X0]. destruct (V (k + 2) ltac:(lia)) as [G2 X2].
    rewrite X0, X2 in P. rewrite Cconj_mult, Cconj_R in P. rewrite !Cmod_mult, !Cmod_R, M2, M0, !Rabs_right in P by lra.
    assert (P' : (RtoC (g (k + 2)%Z * g k) * (cnth c (k + 2) * Cconj (cnth c k)) = RtoC (g (k + 2)%Z * g k) * cis (4 * PI * rnth fs k))%C).
    { transitivity (cnth c (k + 2) * RtoC (g (k + 2)%Z) * (Cconj (cnth c k) * RtoC (g k)))%C; [rewrite RtoC_mult; ring|]. rewrite P. f_equal. f_equal. ring. }
    rewrite CC in P'. assert (GG : (0 < g (k + 2)%Z * g k)%R) by now apply Rmult_lt_0_compat.
    apply (f_equal (fun z => / RtoC (g (k + 2)%Z * g k) * z)%C) in P'. rewrite !Cmult_assoc, Cinv_l, !Cmult_1_l in P'; auto. intros Z. apply RtoC_inj in Z. lra.
  - apply EQ; [apply (RG c gs EG LG k Hk)|apply IN; auto|].
    assert (P := inst_phase ang c gs (arange 2 n) k HA EG ltac:(lia)). rewrite M2, M0, CC in P. rewrite P. replace (1 * 1)%R with 1%R by ring. ring.
Qed.
