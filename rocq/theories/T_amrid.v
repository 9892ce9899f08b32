(** C152: the Wigner-Ville distribution of a chirp with varying amplitude. *)
From Coq Require Import Reals ZArith List Lia Lra Bool.
From Coquelicot Require Import Coquelicot.
From Flocq Require Import Core.
From Verif Require Import Py Scalars CSum DFT Spec M_base M_stft M_cohen M_dom M_gen1 M_gallery P_base P_stft P_wvd T_dom T_gen1 T_wvd Dirichlet T_gallery T_chirp.
Import ListNotations.
Local Open Scope Z_scope.

(** x is y with the amplitude A(k) at sample k. *)
Definition with_amplitude (x y : list C) (A : Z -> R) : Prop := zlen x = zlen y /\ forall k, 0 <= k < zlen y -> cnth x k = (cnth y k * RtoC (A k))%C.

Lemma even_cis_sum m (B : Z -> R) d : 0 <= m -> (forall u, B (- u) = B u) ->
  csum (arange (- m) (m + 1)) (fun u => RtoC (B u) * cis (2 * PI * (IZR u * d)))%C = RtoC (rsum (arange (- m) (m + 1)) (fun u => B u * cos (2 * PI * (IZR u * d)))%R).
Proof.
  intros Hm HB. set (S := csum _ _). apply injective_projections.
  - change (Re S = rsum (arange (- m) (m + 1)) (fun u => B u * cos (2 * PI * (IZR u * d)))%R). unfold S. rewrite Re_csum. apply rsum_ext. intros u _. unfold Re, Cmult, RtoC, cis. cbn [fst snd]. ring.
  - assert (Q : Cconj S = S). { unfold S. rewrite csum_conj, csum_arange_sym. apply csum_ext. intros u _. rewrite HB, Cconj_mult, Cconj_R, <- cis_opp. do 2 f_equal. rewrite opp_IZR. ring. }
    apply (f_equal Im) in Q. cbn [Im Cconj snd] in *. change (snd (RtoC _)) with 0%R. unfold Im in *. lra.
Qed.
Lemma cos_one d : cos (2 * PI * d) = 1%R -> exists q, d = IZR q.
Proof.
  intros H. replace (2 * PI * d)%R with (2 * (PI * d))%R in H by ring. rewrite cos_2a_sin in H. assert (S0 : sin (PI * d) = 0%R) by nra. destruct (sin_eq_0_0 _ S0) as [q E]. exists q. assert (P := PI_RGT_0). nra.
Qed.

(** Entry (f, t): the cosines of C100, each weighted by the amplitudes at the two samples it comes from. *)
Lemma c152_entry : forall n fi ff t0 y law x A o f t, fmlin n fi ff t0 = Ok (y, law) -> with_amplitude x y A -> wvd x None None = Ok o -> 0 <= f < n -> 0 <= t < n ->
  let m := Z.min t (n - 1 - t) in let d := (2 * rnth law t - IZR f / IZR n)%R in
  at2 (r_tfr o) f t = RtoC (rsum (arange (- m) (m + 1)) (fun u => A (t + u)%Z * A (t - u)%Z * cos (2 * PI * (IZR u * d)))%R).
Proof.
  intros n fi ff t0 y law x A o f t HF [LX VX] HW Hf Ht m d. destruct (fmlin_sym _ _ _ _ _ _ HF) as (L & _ & _ & _ & SY). destruct (fmlin_inv _ _ _ _ _ _ HF) as (Hn & _). rewrite L in LX, VX.
  change (wvd x None None) with (wvd x (Some (TsI (arange 0 (zlen x)))) (Some (zlen x))) in HW. rewrite LX in HW. rewrite (wvd_entry x _ n o f t ltac:(lia) HW Hf ltac:(lia)). unfold WV. rewrite LX.
  assert (M0 : 0 <= m) by (unfold m; lia). rewrite <- (even_cis_sum m (fun u => A (t + u)%Z * A (t - u)%Z)%R d) by (auto; intros u; replace (t + - u) with (t - u) by lia; replace (t - - u) with (t + u) by lia; ring).
  rewrite (csum_incl (arange (- m) (m + 1))); [|apply NoDup_arange|apply NoDup_arange| |].
  - apply csum_ext. intros u Hu. apply in_arange in Hu. unfold m in *. rewrite !sigf_in, !VX by lia. rewrite Cconj_mult, Cconj_R.
    replace (cis (2 * PI * (IZR u * d))) with ((cnth y (t + u) * Cconj (cnth y (t - u))) * root n (- (f * u)))%C; [rewrite RtoC_mult; ring|].
    rewrite SY by lia. unfold root. rewrite <- cis_plus. f_equal. unfold d. rewrite opp_IZR, mult_IZR. field. apply not_0_IZR. lia.
  - intros u Hu. apply in_arange in Hu. apply in_arange. unfold m in *. lia.
  - intros u Hu NU. rewrite in_arange in NU. unfold m in NU. apply in_arange in Hu. destruct (Z_lt_dec (t + u) 0) as [|A1]; [rewrite (sigf_out x (t + u)) by lia; ring|]. destruct (Z_le_dec n (t + u)) as [|A2]; [rewrite (sigf_out x (t + u)) by lia; ring|].
    rewrite (sigf_out x (t - u)) by lia. rewrite Cconj_R. ring.
Qed.
(** The largest value an entry of column t can take, and where it is taken: on the frequency law, whatever the amplitude. *)
Lemma c152_peak : forall n fi ff t0 y law x A o f t, fmlin n fi ff t0 = Ok (y, law) -> with_amplitude x y A -> wvd x None None = Ok o -> 0 <= f < n -> 0 <= t < n ->
  (forall k, 0 <= k < n -> (0 <= A k)%R) ->
  let m := Z.min t (n - 1 - t) in let top := rsum (arange (- m) (m + 1)) (fun u => A (t + u)%Z * A (t - u)%Z)%R in
  (Cmod (at2 (r_tfr o) f t) <= top)%R /\
  ((exists q, (2 * rnth law t = IZR f / IZR n + IZR q)%R) -> at2 (r_tfr o) f t = RtoC top) /\
  (1 <= t <= n - 2 -> (0 < A (t - 1)%Z)%R -> (0 < A (t + 1)%Z)%R -> at2 (r_tfr o) f t = RtoC top -> exists q, (2 * rnth law t = IZR f / IZR n + IZR q)%R).
Proof.
  intros n fi ff t0 y law x A o f t HF HA HW Hf Ht PA m top. assert (E := c152_entry n fi ff t0 y law x A o f t HF HA HW Hf Ht). cbv zeta in E. fold m in E. set (d := (2 * rnth law t - IZR f / IZR n)%R) in *. rewrite E. clear E.
  assert (PB : forall u, In u (arange (- m) (m + 1)) -> (0 <= A (t + u)%Z * A (t - u)%Z)%R). { intros u Hu. apply in_arange in Hu. unfold m in Hu. apply Rmult_le_pos; apply PA; lia. }
  split; [|split].
  - rewrite Cmod_R. apply Rabs_le. unfold top. split.
    + rewrite <- rsum_opp. apply rsum_le. intros u Hu. specialize (PB u Hu). assert (Q := COS_bound (2 * PI * (IZR u * d))). set (b := (A (t + u)%Z * A (t - u)%Z)%R) in *. nra.
    + apply rsum_le. intros u Hu. specialize (PB u Hu). assert (Q := COS_bound (2 * PI * (IZR u * d))). set (b := (A (t + u)%Z * A (t - u)%Z)%R) in *. nra.
  - intros [q EQ]. apply (f_equal RtoC). apply rsum_ext. intros u _. replace d with (IZR q) by (unfold d; lra). rewrite <- mult_IZR. replace (cos (2 * PI * IZR (u * q))) with 1%R; [ring|].
    assert (Q := cis_2PI_k (u * q)). apply (f_equal fst) in Q. cbn [cis fst RtoC] in Q. symmetry. exact Q.
  - intros T1 A1 A2 EQ. apply RtoC_inj in EQ. unfold top in EQ.
    set (F := fun u => (A (t + u)%Z * A (t - u)%Z - A (t + u)%Z * A (t - u)%Z * cos (2 * PI * (IZR u * d)))%R).
    assert (Z0 : rsum (arange (- m) (m + 1)) F = 0%R) by (unfold F; rewrite rsum_minus; lra).
    assert (PF : forall u, In u (arange (- m) (m + 1)) -> (0 <= F u)%R). { intros u Hu. specialize (PB u Hu). assert (Q := COS_bound (2 * PI * (IZR u * d))). unfold F. set (b := (A (t + u)%Z * A (t - u)%Z)%R) in *. nra. }
    assert (Q := rsum_nonneg_0 _ F PF Z0 1 ltac:(apply in_arange; unfold m; lia)). unfold F in Q.
    cbv beta in Q. rewrite Rmult_1_l in Q. assert (P := Rmult_lt_0_compat _ _ A2 A1). set (b := (A (t + 1)%Z * A (t - 1)%Z)%R) in *. destruct (cos_one d) as [q ED]; [nra|]. exists q. unfold d in ED. lra.
Qed.
(** A Gaussian amplitude separates: the square of the amplitude at t times a factor that depends on the distance from the law only. *)
Lemma c152_gauss : forall n fi ff t0 y law x c s o f t, fmlin n fi ff t0 = Ok (y, law) -> s <> 0%R -> with_amplitude x y (fun k => exp (- PI * ((IZR k - c) / s) ^ 2)) -> wvd x None None = Ok o -> 0 <= f < n -> 0 <= t < n ->
  let m := Z.min t (n - 1 - t) in let d := (2 * rnth law t - IZR f / IZR n)%R in
  at2 (r_tfr o) f t = RtoC (exp (- PI * ((IZR t - c) / s) ^ 2) ^ 2 * rsum (arange (- m) (m + 1)) (fun u => exp (- 2 * PI * (IZR u / s) ^ 2) * cos (2 * PI * (IZR u * d))))%R.
Proof.
  intros n fi ff t0 y law x c s o f t HF Hs HA HW Hf Ht m d. rewrite (c152_entry n fi ff t0 y law x _ o f t HF HA HW Hf Ht). apply (f_equal RtoC). fold m d. rewrite <- rsum_scal_l. apply rsum_ext. intros u _. set (cc := cos _). rewrite <- (Rmult_assoc _ _ cc). f_equal.
  replace (exp (- PI * ((IZR t - c) / s) ^ 2) ^ 2)%R with (exp (- PI * ((IZR t - c) / s) ^ 2) * exp (- PI * ((IZR t - c) / s) ^ 2))%R by ring. rewrite <- !exp_plus. f_equal. rewrite plus_IZR, minus_IZR. field. exact Hs.
Qed.
(** The signals of the programs: fmlin(n, f1, f2)[0] * amgauss(n, t, s) is one such, it meets its peak amplitude 1 at most at
    one sample, and with the default centre and spread that sample is round(n/2) - 1 and the value there is 1. *)
Lemma c152_programs : forall n f1 f2 c s, 2 <= n -> (Rabs f1 <= 1 / 2)%R -> (Rabs f2 <= 1 / 2)%R -> (forall v, s = Some v -> (0 < v)%R) ->
  exists x y law, gauss_chirp n f1 f2 c s = Ok (Some x) /\ fmlin n f1 f2 None = Ok (y, law) /\
  let c' := match c with Some c => c | None => IZR (half_round n) end in let s' := match s with Some s => s | None => (2 * sqrt (IZR n))%R end in
  with_amplitude x y (fun k => exp (- PI * ((IZR k - (c' - 1)) / s') ^ 2)) /\
  (forall k, 0 <= k < n -> (Cmod (cnth x k) <= 1)%R /\ (Cmod (cnth x k) = 1%R <-> IZR k = (c' - 1)%R)) /\
  (c = None -> cnth x (half_round n - 1) = RtoC 1).
Proof.
  intros n f1 f2 c s Hn H1 H2 HS. set (c' := match c with Some c => c | None => IZR (half_round n) end). set (s' := match s with Some s => s | None => (2 * sqrt (IZR n))%R end).
  assert (S0 : (0 < s')%R). { unfold s'. destruct s as [v|]; [apply HS; reflexivity|]. assert (0 < sqrt (IZR n))%R by (apply sqrt_lt_R0; apply IZR_lt; lia). lra. }
  destruct (c55_default n f1 f2 Hn) as [HR EF].
  destruct (c55_chirp n f1 f2 (Some (IZR (half_round n))) Hn H1 H2) as (y & law & EY & LY & _ & _ & _ & _ & MY & OY & _); [cbn [centre_of]; rewrite trunc_IZR; lia|]. cbn [centre_of] in OY. rewrite trunc_IZR, Z.mod_small in OY by lia. rewrite <- EF in EY.
  destruct (c53_amgauss n c' s' ltac:(lia) S0) as (a & EA & LA & _ & VA).
  assert (EA' : amgauss n c s = Ok (map Some a)).
  { rewrite <- EA. unfold amgauss, am_args, c', s'. destruct c as [c|], s as [v|]; try reflexivity; replace (n <? 0) with false by (symmetry; apply Z.ltb_ge; lia); reflexivity. }
  exists (map (fun k => cnth y k * RtoC (rnth a k))%C (arange 0 n)), y, law. split; [unfold gauss_chirp; rewrite EY; cbn [bind]; rewrite EA'; cbn [bind]; rewrite modulated_ok by lia; rewrite LY; reflexivity|]. split; [exact EY|]. cbv zeta. fold c' s'.
  assert (VX : forall k, 0 <= k < n -> cnth (map (fun k => cnth y k * RtoC (rnth a k))%C (arange 0 n)) k = (cnth y k * RtoC (exp (- PI * ((IZR k - (c' - 1)) / s') ^ 2)))%C).
  { intros k Hk. rewrite cnth_map_arange by lia. rewrite Z.add_0_l, VA by lia. reflexivity. }
  split; [split; [rewrite zlen_map_arange; lia|rewrite LY; exact VX]|]. split.
  - intros k Hk. rewrite VX by auto. rewrite Cmod_mult, MY, Rmult_1_l, Cmod_R, Rabs_pos_eq by (auto; left; apply exp_pos). assert (P := PI_RGT_0). assert (Q := pow2_ge_0 ((IZR k - (c' - 1)) / s')). set (w := ((IZR k - (c' - 1)) / s')%R) in *. split.
    + rewrite <- exp_0. destruct (Req_dec (w ^ 2) 0) as [Z0|Z0]; [rewrite Z0, Rmult_0_r; lra|]. left. apply exp_increasing. nra.
    + split; intros E.
      * rewrite <- exp_0 in E. apply exp_inv in E. assert (W0 : w = 0%R). { destruct (Rmult_integral _ _ E) as [E0|E0]; [lra|]. apply Rsqr_0_uniq. unfold Rsqr. lra. } unfold w in W0. unfold Rdiv in W0. destruct (Rmult_integral _ _ W0) as [W1|W1]; [apply Rminus_diag_uniq; exact W1|]. exfalso. apply (Rinv_neq_0_compat s'); [apply Rgt_not_eq; lra|exact W1].
      * replace w with 0%R by (unfold w; rewrite E; field; lra). replace (- PI * 0 ^ 2)%R with 0%R by ring. apply exp_0.
  - intros ->. rewrite VX by lia. rewrite OY, Cmult_1_l. unfold c'. rewrite minus_IZR. replace ((IZR (half_round n) - 1 - (IZR (half_round n) - 1)) / s')%R with 0%R by (field; lra). replace (- PI * 0 ^ 2)%R with 0%R by ring. rewrite exp_0. reflexivity.
Qed.
(** Four samples from frequency 0 to 3/8 with the amplitudes 1, 2, 3, 1: the frequency at sample 1 is 1/8, that of row 1, and the
    entry there is 2*2 + 1*3 + 3*1 = 10. *)
Example c152_example : exists y law x o, fmlin 4 0 (3 / 8) None = Ok (y, law) /\ with_amplitude x y (rnth [1; 2; 3; 1]%R) /\ wvd x None None = Ok o /\ rnth law 1 = (1 / 8)%R /\ at2 (r_tfr o) 1 1 = RtoC 10 /\ (Cmod (at2 (r_tfr o) 2 1) <= 10)%R.
Proof.
  destruct (c55_default 4 0 (3 / 8) ltac:(lia)) as [B _]. destruct (c55_chirp 4 0 (3 / 8) None) as (y & law & HF & L & _ & EL & _); [lia|rewrite Rabs_R0; lra|rewrite Rabs_pos_eq; lra|cbn [centre_of]; rewrite trunc_IZR; lia|].
  set (A := rnth [1; 2; 3; 1]%R). set (x := map (fun k => cnth y k * RtoC (A k))%C (arange 0 4)). assert (LX : zlen x = 4) by reflexivity.
  assert (HA : with_amplitude x y A). { split; [rewrite L; reflexivity|]. intros k Hk. rewrite L in Hk. unfold x. rewrite cnth_map_arange by lia. rewrite Z.add_0_l. reflexivity. }
  destruct (c21_wvd_default x) as [_ W]; [intros Q; rewrite Q in LX; discriminate LX|]. destruct W as [o HW]; [rewrite LX; intros [Q _]; vm_compute in Q; discriminate|].
  assert (E1 : rnth law 1 = (1 / 8)%R) by (rewrite EL by lia; cbn; field).
  assert (PA : forall k, 0 <= k < 4 -> (0 <= A k)%R). { intros k Hk. assert (k = 0 \/ k = 1 \/ k = 2 \/ k = 3) as [-> | [-> | [-> | ->]]] by lia; [change (A 0) with 1%R|change (A 1) with 2%R|change (A 2) with 3%R|change (A 3) with 1%R]; lra. }
  assert (T : rsum (arange (- Z.min 1 (4 - 1 - 1)) (Z.min 1 (4 - 1 - 1) + 1)) (fun u => A (1 + u)%Z * A (1 - u)%Z)%R = 10%R).
  { change (arange (- Z.min 1 (4 - 1 - 1)) (Z.min 1 (4 - 1 - 1) + 1)) with [-1; 0; 1]. rewrite !rsum_cons. change (A (1 + -1)) with 1%R. change (A (1 - -1)) with 3%R. change (A (1 + 0)) with 2%R. change (A (1 - 0)) with 2%R. change (A (1 + 1)) with 3%R. change (A (1 - 1)) with 1%R. change (rsum [] _) with 0%R. ring. }
  destruct (c152_peak 4 0 (3 / 8) None y law x A o 1 1 HF HA HW ltac:(lia) ltac:(lia) PA) as (_ & P & _). destruct (c152_peak 4 0 (3 / 8) None y law x A o 2 1 HF HA HW ltac:(lia) ltac:(lia) PA) as (Q & _). rewrite T in P, Q.
  exists y, law, x, o. split; [exact HF|]. split; [exact HA|]. split; [exact HW|]. split; [exact E1|]. split; [|exact Q]. apply P. exists 0. rewrite E1. field.
Qed.
