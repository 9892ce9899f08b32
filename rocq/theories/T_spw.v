(** C91: the affine smoothed pseudo Wigner distribution. *)
From Coq Require Import Reals ZArith List Lia Lra Bool.
From Coquelicot Require Import Coquelicot.
From Flocq Require Import Core.
From Verif Require Import Py Scalars CSum DFT Spec M_base P_base M_utils M_putils M_post M_gen1 M_gen2 M_gen3 M_aff M_spw T_utils T_misc2 T_wb T_putils T_gen1 T_hil T_aff T_aff2 T_aff3.
Import ListNotations.
Local Open Scope Z_scope.

(** ** Without an explicit band nothing is returned *)
Lemma c91_band : forall x ts K nh0 ng0 fmin fmax nv, fmin = None \/ fmax = None ->
  spw x ts K nh0 ng0 fmin fmax nv = Raise ValueError \/ spw x ts K nh0 ng0 fmin fmax nv = Raise TypeError.
Proof.
  intros x ts K nh0 ng0 fmin fmax nv H. unfold spw. cbv zeta. set (t := match ts with Some t => t | None => arange 0 (zlen x) end).
  assert (E : (match fmin, fmax with Some a, Some b => Ok (a, b) | _, _ => spw_band x t end) = spw_band x t) by (destruct H as [-> | ->]; [reflexivity|destruct fmin; reflexivity]). rewrite E.
  unfold spw_band. destruct t as [|t0 t]; [left; reflexivity|]. cbn [zmin_list zmax_list bind]. cbv zeta. destruct (_ =? 0); [left; reflexivity|]. destruct (half_power _); [left; reflexivity|]. right. reflexivity.
Qed.
(** In particular the plain call. *)
Lemma c91_default_refuted : forall x K nh0 ng0 fmin fmax nv, 2 <= zlen x -> fmin = None \/ fmax = None -> spw x None K nh0 ng0 fmin fmax nv = Raise TypeError.
Proof.
  intros x K nh0 ng0 fmin fmax nv HN H. unfold spw. cbv zeta. set (t := arange 0 (zlen x)).
  assert (E : (match fmin, fmax with Some a, Some b => Ok (a, b) | _, _ => spw_band x t end) = spw_band x t) by (destruct H as [-> | ->]; [reflexivity|destruct fmin; reflexivity]). rewrite E.
  unfold spw_band. assert (Z0 : zmin_list t = Ok 0). { unfold t. rewrite arange_cons by lia. cbn [zmin_list]. f_equal. assert (G : forall l, (forall a, In a l -> 0 <= a) -> fold_left Z.min l 0 = 0) by (induction l as [|a l IH]; intros Q; cbn; [reflexivity|rewrite Z.min_l by (apply Q; now left); apply IH; intros; apply Q; now right]). apply G. intros a Ha. apply in_arange in Ha. lia. }
  assert (Z1 : zmax_list t = Ok (zlen x - 1)). { unfold t. replace (zlen x) with (zlen x - 1 + 1) at 1 by lia. rewrite arange_snoc by lia. rewrite arange_cons by lia. cbn [app zmax_list]. rewrite fold_left_app. cbn [fold_left]. f_equal. apply Z.max_r.
    assert (G : forall l a b, a <= b -> (forall c, In c l -> c <= b) -> fold_left Z.max l a <= b) by (induction l as [|c l IH]; intros a b Q S; cbn; [exact Q|apply IH; [apply Z.max_lub; [exact Q|apply S; now left]|intros; apply S; now right]]). apply G; [lia|]. intros c Hc. apply in_arange in Hc. lia. }
  rewrite Z0, Z1. cbn [bind]. replace (zlen x - 1 + 1) with (zlen x) by ring. assert (S : pyslice (map Re x) 0 (zlen x) = map Re x). { unfold pyslice, pyclip. rewrite zlen_map. destruct (Z.ltb_spec 0 0); [lia|]. destruct (Z.ltb_spec (zlen x) 0); [lia|]. rewrite !Z.min_l by lia. unfold slice. rewrite Z.sub_0_r. cbn [Z.to_nat skipn]. apply firstn_all2. rewrite map_length. unfold zlen. lia. }
  rewrite S, zlen_map. destruct (Z.eqb_spec (zlen x) 0); [lia|]. assert (L : zlen (half_power (map Re x)) = half_round (zlen x)).
  { unfold half_power. rewrite zlen_map. unfold prefix. assert (B := half_round_spec (zlen x)). cbv zeta in B. unfold zlen at 1. rewrite firstn_length, map_length. assert (F := fft_zlen (fftshift (map RtoC (map Re x)))). rewrite fftshift_len, !zlen_map in F. unfold zlen at 1 in F. lia. }
  assert (B := half_round_spec (zlen x)). cbv zeta in B. assert (1 <= half_round (zlen x)). { destruct B as [B|[B1 B2]]; [lia|]. lia. } destruct (half_power (map Re x)); [unfold zlen at 1 in L; cbn in L; lia|]. reflexivity.
Qed.

(** ** Every column of a result is the frequency axis times a number *)
Lemma bind_ok {A B} (a : res A) (f : A -> res B) b : bind a f = Ok b -> exists v, a = Ok v /\ f v = Ok b.
Proof. destruct a; cbn; [eauto|discriminate]. Qed.
Lemma rows_at (E : Z -> R) (n : Z) (geo : list R) v i : 0 <= v < zlen geo -> 0 <= i < n ->
  ent (spw_rows E n geo) v i = (E i * rnth geo v)%R.
Proof.
  intros Hv Hi. unfold ent, spw_rows. set (F := fun f => map (fun i => (E i * f)%R) (arange 0 n)). rewrite (nth_indep _ _ (F 0%R)) by (rewrite map_length; unfold zlen in Hv; lia). rewrite map_nth. unfold F. rewrite rnth_map_arange by lia. rewrite Z.add_0_l. reflexivity.
Qed.
Lemma c91_separable : forall x ts K nh0 ng0 fmin fmax nv m t f, spw x ts K nh0 ng0 fmin fmax nv = Ok (Some m, t, f) ->
  zlen m = zlen f /\ (forall r, In r m -> zlen r = zlen t) /\
  forall v w i, 0 <= v < zlen f -> 0 <= w < zlen f -> 0 <= i < zlen t -> (ent m v i * rnth f w = ent m w i * rnth f v)%R.
Proof.
  intros x ts K nh0 ng0 fmin fmax nv m t f H. unfold spw in H. cbv zeta in H. apply bind_ok in H. destruct H as ([a b] & _ & H). apply bind_ok in H. destruct H as (v & _ & H). destruct (v =? 1); [discriminate|]. apply bind_ok in H. destruct H as ([[[? ?] ?] wt] & _ & H). cbn [snd] in H. destruct (_ && _); [discriminate|].
  destruct (spw_mu _ _ _) as [mu|]; [|discriminate]. destruct (negb (mu =? v)); [discriminate|]. destruct (spw_l _ _ _ _ _ _ _); [|discriminate]. apply bind_ok in H. destruct H as (mm & Hm & H). injection H as -> <- <-. unfold spw_normal in Hm. apply bind_ok in Hm. destruct Hm as (z & _ & Hm). cbv zeta in Hm. apply bind_ok in Hm. destruct Hm as (J & _ & Hm). destruct (Req_EM_T J 0); [discriminate|]. injection Hm as <-.
  match goal with |- context [spw_rows ?e ?n ?g] => set (E := e); set (tt := n); set (geo := g) end. set (xx := scal_mult z (zlen x) a b). set (rows := spw_rows E tt geo).
  assert (LR : forall r, In r rows -> zlen r = tt) by (intros r Hr; unfold rows, spw_rows in Hr; apply in_map_iff in Hr; destruct Hr as (g & <- & _); rewrite zlen_map_arange; [lia|unfold tt; assert (P := zlen_nonneg (match ts with Some t => t | None => arange 0 (zlen x) end)); lia]).
  assert (Lm : zlen rows = zlen geo) by (unfold rows, spw_rows; apply zlen_map). split; [rewrite zlen_map; exact Lm|]. split; [intros r Hr; apply in_map_iff in Hr; destruct Hr as (r' & <- & Hr); rewrite zlen_map; auto|].
  intros i w k Hi Hw Hk. rewrite !(ent_map (fun v0 => (v0 * xx / J / IZR v)%R) rows _ k tt) by (auto; lia). unfold rows. rewrite !rows_at by auto. unfold Rdiv. ring.
Qed.
(** A window length that is not a Python integer (the default sqrt(N) is not):
    nothing is returned. *)
Lemma c91_float_refuted : forall x ts K nh0 ng0 fmin fmax nv r, (nh0 = None \/ exists h, nh0 = Some (Flt h)) -> spw x ts K nh0 ng0 fmin fmax nv <> Ok r.
Proof.
  intros x ts K nh0 ng0 fmin fmax nv r Hh H. unfold spw in H. cbv zeta in H. apply bind_ok in H. destruct H as ([a b] & _ & H). apply bind_ok in H. destruct H as (v & _ & H). destruct (v =? 1); [discriminate|]. apply bind_ok in H. destruct H as (w & _ & H). destruct (_ && _); [discriminate|].
  assert (X : exists h, match nh0 with Some h => h | None => Flt (sqrt (IZR (zlen x))) end = Flt h) by (destruct Hh as [-> |[h ->]]; eauto). destruct X as [h X]. rewrite X in H. unfold spw_mu in H. destruct (Rlt_dec _ _); discriminate.
Qed.

(** ** The outcome with an explicit band and number of voices *)
Definition spw_refuses (N nts v : Z) (h : num) (fmin fmax : R) : option exn :=
  if v <? N then Some ValueError
  else if N <? v then Some IndexError
  else if negb (nts =? N) then Some ValueError
  else match h with
       | Flt _ => Some TypeError
       | Int z => if Rlt_dec (2 * fmax * ln (fmax / fmin)) 1 then Some TypeError else if z =? N then None else Some ValueError
       end.
Lemma mu_eq h fmin fmax : (0 < fmin < fmax)%R -> (0 < num_val h)%R ->
  (forall z, spw_mu h fmax (ln (fmax / fmin)) = Int z <-> h = Int z /\ ~ (2 * fmax * ln (fmax / fmin) < 1)%R).
Proof.
  intros Hf Hh z. assert (R1 := ratio_gt1 _ _ Hf). assert (U : (0 < ln (fmax / fmin))%R) by (rewrite <- ln_1; apply ln_increasing; lra). set (u := ln (fmax / fmin)) in *. assert (P : (0 < fmax * u)%R) by (apply Rmult_lt_0_compat; lra).
  assert (EQ : (2 * num_val h < num_val h / (fmax * u) <-> 2 * fmax * u < 1)%R). { replace (2 * fmax * u)%R with (2 * (fmax * u))%R by ring. set (w := (fmax * u)%R) in *. set (g := num_val h) in *. split; intros Q.
    - apply (Rmult_lt_compat_r w) in Q; [|exact P]. replace (g / w * w)%R with g in Q by (field; lra). nra.
    - apply (Rmult_lt_reg_r w); [exact P|]. replace (g / w * w)%R with g by (field; lra). nra. }
  unfold spw_mu. fold u. destruct (Rlt_dec (2 * num_val h) (num_val h / (fmax * u))) as [Q|Q].
  - split; [discriminate|]. intros [_ W]. exfalso. apply W, EQ, Q.
  - split; intros W; [|destruct W as [-> _]; reflexivity]. split; [|intros V; apply Q, EQ, V]. destruct h; [now injection W as ->|discriminate].
Qed.
Lemma spw_l_zero q umax nv mu p : spw_l LBert q umax nv mu mu p = Some (cis (- (2 * PI * aff_beta q nv p * ln 1))).
Proof. unfold spw_l, spw_u. rewrite Z.eqb_refl. replace (- 0)%R with 0%R by ring. cbn [lambdak]. destruct (Req_EM_T 0 0); [reflexivity|easy]. Qed.
Lemma spw_l_nan K q umax nv mu p : K <> LBert -> spw_l K q umax nv mu mu p = None.
Proof. intros HK. unfold spw_l, spw_u. rewrite Z.eqb_refl. replace (- 0)%R with 0%R by ring. now rewrite (proj2 c81_zero_refuted K HK). Qed.
Lemma rows_len E n geo r : 0 <= n -> In r (spw_rows E n geo) -> zlen r = n.
Proof. intros Hn Hr. unfold spw_rows in Hr. apply in_map_iff in Hr. destruct Hr as (g & <- & _). rewrite zlen_map_arange; lia. Qed.
Lemma c91_outcome : forall x ts K h ng0 fmin fmax v, 2 <= zlen x -> (0 < fmin < fmax)%R -> (1 / 2 < num_val h)%R -> 2 <= v -> (v = 2 -> zlen x <> 3) ->
  let t := match ts with Some t => t | None => arange 0 (zlen x) end in
  match spw_refuses (zlen x) (zlen t) v h fmin fmax with
  | Some e => spw x ts K (Some h) ng0 (Some fmin) (Some fmax) (Some v) = Raise e
  | None => exists m, spw x ts K (Some h) ng0 (Some fmin) (Some fmax) (Some v) = Ok (m, t, geo_grid fmin fmax v) /\ (K <> LBert -> m = None)
  end.
Proof.
  intros x ts K h ng0 fmin fmax v HN Hf Hh Hv H23 t. unfold spw_refuses, spw. cbv zeta. fold t. cbn [bind spw_voices]. destruct (Z.eqb_spec v 1); [lia|]. set (y := map (fun v => RtoC (Re v)) x). assert (Ly : zlen y = zlen x) by apply zlen_map. set (N := zlen x) in *.
  destruct (Z.ltb_spec v N) as [L|L].
  { rewrite c82_voices_refuted; [|lia|lra|left; lra|lia|lia|intros E; rewrite Ly; auto]. rewrite Ly. destruct (Z.ltb_spec v N); [reflexivity|lia]. }
  destruct (Z.ltb_spec N v) as [L2|L2].
  { rewrite c82_voices_refuted; [|lia|lra|left; lra|lia|lia|intros E; rewrite Ly; auto]. rewrite Ly. destruct (Z.ltb_spec v N); [lia|reflexivity]. }
  assert (v = N) by lia. subst v. destruct (c83_scalogram y (Some t) fmin fmax (num_val h) ltac:(lia) Hf ltac:(left; lra)) as (z & _ & tfr & Es & _).
  assert (Es' : scalogram y (Some t) (Some fmin) (Some fmax) (Some N) (Some (Wnum (num_val h))) = scalogram y (Some t) (Some fmin) (Some fmax) None (Some (Wnum (num_val h)))) by (unfold scalogram; now rewrite Ly).
  rewrite Es', Es. clear Es Es'. cbn [bind snd]. set (wt := map _ _). destruct (Z.eqb_spec N 1); [lia|]. cbn [negb andb]. destruct (Z.eqb_spec (zlen t) N) as [Lt|]; cbn [negb]; [|reflexivity]. assert (MU := mu_eq h fmin fmax Hf ltac:(lra)).
  destruct (spw_mu h fmax (ln (fmax / fmin))) as [mu|w] eqn:Emu.
  - destruct (proj1 (MU mu) eq_refl) as [-> Q]. destruct (Rlt_dec (2 * fmax * ln (fmax / fmin)) 1); [contradiction|]. destruct (Z.eqb_spec mu N) as [->|]; cbn [negb]; [|reflexivity]. destruct K.
    2-4: rewrite spw_l_nan by discriminate; eexists; split; [reflexivity|reflexivity].
    rewrite spw_l_zero. match goal with |- context [spw_rows ?e ?n ?g] => set (rows := spw_rows e n g) end. unfold spw_normal. assert (NE : map Re x <> []) by (destruct x; [unfold N, zlen in HN; cbn in HN; lia|discriminate]). destruct (hil_ok (map Re x) NE) as [zz ->]. cbn [bind]. cbv zeta.
    assert (LG : zlen (geo_grid fmin fmax N) = N) by (unfold geo_grid; rewrite zlen_map_arange; lia). assert (LR : zlen rows = N) by (unfold rows, spw_rows; rewrite zlen_map; exact LG).
    rewrite integrate_formula; [|lia|lia|intros r Hr; exact (rows_len _ (zlen t) _ r ltac:(lia) Hr)|rewrite zlen_map; lia|lia]. cbn [bind]. set (J := trapz _ _ _). destruct (Req_EM_T J 0); cbn [bind]; eexists; (split; [reflexivity|congruence]).
  - destruct h as [zz|rr]; [|reflexivity]. destruct (Rlt_dec (2 * fmax * ln (fmax / fmin)) 1) as [|Q]; [reflexivity|]. exfalso. destruct (MU zz) as [_ M2]. assert (X := M2 (conj eq_refl Q)). discriminate X.
Qed.

(** ** What is returned *)
(** The sum of waf for one column, without arrays: [W v] are the weighted
    wavelet coefficients of the column, [c] the common dilation factors,
    [beta] the Mellin axis. *)
Definition dlt (u : R) : R := if Req_EM_T u 0 then 1%R else (u / (exp u - 1))%R.
Definition spw_energy (N : Z) (q umax : R) (G : Z -> R) (W : Z -> C) : R :=
  rsum (arange 0 (2 * N)) (fun p =>
    let b := ((IZR p / IZR N - 1) / (2 * ln q))%R in
    let u m := (if m =? N then 0 else umax * (IZR m / IZR N - 1))%R in
    (G p * Cmod (csum (arange 0 N) (fun v => W v * root (2 * N) ((p + N) * v)) / RtoC (IZR (2 * N)))%C ^ 2
     * rsum (arange 0 N) (fun c => Cmod (csum (arange 0 (2 * N)) (fun m => cis (- (2 * PI * b * ln (dlt (u m)))) * root (2 * N) (- (c * m)))%C) ^ 2))%R).
Lemma energy_pos N q umax G W : (forall p, 0 <= G p)%R -> (0 <= spw_energy N q umax G W)%R.
Proof.
  intros HG. unfold spw_energy. apply rsum_nonneg. intros p _. cbv zeta. apply Rmult_le_pos; [apply Rmult_le_pos; [apply HG|apply pow2_ge_0]|]. apply rsum_nonneg. intros c _. apply pow2_ge_0.
Qed.
Lemma mel_at (g : Z -> C) N p : 1 <= N -> 0 <= p < 2 * N ->
  cnth (mellin (map g (arange 0 N) ++ zeros N)) p = (csum (arange 0 N) (fun v => g v * root (2 * N) ((p + N) * v)) / RtoC (IZR (2 * N)))%C.
Proof.
  intros HN HP. unfold mellin. set (v := map g (arange 0 N) ++ zeros N). assert (LZ : zlen v = 2 * N). { unfold v. rewrite zlen_app, zlen_map_arange by lia. unfold zeros, zlen. rewrite repeat_length. lia. }
  rewrite (list_as_map (ifft v)), ifft_zlen, LZ, fftshift_map by lia. rewrite cnth_map_arange by lia. rewrite Z.add_0_l.
  rewrite ifft_nth by (rewrite LZ; apply Z.mod_pos_bound; lia). rewrite LZ. unfold Cdiv. rewrite Cmult_comm. f_equal.
  rewrite (arange_app 0 N (2 * N)) by lia. rewrite csum_app. rewrite (csum_0 (arange N (2 * N))).
  2:{ intros k Hk. apply in_arange in Hk. unfold v, cnth. rewrite app_nth2 by (rewrite map_length, arange_length; lia). unfold zeros. rewrite nth_repeat. change nzero with (RtoC 0). ring. }
  rewrite Cplus_0_r. apply csum_ext. intros k Hk. apply in_arange in Hk. unfold v, cnth. rewrite app_nth1 by (rewrite map_length, arange_length; lia). rewrite nth_map_arange by lia. rewrite !Z.add_0_l. f_equal.
  rewrite root_mod_mul_r by lia. f_equal. ring.
Qed.
Lemma sum_energy q umax G (g : Z -> C) N : 1 <= N ->
  spw_sum (fun m p => match spw_l LBert q umax N N m p with Some v => v | None => RtoC 0 end) G (map g (arange 0 N) ++ zeros N) N N = spw_energy N q umax G g.
Proof.
  intros HN. unfold spw_sum, spw_energy. cbv zeta. apply rsum_ext. intros p Hp. apply in_arange in Hp. unfold spw_tx. rewrite nth_map_arange by lia. rewrite Z.add_0_l. rewrite mel_at by lia. set (M := (csum (arange 0 N) _ / _)%C). set (b := ((IZR p / IZR N - 1) / (2 * ln q))%R).
  set (L := fun m => cis (- (2 * PI * b * ln (dlt (if m =? N then 0 else umax * (IZR m / IZR N - 1)))))). assert (NZ : IZR N <> 0%R) by (apply not_0_IZR; lia).
  assert (EL : map (fun m => (match spw_l LBert q umax N N m p with Some v => v | None => RtoC 0 end * M)%C) (arange 0 (2 * N)) = map (fun m => (L m * M)%C) (arange 0 (2 * N))).
  { apply map_ext. intros m. f_equal. unfold spw_l. cbn [lambdak]. assert (EU : (if m =? N then 0 else umax * (IZR m / IZR N - 1))%R = spw_u umax N m) by (unfold spw_u; destruct (m =? N); [reflexivity|]; rewrite mult_IZR; field; exact NZ). unfold L. rewrite EU. unfold dlt, aff_beta. fold b. set (u := spw_u umax N m). destruct (Req_EM_T (- u) 0), (Req_EM_T u 0); try lra; [reflexivity|]. rewrite Ropp_involutive. reflexivity. }
  rewrite EL. set (row := prefix (fft _) N). assert (LF : zlen (fft (map (fun m => (L m * M)%C) (arange 0 (2 * N)))) = 2 * N) by (rewrite fft_zlen, zlen_map_arange; lia). assert (LR : zlen row = N) by (apply prefix_zlen; lia).
  assert (RC : forall c, 0 <= c < N -> cnth row c = (M * csum (arange 0 (2 * N)) (fun m => L m * root (2 * N) (- (c * m))))%C).
  { intros c Hc. unfold row. rewrite cnth_prefix by lia. rewrite fft_nth by (rewrite zlen_map_arange; lia). rewrite zlen_map_arange by lia. replace (2 * N - 0) with (2 * N) by lia. rewrite <- csum_scal_l. apply csum_ext. intros m Hm. apply in_arange in Hm. rewrite cnth_map_arange by lia. rewrite Z.add_0_l. ring. }
  rewrite (list_as_map row), LR. rewrite zipw_map, rsum_map. rewrite <- rsum_scal_l. apply rsum_ext. intros c Hc. apply in_arange in Hc. rewrite RC by lia. rewrite <- Cmod2_conj. cbn [Re fst RtoC]. rewrite Cmod_mult. unfold L. ring.
Qed.
(** The smoothing window. *)
Definition spw_win (ng0 fmax umax : R) (N p : Z) : R := exp (- (PI * ng0 * fmax * umax * (IZR p / IZR N - 1)) ^ 2 / (3 * ln 10)).
Lemma win_eq ng0 fmax umax N p : 1 <= N -> spw_G ng0 fmax umax N p = spw_win ng0 fmax umax N p.
Proof.
  intros HN. assert (NZ : IZR N <> 0%R) by (apply not_0_IZR; lia). assert (L10 : (0 < ln 10)%R) by (rewrite <- ln_1; apply ln_increasing; lra). unfold spw_G, spw_win. destruct (Req_EM_T ng0 0) as [->|_].
  - rewrite <- exp_0. f_equal. field. lra.
  - f_equal. rewrite minus_IZR. assert (SP : (0 < sqrt (2 * 3 * ln 10))%R) by (apply sqrt_lt_R0; lra). assert (S2 : ln 10 = (sqrt (2 * 3 * ln 10) * sqrt (2 * 3 * ln 10) / 6)%R) by (rewrite sqrt_sqrt by lra; field). set (s := sqrt (2 * 3 * ln 10)) in *. clearbody s. rewrite S2. field. split; [exact NZ|lra].
Qed.
Lemma trapz_mono x g n : (forall k, 0 <= k < n - 1 -> (x k <= x (k + 1)%Z)%R) -> (forall k, 0 <= k < n -> (0 <= g k)%R) -> (0 <= trapz x g n)%R.
Proof.
  intros Hx Hg. unfold trapz. apply rsum_nonneg. intros k Hk. apply in_arange in Hk. assert (A := Hx k ltac:(lia)). assert (B := Hg k ltac:(lia)). assert (D := Hg (k + 1) ltac:(lia)). apply Rmult_le_pos; lra.
Qed.
Lemma c91_result : forall x ts ng0 fmin fmax, 2 <= zlen x -> (0 < fmin < fmax)%R -> (1 <= 2 * fmax * ln (fmax / fmin))%R ->
  let N := zlen x in let t := match ts with Some t => t | None => arange 0 N end in let f := geo_grid fmin fmax N in zlen t = N ->
  exists zc z, hilbert (map (fun v => Re v - rsum x Re / IZR N)%R x) = Ok zc /\ hilbert (map Re x) = Ok z /\
  exists E, (forall i, E i = spw_energy N (geo_q fmin fmax N) (ln (fmax / fmin)) (spw_win ng0 fmax (ln (fmax / fmin)) N)
               (fun v => voice_wt zc fmin fmax (IZR N) N v i * RtoC (sqrt (rnth f (N - 1 - v)%Z / fmin)))%C) /\ (forall i, 0 <= E i)%R /\
  exists J, integrate_2d (map (fun g => map (fun i => E i * g)%R (arange 0 N)) f) N (Some (map IZR t)) (Some f) = Ok J /\ ((rnth (map IZR t) 0 <= rnth (map IZR t) 1)%R -> (0 <= J)%R) /\
  exists r, spw x ts LBert (Some (Int N)) ng0 (Some fmin) (Some fmax) (Some N) = Ok (r, t, f) /\
    (J = 0%R -> r = None) /\
    (J <> 0%R -> exists m, r = Some m /\ zlen m = N /\ (forall row, In row m -> zlen row = N) /\
       (forall v i, 0 <= v < N -> 0 <= i < N -> ent m v i = (E i * rnth f v * scal_mult z N fmin fmax / J / IZR N)%R) /\
       integrate_2d m N (Some (map IZR t)) (Some f) = Ok (scal_mult z N fmin fmax / IZR N)%R).
Proof.
  intros x ts ng0 fmin fmax HN Hf HB N t f Lt. assert (NP : (1 / 2 < IZR N)%R) by (apply Rlt_le_trans with 2%R; [lra|apply IZR_le; lia]). assert (NZ : IZR N <> 0%R) by lra.
  set (y := map (fun v => RtoC (Re v)) x). assert (Ly : zlen y = N) by apply zlen_map.
  destruct (c83_scalogram y (Some t) fmin fmax (IZR N) ltac:(lia) Hf ltac:(left; lra)) as (zc & Hc & tfr & Es & _). rewrite Ly in Hc, Es.
  exists zc. assert (NE : map Re x <> []) by (destruct x; [unfold N, zlen in HN; cbn in HN; lia|discriminate]). destruct (hil_ok (map Re x) NE) as [z Hz]. exists z. split. { rewrite <- Hc. f_equal. unfold y. rewrite map_map, rsum_map. reflexivity. } split; [exact Hz|].
  set (E := fun i => spw_energy N (geo_q fmin fmax N) (ln (fmax / fmin)) (spw_win ng0 fmax (ln (fmax / fmin)) N) (fun v => voice_wt zc fmin fmax (IZR N) N v i * RtoC (sqrt (rnth f (N - 1 - v)%Z / fmin)))%C). exists E. split; [reflexivity|].
  assert (EP : forall i, (0 <= E i)%R) by (intros i; apply energy_pos; intros p; apply Rlt_le, exp_pos). split; [exact EP|].
  destruct (c69_grid fmin fmax N Hf HN) as (LG & G0 & _ & q & Hq & _ & Gq). cbv zeta in *. fold f in LG, G0, Gq.
  assert (GP : forall k, 0 <= k < N -> (0 < rnth f k)%R). { intros k Hk. unfold f, geo_grid. rewrite rnth_map_arange by lia. apply Rmult_lt_0_compat; [lra|apply exp_pos]. }
  set (rows := map (fun g => map (fun i => E i * g)%R (arange 0 N)) f). assert (ER : rows = spw_rows E N f) by reflexivity. assert (LR : zlen rows = N) by (unfold rows; rewrite zlen_map; exact LG). assert (RR : forall r, In r rows -> zlen r = N) by (intros r Hr; rewrite ER in Hr; exact (rows_len _ N _ r ltac:(lia) Hr)).
  assert (LI : zlen (map IZR t) = N) by (rewrite zlen_map; exact Lt). assert (IF := integrate_formula rows N (map IZR t) f ltac:(lia) ltac:(lia) RR ltac:(lia) ltac:(lia)).
  destruct (integrate_2d rows N (Some (map IZR t)) (Some f)) as [J|] eqn:EJ; [|discriminate]. exists J. split; [reflexivity|]. split.
  { intros HT. injection IF as ->. rewrite LR. apply trapz_mono.
    - intros k Hk. rewrite Gq by lia. assert (P := GP k ltac:(lia)). nra.
    - intros k Hk. apply Rmult_le_pos; [|lra]. assert (P := GP k ltac:(lia)). assert (ee : forall i, 0 <= i < N -> ent rows k i = (E i * rnth f k)%R) by (intros i Hi; rewrite ER; apply rows_at; lia). rewrite !ee by lia. rewrite (rsum_ext _ _ (fun i => E i * rnth f k)%R) by (intros i Hi; apply in_arange in Hi; apply ee; lia). assert (AA : arange 0 N = 0 :: arange (0 + 1) (N - 1) ++ [N - 1]) by (rewrite arange_cons by lia; f_equal; rewrite <- arange_snoc by lia; f_equal; lia). rewrite AA. rewrite rsum_cons, rsum_app, rsum_cons, rsum_nil.
      assert (0 <= rsum (arange (0 + 1) (N - 1)) (fun i => E i * rnth f k))%R by (apply rsum_nonneg; intros; apply Rmult_le_pos; [apply EP|lra]). assert (0 <= E 0%Z * rnth f k)%R by (apply Rmult_le_pos; [apply EP|lra]). assert (0 <= E (N - 1)%Z * rnth f k)%R by (apply Rmult_le_pos; [apply EP|lra]). lra. }
  assert (Es' : scalogram y (Some t) (Some fmin) (Some fmax) (Some N) (Some (Wnum (IZR N))) = scalogram y (Some t) (Some fmin) (Some fmax) None (Some (Wnum (IZR N)))) by (unfold scalogram; now rewrite Ly).
  unfold spw. cbv zeta. fold N. fold t. cbn [bind spw_voices num_val]. destruct (Z.eqb_spec N 1); [lia|]. fold y. fold f. rewrite Es', Es. cbn [bind snd]. rewrite Lt, Z.eqb_refl. cbn [negb andb].
  assert (MU := proj2 (mu_eq (Int N) fmin fmax Hf ltac:(cbn [num_val]; lra) N) (conj eq_refl (Rle_not_lt _ _ HB))). rewrite MU. rewrite Z.eqb_refl. cbn [negb]. rewrite spw_l_zero.
  assert (EQ : spw_rows (fun i => spw_sum (fun m p => match spw_l LBert (geo_q fmin fmax N) (ln (fmax / fmin)) N N m p with Some v => v | None => RtoC 0 end) (spw_G ng0 fmax (ln (fmax / fmin)) N) (spw_S (map (fun i => map (voice_wt zc fmin fmax (IZR N) N i) (arange 0 N)) (arange 0 N)) (geo_q fmin fmax N) N i) N N) N f = rows).
  { rewrite ER. unfold spw_rows. apply map_ext. intros g. apply map_ext_in. intros i Hi. apply in_arange in Hi. f_equal. unfold spw_S. rewrite sum_energy by lia. unfold E, spw_energy. apply rsum_ext. intros p Hp. cbv zeta. rewrite win_eq by lia. do 5 f_equal. apply csum_ext. intros v Hv. apply in_arange in Hv. f_equal. rewrite nth_map_arange by lia. rewrite cnth_map_arange by lia. rewrite !Z.add_0_l. f_equal. f_equal. f_equal. unfold f, geo_grid. rewrite rnth_map_arange by lia. rewrite Z.add_0_l. replace (N - 1 - v) with (N - v - 1) by ring. field. lra. }
  rewrite EQ. unfold spw_normal. rewrite Hz. cbn [bind]. cbv zeta. rewrite Lt. fold N. rewrite EJ. cbn [bind]. set (xx := scal_mult z N fmin fmax). destruct (Req_EM_T J 0) as [HJ|HJ]; cbn [bind]; eexists; (split; [reflexivity|]); split; intros HJ'; try contradiction; [reflexivity|].
  eexists. split; [reflexivity|]. split; [rewrite zlen_map; exact LR|]. split; [intros r Hr; apply in_map_iff in Hr; destruct Hr as (r' & <- & Hr); rewrite zlen_map; auto|]. split.
  - intros v i Hv Hi. rewrite (ent_map (fun v => (v * xx / J / IZR N)%R) rows v i N) by (auto; lia). rewrite ER, rows_at by lia. reflexivity.
  - assert (EM : map (map (fun v => (v * xx / J / IZR N)%R)) rows = map (map (fun v => (v * (xx / J / IZR N))%R)) rows) by (apply map_ext; intros; apply map_ext; intros; field; auto). rewrite EM. rewrite (scaled_integral (xx / J / IZR N) rows N _ f J) by (auto; lia). f_equal. field. auto.
Qed.
Example c91_example : let x := [RtoC 1; RtoC 2; RtoC 0; RtoC 1] in
  let go h v := spw x None LBert h 0%R (Some (1 / 8)%R) (Some (1 / 2)%R) (Some v) in
  spw x None LBert None 0%R None None None = Raise TypeError /\
  go (Some (Flt 4%R)) 4 = Raise TypeError /\ go (Some (Int 5)) 4 = Raise ValueError /\ go (Some (Int 4)) 3 = Raise ValueError /\ go (Some (Int 4)) 5 = Raise IndexError /\
  exists m, go (Some (Int 4)) 4 = Ok (m, [0; 1; 2; 3], geo_grid (1 / 8)%R (1 / 2)%R 4).
Proof.
  intros x go. assert (L4 : (1 < ln (1 / 2 / (1 / 8)))%R). { replace (1 / 2 / (1 / 8))%R with 4%R by lra. rewrite <- (ln_exp 1). apply ln_increasing; [apply exp_pos|]. assert (H := exp_le_3). lra. }
  assert (OUT := fun h v Hh Hv => c91_outcome x None LBert h 0%R (1 / 8)%R (1 / 2)%R v ltac:(unfold x, zlen; cbn; lia) ltac:(lra) Hh Hv ltac:(intros _; unfold x, zlen; cbn; lia)). cbv zeta in OUT. change (zlen x) with 4 in OUT. change (zlen (arange 0 4)) with 4 in OUT. unfold spw_refuses in OUT.
  split; [apply c91_default_refuted; [unfold x, zlen; cbn; lia|now left]|]. split; [exact (OUT (Flt 4%R) 4 ltac:(cbn [num_val]; lra) ltac:(lia))|].
  assert (O5 := OUT (Int 5) 4 ltac:(cbn [num_val]; lra) ltac:(lia)). assert (O4 := OUT (Int 4) 4 ltac:(cbn [num_val]; lra) ltac:(lia)). cbn [Z.ltb Z.compare Pos.compare Pos.compare_cont Z.eqb Pos.eqb negb] in O5, O4. destruct (Rlt_dec _ _) as [W|W] in O5; [exfalso; lra|]. destruct (Rlt_dec _ _) as [W'|W'] in O4; [exfalso; lra|].
  split; [exact O5|]. split; [exact (OUT (Int 4) 3 ltac:(cbn [num_val]; lra) ltac:(lia))|]. split; [exact (OUT (Int 4) 5 ltac:(cbn [num_val]; lra) ltac:(lia))|]. destruct O4 as (m & O4 & _). exists m. exact O4.
Qed.
(** A signal whose distribution is a genuine array: the columns are the
    frequency axis times nonnegative numbers. *)
Lemma c91_nonneg : forall x ts ng0 fmin fmax m t f, 2 <= zlen x -> (0 < fmin < fmax)%R -> (1 <= 2 * fmax * ln (fmax / fmin))%R ->
  zlen (match ts with Some t => t | None => arange 0 (zlen x) end) = zlen x -> spw x ts LBert (Some (Int (zlen x))) ng0 (Some fmin) (Some fmax) (Some (zlen x)) = Ok (Some m, t, f) ->
  (rnth (map IZR t) 0 <= rnth (map IZR t) 1)%R -> forall v i, 0 <= v < zlen x -> 0 <= i < zlen x -> (0 <= ent m v i)%R.
Proof.
  intros x ts ng0 fmin fmax m t f HN Hf HB Lt H HT v i Hv Hi. destruct (c91_result x ts ng0 fmin fmax HN Hf HB Lt) as (zc & z & _ & _ & E & _ & EP & J & _ & JP & r & Hr & J0 & J1). rewrite H in Hr. injection Hr as <- Et Ef. rewrite <- Et in JP. specialize (JP HT). destruct (Req_EM_T J 0) as [Z|Z]; [discriminate (J0 Z)|]. destruct (J1 Z) as (m' & Em & _ & _ & EN & _). injection Em as <-. rewrite EN by lia.
  assert (NP : (0 < IZR (zlen x))%R) by (apply IZR_lt; lia). assert (FP : (0 <= rnth (geo_grid fmin fmax (zlen x)) v)%R). { unfold geo_grid. rewrite rnth_map_arange by lia. apply Rmult_le_pos; [lra|apply Rlt_le, exp_pos]. }
  assert (SP : (0 <= scal_mult z (zlen x) fmin fmax)%R) by (unfold scal_mult; cbv zeta; apply rsum_nonneg; intros; apply pow2_ge_0). repeat apply Rmult_le_pos; auto; apply Rlt_le, Rinv_0_lt_compat; lra.
Qed.
(** ** The default number of voices *)
Lemma c91_default_voices : forall x ts K h ng0 fmin fmax, (0 < fmin < fmax)%R -> 1 <= h -> (1 <= 2 * fmax * ln (fmax / fmin))%R ->
  let q := even_part (Zceil (fmax * IZR (2 * h - 1) * ln (fmax / fmin))) in
  (q = 0 -> spw x ts K (Some (Int h)) ng0 (Some fmin) (Some fmax) None = Raise ValueError) /\
  (q <> 0 -> exists e, 1 <= e /\ q <= 2 ^ e /\ 2 ^ (e - 1) < q /\
    spw x ts K (Some (Int h)) ng0 (Some fmin) (Some fmax) None = spw x ts K (Some (Int h)) ng0 (Some fmin) (Some fmax) (Some (2 ^ e))).
Proof.
  intros x ts K h ng0 fmin fmax Hf Hh HB q. destruct (c80_voices fmin fmax (2 * h - 1) Hf ltac:(lia)) as [A B]. fold q in A, B.
  assert (MU : spw_mu (Int h) fmax (ln (fmax / fmin)) = Int h) by (apply (mu_eq (Int h) fmin fmax Hf); [cbn [num_val]; apply IZR_lt; lia|split; [reflexivity|lra]]).
  unfold spw. cbv zeta. cbn [bind]. rewrite MU. unfold spw_voices. cbn [num_val]. rewrite Zfloor_IZR. split; intros Q.
  - now rewrite A by exact Q.
  - destruct (B Q) as (e & E & E1 & E2 & E3). exists e. rewrite E. exact (conj E1 (conj E2 (conj E3 eq_refl))).
Qed.
