(** C84-C86: the wide-band ambiguity function. *)
From Coq Require Import Reals ZArith List Lia Lra Bool.
From Coquelicot Require Import Coquelicot.
From Flocq Require Import Core.
From Verif Require Import Py Scalars CSum DFT Spec M_base M_utils M_putils M_post M_gen1 M_gen2 M_gen3 M_aff M_wb P_base P_spec T_post T_utils T_putils T_dom T_gen1 T_gen2 T_hil T_key T_noise T_misc T_misc2 T_aff T_aff2.
From Verif Require T_post3.
Import ListNotations.
Local Open Scope Z_scope.

(** *** C85: the entries *)
(** The frequency of voice k, the spectrum at f of the analytic signal z with
    its time origin at the middle sample, and the Mellin coefficient p of the
    spectrum delayed by d. *)
Definition voice (fmin fmax : R) (N k : Z) : R := (fmin * Rpower (fmax / fmin) (IZR k / IZR (N - 1)))%R.
Definition spec_at (z : list C) (f : R) : C :=
  csum (arange 0 (zlen z)) (fun i => cnth z i * cis (- (2 * PI * (IZR (i - half_round (zlen z)) * f))))%C.
Definition mell (z : list C) (fmin fmax : R) (N d p : Z) : C :=
  (csum (arange 0 N) (fun k =>
     spec_at z (voice fmin fmax N k) * cis (- (2 * PI * (IZR d * voice fmin fmax N k)))
     * RtoC (Rpower (fmax / fmin) (IZR k / 2 / IZR (N - 1))) * root (2 * N) (p * k)) / RtoC (IZR (2 * N)))%C.
(** Scale index j, delay d: only the negative half of the Mellin axis. *)
Definition cross (z : list C) (fmin fmax : R) (N j d : Z) : C :=
  (csum (arange (- N) 0) (fun p => mell z fmin fmax N 0 p * Cconj (mell z fmin fmax N d p) * root N (p * j)) / RtoC (IZR N))%C.

Lemma geo_map fmin fmax N : 2 <= N -> geo_grid fmin fmax N = map (voice fmin fmax N) (arange 0 N).
Proof.
  intros HN. unfold geo_grid, voice. apply map_ext_in. intros k Hk. f_equal. unfold geo_q, Rpower. rewrite ln_exp. f_equal. field. apply IZR_neq. lia.
Qed.
Lemma cnth_zipw (f : C -> C -> C) a b k : 0 <= k < zlen a -> zlen b = zlen a -> cnth (zipw f a b) k = f (cnth a k) (cnth b k).
Proof. intros H1 H2. unfold cnth. apply zipw_nth; unfold zlen in *; lia. Qed.
Lemma zipw_as_map {A B D} (f : A -> B -> D) (g : Z -> A) (h : Z -> B) n : zipw f (map g (arange 0 n)) (map h (arange 0 n)) = map (fun k => f (g k) (h k)) (arange 0 n).
Proof. apply zipw_map. Qed.
Lemma cnth_prefix (l : list C) n k : 0 <= k < n -> cnth (prefix l n) k = cnth l k.
Proof. intros H. unfold cnth, prefix. rewrite <- (firstn_skipn (Z.to_nat n) l) at 2. destruct (Nat.lt_ge_cases (Z.to_nat k) (length (firstn (Z.to_nat n) l))) as [L|L]; [now rewrite app_nth1|].
  rewrite (nth_overflow (firstn _ l)) by lia. rewrite firstn_length in L. symmetry. apply nth_overflow. rewrite firstn_skipn. lia. Qed.
Lemma mellin_at q N (g : Z -> C) : 1 <= N -> forall P, 0 <= P < 2 * N ->
  cnth (wb_mellin q N (map g (arange 0 N))) P =
  (csum (arange 0 N) (fun k => g k * RtoC (exp (IZR k / 2 * ln q)) * root (2 * N) ((P - N) * k)) / RtoC (IZR (2 * N)))%C.
Proof.
  intros HN P HP. unfold wb_mellin. set (v := zipw Cmult _ _).
  assert (LV : zlen (map g (arange 0 N) ++ zeros N) = 2 * N). { rewrite zlen_app, zlen_map_arange by lia. unfold zeros, zlen. rewrite repeat_length. lia. }
  assert (LB : zlen (map (fun p => RtoC (exp (IZR p / 2 * ln q))) (arange 0 (2 * N))) = zlen (map g (arange 0 N) ++ zeros N)) by (rewrite LV, zlen_map_arange; lia).
  assert (LZ : zlen v = 2 * N). { unfold v. rewrite zipw_zlen by (rewrite LV, zlen_map_arange; lia). exact LV. }
  rewrite (list_as_map (ifft v)), ifft_zlen, LZ, fftshift_map by lia. rewrite cnth_map_arange by lia. rewrite Z.add_0_l.
  rewrite ifft_nth by (rewrite LZ; apply Z.mod_pos_bound; lia). rewrite LZ. unfold Cdiv. rewrite Cmult_comm. f_equal.
  rewrite (arange_app 0 N (2 * N)) by lia. rewrite csum_app. rewrite (csum_0 (arange N (2 * N))).
  2:{ intros k Hk. apply in_arange in Hk. unfold v. rewrite cnth_zipw by (solve [exact LB|rewrite LV; lia]). unfold cnth at 1. rewrite app_nth2 by (rewrite map_length, arange_length; lia).
      unfold zeros. rewrite nth_repeat. change nzero with (RtoC 0). ring. }
  rewrite Cplus_0_r. apply csum_ext. intros k Hk. apply in_arange in Hk. unfold v. rewrite cnth_zipw by (solve [exact LB|rewrite LV; lia]).
  rewrite (cnth_map_arange (fun p => RtoC _)) by lia. unfold cnth. rewrite app_nth1 by (rewrite map_length, arange_length; lia). rewrite nth_map_arange by lia. rewrite !Z.add_0_l. f_equal.
  rewrite root_mod_mul_r by lia. replace (k * (P + N)) with ((P - N) * k + 2 * N * k) by ring. rewrite root_period by lia; reflexivity.
Qed.
Lemma prefix_zlen {A} (l : list A) n : 0 <= n <= zlen l -> zlen (prefix l n) = n.
Proof. intros H. unfold prefix, zlen in *. rewrite firstn_length. lia. Qed.
Lemma wb_mellin_zlen q N (g : Z -> C) : 1 <= N -> zlen (wb_mellin q N (map g (arange 0 N))) = 2 * N.
Proof.
  intros HN. unfold wb_mellin, fftshift. rewrite zlen_app. set (w := ifft _).
  assert (LW : zlen w = 2 * N). { unfold w. rewrite ifft_zlen, zipw_zlen.  - rewrite zlen_app, zlen_map_arange by lia. unfold zeros, zlen. rewrite repeat_length. lia.
    - rewrite zlen_app, !zlen_map_arange by lia. unfold zeros, zlen. rewrite repeat_length. lia. }
  unfold zlen in *. rewrite skipn_length, firstn_length. lia.
Qed.
Lemma voice_pos fmin fmax N k : (0 < fmin)%R -> (0 < voice fmin fmax N k)%R.
Proof. intros H. unfold voice. apply Rmult_lt_0_compat; [exact H|apply exp_pos]. Qed.
Lemma coef_eq fmin fmax N k : 2 <= N -> exp (IZR k / 2 * ln (geo_q fmin fmax N)) = Rpower (fmax / fmin) (IZR k / 2 / IZR (N - 1)).
Proof. intros HN. unfold geo_q, Rpower. rewrite ln_exp. f_equal. field. apply IZR_neq. lia. Qed.
(** Rotation to the middle row. *)
Lemma wb_rot (w : list C) N : 1 <= N -> zlen w = N -> forall r, 0 <= r < N ->
  let no2 := (N + N mod 2) / 2 in
  zlen (pyslice w no2 (N + 1) ++ prefix w no2) = N /\ cnth (pyslice w no2 (N + 1) ++ prefix w no2) r = cnth w ((r - N / 2) mod N).
Proof.
  intros HN LW r Hr no2. assert (B : 0 < no2 <= N /\ N - no2 = N / 2) by (unfold no2; Z.to_euclidean_division_equations; lia). destruct B as [B1 B2].
  assert (E : pyslice w no2 (N + 1) = skipn (Z.to_nat no2) w).
  { unfold pyslice, pyclip. rewrite LW. destruct (Z.ltb_spec no2 0); [lia|]. destruct (Z.ltb_spec (N + 1) 0); [lia|]. rewrite (Z.min_l no2), (Z.min_r (N + 1)) by lia. unfold slice. apply firstn_all2. rewrite skipn_length. unfold zlen in LW. lia. }
  rewrite E. assert (LS : zlen (skipn (Z.to_nat no2) w) = N - no2) by (unfold zlen in *; rewrite skipn_length; lia).
  split; [rewrite zlen_app, LS, prefix_zlen by lia; lia|].
  destruct (Z.lt_ge_cases r (N - no2)) as [L|L].
  - unfold cnth at 1. rewrite app_nth1 by (unfold zlen in *; lia). rewrite nth_skipn. replace ((r - N / 2) mod N) with (no2 + r).
    + unfold cnth. f_equal. lia.
    + replace (r - N / 2) with (no2 + r + (-1) * N) by lia. rewrite Z.mod_add by lia. symmetry. apply Z.mod_small. lia.
  - unfold cnth at 1. rewrite app_nth2 by (unfold zlen in *; lia). replace (Z.to_nat r - length (skipn (Z.to_nat no2) w))%nat with (Z.to_nat (r - N / 2)) by (unfold zlen in *; lia).
    change (nth (Z.to_nat (r - N / 2)) (prefix w no2) (RtoC 0)) with (cnth (prefix w no2) (r - N / 2)). rewrite cnth_prefix by lia. f_equal. symmetry. apply Z.mod_small. lia.
Qed.
Lemma wb_col_at (z : list C) fmin fmax N d : 2 <= N ->
  let geo := geo_grid fmin fmax N in
  let col := wb_col (geo_q fmin fmax N) N (map (wb_spec z) geo) geo d in
  zlen col = N /\ forall r, 0 <= r < N -> cnth col r = cross z fmin fmax N (r - N / 2) d.
Proof.
  intros HN geo col. unfold col, wb_col, geo. rewrite geo_map by lia. rewrite map_map, zipw_as_map.
  set (g0 := fun x => wb_spec z (voice fmin fmax N x)). set (gd := fun k => _). set (u := zipw _ _ _).
  assert (LU : zlen u = 2 * N) by (unfold u; rewrite zipw_zlen; rewrite !wb_mellin_zlen by lia; reflexivity).
  assert (LP : zlen (prefix u N) = N) by (apply prefix_zlen; lia). set (w := ifft _). assert (LW : zlen w = N) by (unfold w; now rewrite ifft_zlen).
  split; [now apply (wb_rot w N ltac:(lia) LW 0); lia|]. intros r Hr. rewrite (proj2 (wb_rot w N ltac:(lia) LW r Hr)). unfold w. rewrite ifft_nth by (rewrite LP; apply Z.mod_pos_bound; lia). rewrite LP. unfold cross, Cdiv. rewrite Cmult_comm. f_equal.
  replace (arange (- N) 0) with (arange (0 + - N) (N + - N)) by (f_equal; lia). rewrite csum_arange_shift.
  apply csum_ext. intros k Hk. apply in_arange in Hk. rewrite cnth_prefix by lia. unfold u. rewrite cnth_zipw by (rewrite !wb_mellin_zlen by lia; lia). unfold gd. rewrite !mellin_at by lia.
  assert (Q : forall d' (g : Z -> C), (forall k', 0 <= k' < N -> g k' = (spec_at z (voice fmin fmax N k') * cis (- (2 * PI * (IZR d' * voice fmin fmax N k'))))%C) ->
    (csum (arange 0 N) (fun k0 => g k0 * RtoC (exp (IZR k0 / 2 * ln (geo_q fmin fmax N))) * root (2 * N) ((k - N) * k0)) / RtoC (IZR (2 * N)))%C = mell z fmin fmax N d' (k + - N)).
  { intros d' g Hg. unfold mell. f_equal. apply csum_ext. intros k' Hk'. apply in_arange in Hk'. rewrite Hg by lia. rewrite coef_eq by lia. f_equal. }
  rewrite (Q 0 g0), (Q d).
  - f_equal. rewrite root_mod_mul_r by lia. replace ((k + - N) * (r - N / 2)) with (k * (r - N / 2) + N * - (r - N / 2)) by ring. now rewrite root_period by lia.
  - intros k' Hk'. reflexivity.
  - intros k' Hk'. unfold g0. rewrite Rmult_0_l, Rmult_0_r, Ropp_0, cis_0. change (wb_spec z (voice fmin fmax N k')) with (spec_at z (voice fmin fmax N k')). ring.
Qed.
Lemma theta_map fmin fmax N : (0 < fmin < fmax)%R -> 2 <= N ->
  map ln (logspace (log10 (fmin / fmax)) (log10 (fmax / fmin)) N) = map (fun k => ln (fmax / fmin) * (2 * IZR k / IZR (N - 1) - 1))%R (arange 0 N).
Proof.
  intros Hf HN. assert (P : (1 <= IZR (N - 1))%R) by (apply IZR_le; lia). unfold logspace, linspace1. destruct (Z.eqb_spec N 1); [lia|]. unfold linspace. rewrite !map_map. apply map_ext. intros k. unfold Rpower. rewrite ln_exp. unfold log10.
  assert (L10 : (0 < ln 10)%R) by (rewrite <- ln_1; apply ln_increasing; lra).
  replace (ln (fmin / fmax)) with (- ln (fmax / fmin))%R; [field; lra|]. rewrite <- ln_Rinv by (apply Rdiv_lt_0_compat; lra). f_equal. field. lra.
Qed.
Lemma middle n : 2 <= n -> 1 <= half_round n < n.
Proof. intros H. assert (T := half_round_range n ltac:(lia)). destruct (half_round_spec n) as [S|[S _]]; lia. Qed.
Definition ref_row (N : Z) : Z := (N + N mod 2) / 2 - 1.
Lemma wb_run_value (x z : list C) fmin fmax N : 2 <= zlen x -> (0 < fmin < fmax)%R -> (fmax <= 1 / 2)%R -> 2 <= N -> hilbert (map Re x) = Ok z ->
  let n := zlen x in let m := half_round n in
  let a := ZnearestE (fmin * IZR (n - 2)) in let b := ZnearestE (fmax * IZR (n - 2)) in
  let E := rsum (arange a (b + 1)) (fun k => ((if (k =? 0)%Z then 1 else 2) * Cmod (cnth (fft (map RtoC (map Re x))) k)) ^ 2)%R in
  let c := cross z fmin fmax N (if Z.even N then -1 else 0) (-1) in
  let waf := map (fun i => wb_col (geo_q fmin fmax N) N (map (wb_spec z) (geo_grid fmin fmax N)) (geo_grid fmin fmax N) (i - m)) (arange 0 n) in
  wide_band x (Some fmin) (Some fmax) (Some N) =
  Ok (if Ceq_dec c (RtoC 0) then None else Some (map (map (fun v => v * (RtoC E / c / RtoC (IZR N)))%C) waf, map (fun i => i - m) (arange 0 n),
      map (fun k => ln (fmax / fmin) * (2 * IZR k / IZR (N - 1) - 1))%R (arange 0 N))).
Proof.
  intros Hn Hf Hm HN Hz n m a b E c waf. unfold wide_band. rewrite Hz. cbn [bind wb_band]. unfold wb_size. destruct (Req_EM_T fmin fmax); [lra|]. cbn [bind]. unfold wb_run.
  assert (LZ : zlen z = n) by (rewrite (hil_zlen _ _ Hz); now rewrite zlen_map). rewrite LZ. fold m. destruct (Z.eqb_spec N 1); [lia|]. destruct (Z.leb_spec N 0); [lia|]. destruct (Req_EM_T fmax 0); [lra|].
  assert (EE : wb_energy z fmin fmax = Ok E).
  { unfold wb_energy. rewrite LZ. destruct (c68_inband x fmin fmax Hn Hf Hm) as (_ & _ & Q). fold n a b E in Q. rewrite <- Q. unfold aff_mult. rewrite (hil_real _ _ Hz). reflexivity. }
  rewrite EE. cbn [bind]. rewrite map_map. fold waf. assert (Hm1 : 1 <= m < n) by now apply middle.
  assert (LW : zlen waf = n) by (unfold waf; rewrite zlen_map_arange; lia). rewrite (get_ok [] waf) by lia. cbn [bind].
  replace (nth (Z.to_nat (m - 1)) waf []) with (wb_col (geo_q fmin fmax N) N (map (wb_spec z) (geo_grid fmin fmax N)) (geo_grid fmin fmax N) (-1)).
  2:{ unfold waf. rewrite nth_map_arange by lia. f_equal. lia. }
  destruct (wb_col_at z fmin fmax N (-1) HN) as [LC VC]. assert (B : 0 <= (N + N mod 2) / 2 - 1 < N) by (Z.to_euclidean_division_equations; lia).
  rewrite (get_ok (RtoC 0)) by (rewrite LC; lia). cbn [bind]. rewrite (theta_map fmin fmax N Hf HN).
  match goal with |- context [nth (Z.to_nat ((N + N mod 2) / 2 - 1)) ?l (RtoC 0)] => change (nth (Z.to_nat ((N + N mod 2) / 2 - 1)) l (RtoC 0)) with (cnth l ((N + N mod 2) / 2 - 1)) end.
  rewrite VC by lia. replace ((N + N mod 2) / 2 - 1 - N / 2) with (if Z.even N then -1 else 0).
  2:{ destruct (Z.even N) eqn:EV; [apply Z.even_spec in EV; destruct EV as [h ->]|rewrite <- Z.negb_odd in EV; apply negb_false_iff in EV; apply Z.odd_spec in EV; destruct EV as [h ->]]; Z.to_euclidean_division_equations; lia. }
  fold c. reflexivity.
Qed.
Lemma c85_value : forall x z fmin fmax N, 2 <= zlen x -> (0 < fmin < fmax)%R -> (fmax <= 1 / 2)%R -> 2 <= N -> hilbert (map Re x) = Ok z ->
  let n := zlen x in let m := half_round n in
  let a := ZnearestE (fmin * IZR (n - 2)) in let b := ZnearestE (fmax * IZR (n - 2)) in
  let E := rsum (arange a (b + 1)) (fun k => ((if (k =? 0)%Z then 1 else 2) * Cmod (cnth (fft (map RtoC (map Re x))) k)) ^ 2)%R in
  let c := cross z fmin fmax N (if Z.even N then -1 else 0) (-1) in
  (c = RtoC 0 -> wide_band x (Some fmin) (Some fmax) (Some N) = Ok None) /\
  (c <> RtoC 0 -> exists w tau theta, wide_band x (Some fmin) (Some fmax) (Some N) = Ok (Some (w, tau, theta)) /\
     zlen w = n /\ (forall col, In col w -> zlen col = N) /\
     forall r i, 0 <= r < N -> 0 <= i < n -> at2 w r i = (cross z fmin fmax N (r - N / 2) (i - m) * RtoC E / c / RtoC (IZR N))%C).
Proof.
  intros x z fmin fmax N Hn Hf Hm HN Hz n m a b E c. rewrite (wb_run_value x z fmin fmax N Hn Hf Hm HN Hz). fold n m a b E c. split; intros Hc.
  - destruct (Ceq_dec c (RtoC 0)); [reflexivity|contradiction].
  - destruct (Ceq_dec c (RtoC 0)); [contradiction|]. eexists _, _, _. split; [reflexivity|]. rewrite map_map. split; [|split].
    + rewrite zlen_map_arange; lia.
    + intros col Hcol. apply in_map_iff in Hcol. destruct Hcol as (i & <- & _). rewrite zlen_map. apply wb_col_at. lia.
    + intros r i Hr Hi. unfold at2. rewrite nth_map_arange by lia. rewrite Z.add_0_l. destruct (wb_col_at z fmin fmax N (i - m) HN) as [LC VC]. rewrite <- VC by lia.
      unfold cnth. rewrite (nth_indep _ (RtoC 0) ((fun v => v * (RtoC E / c / RtoC (IZR N)))%C (RtoC 0))) by (rewrite map_length; unfold zlen in LC; lia). rewrite (map_nth (fun v => v * (RtoC E / c / RtoC (IZR N)))%C).
      unfold Cdiv. ring.
Qed.
(** The cell that carries the band energy: delay -1, and for even N the scale
    index -1. *)
Lemma c85_reference : forall x fmin fmax N w tau theta, 2 <= zlen x -> (0 < fmin < fmax)%R -> (fmax <= 1 / 2)%R -> 2 <= N ->
  wide_band x (Some fmin) (Some fmax) (Some N) = Ok (Some (w, tau, theta)) ->
  let n := zlen x in let m := half_round n in
  let a := ZnearestE (fmin * IZR (n - 2)) in let b := ZnearestE (fmax * IZR (n - 2)) in
  let E := rsum (arange a (b + 1)) (fun k => ((if (k =? 0)%Z then 1 else 2) * Cmod (cnth (fft (map RtoC (map Re x))) k)) ^ 2)%R in
  at2 w (N / 2 - (if Z.even N then 1 else 0)) (m - 1) = RtoC (E / IZR N) /\ nth (Z.to_nat (m - 1)) tau 0 = -1.
Proof.
  intros x fmin fmax N w tau theta Hn Hf Hm HN H n m a b E. destruct (hil_ok (map Re x)) as [z Hz]; [destruct x; [unfold zlen in Hn; cbn in Hn; lia|discriminate]|].
  assert (V := wb_run_value x z fmin fmax N Hn Hf Hm HN Hz). destruct (c85_value x z fmin fmax N Hn Hf Hm HN Hz) as [V0 V1]. cbn zeta in V. fold n m a b E in V, V1.
  set (c := cross z fmin fmax N (if Z.even N then -1 else 0) (-1)) in *. destruct (Ceq_dec c (RtoC 0)) as [C0|C0]; [rewrite V0 in H by exact C0; discriminate|].
  destruct (V1 C0) as (w' & tau' & theta' & E' & _ & _ & A). rewrite E' in H. assert (IJ : w' = w /\ tau' = tau) by (split; congruence). destruct IJ as [-> ->].
  rewrite E' in V. assert (TT : tau = map (fun i => i - m) (arange 0 n)) by congruence. assert (M := middle n Hn). fold m in M. split.
  - rewrite A; [|destruct (Z.even N); Z.to_euclidean_division_equations; lia|lia]. replace (N / 2 - (if Z.even N then 1 else 0) - N / 2) with (if Z.even N then -1 else 0) by (destruct (Z.even N); lia).
    replace (m - 1 - m) with (-1) by lia. fold c. rewrite RtoC_div by (apply IZR_neq; lia). field. split; [intros Q; apply RtoC_inj in Q; revert Q; apply IZR_neq; lia|exact C0].
  - rewrite TT, nth_map_arange by lia. lia.
Qed.
(** At delay 0 no scale exceeds the row N / 2, which is real and positive up
    to the common factor. *)
Lemma cross_0 z fmin fmax N : 2 <= N -> cross z fmin fmax N 0 0 = RtoC (rsum (arange (- N) 0) (fun p => Cmod (mell z fmin fmax N 0 p) ^ 2)%R / IZR N).
Proof.
  intros HN. unfold cross. rewrite RtoC_div by (apply IZR_neq; lia). f_equal. rewrite RtoC_rsum. apply csum_ext. intros p _. rewrite Z.mul_0_r, root_0, Cmod2_conj. ring.
Qed.
Lemma cross_le z fmin fmax N j : 2 <= N -> (Cmod (cross z fmin fmax N j 0) <= Cmod (cross z fmin fmax N 0 0))%R.
Proof.
  intros HN. assert (NP : (0 < IZR N)%R) by (apply IZR_lt; lia). rewrite cross_0 by lia. rewrite Cmod_R.
  assert (S0 : (0 <= rsum (arange (- N) 0) (fun p => Cmod (mell z fmin fmax N 0 p) ^ 2))%R) by (apply rsum_nonneg; intros; apply pow2_ge_0).
  rewrite Rabs_pos_eq by (apply Rmult_le_pos; [exact S0|left; now apply Rinv_0_lt_compat]). unfold cross. rewrite Cmod_div_R by lra. rewrite (Rabs_pos_eq (IZR N)) by lra. apply Rmult_le_compat_r; [left; now apply Rinv_0_lt_compat|].
  eapply Rle_trans; [apply Cmod_csum_le|]. apply Req_le. apply rsum_ext. intros p _. rewrite !Cmod_mult, Cmod_conj, Cmod_root. ring.
Qed.
Lemma c85_peak : forall x fmin fmax N w tau theta, 2 <= zlen x -> (0 < fmin < fmax)%R -> (fmax <= 1 / 2)%R -> 2 <= N ->
  wide_band x (Some fmin) (Some fmax) (Some N) = Ok (Some (w, tau, theta)) -> let m := half_round (zlen x) in
  nth (Z.to_nat m) tau 1 = 0 /\ forall r, 0 <= r < N -> (Cmod (at2 w r m) <= Cmod (at2 w (N / 2) m))%R.
Proof.
  intros x fmin fmax N w tau theta Hn Hf Hm HN H m. destruct (hil_ok (map Re x)) as [z Hz]; [destruct x; [unfold zlen in Hn; cbn in Hn; lia|discriminate]|].
  assert (V := wb_run_value x z fmin fmax N Hn Hf Hm HN Hz). destruct (c85_value x z fmin fmax N Hn Hf Hm HN Hz) as [V0 V1]. cbn zeta in V. fold m in V, V1.
  set (c := cross z fmin fmax N (if Z.even N then -1 else 0) (-1)) in *. destruct (Ceq_dec c (RtoC 0)) as [C0|C0]; [rewrite V0 in H by exact C0; discriminate|].
  destruct (V1 C0) as (w' & tau' & theta' & E' & _ & _ & A). rewrite E' in H. assert (IJ : w' = w /\ tau' = tau) by (split; congruence). destruct IJ as [-> ->].
  rewrite E' in V. assert (TT : tau = map (fun i => i - m) (arange 0 (zlen x))) by congruence. assert (M := middle (zlen x) Hn). fold m in M. split.
  - rewrite TT, nth_map_arange by lia. lia.
  - intros r Hr. rewrite !A by (try lia; Z.to_euclidean_division_equations; lia). replace (m - m) with 0 by lia. replace (N / 2 - N / 2) with 0 by lia. unfold Cdiv. rewrite <- !Cmult_assoc. rewrite !(Cmod_mult (cross _ _ _ _ _ _)). apply Rmult_le_compat_r; [apply Cmod_ge_0|]. now apply cross_le.
Qed.
(** Only the real part of the signal matters. *)
Lemma c85_real : forall x fmin fmax N, wide_band (map (fun v => RtoC (Re v)) x) fmin fmax N = wide_band x fmin fmax N.
Proof. intros. unfold wide_band. now rewrite map_map. Qed.
Lemma cnth_lin (a : R) (x : list C) k : cnth (map (Cmult (RtoC a)) x) k = (RtoC a * cnth x k)%C.
Proof. unfold cnth. rewrite <- (map_nth (Cmult (RtoC a))). f_equal. ring. Qed.
Lemma fft_lin (a : R) (x : list C) : fft (map (Cmult (RtoC a)) x) = map (fun v => v * RtoC a)%C (fft x).
Proof.
  rewrite (list_as_map (fft (map _ x))), (list_as_map (fft x)), map_map, !fft_zlen, zlen_map. apply map_ext_in. intros f Hf. apply in_arange in Hf. rewrite !fft_nth by (rewrite ?zlen_map; lia). rewrite zlen_map, <- csum_scal_r. apply csum_ext. intros k _.
  rewrite cnth_lin. ring.
Qed.
Lemma hil_lin (a : R) x z : hilbert x = Ok z -> hilbert (map (Rmult a) x) = Ok (map (Cmult (RtoC a)) z).
Proof.
  unfold hilbert. rewrite zlen_map. destruct (zlen x =? 0); [discriminate|]. intros H. injection H as <-. f_equal. set (n := zlen x).
  assert (E : map RtoC (map (Rmult a) x) = map (Cmult (RtoC a)) (map RtoC x)) by (rewrite !map_map; apply map_ext; intros; apply RtoC_mult). rewrite E, fft_lin.
  rewrite (map_ext (Cmult (RtoC a)) (fun v => v * RtoC a)%C) by (intros; ring). rewrite <- ifft_map_scal. f_equal. set (X := fft _). clearbody X. generalize (arange 0 n). induction X as [|v X IH]; intros [|k l]; try reflexivity. cbn [map zipw]. rewrite IH. f_equal. ring.
Qed.
Lemma spec_lin (a : R) z f : spec_at (map (Cmult (RtoC a)) z) f = (RtoC a * spec_at z f)%C.
Proof.
  unfold spec_at. rewrite zlen_map, <- csum_scal_l. apply csum_ext. intros k _. rewrite cnth_lin. ring.
Qed.
Lemma mell_lin (a : R) z fmin fmax N d p : mell (map (Cmult (RtoC a)) z) fmin fmax N d p = (RtoC a * mell z fmin fmax N d p)%C.
Proof. unfold mell. unfold Cdiv. rewrite Cmult_assoc, <- csum_scal_l. f_equal. apply csum_ext. intros k _. rewrite spec_lin. ring. Qed.
Lemma cross_lin (a : R) z fmin fmax N j d : cross (map (Cmult (RtoC a)) z) fmin fmax N j d = (RtoC (a ^ 2) * cross z fmin fmax N j d)%C.
Proof. unfold cross. unfold Cdiv. rewrite Cmult_assoc, <- csum_scal_l. f_equal. apply csum_ext. intros k _. rewrite !mell_lin, Cconj_mult. replace (Cconj (RtoC a)) with (RtoC a) by (apply injective_projections; cbn; ring). replace (RtoC (a ^ 2)) with (RtoC a * RtoC a)%C by (rewrite <- RtoC_mult; f_equal; ring). ring. Qed.
(** Multiplying the signal by a real number multiplies the result by its square. *)
Lemma c85_scale : forall a x fmin fmax N w tau theta, a <> 0%R -> 2 <= zlen x -> (0 < fmin < fmax)%R -> (fmax <= 1 / 2)%R -> 2 <= N ->
  wide_band x (Some fmin) (Some fmax) (Some N) = Ok (Some (w, tau, theta)) ->
  exists w', wide_band (map (fun v => RtoC a * v)%C x) (Some fmin) (Some fmax) (Some N) = Ok (Some (w', tau, theta)) /\
    forall r i, 0 <= r < N -> 0 <= i < zlen x -> at2 w' r i = (RtoC (a ^ 2) * at2 w r i)%C.
Proof.
  intros a x fmin fmax N w tau theta Ha Hn Hf Hm HN H. destruct (hil_ok (map Re x)) as [z Hz]; [destruct x; [unfold zlen in Hn; cbn in Hn; lia|discriminate]|].
  set (x' := map (fun v => RtoC a * v)%C x). assert (EX : map Re x' = map (Rmult a) (map Re x)) by (unfold x'; rewrite !map_map; apply map_ext; intros [u v]; cbn; ring).
  assert (Hz' : hilbert (map Re x') = Ok (map (Cmult (RtoC a)) z)) by (rewrite EX; now apply hil_lin). assert (L' : zlen x' = zlen x) by (unfold x'; apply zlen_map).
  assert (V := wb_run_value x z fmin fmax N Hn Hf Hm HN Hz). assert (V' := wb_run_value x' _ fmin fmax N ltac:(lia) Hf Hm HN Hz'). cbn zeta in V, V'. rewrite cross_lin in V'. rewrite L' in V'.
  destruct (c85_value x z fmin fmax N Hn Hf Hm HN Hz) as [V0 V1]. destruct (c85_value x' _ fmin fmax N ltac:(lia) Hf Hm HN Hz') as [V0' V1']. rewrite !cross_lin, L' in *.
  set (c := cross z fmin fmax N (if Z.even N then -1 else 0) (-1)) in *. destruct (Ceq_dec c (RtoC 0)) as [C0|C0]; [rewrite V0 in H by exact C0; discriminate|].
  assert (A2 : (a ^ 2 <> 0)%R) by (apply pow_nonzero; exact Ha). assert (C1 : (RtoC (a ^ 2) * c)%C <> RtoC 0) by (apply Cmult_neq_0; [intros Q; apply RtoC_inj in Q; contradiction|exact C0]).
  destruct (V1 C0) as (w1 & tau1 & theta1 & E1 & _ & _ & A). destruct (V1' C1) as (w2 & tau2 & theta2 & E2 & _ & _ & B). destruct (Ceq_dec (RtoC (a ^ 2) * c)%C (RtoC 0)) as [|_]; [contradiction|].
  assert (IJ : w1 = w) by congruence. subst w1. exists w2. split.
  - rewrite E2. rewrite H in V. rewrite E2 in V'. do 2 f_equal. injection V as _ -> ->. assert (IJ : forall (u v : list (list C)) (p p' : list Z) (t t' : list R), Ok (Some (u, p, t)) = Ok (Some (v, p', t')) -> p = p' /\ t = t') by (intros; split; congruence). apply IJ in V'. destruct V' as [-> ->]. reflexivity.
  - intros r i Hr Hi. rewrite A, B by lia. rewrite cross_lin. rewrite EX.
    replace (map RtoC (map (Rmult a) (map Re x))) with (map (Cmult (RtoC a)) (map RtoC (map Re x))) by (rewrite !map_map; apply map_ext; intros; symmetry; apply RtoC_mult). rewrite fft_lin.
    rewrite (map_ext (fun v => v * RtoC a)%C (Cmult (RtoC a))) by (intros; ring).
    set (l := arange (ZnearestE _) _). set (X := fft _). rewrite (rsum_ext l (fun k => _) (fun k => a ^ 2 * ((if (k =? 0)%Z then 1 else 2) * Cmod (cnth X k)) ^ 2)%R).
    2:{ intros k _. rewrite cnth_lin, Cmod_mult, Cmod_R. rewrite !Rpow_mult_distr. rewrite pow2_abs. ring. }
    rewrite rsum_scal_l, RtoC_mult. field. repeat split; auto; intros Q; apply RtoC_inj in Q; revert Q; try assumption; apply IZR_neq; lia.
Qed.
(** A unit pulse in the last of two samples: the origin does not carry the band energy. *)
Lemma hil_2 x : zlen x = 2 -> hilbert x = Ok (map RtoC x).
Proof.
  intros L. unfold hilbert. rewrite L. cbn [Z.eqb]. f_equal. rewrite <- (ifft_fft (map RtoC x)) at 2. f_equal. set (X := fft _). assert (LX : zlen X = 2) by (unfold X; rewrite fft_zlen, zlen_map; exact L).
  destruct X as [|a [|b [|? X]]]; unfold zlen in LX; cbn [length] in LX; try lia. change (arange 0 2) with [0; 1]. cbn [zipw]. change (hfac 2 0) with 1%R. change (hfac 2 1) with 1%R. now rewrite !Cmult_1_r.
Qed.
Lemma half_round_2 : half_round 2 = 1.
Proof. destruct (half_round_spec 2) as [H|[H _]]; lia. Qed.
Definition pulse2 : list C := [RtoC 0; RtoC 1].
Lemma pulse2_spec f : spec_at pulse2 f = RtoC 1.
Proof.
  unfold spec_at. change (zlen pulse2) with 2. rewrite half_round_2. change (arange 0 2) with [0; 1]. rewrite !csum_cons, csum_nil. change (1 - 1) with 0. rewrite Rmult_0_l, Rmult_0_r, Ropp_0, cis_0.
  change (cnth pulse2 0) with (RtoC 0). change (cnth pulse2 1) with (RtoC 1). ring.
Qed.
Lemma pulse2_voice : voice (1 / 8) (1 / 2) 2 0 = (1 / 8)%R /\ voice (1 / 8) (1 / 2) 2 1 = (1 / 2)%R.
Proof.
  unfold voice. change (2 - 1) with 1. replace (1 / 2 / (1 / 8))%R with 4%R by field. replace (0 / 1)%R with 0%R by field. replace (1 / 1)%R with 1%R by field. rewrite Rpower_O, Rpower_1 by lra. split; field.
Qed.
Lemma pulse2_mell d p : mell pulse2 (1 / 8) (1 / 2) 2 d p = ((cis (- (2 * PI * (IZR d * (1 / 8)))) + RtoC 2 * cis (- (2 * PI * (IZR d * (1 / 2)))) * root 4 p) / RtoC 4)%C.
Proof.
  unfold mell. change (arange 0 2) with [0; 1]. rewrite !csum_cons, csum_nil, !pulse2_spec. destruct pulse2_voice as [-> ->]. change (2 - 1) with 1. change (2 * 2) with 4. rewrite Z.mul_0_r, Z.mul_1_r, root_0.
  replace (1 / 2 / (1 / 8))%R with 4%R by field. replace (0 / 2 / 1)%R with 0%R by field. replace (1 / 2 / 1)%R with (/ 2)%R by field. rewrite Rpower_O, Rpower_sqrt by lra. replace (sqrt 4) with 2%R by (replace 4%R with (2 * 2)%R by ring; rewrite sqrt_square; lra).
  f_equal. ring.
Qed.
Lemma root4_m2 : root 4 (-2) = RtoC (-1).
Proof. change (-2) with (- (2)). rewrite (root_opp 4 2), (root_half 2 ltac:(lia) : root 4 2 = _). apply injective_projections; cbn; ring. Qed.
Lemma root4_m1 : root 4 (-1) = (- Ci)%C.
Proof. change (-1) with (- (1)). rewrite (root_opp 4 1), root_4, (proj1 cis_pi2). apply injective_projections; cbn; ring. Qed.
Lemma pulse2_00 : cross pulse2 (1 / 8) (1 / 2) 2 0 0 = RtoC (3 / 16).
Proof.
  unfold cross. change (arange (- (2)) 0) with [-2; -1]. rewrite !csum_cons, csum_nil, !pulse2_mell, root4_m2, root4_m1, !Z.mul_0_r, root_0. rewrite !Rmult_0_l, !Rmult_0_r, !Ropp_0, cis_0.
  apply injective_projections; cbn; field.
Qed.
Lemma pulse2_ref : Im (cross pulse2 (1 / 8) (1 / 2) 2 (-1) (-1)) <> 0%R.
Proof.
  unfold cross. change (arange (- (2)) 0) with [-2; -1]. rewrite !csum_cons, csum_nil, !pulse2_mell, root4_m2, root4_m1.
  change (-2 * -1) with (2 * 1). change (-1 * -1) with 1. rewrite (root_n 2 1) by lia. rewrite (root_half 1 ltac:(lia) : root 2 1 = _). rewrite !Rmult_0_l, !Rmult_0_r, !Ropp_0, cis_0.
  replace (- (2 * PI * (-1 * (1 / 8))))%R with (PI / 4)%R by field. replace (- (2 * PI * (-1 * (1 / 2))))%R with PI by field. rewrite cis_PI. unfold cis. rewrite cos_PI4, sin_PI4.
  assert (S2 := sqrt_lt_R0 2 ltac:(lra)). set (s := sqrt 2) in *.
  match goal with |- Im ?e <> _ => replace (Im e) with ((2 + 4 / s) / 32)%R by (cbn; field; lra) end.
  assert (0 < 4 / s)%R by (apply Rdiv_lt_0_compat; lra). lra.
Qed.
Lemma near_zero v : ZnearestE (v * IZR (2 - 2)) = 0.
Proof. change (2 - 2) with 0. rewrite Rmult_0_r. apply (Zrnd_IZR ZnearestE 0). Qed.
Lemma pulse2_sum : rsum (arange 0 (0 + 1)) (fun k => ((if (k =? 0)%Z then 1 else 2) * Cmod (cnth (fft (map RtoC (map Re pulse2))) k)) ^ 2)%R = 1%R.
Proof.
change (arange 0 (0 + 1)) with [0]. rewrite rsum_cons, rsum_nil. change (0 =? 0)%Z with true. cbv iota. rewrite fft_nth by (change (zlen (map RtoC (map Re pulse2))) with 2; lia). change (zlen (map RtoC (map Re pulse2))) with 2. change (arange 0 2) with [0; 1].
    rewrite !csum_cons, csum_nil. change (cnth (map RtoC (map Re pulse2)) 0) with (RtoC 0). change (cnth (map RtoC (map Re pulse2)) 1) with (RtoC 1). change (- (0 * 1)) with 0. change (- (0 * 0)) with 0. rewrite !root_0. replace (RtoC 0 * RtoC 1 + (RtoC 1 * RtoC 1 + RtoC 0))%C with (RtoC 1) by ring. rewrite Cmod_R, Rabs_R1. ring.
Qed.
Lemma pulse2_energy : aff_mult pulse2 2 (1 / 8) (1 / 2) = Ok 1%R.
Proof.
  destruct (c68_inband pulse2 (1 / 8) (1 / 2) ltac:(change (zlen pulse2) with 2; lia) ltac:(lra) ltac:(lra)) as (_ & _ & Q). change (zlen pulse2) with 2 in Q. rewrite !near_zero, pulse2_sum in Q. exact Q.
Qed.
Lemma c85_origin_refuted : exists x fmin fmax N w tau theta, (0 < fmin < fmax)%R /\ (fmax <= 1 / 2)%R /\ wide_band x (Some fmin) (Some fmax) (Some N) = Ok (Some (w, tau, theta)) /\
  nth 1 tau 1 = 0 /\ aff_mult x (zlen x) fmin fmax = Ok 1%R /\ at2 w 1 1 <> RtoC (1 / IZR N).
Proof.
  assert (Hf : (0 < 1 / 8 < 1 / 2)%R) by lra. assert (Hm : (1 / 2 <= 1 / 2)%R) by lra. assert (HZ : hilbert (map Re pulse2) = Ok pulse2) by (rewrite hil_2 by reflexivity; reflexivity).
  set (c := cross pulse2 (1 / 8) (1 / 2) 2 (-1) (-1)). assert (C0 : c <> RtoC 0) by (intros Q; apply pulse2_ref; fold c; rewrite Q; reflexivity).
  destruct (c85_value pulse2 pulse2 (1 / 8) (1 / 2) 2 ltac:(change (zlen pulse2) with 2; lia) Hf Hm ltac:(lia) HZ) as [_ V]. destruct (V C0) as (w & tau & theta & E & _ & _ & A).
  exists pulse2, (1 / 8)%R, (1 / 2)%R, 2, w, tau, theta. split; [exact Hf|]. split; [exact Hm|]. split; [exact E|].
  assert (P := c85_peak pulse2 (1 / 8) (1 / 2) 2 w tau theta ltac:(change (zlen pulse2) with 2; lia) Hf Hm ltac:(lia) E). change (zlen pulse2) with 2 in *. cbn zeta in P. rewrite half_round_2 in *. split; [exact (proj1 P)|].
  rewrite !near_zero in A.
  rewrite pulse2_sum in A. split.
  - exact pulse2_energy.
  - rewrite A by lia. change (2 / 2) with 1. change (1 - 1) with 0. change (cross pulse2 (1 / 8) (1 / 2) 2 (if Z.even 2 then -1 else 0) (-1)) with c. rewrite pulse2_00. intros Q.
    assert (Q' : c = RtoC (3 / 16)). { assert (T2 : RtoC 2 <> RtoC 0) by (intros Q2; apply RtoC_inj in Q2; lra). apply (f_equal (fun v => v * c * RtoC 2)%C) in Q. rewrite (RtoC_div 1 2) in Q by lra. transitivity (RtoC 1 / RtoC (IZR 2) * c * RtoC 2)%C; [field; exact T2|]. rewrite <- Q. field. split; assumption. }
    apply pulse2_ref. fold c. rewrite Q'. reflexivity.
Qed.

(** *** C84: outcomes and axes *)
Lemma c84_axes : forall x fmin fmax N w tau theta, 2 <= zlen x -> (0 < fmin < fmax)%R -> (fmax <= 1 / 2)%R -> 2 <= N ->
  wide_band x (Some fmin) (Some fmax) (Some N) = Ok (Some (w, tau, theta)) ->
  zlen w = zlen x /\ (forall col, In col w -> zlen col = N) /\
  tau = map (fun i => i - half_round (zlen x)) (arange 0 (zlen x)) /\
  zlen theta = N /\ (forall k, 0 <= k < N -> rnth theta k = (ln (fmax / fmin) * (2 * IZR k / IZR (N - 1) - 1))%R) /\
  rnth theta 0 = (- ln (fmax / fmin))%R /\ rnth theta (N - 1) = ln (fmax / fmin).
Proof.
  intros x fmin fmax N w tau theta Hn Hf Hm HN H. destruct (hil_ok (map Re x)) as [z Hz]; [destruct x; [unfold zlen in Hn; cbn in Hn; lia|discriminate]|].
  assert (V := wb_run_value x z fmin fmax N Hn Hf Hm HN Hz). cbn zeta in V. destruct (c85_value x z fmin fmax N Hn Hf Hm HN Hz) as [V0 V1].
  set (c := cross z fmin fmax N (if Z.even N then -1 else 0) (-1)) in *. destruct (Ceq_dec c (RtoC 0)) as [C0|C0]; [rewrite V0 in H by exact C0; discriminate|].
  destruct (V1 C0) as (w' & tau' & theta' & E' & L1 & L2 & _). rewrite E' in H. assert (w' = w) by congruence. subst w'. rewrite E' in V. split; [exact L1|]. split; [exact L2|].
  assert (T1 : tau = map (fun i => i - half_round (zlen x)) (arange 0 (zlen x))) by congruence. assert (T2 : theta = map (fun k => ln (fmax / fmin) * (2 * IZR k / IZR (N - 1) - 1))%R (arange 0 N)) by congruence.
  assert (A : forall k, 0 <= k < N -> rnth theta k = (ln (fmax / fmin) * (2 * IZR k / IZR (N - 1) - 1))%R) by (intros k Hk; rewrite T2, rnth_map_arange by lia; now rewrite Z.add_0_l).
  assert (P : IZR (N - 1) <> 0%R) by (apply IZR_neq; lia). split; [exact T1|]. split; [rewrite T2; rewrite zlen_map_arange; lia|]. split; [exact A|]. rewrite !A by lia. split; field; exact P.
Qed.
(** For an even number of voices (every default) no row is labelled with the
    logarithm 0 of the scale 1; the row N / 2, which is the scale 1, is
    labelled ln(fmax / fmin) / (N - 1). *)
Lemma c84_theta_refuted : forall x fmin fmax N w tau theta, 2 <= zlen x -> (0 < fmin < fmax)%R -> (fmax <= 1 / 2)%R -> 2 <= N -> Z.even N = true ->
  wide_band x (Some fmin) (Some fmax) (Some N) = Ok (Some (w, tau, theta)) ->
  (forall k, 0 <= k < N -> rnth theta k <> 0%R) /\ (rnth theta (N / 2) = ln (fmax / fmin) / IZR (N - 1) /\ 0 < rnth theta (N / 2))%R.
Proof.
  intros x fmin fmax N w tau theta Hn Hf Hm HN EV H. destruct (c84_axes x fmin fmax N w tau theta Hn Hf Hm HN H) as (_ & _ & _ & _ & A & _). apply Z.even_spec in EV. destruct EV as [h ->].
  assert (L := ratio_gt_1 _ _ Hf). assert (P : (0 < IZR (2 * h - 1))%R) by (apply IZR_lt; lia). split.
  - intros k Hk. rewrite A by lia. apply Rmult_integral_contrapositive_currified; [lra|]. intros Q. assert (Q' : (2 * IZR k = IZR (2 * h - 1))%R) by (apply (Rmult_eq_reg_r (/ IZR (2 * h - 1))); [|apply Rinv_neq_0_compat; lra]; rewrite Rinv_r by lra; unfold Rdiv in Q; lra).
    rewrite <- mult_IZR in Q'. apply eq_IZR in Q'. lia.
  - replace (2 * h / 2) with h by (Z.to_euclidean_division_equations; lia). assert (E : rnth theta h = (ln (fmax / fmin) / IZR (2 * h - 1))%R).
    { rewrite A by lia. replace (IZR h) with ((IZR (2 * h - 1) + 1) / 2)%R by (rewrite minus_IZR, mult_IZR; field). field. lra. }
    split; [exact E|]. rewrite E. apply Rdiv_lt_0_compat; lra.
Qed.
Lemma c84_raises : forall fmin fmax N x, (0 < fmin)%R -> (0 < fmax)%R ->
  wide_band [] (Some fmin) (Some fmax) (Some N) = Raise ValueError /\
  (x <> [] -> wide_band x (Some fmin) (Some fmin) (Some N) = Raise ZeroDivisionError) /\
  (x <> [] -> fmin <> fmax -> wide_band x (Some fmin) (Some fmax) (Some 1) = Raise ZeroDivisionError) /\
  (x <> [] -> fmin <> fmax -> N <= 0 -> wide_band x (Some fmin) (Some fmax) (Some N) = Raise ValueError).
Proof.
  intros fmin fmax N x H1 H2. split; [reflexivity|].
  assert (HZ : x <> [] -> exists z, hilbert (map Re x) = Ok z) by (intros X; apply hil_ok; destruct x; [contradiction|discriminate]).
  split; [|split].
  - intros X. destruct (HZ X) as [z Z0]. unfold wide_band. rewrite Z0. cbn [bind wb_band]. unfold wb_size. destruct (Req_EM_T fmin fmin); [reflexivity|contradiction].
  - intros X NE. destruct (HZ X) as [z Z0]. unfold wide_band. rewrite Z0. cbn [bind wb_band]. unfold wb_size. destruct (Req_EM_T fmin fmax); [contradiction|]. reflexivity.
  - intros X NE HN. destruct (HZ X) as [z Z0]. unfold wide_band. rewrite Z0. cbn [bind wb_band]. unfold wb_size. destruct (Req_EM_T fmin fmax); [contradiction|]. cbn [bind]. unfold wb_run.
    destruct (Z.eqb_spec N 1); [lia|]. destruct (Z.leb_spec N 0); [reflexivity|lia].
Qed.
(** The default number of voices. *)
Lemma c84_default_voices : forall x fmin fmax, 2 <= zlen x -> (0 < fmin < fmax)%R ->
  let q := even_part (Zceil (fmax * IZR (zlen x - 1) * ln (fmax / fmin))) in
  (q = 0 -> wide_band x (Some fmin) (Some fmax) None = Raise ValueError) /\
  (q <> 0 -> exists e, 1 <= e /\ q <= 2 ^ e /\ 2 ^ (e - 1) < q /\ wide_band x (Some fmin) (Some fmax) None = wide_band x (Some fmin) (Some fmax) (Some (2 ^ e))).
Proof.
  intros x fmin fmax Hn Hf q. destruct (hil_ok (map Re x)) as [z Hz]; [destruct x; [unfold zlen in Hn; cbn in Hn; lia|discriminate]|].
  assert (LZ : zlen z = zlen x) by (rewrite (hil_zlen _ _ Hz); now rewrite zlen_map). destruct (c80_voices fmin fmax (zlen x - 1) Hf ltac:(lia)) as [A B]. fold q in A, B.
  unfold wide_band. rewrite Hz. cbn [bind wb_band]. unfold wb_size. destruct (Req_EM_T fmin fmax); [lra|]. rewrite LZ. split; intros Q.
  - now rewrite A by exact Q.
  - destruct (B Q) as (e & E & E1 & E2 & E3). exists e. repeat split; auto. rewrite E. reflexivity.
Qed.
Example c84_example : exists w tau theta, wide_band [RtoC 0; RtoC 1] (Some (1 / 8)%R) (Some (1 / 2)%R) (Some 2) = Ok (Some (w, tau, theta)) /\ tau = [-1; 0] /\ theta = [- ln 4; ln 4]%R.
Proof.
  assert (Hf : (0 < 1 / 8 < 1 / 2)%R) by lra. assert (Hm : (1 / 2 <= 1 / 2)%R) by lra. assert (HZ : hilbert (map Re pulse2) = Ok pulse2) by (rewrite hil_2 by reflexivity; reflexivity).
  assert (C0 : cross pulse2 (1 / 8) (1 / 2) 2 (-1) (-1) <> RtoC 0) by (intros Q; apply pulse2_ref; rewrite Q; reflexivity).
  destruct (c85_value pulse2 pulse2 (1 / 8) (1 / 2) 2 ltac:(change (zlen pulse2) with 2; lia) Hf Hm ltac:(lia) HZ) as [_ V]. destruct (V C0) as (w & tau & theta & E & _ & _ & _). exists w, tau, theta.
  split; [exact E|]. destruct (c84_axes pulse2 (1 / 8) (1 / 2) 2 w tau theta ltac:(change (zlen pulse2) with 2; lia) Hf Hm ltac:(lia) E) as (_ & _ & -> & L & _ & A & B). change (zlen pulse2) with 2. rewrite half_round_2. split; [reflexivity|].
  replace (1 / 2 / (1 / 8))%R with 4%R in A, B by field. unfold zlen in L. destruct theta as [|a [|b [|? theta]]]; cbn [length] in L; try lia. unfold rnth in A, B. change (Z.to_nat 0) with 0%nat in A. change (Z.to_nat (2 - 1)) with 1%nat in B. cbn [nth] in A, B. now rewrite A, B.
Qed.
Example c85_example : exists w tau theta, wide_band [RtoC 0; RtoC 1] (Some (1 / 8)%R) (Some (1 / 2)%R) (Some 2) = Ok (Some (w, tau, theta)) /\ at2 w 0 0 = RtoC (1 / 2).
Proof.
  destruct c84_example as (w & tau & theta & E & _). exists w, tau, theta. split; [exact E|].
  destruct (c85_reference pulse2 (1 / 8) (1 / 2) 2 w tau theta ltac:(change (zlen pulse2) with 2; lia) ltac:(lra) ltac:(lra) ltac:(lia) E) as [A _]. change (zlen pulse2) with 2 in A. rewrite half_round_2 in A. change (at2 w 0 0 = RtoC (1 / 2)). change (2 / 2 - (if Z.even 2 then 1 else 0)) with 0 in A. change (1 - 1) with 0 in A. rewrite A. f_equal. f_equal.
  destruct (c68_inband pulse2 (1 / 8) (1 / 2) ltac:(change (zlen pulse2) with 2; lia) ltac:(lra) ltac:(lra)) as (_ & _ & Q). change (zlen pulse2) with 2 in Q.
  assert (IJ : forall a b : R, Ok a = Ok b -> a = b) by congruence. apply IJ. rewrite <- Q. exact pulse2_energy.
Qed.

(** *** C86: the default band of the wide-band function *)
Lemma zmin_spec l v : zmin_list l = Ok v -> In v l /\ forall k, In k l -> v <= k.
Proof.
  destruct l as [|a l]; [discriminate|]. cbn [zmin_list]. intros H. injection H as <-. revert a. induction l as [|b l IH]; intros a; cbn [fold_left].
  - split; [now left|]. intros k [<-|[]]. lia.
  - destruct (IH (Z.min a b)) as [H1 H2]. split.
    + destruct H1 as [H1|H1]; [|right; now right]. rewrite <- H1. destruct (Z.min_spec a b) as [[_ ->]|[_ ->]]; cbn; auto.
    + assert (M := H2 _ (or_introl eq_refl)). intros k [<-|[<-|Hk]]; [lia|lia|]. apply H2. now right.
Qed.
Lemma zmax_spec l v : zmax_list l = Ok v -> In v l /\ forall k, In k l -> k <= v.
Proof.
  destruct l as [|a l]; [discriminate|]. cbn [zmax_list]. intros H. injection H as <-. revert a. induction l as [|b l IH]; intros a; cbn [fold_left].
  - split; [now left|]. intros k [<-|[]]. lia.
  - destruct (IH (Z.max a b)) as [H1 H2]. split.
    + destruct H1 as [H1|H1]; [|right; now right]. rewrite <- H1. destruct (Z.max_spec a b) as [[_ ->]|[_ ->]]; cbn; auto.
    + assert (M := H2 _ (or_introl eq_refl)). intros k [<-|[<-|Hk]]; [lia|lia|]. apply H2. now right.
Qed.
(** lo and hi are the first and the last index above one hundredth of the maximum. *)
Definition bounds (sp : list R) (lo hi : Z) : Prop :=
  exists mx, is_max sp mx /\ 0 <= lo <= hi /\ hi < zlen sp /\ (mx / 100 < rnth sp lo)%R /\ (mx / 100 < rnth sp hi)%R /\
  forall k, 0 <= k < zlen sp -> (mx / 100 < rnth sp k)%R -> lo <= k <= hi.
Lemma in_rnth sp (v : R) : In v sp -> exists k, 0 <= k < zlen sp /\ rnth sp k = v.
Proof. intros H. apply (In_nth _ _ 0%R) in H. destruct H as (k & H1 & H2). exists (Z.of_nat k). unfold rnth, zlen. rewrite Nat2Z.id. split; [lia|exact H2]. Qed.
Lemma rnth_in sp k : 0 <= k < zlen sp -> In (rnth sp k) sp.
Proof. intros H. apply nth_In. unfold zlen in H. lia. Qed.
Lemma loud_bounds sp : (forall v, In v sp -> (0 <= v)%R) -> (exists v, In v sp /\ (0 < v)%R) ->
  exists l lo hi, loud sp = Ok l /\ zmin_list l = Ok lo /\ zmax_list l = Ok hi /\ bounds sp lo hi.
Proof.
  intros P0 (v & Hv & Pv). assert (NE : sp <> []) by (intros ->; contradiction). destruct (rmax_ok sp NE) as (mx & EM & IM). unfold loud. rewrite EM. cbn [bind]. set (l := filter _ _).
  assert (PM : (0 < mx)%R) by (assert (Q := proj2 IM v Hv); lra). destruct (in_rnth sp mx (proj1 IM)) as (k0 & K0 & V0).
  assert (IL : forall k, In k l <-> 0 <= k < zlen sp /\ (mx / 100 < rnth sp k)%R).
  { intros k. unfold l. rewrite filter_In, in_arange. destruct (Rlt_dec (mx / 100) (rnth sp k)); intuition discriminate. }
  assert (I0 : In k0 l) by (apply IL; rewrite V0; split; [exact K0|lra]). exists l.
  destruct (zmin_list l) as [lo|] eqn:E1; [|destruct l; [contradiction|discriminate]]. destruct (zmax_list l) as [hi|] eqn:E2; [|destruct l; [contradiction|discriminate]].
  exists lo, hi. split; [reflexivity|]. split; [reflexivity|]. split; [reflexivity|]. destruct (zmin_spec _ _ E1) as [A1 A2]. destruct (zmax_spec _ _ E2) as [B1 B2].
  assert (A3 := A2 _ B1). apply IL in A1. apply IL in B1. exists mx. split; [exact IM|]. split; [lia|]. split; [lia|]. split; [tauto|]. split; [tauto|]. intros k K1 K2. assert (K3 : In k l) by (apply IL; auto). split; auto.
Qed.
Lemma loud_silent sp : sp <> [] -> (forall v, In v sp -> v = 0%R) -> loud sp = Ok [].
Proof.
  intros NE Z0. destruct (rmax_ok sp NE) as (mx & EM & IM). unfold loud. rewrite EM. cbn [bind]. f_equal. apply T_post3.filter_none. intros k Hk. apply in_arange in Hk. rewrite (Z0 mx (proj1 IM)), (Z0 (rnth sp k)) by (apply rnth_in; lia).
  destruct (Rlt_dec (0 / 100) 0); [lra|reflexivity].
Qed.
Lemma trunc_floor v : (0 <= v)%R -> Ztrunc v = Zfloor v.
Proof. apply Ztrunc_floor. Qed.
(** What is bracketed is the envelope of the signal: sample (k + ceil(n/2))
    mod n of the analytic signal is read as the power at frequency k / (2 m). *)
Definition envelope (z : list C) (m : Z) : list R := map (fun k => Cmod (cnth z ((k + (zlen z + 1) / 2) mod zlen z)) ^ 2)%R (arange 0 m).
Lemma fftshift_at (l : list C) : l <> [] -> fftshift l = map (fun k => cnth l ((k + (zlen l + 1) / 2) mod zlen l)) (arange 0 (zlen l)).
Proof.
  intros NE. assert (L : 0 < zlen l) by (destruct l; [contradiction|unfold zlen; cbn; lia]). set (n := zlen l) in *. set (h := (n + 1) / 2). assert (B : 0 < h <= n) by (unfold h; Z.to_euclidean_division_equations; lia).
  rewrite (list_as_map (fftshift l)). assert (LF : zlen (fftshift l) = n) by (unfold fftshift; set (j := Z.to_nat _); clearbody j; unfold n, zlen; rewrite app_length, skipn_length, firstn_length; lia).
  rewrite LF. apply map_ext_in. intros k Hk. apply in_arange in Hk. unfold fftshift. fold n. fold h. unfold cnth at 1.
  assert (LS : length (skipn (Z.to_nat h) l) = Z.to_nat (n - h)) by (rewrite skipn_length; unfold n, zlen; lia).
  destruct (Z.lt_ge_cases k (n - h)) as [K|K].
  - rewrite app_nth1 by lia. rewrite nth_skipn. rewrite Z.mod_small by lia. unfold cnth. f_equal. lia.
  - rewrite app_nth2 by lia. rewrite LS. replace ((k + h) mod n) with (k + h - n) by (apply (Z.mod_unique_pos _ _ 1); lia).
    replace (Z.to_nat k - Z.to_nat (n - h))%nat with (Z.to_nat (k + h - n)) by lia. exact (cnth_prefix l h (k + h - n) ltac:(lia)).
Qed.
Lemma envelope_eq (z : list C) m : z <> [] -> 0 <= m <= zlen z -> prefix (map (fun v => Cmod v ^ 2)%R (fftshift z)) m = envelope z m.
Proof.
  intros NE Hm. rewrite fftshift_at by exact NE. rewrite map_map. unfold prefix, envelope. replace (Z.to_nat m) with (Z.to_nat (m - 0)) by (f_equal; lia). rewrite firstn_map_arange by lia. reflexivity.
Qed.
Lemma band_pos n k : 2 <= n -> (band_freq n k / (5 / 100) = 10 * IZR k / IZR (half_round n))%R.
Proof. intros Hn. assert (M := middle n Hn). unfold band_freq. field. apply IZR_neq. lia. Qed.
Lemma c86_band : forall x z N, 2 <= zlen x -> hilbert (map Re x) = Ok z ->
  let n := zlen x in let m := half_round n in
  (exists k, 0 <= k < m /\ cnth z ((k + (n + 1) / 2) mod n) <> RtoC 0) ->
  exists lo hi, bounds (envelope z m) lo hi /\
  let a := Rmax (1 / 100) (5 / 100 * IZR (Zfloor (10 * IZR lo / IZR m))) in
  let b := (5 / 100 * IZR (Zceil (10 * IZR hi / IZR m)))%R in
  (a <> b -> wide_band x None None N = wide_band x (Some a) (Some b) N).
Proof.
  intros x z N Hn Hz n m (k & Hk & NZ). assert (LZ : zlen z = n) by (rewrite (hil_zlen _ _ Hz); now rewrite zlen_map). assert (M := middle n Hn). fold m in M.
  assert (NE : z <> []) by (intros ->; unfold zlen in LZ; cbn in LZ; lia).
  destruct (loud_bounds (envelope z m)) as (l & lo & hi & E1 & E2 & E3 & B).
  - intros v Hv. apply in_map_iff in Hv. destruct Hv as (i & <- & _). apply pow2_ge_0.
  - exists (Cmod (cnth z ((k + (n + 1) / 2) mod n)) ^ 2)%R. split; [|apply pow_lt, Cmod_gt_0, NZ]. unfold envelope. rewrite LZ. apply in_map_iff. exists k. split; [reflexivity|apply in_arange; lia].
  - exists lo, hi. split; [exact B|]. cbv zeta. intros AB. unfold wide_band. rewrite Hz. cbn [bind]. unfold wb_band. cbv zeta. rewrite LZ. fold m. rewrite envelope_eq by (auto; lia). rewrite E1. cbn [bind]. rewrite E2, E3. cbn [bind].
    assert (PM : (0 < IZR m)%R) by (apply IZR_lt; lia). destruct B as (mx & _ & BL & _).
    rewrite trunc_floor. 2:{ rewrite band_pos by lia. fold m. apply Rmult_le_pos; [|left; now apply Rinv_0_lt_compat]. assert (0 <= IZR lo)%R by (apply IZR_le; lia). lra. }
    rewrite !band_pos by lia. fold m. unfold wb_size. destruct (Req_EM_T _ _) as [Q|_]; [contradiction|]. reflexivity.
Qed.
(** A silent first half of the shifted envelope. *)
Lemma c86_silent : forall x z fmin N, 0 < zlen x -> hilbert (map Re x) = Ok z ->
  let n := zlen x in
  (forall k, 0 <= k < half_round n -> cnth z ((k + (n + 1) / 2) mod n) = RtoC 0) ->
  wide_band x fmin None N = Raise ValueError /\ wide_band x None fmin N = Raise ValueError.
Proof.
  intros x z fmin N Hn Hz n NZ. assert (LZ : zlen z = n) by (rewrite (hil_zlen _ _ Hz); now rewrite zlen_map).
  assert (NE : z <> []) by (intros ->; unfold zlen in LZ; cbn in LZ; lia).
  assert (R0 := half_round_range n Hn).
  set (sp := prefix (map (fun v => Cmod v ^ 2)%R (fftshift z)) (half_round (zlen z))). assert (Q : loud sp = Raise ValueError \/ loud sp = Ok []).
  { unfold sp. rewrite LZ, envelope_eq by (auto; lia). destruct (Z.eq_dec (half_round n) 0) as [->|N0]; [left; reflexivity|]. right. apply loud_silent.
    - unfold envelope. intros Q. apply map_eq_nil in Q. apply (f_equal (@length Z)) in Q. rewrite arange_length in Q. cbn in Q. lia.
    - intros v Hv. apply in_map_iff in Hv. destruct Hv as (k & <- & Hk). apply in_arange in Hk. rewrite LZ, NZ by lia. rewrite Cmod_0. ring. }
  assert (W : forall a b, (a = None \/ b = None) -> wb_band z a b = Raise ValueError).
  { intros a b AB. unfold wb_band. cbv zeta. fold sp. destruct Q as [-> | ->]; destruct AB as [-> | ->]; try destruct a; try destruct b; reflexivity. }
  unfold wide_band. rewrite Hz. cbn [bind]. rewrite !W by auto. split; reflexivity.
Qed.
(** A real tone of any frequency k / n below the Nyquist frequency: its
    envelope is constant, so the band is 0.01 to (about) 0.5 whatever k is. *)
Definition tone (n k : Z) : list C := map (fun i => RtoC (cos (2 * PI * IZR (k * i) / IZR n))) (arange 0 n).
Lemma cos_root n a : RtoC (cos (2 * PI * IZR a / IZR n)) = ((root n a + root n (- a)) / RtoC 2)%C.
Proof. rewrite root_opp. unfold root, cis. apply injective_projections; cbn; field. Qed.
Lemma tone_hil n k : 0 < k -> 2 * k < n -> hilbert (map Re (tone n k)) = Ok (map (fun i => root n (k * i)) (arange 0 n)).
Proof.
  intros Hk Kn. set (z := map (fun i => root n (k * i)) (arange 0 n)). assert (LZ : zlen z = n) by (unfold z; rewrite zlen_map_arange; lia).
  unfold hilbert. set (s := map Re (tone n k)). assert (LS : zlen s = n) by (unfold s, tone; rewrite zlen_map, zlen_map_arange; lia). rewrite LS. destruct (Z.eqb_spec n 0); [lia|]. f_equal.
  rewrite <- (ifft_fft z). f_equal. set (X := fft (map RtoC s)). assert (LX : zlen X = n) by (unfold X; rewrite fft_zlen, zlen_map; exact LS).
  assert (EZ : zipw (fun Y f => Y * RtoC (hfac n f))%C X (arange 0 n) = map (fun f => cnth X f * RtoC (hfac n f))%C (arange 0 n)).
  { rewrite (list_as_map X) at 1. rewrite LX. rewrite <- (map_id (arange 0 n)) at 2. apply (zipw_map (fun Y f => Y * RtoC (hfac n f))%C). }
  rewrite EZ, (list_as_map (fft z)), fft_zlen, LZ. apply map_ext_in. intros f Hf. apply in_arange in Hf. unfold X. rewrite !fft_nth by (rewrite ?zlen_map; lia). rewrite zlen_map, LS, LZ.
  assert (A : forall a, csum (arange 0 n) (fun i => root n (a * i) * root n (- (f * i)))%C = if ((a - f) mod n =? 0)%Z then RtoC (IZR n) else RtoC 0).
  { intros a. rewrite <- root_orth by lia. apply csum_ext. intros i _. rewrite <- root_plus. f_equal. ring. }
  rewrite (csum_ext _ (fun i => cnth z i * _)%C (fun i => root n (k * i) * root n (- (f * i)))%C).
  2:{ intros i Hi. apply in_arange in Hi. unfold z. rewrite cnth_map_arange by lia. now rewrite Z.add_0_l. }
  rewrite A. rewrite (csum_ext _ (fun i => cnth (map RtoC s) i * _)%C (fun i => / RtoC 2 * (root n (k * i) * root n (- (f * i)) + root n (- k * i) * root n (- (f * i))))%C).
  2:{ intros i Hi. apply in_arange in Hi. unfold s, tone. rewrite !map_map. rewrite cnth_map_arange by lia. rewrite Z.add_0_l. change (Re (RtoC (cos (2 * PI * IZR (k * i) / IZR n)))) with (cos (2 * PI * IZR (k * i) / IZR n)). rewrite cos_root. replace (- k * i) with (- (k * i)) by ring. unfold Cdiv. ring. }
  rewrite csum_scal_l, csum_plus, !A.
  assert (T2 : RtoC 2 <> RtoC 0) by (intros Q; apply RtoC_inj in Q; lra).
  unfold hfac. destruct (Z.eq_dec f k) as [->|NK].
  - rewrite Z.sub_diag, Z.mod_0_l by lia. cbn [Z.eqb]. destruct (Z.eqb_spec ((- k - k) mod n) 0) as [Q|_].
    + exfalso. replace (- k - k) with (n - 2 * k + (-1) * n) in Q by ring. rewrite Z.mod_add in Q by lia. rewrite Z.mod_small in Q; lia.
    + destruct (Z.eqb_spec k 0); [lia|]. destruct (Z.eqb_spec (2 * k) n); [lia|]. destruct (Z.ltb_spec (2 * k) n); [|lia]. field. exact T2.
  - assert (Q1 : (k - f) mod n <> 0). { intros Q. destruct (Z.lt_ge_cases f k) as [L|L]; [rewrite Z.mod_small in Q; lia|]. replace (k - f) with (n + k - f + (-1) * n) in Q by ring. rewrite Z.mod_add in Q by lia. rewrite Z.mod_small in Q; lia. }
    destruct (Z.eqb_spec ((k - f) mod n) 0); [contradiction|]. destruct (Z.eqb_spec ((- k - f) mod n) 0) as [Q|Q]; [|ring].
    assert (F : f = n - k). { destruct (Z.le_gt_cases (k + f) n) as [L|L]; [destruct (Z.eq_dec (k + f) n); [lia|]|].
      - replace (- k - f) with (n - k - f + (-1) * n) in Q by ring. rewrite Z.mod_add in Q by lia. rewrite Z.mod_small in Q; lia.
      - replace (- k - f) with (2 * n - k - f + (-2) * n) in Q by ring. rewrite Z.mod_add in Q by lia. rewrite Z.mod_small in Q; lia. }
    destruct (Z.eqb_spec f 0); [lia|]. destruct (Z.eqb_spec (2 * f) n); [lia|]. destruct (Z.ltb_spec (2 * f) n); [lia|]. ring.
Qed.
Lemma c86_spectrum_refuted : forall n k N, 0 < k -> 2 * k < n ->
  let m := half_round n in
  wide_band (tone n k) None None N = wide_band (tone n k) (Some (1 / 100)%R) (Some (5 / 100 * IZR (Zceil (10 * IZR (m - 1) / IZR m)))%R) N.
Proof.
  intros n k N Hk Kn m. assert (LT : zlen (tone n k) = n) by (unfold tone; rewrite zlen_map_arange; lia). assert (M := middle n ltac:(lia)). fold m in M.
  assert (M2 : 2 <= m) by (unfold m in *; destruct (half_round_spec n) as [S|[S S']]; [lia|]; destruct (Z.eq_dec (half_round n) 1) as [e|e]; [rewrite e in S'; discriminate|lia]).
  assert (W := c86_band (tone n k) _ N ltac:(lia) (tone_hil n k Hk Kn)). cbv zeta in W. rewrite LT in W. fold m in W. destruct W as (lo & hi & B & W).
  - exists 0. split; [lia|]. rewrite cnth_map_arange by (rewrite Z.sub_0_r; apply Z.mod_pos_bound; lia). apply root_neq_0.
  - assert (EV : envelope (map (fun i => root n (k * i)) (arange 0 n)) m = map (fun _ => 1%R) (arange 0 m)).
    { unfold envelope. apply map_ext. intros i. rewrite zlen_map_arange, Z.sub_0_r by lia. rewrite cnth_map_arange by (rewrite Z.sub_0_r; apply Z.mod_pos_bound; lia). rewrite Cmod_root. ring. }
    rewrite EV in B. destruct B as (mx & IM & B1 & B2 & _ & _ & B3). rewrite zlen_map_arange, Z.sub_0_r in * by lia.
    assert (MX : mx = 1%R) by (destruct IM as [IM _]; apply in_map_iff in IM; now destruct IM as (? & <- & _)). subst mx.
    assert (A : forall i, 0 <= i < m -> lo <= i <= hi) by (intros i Hi; apply B3; [exact Hi|]; rewrite rnth_map_arange by lia; lra).
    assert (lo = 0) by (specialize (A 0); lia). assert (hi = m - 1) by (specialize (A (m - 1)); lia). subst lo hi.
    assert (F0 : Zfloor (10 * 0 / IZR m) = 0) by (replace (10 * 0 / IZR m)%R with 0%R by (field; apply IZR_neq; lia); apply (Zfloor_IZR 0)).
    rewrite F0 in W. rewrite Rmult_0_r, Rmax_left in W by lra. apply W.
    assert (P : (0 < IZR m)%R) by (apply IZR_lt; lia). assert (CE := Zceil_ub (10 * IZR (m - 1) / IZR m)). assert (G : (5 <= 10 * IZR (m - 1) / IZR m)%R).
    { apply (Rmult_le_reg_r (IZR m)); [lra|]. unfold Rdiv. rewrite Rmult_assoc, Rinv_l by lra. rewrite minus_IZR. assert (2 <= IZR m)%R by (apply IZR_le; lia). lra. }
    intros Q. lra.
Qed.
Example c86_example : forall N, wide_band (tone 64 1) None None N = wide_band (tone 64 1) (Some (1 / 100)%R) (Some (1 / 2)%R) N.
Proof.
  intros N. rewrite (c86_spectrum_refuted 64 1 N) by lia. cbv zeta. assert (H : half_round 64 = 32) by (destruct (half_round_spec 64) as [H|[H _]]; lia). rewrite H. change (32 - 1) with 31.
  replace (Zceil (10 * 31 / 32)) with 10; [|symmetry; apply Zceil_imp; split; [change (10 - 1) with 9|]; lra]. replace (5 / 100 * 10)%R with (1 / 2)%R by field. reflexivity.
Qed.
(** An upper bound of zero, which the default can be when only the first bin is
    loud: every frequency is zero, the result is not a number. *)
Lemma c86_zero : forall x fmin N, x <> [] -> fmin <> 0%R -> 
  wide_band x (Some fmin) (Some 0%R) (Some N) = if N =? 1 then Raise ZeroDivisionError else if N <=? 0 then Raise ValueError else Ok None.
Proof.
  intros x fmin N Hx Hf. destruct (hil_ok (map Re x)) as [z Hz]; [destruct x; [congruence|discriminate]|]. unfold wide_band. rewrite Hz. cbn [bind wb_band]. unfold wb_size. destruct (Req_EM_T fmin 0); [contradiction|]. cbn [bind]. unfold wb_run. destruct (N =? 1); [reflexivity|]. destruct (N <=? 0); [reflexivity|]. destruct (Req_EM_T 0 0); [reflexivity|congruence].
Qed.
(** A two-sample signal always falls in this case: no entry of the result is a number. *)
Lemma c86_two_refuted : forall a b N, b <> 0%R -> 2 <= N -> wide_band [RtoC a; RtoC b] None None (Some N) = Ok None.
Proof.
  intros a b N Hb HN. destruct (c86_band [RtoC a; RtoC b] [RtoC a; RtoC b] (Some N) ltac:(unfold zlen; cbn; lia) ltac:(rewrite hil_2 by reflexivity; reflexivity)) as (lo & hi & (mx & _ & H1 & H2 & _) & E).
  - exists 0. change (zlen [RtoC a; RtoC b]) with 2. rewrite half_round_2. split; [lia|]. change ((0 + (2 + 1) / 2) mod 2) with 1. change (RtoC b <> RtoC 0). intros Q. apply RtoC_inj in Q. contradiction.
  - change (zlen [RtoC a; RtoC b]) with 2 in *. rewrite half_round_2 in *. change (zlen (envelope [RtoC a; RtoC b] 1)) with 1 in H2. assert (lo = 0) by lia. assert (hi = 0) by lia. subst lo hi. cbv zeta in E.
    replace (10 * 0 / 1)%R with 0%R in E by field. change (Zfloor 0) with (Zfloor (IZR 0)) in E. change (Zceil 0) with (Zceil (IZR 0)) in E. rewrite Zfloor_IZR, Zceil_IZR in E. rewrite Rmult_0_r in E. rewrite Rmax_left in E by lra.
    rewrite E by lra. rewrite c86_zero by (try discriminate; lra). destruct (Z.eqb_spec N 1); [lia|]. destruct (Z.leb_spec N 0); [lia|]. reflexivity.
Qed.
