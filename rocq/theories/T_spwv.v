(** C29, C74: the smoothed pseudo Wigner-Ville distribution. *)
From Coq Require Import Reals ZArith List Lia Lra Bool.
From Coquelicot Require Import Coquelicot.
From Verif Require Import Py Scalars CSum DFT Spec M_base M_stft M_cohen P_base P_stft P_wvd P_spec P_mh P_spwv.
Import ListNotations.
Local Open Scope Z_scope.

(** Integer timestamps: the call returns unless some timestamp lies strictly
    inside the signal by more than round(n/2) samples on both sides while the
    frequency window reaches round(n/2). *)
Lemma c29_spwv_outcome : forall x l n tw fw, 1 <= n -> zlen tw mod 2 = 1 -> zlen fw mod 2 = 1 ->
  let bad ti := round_half n + 1 <= ti <= zlen x - round_half n /\ round_half n <= (zlen fw - 1) / 2 in
  ((forall ti, In ti l -> ~ bad ti) /\
   exists m, spwv x (Some l) (Some n) (Some tw) (Some fw) = Ok m /\ zlen m = zlen l /\
     forall col, In (Some col) m -> zlen col = n) \/
  ((exists ti, In ti l /\ bad ti) /\
   spwv x (Some l) (Some n) (Some tw) (Some fw) = Raise IndexError).
Proof.
  intros x l n tw fw Hn Ht Hf bad. rewrite spwv_cases by (auto; lia).
  assert (Hb : forall ti, sp_bad (zlen x) (win_lh fw) n ti = true <-> bad ti).
  { intros ti. unfold sp_bad, bad, win_lh. rewrite !andb_true_iff, !Z.leb_le. lia. }
  destruct (existsb _ l) eqn:E.
  - right. split; auto. apply existsb_exists in E. destruct E as [ti [Hi E]]. exists ti. split; auto.
    now apply Hb.
  - left. split.
    + intros ti Hi B. apply Hb in B. assert (existsb (sp_bad (zlen x) (win_lh fw) n) l = true); [|congruence].
      apply existsb_exists. eauto.
    + eexists. split; [reflexivity|]. split; [apply zlen_map|].
      intros col H. apply in_map_iff in H. destruct H as [ti [H _]].
      destruct (sp_isnan _ _ _ _ _); [discriminate|].
      replace col with (map Re (fft (scatter n (sp_lags (sp_m x tw fw n ti)) (sp_val x tw fw ti)))) by congruence.
      rewrite zlen_map, fft_zlen, scatter_zlen; lia.
Qed.

Lemma c29_even_window : forall x ts n tw fw,
  (forall tw', zlen fw mod 2 = 0 -> spwv x ts n tw' (Some fw) = Raise ValueError) /\
  (zlen tw mod 2 = 0 -> zlen fw mod 2 = 1 -> spwv x ts n (Some tw) (Some fw) = Raise ValueError).
Proof.
  intros x ts n tw fw. split.
  - intros tw' E. unfold spwv. rewrite E. reflexivity.
  - intros E F. unfold spwv. rewrite F, E. reflexivity.
Qed.

Lemma spwv_column x l n tw fw m i ti col : 1 <= n -> zlen tw mod 2 = 1 -> zlen fw mod 2 = 1 ->
  spwv x (Some l) (Some n) (Some tw) (Some fw) = Ok m ->
  nth_error l (Z.to_nat i) = Some ti -> nth_error m (Z.to_nat i) = Some (Some col) ->
  col = map Re (fft (scatter n (sp_lags (sp_m x tw fw n ti)) (sp_val x tw fw ti))).
Proof.
  intros Hn Ht Hf H Hi Hm. rewrite spwv_cases in H by (auto; lia).
  destruct (existsb _ l); [discriminate|]. injection H as H. rewrite <- H, nth_error_map, Hi in Hm. cbn [option_map] in Hm.
  destruct (sp_isnan _ _ _ _ _); [discriminate|]. congruence.
Qed.

Lemma rnth_map_re (l : list C) f : rnth (map Re l) f = Re (cnth l f).
Proof. unfold rnth, cnth. change 0%R with (Re (RtoC 0)). apply map_nth. Qed.

(** Entry (f, i): the lag-0 average, plus for every lag t = 1..m the average of
    lag t-1 (not t) weighted by the window at t and 2-t (not t and -t). *)
Lemma c29_spwv_closed_form : forall x l n tw fw out i ti col f, 1 <= n ->
  zlen tw mod 2 = 1 -> zlen fw mod 2 = 1 ->
  spwv x (Some l) (Some n) (Some tw) (Some fw) = Ok out ->
  nth_error l (Z.to_nat i) = Some ti -> nth_error out (Z.to_nat i) = Some (Some col) ->
  0 <= f < n ->
  let lg := (zlen tw - 1) / 2 in let lh := (zlen fw - 1) / 2 in
  let m := Z.min (Z.min (ti + lg - 1) (zlen x - ti + lg)) (Z.min (round_half n - 1) lh) in
  rnth col f =
  Re (lagavg x (winf tw) (ti - 1) 0
      + csum (arange 1 (m + 1)) (fun t =>
          winf fw t * lagavg x (winf tw) (ti - 1) (t - 1) * root n (- (f * t))
        + winf fw (2 - t) * lagavg x (winf tw) (ti - 1) (1 - t) * root n (f * t)))%C.
Proof.
  intros x l n tw fw out i ti col f Hn Ht Hf H Hi Ho Hff lg lh m.
  rewrite (spwv_column x l n tw fw out i ti col Hn Ht Hf H Hi Ho), rnth_map_re. f_equal.
  rewrite sp_entry by (auto; lia). set (M := sp_m x tw fw n ti).
  assert (HM : M = Z.max 0 m) by reflexivity.
  unfold esum. rewrite (arange_app (- M) 0 (M + 1)), csum_app by lia.
  rewrite (arange_cons 0) by lia. rewrite csum_cons. change (0 + 1) with 1.
  replace (arange 1 (m + 1)) with (arange 1 (M + 1)).
  2:{ unfold arange. do 2 f_equal. lia. }
  rewrite csum_plus. unfold sp_val at 2. cbn [Z.eqb]. rewrite sp_R_spec by lia.
  rewrite !Z.mul_0_r. change (- 0) with 0. cbn [Z.mul]. rewrite root_0.
  replace (arange (- M) 0) with (arange (0 + 1 - (M + 1)) (0 + 1 - 1)) by (f_equal; lia).
  rewrite <- (csum_flip 1 (M + 1) 0 (fun t => sp_val x tw fw ti t * root n (- (f * t)))%C).
  rewrite (csum_ext (arange 1 (M + 1)) (fun t => sp_val x tw fw ti (0 - t) * root n (- (f * (0 - t))))%C
     (fun t => winf fw (2 - t) * lagavg x (winf tw) (ti - 1) (1 - t) * root n (f * t))%C).
  - rewrite (csum_ext (arange 1 (M + 1)) (fun t => sp_val x tw fw ti t * root n (- (f * t)))%C
     (fun t => winf fw t * lagavg x (winf tw) (ti - 1) (t - 1) * root n (- (f * t)))%C).
    + ring.
    + intros t Ht'. apply in_arange in Ht'. replace t with (1 + (t - 1)) at 1 by lia. rewrite sp_val_pos by lia.
      rewrite sp_R_spec by lia. replace (1 + (t - 1)) with t by lia. rewrite Z.mul_1_l. reflexivity.
  - intros t Ht'. apply in_arange in Ht'. replace (0 - t) with (- (1 + (t - 1))) at 1 by lia.
    rewrite sp_val_neg by lia. rewrite sp_R_spec by lia.
    replace (1 - (t - 1)) with (2 - t) by lia. replace (-1 * (t - 1)) with (1 - t) by lia.
    replace (- (f * (0 - t))) with (f * t) by ring. reflexivity.
Qed.

(** Mean over frequency: the normalised weighted average of |x|^2 around t-1. *)
Lemma c29_spwv_marginal : forall x l n tw fw out i ti col, 1 <= n ->
  zlen tw mod 2 = 1 -> zlen fw mod 2 = 1 ->
  spwv x (Some l) (Some n) (Some tw) (Some fw) = Ok out ->
  nth_error l (Z.to_nat i) = Some ti -> nth_error out (Z.to_nat i) = Some (Some col) ->
  rsum (arange 0 n) (rnth col) =
  (IZR n * Re (csum (arange 0 (zlen x)) (fun s => winf tw (ti - 1 - s)%Z * RtoC (Cmod (cnth x s) ^ 2))
               / csum (arange 0 (zlen x)) (fun s => winf tw (ti - 1 - s)%Z))%C)%R.
Proof.
  intros x l n tw fw out i ti col Hn Ht Hf H Hi Ho.
  rewrite (spwv_column x l n tw fw out i ti col Hn Ht Hf H Hi Ho).
  rewrite (rsum_ext _ _ (fun f => Re (esum n (arange (- sp_m x tw fw n ti) (sp_m x tw fw n ti + 1)) (sp_val x tw fw ti) f))).
  2:{ intros f Hff. apply in_arange in Hff. rewrite rnth_map_re. f_equal. apply sp_entry; lia. }
  rewrite <- Re_csum, esum_total, Re_scal by lia. f_equal. f_equal.
  assert (B := round_half_bounds n).
  assert (Hm : 0 <= sp_m x tw fw n ti /\ 2 * sp_m x tw fw n ti < n) by (unfold sp_m, sp_taumax; lia).
  rewrite (csum_single _ 0); [|apply NoDup_arange|apply in_arange; lia|].
  - rewrite Z.mod_0_l by lia. cbn [Z.eqb]. unfold sp_val. cbn [Z.eqb]. rewrite sp_R_spec by lia.
    unfold lagavg, lagmass. cbn [Z.mul Z.abs]. rewrite Z.sub_0_r. f_equal.
    apply csum_ext. intros s _. rewrite Z.add_0_r, Z.sub_0_r, Cmod2_conj. ring.
  - intros t Htt N0. apply in_arange in Htt. destruct (Z.eqb_spec (t mod n) 0) as [E|E]; auto.
    exfalso. apply Z.mod_divide in E; [|lia]. destruct E as [q E]. assert (q = 0) by nia. subst. lia.
Qed.

(** For a real window the average is real. *)
Lemma c29_spwv_marginal_real : forall x l n g fw out i ti col, 1 <= n ->
  zlen g mod 2 = 1 -> zlen fw mod 2 = 1 ->
  spwv x (Some l) (Some n) (Some (map RtoC g)) (Some fw) = Ok out ->
  nth_error l (Z.to_nat i) = Some ti -> nth_error out (Z.to_nat i) = Some (Some col) ->
  let v s := Re (winf (map RtoC g) (ti - 1 - s)) in
  (rsum (arange 0 n) (rnth col) * rsum (arange 0 (zlen x)) v =
   IZR n * rsum (arange 0 (zlen x)) (fun s => v s * Cmod (cnth x s) ^ 2))%R \/
  rsum (arange 0 (zlen x)) v = 0%R.
Proof.
  intros x l n g fw out i ti col Hn Ht Hf H Hi Ho v.
  assert (Hv : forall s, winf (map RtoC g) (ti - 1 - s) = RtoC (v s)).
  { intros s. unfold v, winf. destruct (_ && _); [|reflexivity].
    unfold cnth. change (RtoC 0) with (RtoC 0). rewrite (map_nth RtoC g 0%R). reflexivity. }
  destruct (Req_EM_T (rsum (arange 0 (zlen x)) v) 0%R) as [E|E]; [right; auto|left].
  rewrite (c29_spwv_marginal x l n (map RtoC g) fw out i ti col Hn ltac:(now rewrite zlen_map) Hf H Hi Ho).
  rewrite (csum_ext _ (fun s => winf (map RtoC g) (ti - 1 - s)) (fun s => RtoC (v s))) by auto.
  rewrite (csum_ext _ _ (fun s => RtoC (v s * Cmod (cnth x s) ^ 2)%R)).
  2:{ intros s _. now rewrite Hv, RtoC_mult. }
  rewrite <- !RtoC_rsum, <- RtoC_div, Re_R by auto. field. auto.
Qed.

(** Positive time windows never produce NaN. *)
Lemma c29_positive_window_no_nan : forall x l n g fw out, 1 <= n ->
  zlen g mod 2 = 1 -> zlen fw mod 2 = 1 -> (forall v, In v g -> (0 < v)%R) ->
  spwv x (Some l) (Some n) (Some (map RtoC g)) (Some fw) = Ok out ->
  ~ In None out.
Proof.
  intros x l n g fw out Hn Ht Hf Hg H Hi.
  rewrite spwv_cases in H by (rewrite ?zlen_map; auto; lia).
  destruct (existsb _ l); [discriminate|]. injection H as <-.
  apply in_map_iff in Hi. destruct Hi as [ti [Hi _]].
  assert (Hnan : forall tau, 0 <= tau -> sp_nan x (map RtoC g) ti tau = false).
  { intros tau Htau. unfold sp_nan.
    set (P := sp_pts (zlen x) (win_lh (map RtoC g)) ti tau).
    assert (HP : forall p, In p P -> exists v, (0 < v)%R /\ sp_g (map RtoC g) p = RtoC v).
    { intros p Hp. destruct (sp_pts_ok x (map RtoC g) ti tau p Htau Hp) as [Hb _].
      exists (rnth g (win_lh (map RtoC g) + p)). split.
      - apply Hg. unfold rnth. apply nth_In. rewrite zlen_map in Hb. unfold zlen in Hb. lia.
      - unfold sp_g, cnth, rnth. rewrite (map_nth RtoC g 0%R). reflexivity. }
    destruct (Ceq_dec (sp_mass x (map RtoC g) ti tau) (RtoC 0)) as [E|E].
    2:{ destruct P; reflexivity. }
    unfold sp_mass in E. fold P in E. destruct P as [|p P']; [reflexivity|]. exfalso.
    assert (0 < Re (csum (p :: P') (sp_g (map RtoC g))))%R.
    { rewrite Re_csum, rsum_cons. destruct (HP p (or_introl eq_refl)) as [v [Hv ->]]. rewrite Re_R.
      assert (0 <= rsum P' (fun a => Re (sp_g (map RtoC g) a)))%R; [|lra].
      apply rsum_nonneg. intros q Hq. destruct (HP q (or_intror Hq)) as [u [Hu ->]]. rewrite Re_R. lra. }
    rewrite E, Re_R in H. lra. }
  unfold sp_isnan in Hi. rewrite Hnan in Hi by lia. cbn [orb] in Hi.
  destruct (existsb _ _) eqn:E; [|discriminate]. apply existsb_exists in E. destruct E as [tau [H1 H2]].
  apply in_arange in H1. rewrite Hnan in H2 by lia. discriminate.
Qed.

(** A time window that sums to zero yields NaN. *)
Lemma c29_nan_refuted : exists x tw fw : list C,
  spwv x (Some [2]) None (Some tw) (Some fw) = Ok [None].
Proof.
  exists [RtoC 1; RtoC 1; RtoC 1], [RtoC 1; RtoC (-2); RtoC 1], [RtoC 1].
  change (spwv _ (Some [2]) None (Some [RtoC 1; RtoC (-2); RtoC 1]) (Some [RtoC 1])) with
    (spwv [RtoC 1; RtoC 1; RtoC 1] (Some [2]) (Some 3) (Some [RtoC 1; RtoC (-2); RtoC 1]) (Some [RtoC 1])).
  rewrite spwv_cases by (try reflexivity; lia).
  replace (existsb _ [2]) with false by reflexivity. do 2 f_equal. cbn [map].
  unfold sp_isnan, sp_nan, sp_mass.
  change (sp_pts (zlen [RtoC 1; RtoC 1; RtoC 1]) (win_lh [RtoC 1; RtoC (-2); RtoC 1]) 2 0) with [-1; 0; 1].
  rewrite !csum_cons, csum_nil. unfold sp_g.
  change (win_lh [RtoC 1; RtoC (-2); RtoC 1]) with 1. eval_cnth.
  destruct (Ceq_dec _ _) as [E|E]; [reflexivity|]. exfalso. apply E. rewrite <- !RtoC_plus. f_equal. ring.
Qed.

(** With a one-sample time window the distribution should be the pseudo
    Wigner-Ville distribution around sample t-1; it is not, because lag tau is
    stored at lag tau+1. *)
Lemma c74_refuted : exists (x fw : list C) out col,
  spwv x (Some [2]) (Some 4) (Some [RtoC 1]) (Some fw) = Ok out /\
  nth_error out 0 = Some (Some col) /\
  rnth col 0 = 3%R /\ PWV x fw 4 0 1 = RtoC 1.
Proof.
  set (x := [RtoC 0; RtoC 1; RtoC 0; RtoC 0]). set (fw := [RtoC 1; RtoC 1; RtoC 1]).
  exists x, fw.
  destruct (c29_spwv_outcome x [2] 4 [RtoC 1] fw ltac:(lia) eq_refl eq_refl) as [[_ [out [H [Hl _]]]]|[[ti [[<-|[]] B]] _]].
  2:{ exfalso. change (round_half 4) with 2 in B. lia. }
  assert (NN := c29_positive_window_no_nan x [2] 4 [1%R] fw out ltac:(lia) eq_refl eq_refl
     ltac:(intros v [<-|[]]; lra) H).
  unfold zlen in Hl. apply Nat2Z.inj in Hl.
  destruct out as [|[col|] [|? ?]]; try discriminate Hl.
  2:{ exfalso. apply NN. left; reflexivity. }
  exists [Some col], col. split; auto. split; auto.
  assert (A0 : lagavg x (winf [RtoC 1]) 1 0 = RtoC 1).
  { unfold lagavg, lagmass. cbn [Z.abs].
    change (zlen x - 0) with 4. eval_arange. rewrite !csum_cons, !csum_nil.
    change (winf [RtoC 1] (1 - 0)) with (RtoC 0). change (winf [RtoC 1] (1 - 1)) with (RtoC 1).
    change (winf [RtoC 1] (1 - 2)) with (RtoC 0). change (winf [RtoC 1] (1 - 3)) with (RtoC 0).
    change (cnth x (1 + 0)) with (RtoC 1). change (cnth x (1 - 0)) with (RtoC 1). rewrite Cconj_R.
    unfold Cdiv. rewrite !Cmult_0_l, !Cplus_0_l, !Cplus_0_r, !Cmult_1_l. rewrite <- RtoC_inv by lra.
    f_equal. field. }
  split.
  - rewrite (c29_spwv_closed_form x [2] 4 [RtoC 1] fw _ 0 2 col 0 ltac:(lia) eq_refl eq_refl H eq_refl eq_refl ltac:(lia)).
    match goal with |- context [arange 1 ?b] => change (arange 1 b) with [1] end.
    rewrite csum_cons, csum_nil. change (2 - 1) with 1. change (1 - 1) with 0. rewrite A0. change (winf fw 1) with (RtoC 1).
    rewrite !Z.mul_0_l. change (- 0) with 0. rewrite root_0, !Cmult_1_r, Cplus_0_r, <- !RtoC_plus, Re_R. ring.
  - unfold PWV. rewrite (csum_single _ 0).
    + change (winf fw 0) with (RtoC 1). change (sigf x (1 + 0)) with (RtoC 1). change (sigf x (1 - 0)) with (RtoC 1).
      rewrite Cconj_R, Z.mul_0_r. cbn [Z.opp]. rewrite root_0. ring.
    + apply NoDup_arange.
    + apply in_arange. cbn. lia.
    + intros t Ht N0. apply in_arange in Ht.
      destruct (Z.lt_ge_cases t 0).
      * replace (sigf x (1 + t)) with (RtoC 0); [ring|]. symmetry. change (zlen x) with 4 in Ht.
        unfold sigf. change (zlen x) with 4. destruct (_ && _) eqn:E; auto.
        rewrite andb_true_iff, Z.leb_le, Z.ltb_lt in E. assert (t = -1) by lia. subst t. reflexivity.
      * replace (sigf x (1 - t)) with (RtoC 0); [rewrite Cconj_R; ring|]. symmetry.
        unfold sigf. change (zlen x) with 4. destruct (_ && _) eqn:E; auto.
        rewrite andb_true_iff, Z.leb_le, Z.ltb_lt in E. assert (t = 1) by lia. subst t. reflexivity.
Qed.

Example c29_example : exists out col,
  spwv [RtoC 1; RtoC 2; RtoC 0; Ci] (Some [2]) None (Some (map RtoC [1%R; 2%R; 1%R])) (Some [RtoC 1]) = Ok out /\
  nth_error out 0 = Some (Some col) /\ rsum (arange 0 4) (rnth col) = 9%R.
Proof.
  set (x := [RtoC 1; RtoC 2; RtoC 0; Ci]). set (g := [1%R; 2%R; 1%R]).
  change (spwv x (Some [2]) None (Some (map RtoC g)) (Some [RtoC 1])) with
    (spwv x (Some [2]) (Some 4) (Some (map RtoC g)) (Some [RtoC 1])).
  destruct (c29_spwv_outcome x [2] 4 (map RtoC g) [RtoC 1] ltac:(lia) eq_refl eq_refl) as [[_ [out [H [Hl _]]]]|[[ti [[<-|[]] B]] _]].
  2:{ exfalso. change (round_half 4) with 2 in B. lia. }
  assert (NN := c29_positive_window_no_nan x [2] 4 g [RtoC 1] out ltac:(lia) eq_refl eq_refl
     ltac:(intros v [<-|[<-|[<-|[]]]]; lra) H).
  unfold zlen in Hl. apply Nat2Z.inj in Hl.
  destruct out as [|[col|] [|? ?]]; try discriminate Hl.
  2:{ exfalso. apply NN. left; reflexivity. }
  exists [Some col], col. split; auto. split; auto.
  assert (V := c29_spwv_marginal_real x [2] 4 g [RtoC 1] _ 0 2 col ltac:(lia) eq_refl eq_refl H eq_refl eq_refl).
  cbv zeta in V. change (zlen x) with 4 in V. revert V.
  change (2 - 1) with 1. eval_arange. rewrite !rsum_cons, !rsum_nil.
  change (winf (map RtoC g) (1 - 0)) with (RtoC 1). change (winf (map RtoC g) (1 - 1)) with (RtoC 2).
  change (winf (map RtoC g) (1 - 2)) with (RtoC 1). change (winf (map RtoC g) (1 - 3)) with (RtoC 0).
  rewrite !Re_R. change (cnth x 0) with (RtoC 1). change (cnth x 1) with (RtoC 2). change (cnth x 2) with (RtoC 0).
  rewrite !Cmod_R, !Rabs_right by lra. intros [V|V]; lra.
Qed.
