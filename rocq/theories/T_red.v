(** C73, C74: exact relations between the pseudo Wigner-Ville distributions. *)
From Coq Require Import Reals ZArith List Lia Lra Bool.
From Coquelicot Require Import Coquelicot.
From Verif Require Import Py Scalars CSum DFT Spec M_base M_stft M_cohen M_amb P_base P_stft P_wvd P_pwvd P_spec T_stft T_wvd T_pwvd P_spwv T_spwv T_dual.
Import ListNotations.
Local Open Scope Z_scope.

Lemma lagavg_one x c tau v : v <> RtoC 0 -> Z.abs tau <= c -> c < zlen x - Z.abs tau ->
  lagavg x (winf [v]) c tau = (cnth x (c + tau) * Cconj (cnth x (c - tau)))%C.
Proof.
  intros NV H1 H2. unfold lagavg, lagmass.
  assert (W0 : winf [v] 0 = v) by reflexivity.
  assert (W1 : forall s, s <> c -> winf [v] (c - s) = RtoC 0).
  { intros s Hs. unfold winf. change ((zlen [v] - 1) / 2) with 0. destruct (Z.leb_spec (- 0) (c - s)), (Z.leb_spec (c - s) 0); cbn [andb]; try reflexivity; lia. }
  rewrite !(csum_single _ c).
  - rewrite Z.sub_diag, W0. field. auto.
  - apply NoDup_arange.
  - apply in_arange. lia.
  - intros s _ Hs. apply W1; auto.
  - apply NoDup_arange.
  - apply in_arange. lia.
  - intros s _ Hs. rewrite W1 by auto. ring.
Qed.

(** What the smoothed transform computes with a one-sample time window: every lag of the
    signal product is stored one lag further out, the mirrored lag is weighted by the
    window at 2 - t, and the lag zero product is counted again at lags 1 and -1. *)
Lemma c74_one_sample_window : forall x l n v fw out i ti col f, 1 <= n -> v <> RtoC 0 -> zlen fw mod 2 = 1 ->
  spwv x (Some l) (Some n) (Some [v]) (Some fw) = Ok out ->
  nth_error l (Z.to_nat i) = Some ti -> nth_error out (Z.to_nat i) = Some (Some col) -> 1 <= ti <= zlen x -> 0 <= f < n ->
  let m := Z.min (Z.min (ti - 1) (zlen x - ti)) (Z.min (round_half n - 1) ((zlen fw - 1) / 2)) in
  let lag := fun k : Z => (cnth x (ti - 1 + k) * Cconj (cnth x (ti - 1 - k)))%C in
  rnth col f = Re (lag 0%Z + csum (arange 1 (m + 1)) (fun t => winf fw t * lag (t - 1)%Z * root n (- (f * t)) + winf fw (2 - t) * lag (1 - t)%Z * root n (f * t)))%C.
Proof.
  intros x l n v fw out i ti col f Hn NV Hf H Hi Ho Ht Hff m lag.
  rewrite (c29_spwv_closed_form x l n [v] fw out i ti col f Hn eq_refl Hf H Hi Ho Hff). change ((zlen [v] - 1) / 2) with 0. rewrite !Z.add_0_r. fold m. f_equal.
  rewrite (lagavg_one x (ti - 1) 0) by (auto; lia). f_equal. apply csum_ext. intros t It. apply in_arange in It.
  rewrite !lagavg_one by (auto; lia). reflexivity.
Qed.

Lemma sp_nan_iff x tw ti tau : 0 <= tau ->
  sp_nan x tw ti tau = true <-> (exists s, tau <= s < zlen x - tau /\ Z.abs (ti - 1 - s) <= (zlen tw - 1) / 2) /\ lagmass x (winf tw) (ti - 1) tau = RtoC 0.
Proof.
  intros Ht. unfold sp_nan. rewrite (sp_mass_spec x tw ti tau Ht).
  assert (P : (exists s, tau <= s < zlen x - tau /\ Z.abs (ti - 1 - s) <= (zlen tw - 1) / 2) <-> sp_pts (zlen x) (win_lh tw) ti tau <> []).
  { unfold sp_pts, win_lh. split.
    - intros (s & H1 & H2) E. assert (I : In (ti - 1 - s) []) by (rewrite <- E; apply in_arange; lia). destruct I.
    - intros NE. destruct (arange _ _) as [|p l] eqn:E in NE; [congruence|]. assert (I : In p (arange (- Z.min ((zlen tw - 1) / 2) (zlen x - ti - tau)) (Z.min ((zlen tw - 1) / 2) (ti - 1 - tau) + 1))) by (rewrite E; left; reflexivity).
      apply in_arange in I. exists (ti - 1 - p). lia. }
  rewrite P. destruct (sp_pts _ _ _ _) as [|p l].
  - split; [discriminate|]. intros [NE _]. congruence.
  - destruct (Ceq_dec _ _) as [E|E]; split; try discriminate; auto.
    + intros _. split; [discriminate|exact E].
    + intros [_ Q]. congruence.
Qed.

(** Which columns are NaN: those where some lag that is used has points under the time
    window and the weights of these points cancel. *)
Lemma c29_nan_iff : forall x l n tw fw out i ti, 1 <= n -> zlen tw mod 2 = 1 -> zlen fw mod 2 = 1 ->
  spwv x (Some l) (Some n) (Some tw) (Some fw) = Ok out -> nth_error l (Z.to_nat i) = Some ti ->
  let lg := (zlen tw - 1) / 2 in let lh := (zlen fw - 1) / 2 in
  let m := Z.min (Z.min (ti + lg - 1) (zlen x - ti + lg)) (Z.min (round_half n - 1) lh) in
  nth_error out (Z.to_nat i) = Some None <->
  exists tau, 0 <= tau < Z.max 1 m /\ (exists s, tau <= s < zlen x - tau /\ Z.abs (ti - 1 - s) <= lg) /\ lagmass x (winf tw) (ti - 1) tau = RtoC 0.
Proof.
  intros x l n tw fw out i ti Hn Ht Hf H Hi lg lh m. rewrite spwv_cases in H by (auto; lia).
  destruct (existsb _ l); [discriminate|]. injection H as <-. rewrite nth_error_map, Hi. cbn [option_map].
  assert (Q : sp_isnan x tw fw n ti = true <-> exists tau, 0 <= tau < Z.max 1 m /\ sp_nan x tw ti tau = true).
  { unfold sp_isnan. rewrite orb_true_iff, existsb_exists. change (sp_m x tw fw n ti) with (Z.max 0 m). split.
    - intros [A|(tau & I & A)]; [exists 0; split; [lia|exact A]|]. apply in_arange in I. exists tau. split; [lia|exact A].
    - intros (tau & I & A). destruct (Z.eq_dec tau 0) as [->|NZ]; [left; exact A|right]. exists tau. split; [apply in_arange; lia|exact A]. }
  transitivity (sp_isnan x tw fw n ti = true).
  - destruct (sp_isnan _ _ _ _ _); split; congruence.
  - rewrite Q. split; intros (tau & I & A); exists tau; (split; [exact I|]); apply (sp_nan_iff x tw ti tau); auto; lia.
Qed.

(** Three samples under the window 1, -2, 1: the column at the middle is NaN, the one at
    the first sample (weights -2 and 1) is not. *)
Example c29_nan_example : exists col, spwv [RtoC 1; RtoC 1; RtoC 1] (Some [2; 1]) (Some 3) (Some [RtoC 1; RtoC (-2); RtoC 1]) (Some [RtoC 1]) = Ok [None; Some col].
Proof.
  set (x := [RtoC 1; RtoC 1; RtoC 1]). set (tw := [RtoC 1; RtoC (-2); RtoC 1]).
  destruct (c29_spwv_outcome x [2; 1] 3 tw [RtoC 1] ltac:(lia) eq_refl eq_refl) as [[_ (out & H & Z & _)]|[(ti & I & [B _]) _]].
  2:{ exfalso. change (round_half 3) with 2 in B. change (zlen x) with 3 in B. lia. }
  assert (A0 := c29_nan_iff x [2; 1] 3 tw [RtoC 1] out 0 2 ltac:(lia) eq_refl eq_refl H eq_refl).
  assert (A1 := c29_nan_iff x [2; 1] 3 tw [RtoC 1] out 1 1 ltac:(lia) eq_refl eq_refl H eq_refl). cbn zeta in A0, A1.
  change ((zlen tw - 1) / 2) with 1 in *. change ((zlen [RtoC 1] - 1) / 2) with 0 in *. change (zlen x) with 3 in *. change (round_half 3) with 2 in *. change (Z.to_nat 0) with 0%nat in A0. change (Z.to_nat 1) with 1%nat in A1.
  destruct out as [|a [|b [|? ?]]]; try (exfalso; cbn in Z; unfold zlen in Z; cbn [length] in Z; lia). cbn [nth_error] in A0, A1.
  assert (M0 : lagmass x (winf tw) (2 - 1) 0 = RtoC 0).
  { unfold lagmass. change (arange 0 (zlen x - 0)) with [0; 1; 2]. rewrite !csum_cons, csum_nil. change (winf tw (2 - 1 - 0)) with (RtoC 1). change (winf tw (2 - 1 - 1)) with (RtoC (-2)). change (winf tw (2 - 1 - 2)) with (RtoC 1). rewrite <- !RtoC_plus. f_equal. ring. }
  assert (M1 : lagmass x (winf tw) (1 - 1) 0 <> RtoC 0).
  { unfold lagmass. change (arange 0 (zlen x - 0)) with [0; 1; 2]. rewrite !csum_cons, csum_nil. change (winf tw (1 - 1 - 0)) with (RtoC (-2)). change (winf tw (1 - 1 - 1)) with (RtoC 1). change (winf tw (1 - 1 - 2)) with (RtoC 0). rewrite <- !RtoC_plus. intros E. apply RtoC_inj in E. lra. }
  assert (a = None).
  { assert (S : Some a = Some None); [|congruence]. apply A0. exists 0. split; [lia|]. split; [exists 1; lia|exact M0]. }
  destruct b as [col|].
  - exists col. rewrite H. congruence.
  - exfalso. destruct (proj1 A1 eq_refl) as (tau & I & _ & E). assert (tau = 0) by lia. subst tau. contradiction.
Qed.

(** Four samples: row 1 is the same in both representations and labelled 1/8 in one, 1/4
    in the other. *)
Example c73_labels_example : exists o o' m, wvd [RtoC 1; Ci; RtoC 2; RtoC 3] None None = Ok o /\
  pwvd [RtoC 1; Ci; RtoC 2; RtoC 3] None None (Some [RtoC 1; RtoC 1; RtoC 1]) = Ok (o', m) /\
  at2 m 1 0 = at2 (r_tfr o) 1 0 /\ at2 m 1 0 = RtoC 1 /\ rnth (r_freqs o) 1 = (1 / 8)%R /\ rnth (r_freqs o') 1 = (1 / 4)%R.
Proof.
  set (x := [RtoC 1; Ci; RtoC 2; RtoC 3]). destruct (c73_pwvd_labels x ltac:(discriminate) eq_refl) as (o & o' & m & H & H' & E & L).
  change (zlen x) with 4 in *. change (repeat (RtoC 1) (Z.to_nat (4 - 1))) with [RtoC 1; RtoC 1; RtoC 1] in H'.
  exists o, o', m. split; [exact H|]. split; [exact H'|]. split; [apply E; lia|]. destruct (L 1) as [L1 L2]; [change (4 / 2) with 2; lia|].
  split; [|split; [rewrite L1; field|rewrite L2; field]].
  rewrite E by lia. change (wvd x None None) with (wvd x (Some (TsI (arange 0 4))) (Some 4)) in H.
  rewrite (wvd_entry x (TsI (arange 0 4)) 4 o) by (auto; try lia; change (zlen x) with 4; lia).
  unfold WV. rewrite (csum_single _ 0).
  - change (sigf x (0 + 0)) with (RtoC 1). change (sigf x (0 - 0)) with (RtoC 1). rewrite Cconj_R. cbn [Z.mul Z.opp]. rewrite root_0. ring.
  - apply NoDup_arange.
  - apply in_arange. change (zlen x) with 4. lia.
  - intros k _ Hk. assert (D : (0 + k < 0) \/ (0 - k < 0)) by lia. destruct D as [D|D]; rewrite (sigf_out x _ (or_introl D)), ?Cconj_R; ring.
Qed.
