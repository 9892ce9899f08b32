(** C161: smoothed_pseudo_wigner_ville of a signal played backwards or conjugated. *)
From Coq Require Import Reals ZArith List Lia Lra Bool.
From Coquelicot Require Import Coquelicot.
From Flocq Require Import Core.
From Verif Require Import Py Scalars CSum DFT Spec M_base M_stft M_cohen M_amb M_putils M_reas P_base P_stft P_wvd P_pwvd P_spec P_spwv T_rev T_spwv T_red T_key T_noise T_putils T_reas T_reas2 T_conc T_rtone T_sptone T_spimp T_spcov.
Import ListNotations.
Local Open Scope Z_scope.

Lemma lagavg_cconj x g c tau : lagavg (cconj x) g c tau = lagavg x g c (- tau).
Proof.
  unfold lagavg. assert (L : zlen (cconj x) = zlen x) by apply zlen_map. rewrite (mass_len (cconj x) x) by exact L. rewrite L, Z.abs_opp. f_equal. apply csum_ext. intros s _. unfold cconj. rewrite !cnth_conj, Cconj_invol. replace (s + - tau) with (s - tau) by lia. replace (s - - tau) with (s + tau) by lia. ring.
Qed.
Lemma lagavg_rev x g c tau : (forall t, g (- t) = g t) -> lagavg (rev x) g (zlen x - 1 - c) tau = lagavg x g c (- tau).
Proof.
  intros G. unfold lagavg. rewrite (mass_len (rev x) x) by apply rev_zlen. rewrite rev_zlen, Z.abs_opp. set (u := Z.abs tau).
  assert (FL : forall F : Z -> C, csum (arange u (zlen x - u)) F = csum (arange u (zlen x - u)) (fun s => F (zlen x - 1 - s))).
  { intros F. rewrite (P_mh.csum_flip u (zlen x - u) (zlen x - 1) F). f_equal. f_equal; lia. }
  f_equal.
  - rewrite FL. apply csum_ext. intros s Hs. apply in_arange in Hs. unfold u in Hs. rewrite !cnth_rev' by lia. rewrite <- (G (c - s)). replace (zlen x - 1 - c - (zlen x - 1 - s)) with (- (c - s)) by lia. replace (zlen x - 1 - (zlen x - 1 - s + tau)) with (s + - tau) by lia. replace (zlen x - 1 - (zlen x - 1 - s - tau)) with (s - - tau) by lia. reflexivity.
  - unfold lagmass. rewrite FL. apply csum_ext. intros s _. rewrite <- (G (c - s)). f_equal. lia.
Qed.
(** Real windows: reflecting the lags negates the frequencies. *)
Lemma from_lags_mirror fw n m f L : n <> 0 -> real_list fw -> (forall t, L (- t) = Cconj (L t)) -> Re (from_lags fw n m ((- f) mod n) (fun t => L (- t))) = Re (from_lags fw n m f L).
Proof.
  intros Hn RF HL. unfold from_lags. change (- 0) with 0. rewrite !Re_plus, !Re_csum. f_equal. apply rsum_ext. intros t _. replace (- (1 - t)) with (t - 1) by lia. replace (1 - t) with (- (t - 1)) by lia. rewrite HL.
  assert (R1 : root n (- (((- f) mod n) * t)) = root n (f * t)) by (rewrite <- Z.mul_opp_r, root_mod_mul_l by exact Hn; f_equal; ring).
  assert (R2 : root n (((- f) mod n) * t) = Cconj (root n (f * t))) by (rewrite root_mod_mul_l by exact Hn; rewrite root_conj; f_equal; ring).
  assert (R3 : root n (- (f * t)) = Cconj (root n (f * t))) by now rewrite root_conj. rewrite R1, R2, R3. rewrite (winf_real fw t RF), (winf_real fw (2 - t) RF). set (u := Re (winf fw t)). set (v := Re (winf fw (2 - t))). destruct (L (t - 1)) as [a1 a2]. destruct (root n (f * t)) as [r1 r2]. cbn. ring.
Qed.
Lemma c161_conj : forall x l n tw fw ox oy i ti cx cy f, 1 <= n -> zlen tw mod 2 = 1 -> zlen fw mod 2 = 1 -> real_list tw -> real_list fw -> spwv x (Some l) (Some n) (Some tw) (Some fw) = Ok ox -> spwv (map Cconj x) (Some l) (Some n) (Some tw) (Some fw) = Ok oy ->
  nth_error l (Z.to_nat i) = Some ti -> nth_error ox (Z.to_nat i) = Some (Some cx) -> nth_error oy (Z.to_nat i) = Some (Some cy) -> 0 <= f < n -> rnth cy ((- f) mod n) = rnth cx f.
Proof.
  intros x l n tw fw ox oy i ti cx cy f Hn Ht Hf RT RF HX HY Hi Hx Hy F. assert (B := Z.mod_pos_bound (- f) n ltac:(lia)). rewrite (entry_lags (map Cconj x) l n tw fw oy i ti cy ((- f) mod n)), (entry_lags x l n tw fw ox i ti cx f) by auto. rewrite (used_len (map Cconj x) x) by apply zlen_map.
  rewrite (from_lags_ext _ _ _ _ _ (fun t => lagavg x (winf tw) (ti - 1) (- t))) by (intros t _; apply (lagavg_cconj x)). apply from_lags_mirror; [lia|exact RF|]. intros t. apply lagavg_conj. intros u. now apply winf_Im.
Qed.
(** Played backwards, with a time window that is symmetric too: instants t and N + 1 - t exchanged, frequencies negated. *)
Lemma c161_reversal : forall x l l' n tw fw ox oy i j ti cx cy f, 1 <= n -> zlen tw mod 2 = 1 -> zlen fw mod 2 = 1 -> real_list tw -> real_list fw -> (forall t, winf tw (- t) = winf tw t) -> spwv x (Some l) (Some n) (Some tw) (Some fw) = Ok ox -> spwv (rev x) (Some l') (Some n) (Some tw) (Some fw) = Ok oy ->
  nth_error l (Z.to_nat i) = Some ti -> nth_error l' (Z.to_nat j) = Some (zlen x + 1 - ti) -> nth_error ox (Z.to_nat i) = Some (Some cx) -> nth_error oy (Z.to_nat j) = Some (Some cy) -> 0 <= f < n -> rnth cy ((- f) mod n) = rnth cx f.
Proof.
  intros x l l' n tw fw ox oy i j ti cx cy f Hn Ht Hf RT RF SY HX HY Hi Hj Hx Hy F. assert (B := Z.mod_pos_bound (- f) n ltac:(lia)). rewrite (entry_lags (rev x) l' n tw fw oy j (zlen x + 1 - ti) cy ((- f) mod n)), (entry_lags x l n tw fw ox i ti cx f) by auto.
  assert (U : lags_used (rev x) tw fw n (zlen x + 1 - ti) = lags_used x tw fw n ti) by (unfold lags_used; rewrite rev_zlen; lia). rewrite U. replace (zlen x + 1 - ti - 1) with (zlen x - 1 - (ti - 1)) by lia.
  rewrite (from_lags_ext _ _ _ _ _ (fun t => lagavg x (winf tw) (ti - 1) (- t))) by (intros t _; now apply lagavg_rev). apply from_lags_mirror; [lia|exact RF|]. intros t. apply lagavg_conj. intros u. now apply winf_Im.
Qed.
(** Both together: the same picture read from right to left. *)
Lemma c161_mirror : forall x l l' n tw fw ox oy i j ti cx cy f, 1 <= n -> zlen tw mod 2 = 1 -> zlen fw mod 2 = 1 -> (forall t, winf tw (- t) = winf tw t) -> spwv x (Some l) (Some n) (Some tw) (Some fw) = Ok ox -> spwv (rev (map Cconj x)) (Some l') (Some n) (Some tw) (Some fw) = Ok oy ->
  nth_error l (Z.to_nat i) = Some ti -> nth_error l' (Z.to_nat j) = Some (zlen x + 1 - ti) -> nth_error ox (Z.to_nat i) = Some (Some cx) -> nth_error oy (Z.to_nat j) = Some (Some cy) -> 0 <= f < n -> rnth cy f = rnth cx f.
Proof.
  intros x l l' n tw fw ox oy i j ti cx cy f Hn Ht Hf SY HX HY Hi Hj Hx Hy F. rewrite (entry_lags (rev (map Cconj x)) l' n tw fw oy j (zlen x + 1 - ti) cy f), (entry_lags x l n tw fw ox i ti cx f) by auto. assert (LM : zlen (map Cconj x) = zlen x) by apply zlen_map.
  assert (U : lags_used (rev (map Cconj x)) tw fw n (zlen x + 1 - ti) = lags_used x tw fw n ti) by (unfold lags_used; rewrite rev_zlen, LM; lia). rewrite U. f_equal. apply from_lags_ext. intros t _. replace (zlen x + 1 - ti - 1) with (zlen (map Cconj x) - 1 - (ti - 1)) by (rewrite LM; lia). rewrite lagavg_rev by exact SY. assert (E := lagavg_cconj x (winf tw) (ti - 1) (- t)). unfold cconj in E. rewrite E. f_equal. lia.
Qed.
(** 0, 2, 0, 0 is 0, 0, 2, 0 backwards: at instant 2, 12 on row 0 and -4 on row 2 again. *)
Example c161_example : exists col, spwv (rev [RtoC 0; RtoC 0; RtoC 2; RtoC 0]) (Some [2]) (Some 4) (Some [RtoC 1]) (Some [RtoC 1; RtoC 1; RtoC 1]) = Ok [Some col] /\ rnth col 0 = 12%R /\ rnth col 2 = (-4)%R.
Proof.
  destruct c157_example as (cx & HX & E0 & E2). set (x := [RtoC 0; RtoC 0; RtoC 2; RtoC 0]) in *. set (fw := [RtoC 1; RtoC 1; RtoC 1]) in *. set (y := rev x).
  assert (W1 : forall t, winf [RtoC 1] t = if t =? 0 then RtoC 1 else RtoC 0).
  { intros t. destruct (Z.eqb_spec t 0) as [->|NE]; [reflexivity|]. apply winf_out. change ((zlen [RtoC 1] - 1) / 2) with 0. lia. }
  assert (RW : real_list [RtoC 1]) by (intros m Hm; change (zlen [RtoC 1]) with 1 in Hm; assert (m = 0) as -> by lia; reflexivity).
  assert (RF : real_list fw) by (intros m Hm; change (zlen fw) with 3 in Hm; assert (m = 0 \/ m = 1 \/ m = 2) as [-> | [-> | ->]] by lia; reflexivity).
  destruct (c29_spwv_outcome y [2] 4 [RtoC 1] fw ltac:(lia) eq_refl eq_refl) as [[_ (oy & HY & LY & _)]|[(ti & [<-|[]] & (B & _)) _]]; [|vm_compute in B; destruct B as [B _]; exfalso; apply B; reflexivity].
  change (zlen [2]) with 1 in LY. destruct oy as [|d [|]]; try (unfold zlen in LY; cbn in LY; lia). assert (NN := c29_nan_iff y [2] 4 [RtoC 1] fw [d] 0 2 ltac:(lia) eq_refl eq_refl HY eq_refl). destruct d as [cy|].
  2:{ exfalso. destruct NN as [NN _]. destruct (NN eq_refl) as (tau & HT & _ & M). assert (tau = 0) by (match type of HT with _ <= _ < ?b => change b with 1 in HT end; lia). subst tau. unfold lagmass in M. change (zlen y - 0) with 4 in M. change (arange 0 4) with [0; 1; 2; 3] in M. unfold csum in M. cbn [fold_right] in M. rewrite !W1 in M. apply (f_equal fst) in M. cbn in M. lra. }
  exists cy. split; [exact HY|].
  assert (V := fun f => c161_reversal x [3] [2] 4 [RtoC 1] fw [Some cx] [Some cy] 0 0 3 cx cy f ltac:(lia) eq_refl eq_refl RW RF ltac:(intros t; rewrite !W1; destruct (Z.eqb_spec (- t) 0), (Z.eqb_spec t 0); try lia; reflexivity) HX HY eq_refl eq_refl eq_refl eq_refl).
  split; [rewrite <- E0, <- (V 0 ltac:(lia))|rewrite <- E2, <- (V 2 ltac:(lia))]; reflexivity.
Qed.
