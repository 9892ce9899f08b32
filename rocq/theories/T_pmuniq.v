(** C166: what PseudoMargenauHillDistribution keeps of the signal. *)
From Coq Require Import Reals ZArith List Lia Lra Bool.
From Coquelicot Require Import Coquelicot.
From Flocq Require Import Core.
From Verif Require Import Py Scalars CSum DFT Spec M_base M_stft M_cohen M_amb M_putils M_reas P_base P_stft P_wvd P_mh P_pwvd P_spec P_spwv T_mh T_spwv T_red T_key T_noise T_putils T_reas T_reas2 T_conc T_rtone T_sptone T_pmtone T_pmcov.
Import ListNotations.
Local Open Scope Z_scope.

(** The products under the window can be read off column c. *)
Lemma c166_products : forall x ts n w o c k, 1 <= n -> pmh x (Some ts) (Some n) (Some w) = Ok o -> 0 <= c < ts_len ts -> 0 <= k < zlen x -> Z.abs (c - 1 - k) <= (zlen w - 1) / 2 ->
  csum (arange 0 n) (fun f => at2 (r_tfr o) f c * root n (f * (c - 1 - k)))%C = (RtoC (IZR n) * (winf w (c - 1 - k) * cnth x c * Cconj (cnth x k)))%C.
Proof.
  intros x ts n w o c k Hn H Hc Hk Hw.
  assert (FAR : 2 * ((zlen w - 1) / 2) < n \/ zlen x < n). { assert (B := round_half_bounds n). destruct (c32_pmh_outcome x ts n w Hn) as [[[R|[_ R]] _]|[_ E]]; [lia|lia|congruence]. }
  rewrite (csum_ext _ _ (fun f => csum (arange 0 (zlen x)) (fun j => winf w (c - 1 - j) * cnth x c * Cconj (cnth x j) * root n (f * (j - k)))%C)).
  2:{ intros f If. apply in_arange in If. rewrite (c32_pmh_closed_form x ts n w o f c) by auto. rewrite <- csum_scal_r. apply csum_ext. intros j _. rewrite <- Cmult_assoc, <- root_plus. do 2 f_equal. ring. }
  rewrite csum_swap. rewrite (csum_single (arange 0 (zlen x)) k).
  - rewrite csum_scal_l, root_orth by lia. replace (k - k) with 0 by ring. rewrite Z.mod_0_l by lia. change (0 =? 0) with true. cbv iota. ring.
  - apply NoDup_arange.
  - now apply in_arange.
  - intros j Ij NE. apply in_arange in Ij. rewrite csum_scal_l, root_orth by lia. destruct (Z_le_dec (Z.abs (c - 1 - j)) ((zlen w - 1) / 2)) as [B|B]; [|rewrite winf_out by lia; ring].
    destruct (Z.eqb_spec ((j - k) mod n) 0) as [E|_]; [|ring]. exfalso. apply Z.mod_divide in E; [|lia]. destruct E as [q E]. assert (Z.abs (j - k) < n) by lia. assert (q = 0 \/ 1 <= Z.abs q) as [-> |Q] by lia; [lia|]. nia.
Qed.
Lemma same_product x y ts n w ox oy c k : 1 <= n -> zlen x = zlen y -> pmh x (Some ts) (Some n) (Some w) = Ok ox -> pmh y (Some ts) (Some n) (Some w) = Ok oy -> (forall f, 0 <= f < n -> at2 (r_tfr ox) f c = at2 (r_tfr oy) f c) -> 0 <= c < ts_len ts -> 0 <= k < zlen x -> winf w (c - 1 - k) <> RtoC 0 ->
  (cnth x c * Cconj (cnth x k) = cnth y c * Cconj (cnth y k))%C.
Proof.
  intros Hn L HX HY E Hc Hk W. assert (B : Z.abs (c - 1 - k) <= (zlen w - 1) / 2) by (destruct (Z_le_dec (Z.abs (c - 1 - k)) ((zlen w - 1) / 2)) as [B|B]; [exact B|exfalso; apply W, winf_out; lia]).
  assert (P := c166_products x ts n w ox c k Hn HX Hc Hk B). assert (Q := c166_products y ts n w oy c k Hn HY Hc ltac:(lia) B). rewrite (csum_ext _ _ (fun f => at2 (r_tfr oy) f c * root n (f * (c - 1 - k)))%C) in P by (intros f If; apply in_arange in If; now rewrite E). rewrite P in Q. assert (N0 : RtoC (IZR n) <> RtoC 0) by (intros Z0; apply RtoC_inj in Z0; apply eq_IZR in Z0; lia).
  transitivity (RtoC (IZR n) * (winf w (c - 1 - k) * cnth x c * Cconj (cnth x k)) / RtoC (IZR n) / winf w (c - 1 - k))%C; [field; split; assumption|]. rewrite Q. field. split; assumption.
Qed.
Lemma unit_of a b : (a * Cconj a = b * Cconj b)%C -> a <> RtoC 0 -> Cmod (b / a)%C = 1%R.
Proof.
  intros E A. rewrite <- !Cmod2_conj in E. apply RtoC_inj in E. assert (PA : (0 < Cmod a)%R) by now apply Cmod_gt_0. assert (PB := Cmod_ge_0 b). assert (Q : Cmod a = Cmod b) by nra. rewrite Cmod_div by exact A. rewrite <- Q. field. lra.
Qed.
(** A signal without zeros, a window that does not vanish at lags -1 and 0. *)
Lemma c166_unique : forall x y ts n w ox oy, 1 <= n -> zlen x = zlen y -> ts_len ts = zlen x -> pmh x (Some ts) (Some n) (Some w) = Ok ox -> pmh y (Some ts) (Some n) (Some w) = Ok oy -> winf w 0 <> RtoC 0 -> winf w (-1) <> RtoC 0 -> (forall k, 0 <= k < zlen x -> cnth x k <> RtoC 0) ->
  (forall f c, 0 <= f < n -> 0 <= c < zlen x -> at2 (r_tfr ox) f c = at2 (r_tfr oy) f c) -> exists u, Cmod u = 1%R /\ forall k, 0 <= k < zlen x -> cnth y k = (u * cnth x k)%C.
Proof.
  intros x y ts n w ox oy Hn L LT HX HY W0 W1 NZ E. destruct (Z_le_gt_dec (zlen x) 0) as [N0|N0]; [exists (RtoC 1); split; [apply Cmod_1|intros; lia]|].
  assert (P : forall c k, 0 <= c < zlen x -> 0 <= k < zlen x -> winf w (c - 1 - k) <> RtoC 0 -> (cnth x c * Cconj (cnth x k) = cnth y c * Cconj (cnth y k))%C) by (intros c k Hc Hk; apply (same_product x y ts n w ox oy); auto; lia).
  assert (U : Cmod (cnth y 0 / cnth x 0)%C = 1%R) by (apply unit_of; [apply P; [lia|lia|exact W1]|apply NZ; lia]). set (u := (cnth y 0 / cnth x 0)%C) in *. assert (Q0 : cnth y 0 = (u * cnth x 0)%C) by (unfold u; field; apply NZ; lia). clearbody u. exists u. split; [exact U|].
  assert (UU : (u * Cconj u = RtoC 1)%C) by (rewrite <- Cmod2_conj, U; f_equal; ring). intros k Hk. assert (K0 := proj1 Hk). revert Hk. pattern k. apply natlike_ind; [intros _; exact Q0| |exact K0]. intros j Hj IH Hs. specialize (IH ltac:(lia)). replace (Z.succ j) with (j + 1) in * by lia.
  assert (S := P (j + 1) j ltac:(lia) ltac:(lia) ltac:(replace (j + 1 - 1 - j) with 0 by ring; exact W0)). rewrite IH, Cconj_mult in S. assert (CN : Cconj (cnth x j) <> RtoC 0) by (intros Z0; apply (NZ j ltac:(lia)); apply (f_equal Cconj) in Z0; rewrite Cconj_invol, Cconj_R in Z0; exact Z0).
  assert (V : (cnth x (j + 1) = cnth y (j + 1) * Cconj u)%C) by (transitivity (cnth x (j + 1) * Cconj (cnth x j) / Cconj (cnth x j))%C; [field; exact CN|rewrite S; field; exact CN]). rewrite V. transitivity (cnth y (j + 1) * (u * Cconj u))%C; [rewrite UU; ring|ring].
Qed.
(** Any signal, a window that covers all lags. *)
Lemma c166_covered : forall x y ts n w ox oy, 1 <= n -> zlen x = zlen y -> ts_len ts = zlen x -> pmh x (Some ts) (Some n) (Some w) = Ok ox -> pmh y (Some ts) (Some n) (Some w) = Ok oy -> (forall t, - zlen x <= t <= zlen x - 2 -> winf w t <> RtoC 0) ->
  (forall f c, 0 <= f < n -> 0 <= c < zlen x -> at2 (r_tfr ox) f c = at2 (r_tfr oy) f c) -> exists u, Cmod u = 1%R /\ forall k, 0 <= k < zlen x -> cnth y k = (u * cnth x k)%C.
Proof.
  intros x y ts n w ox oy Hn L LT HX HY W E.
  assert (P : forall c k, 0 <= c < zlen x -> 0 <= k < zlen x -> (cnth x c * Cconj (cnth x k) = cnth y c * Cconj (cnth y k))%C) by (intros c k Hc Hk; apply (same_product x y ts n w ox oy); auto; [lia|apply W; lia]).
  assert (ZZ : forall k, 0 <= k < zlen x -> cnth x k = RtoC 0 -> cnth y k = RtoC 0). { intros k Hk Z0. assert (Q := P k k Hk Hk). rewrite <- !Cmod2_conj, Z0, Cmod_0 in Q. apply RtoC_inj in Q. apply Cmod_eq_0. assert (B := Cmod_ge_0 (cnth y k)). nra. }
  assert (D : forall l : list Z, (forall k, In k l -> cnth x k = RtoC 0) \/ exists k, In k l /\ cnth x k <> RtoC 0). { induction l as [|a l IH]; [left; intros k []|]. destruct (Ceq_dec (cnth x a) (RtoC 0)) as [A|A]; [|right; exists a; split; [now left|exact A]]. destruct IH as [IH|(k & Ik & K)]; [left; intros k [<-|Ik]; auto|right; exists k; split; [now right|exact K]]. }
  destruct (D (arange 0 (zlen x))) as [A|(b & Ib & B)].
  - exists (RtoC 1). split; [apply Cmod_1|]. intros k Hk. assert (X0 := A k ltac:(now apply in_arange)). rewrite X0, (ZZ k Hk X0). ring.
  - apply in_arange in Ib. exists (cnth y b / cnth x b)%C. assert (U := unit_of _ _ (P b b Ib Ib) B). split; [exact U|]. intros k Hk. assert (S := P k b Hk Ib). assert (CN : Cconj (cnth x b) <> RtoC 0) by (intros Z0; apply B; apply (f_equal Cconj) in Z0; rewrite Cconj_invol, Cconj_R in Z0; exact Z0).
    set (u := (cnth y b / cnth x b)%C) in *. assert (YB : cnth y b = (u * cnth x b)%C) by (unfold u; field; exact B). assert (UU : (u * Cconj u = RtoC 1)%C) by (rewrite <- Cmod2_conj, U; f_equal; ring). clearbody u. rewrite YB, Cconj_mult in S.
    assert (V : (cnth x k = cnth y k * Cconj u)%C) by (transitivity (cnth x k * Cconj (cnth x b) / Cconj (cnth x b))%C; [field; exact CN|rewrite S; field; exact CN]). rewrite V. transitivity (cnth y k * (u * Cconj u))%C; [rewrite UU; ring|ring].
Qed.
(** All arguments left out: the window of 3 points or more has no zeros. *)
Lemma default_win n : 8 <= n -> exists w, pmh_window n = Ok w /\ winf w 0 <> RtoC 0 /\ winf w (-1) <> RtoC 0.
Proof.
  intros Hn. unfold pmh_window. set (k := pmh_winlen n). assert (K : 3 <= k) by (unfold k, pmh_winlen; destruct (Z.eqb_spec (n / 4 mod 2) 0); Z.to_euclidean_division_equations; lia). set (w := map RtoC (hamming k)). assert (LW : zlen w = k) by (unfold w; rewrite zlen_map; apply hamming_zlen; lia).
  assert (NZ : forall i, 0 <= i < k -> cnth w i <> RtoC 0). { intros i Hi. assert (R := hamming_range k i Hi). unfold w, cnth. rewrite (map_nth RtoC (hamming k) 0%R). intros E. apply RtoC_inj in E. unfold rnth in R. lra. }
  assert (LH : 1 <= (k - 1) / 2 < k) by (Z.to_euclidean_division_equations; lia). rewrite (get_ok (RtoC 0) w (win_lh w)) by (unfold win_lh; rewrite LW; lia). cbn [bind]. unfold win_lh. rewrite LW. fold (cnth w ((k - 1) / 2)). set (a := cnth w ((k - 1) / 2)). assert (A : a <> RtoC 0) by (apply NZ; lia). eexists. split; [reflexivity|].
  set (v := map (fun z => (z / a)%C) w). assert (LV : zlen v = k) by (unfold v; now rewrite zlen_map). assert (V : forall i, 0 <= i < k -> cnth v i <> RtoC 0).
  { intros i Hi. unfold v, cnth. rewrite (nth_indep _ (RtoC 0) (RtoC 0 / a)%C) by (rewrite map_length; unfold zlen in LW; lia). rewrite (map_nth (fun z => (z / a)%C) w (RtoC 0)). fold (cnth w i). intros E. apply (NZ i Hi). transitivity (cnth w i / a * a)%C; [field; exact A|]. rewrite E. ring. }
  split; (rewrite winf_in by (rewrite LV; lia); rewrite LV; apply V; lia).
Qed.
Lemma c166_default : forall x y ox oy, 8 <= zlen x -> zlen x = zlen y -> pmh x None None None = Ok ox -> pmh y None None None = Ok oy -> (forall k, 0 <= k < zlen x -> cnth x k <> RtoC 0) ->
  (forall f c, 0 <= f < zlen x -> 0 <= c < zlen x -> at2 (r_tfr ox) f c = at2 (r_tfr oy) f c) -> exists u, Cmod u = 1%R /\ forall k, 0 <= k < zlen x -> cnth y k = (u * cnth x k)%C.
Proof.
  intros x y ox oy N8 L HX HY NZ E. destruct (default_win (zlen x) N8) as (w & EW & W0 & W1).
  assert (D : forall z, zlen z = zlen x -> pmh z None None None = pmh z (Some (TsI (arange 0 (zlen x)))) (Some (zlen x)) (Some w)) by (intros z LZ; unfold pmh; rewrite LZ, EW; cbn [bind]; unfold base_init; now rewrite LZ). rewrite D in HX by reflexivity. rewrite D in HY by now symmetry.
  apply (c166_unique x y (TsI (arange 0 (zlen x))) (zlen x) w ox oy); auto; [lia|]. cbn [ts_len]. rewrite arange_zlen. lia.
Qed.
(** The other way round: signals that are close have distributions that are close. *)
Lemma c166_stable : forall x y ts n w ox oy f c (D M : R), 1 <= n -> zlen x = zlen y -> pmh x (Some ts) (Some n) (Some w) = Ok ox -> pmh y (Some ts) (Some n) (Some w) = Ok oy -> 0 <= f < n -> 0 <= c < ts_len ts ->
  (forall k, 0 <= k < zlen x -> (Cmod (cnth x k - cnth y k)%C <= D)%R) -> (forall k, 0 <= k < zlen x -> (Cmod (cnth x k) <= M)%R /\ (Cmod (cnth y k) <= M)%R) ->
  (Cmod (at2 (r_tfr ox) f c - at2 (r_tfr oy) f c)%C <= 2 * M * D * rsum (arange 0 (zlen x)) (fun k => Cmod (winf w (c - 1 - k))))%R.
Proof.
  intros x y ts n w ox oy f c D M Hn L HX HY Hf Hc HD HM. assert (Cx := pmh_cols x ts n w ox c Hn HX Hc). rewrite (c32_pmh_closed_form x ts n w ox f c), (c32_pmh_closed_form y ts n w oy f c) by auto. rewrite <- L. rewrite <- csum_minus. apply Rle_trans with (1 := Cmod_csum_le _ _). rewrite <- rsum_scal_l. apply rsum_le. intros k Ik. apply in_arange in Ik.
  replace (winf w (c - 1 - k) * cnth x c * Cconj (cnth x k) * root n (- (f * (c - 1 - k))) - winf w (c - 1 - k) * cnth y c * Cconj (cnth y k) * root n (- (f * (c - 1 - k))))%C with (winf w (c - 1 - k) * (cnth x c * Cconj (cnth x k - cnth y k) + (cnth x c - cnth y c) * Cconj (cnth y k)) * root n (- (f * (c - 1 - k))))%C by (rewrite Cconj_minus; ring).
  rewrite !Cmod_mult. unfold root. rewrite Cmod_cis, Rmult_1_r. assert (W := Cmod_ge_0 (winf w (c - 1 - k))). rewrite (Rmult_comm (2 * M * D)). apply Rmult_le_compat_l; [exact W|]. apply Rle_trans with (1 := Cmod_triangle _ _). rewrite !Cmod_mult, !Cmod_conj.
  destruct (HM c ltac:(lia)) as [A _]. destruct (HM k Ik) as [_ B]. assert (E1 := HD k Ik). assert (E2 := HD c ltac:(lia)). assert (P1 := Cmod_ge_0 (cnth x c)). assert (P2 := Cmod_ge_0 (cnth y k)). assert (P3 := Cmod_ge_0 (cnth x k - cnth y k)%C). assert (P4 := Cmod_ge_0 (cnth x c - cnth y c)%C).
  assert (Q1 : (Cmod (cnth x c) * Cmod (cnth x k - cnth y k)%C <= M * D)%R) by (apply Rmult_le_compat; auto). assert (Q2 : (Cmod (cnth x c - cnth y c)%C * Cmod (cnth y k) <= D * M)%R) by (apply Rmult_le_compat; auto). lra.
Qed.
(** A gap as wide as the window hides the relative sign: 1, 0, 0, 1 and 1, 0, 0, -1 on 8 rows with [1, 1, 1]. *)
Lemma c166_refuted : let x := [RtoC 1; RtoC 0; RtoC 0; RtoC 1] in let y := [RtoC 1; RtoC 0; RtoC 0; RtoC (-1)] in let w := [RtoC 1; RtoC 1; RtoC 1] in let ts := TsI [0; 1; 2; 3] in
  exists ox oy, pmh x (Some ts) (Some 8) (Some w) = Ok ox /\ pmh y (Some ts) (Some 8) (Some w) = Ok oy /\ (forall f c, 0 <= f < 8 -> 0 <= c < 4 -> at2 (r_tfr ox) f c = at2 (r_tfr oy) f c) /\ ~ exists u, forall k, 0 <= k < 4 -> cnth y k = (u * cnth x k)%C.
Proof.
  cbv zeta. set (x := [RtoC 1; RtoC 0; RtoC 0; RtoC 1]). set (y := [RtoC 1; RtoC 0; RtoC 0; RtoC (-1)]). set (w := [RtoC 1; RtoC 1; RtoC 1]). set (ts := TsI [0; 1; 2; 3]).
  destruct (c32_pmh_outcome x ts 8 w ltac:(lia)) as [[_ (ox & HX)]|[R _]]; [|exfalso; apply R; right; split; [vm_compute; discriminate|left; apply Z.ltb_lt; reflexivity]].
  destruct (c160_length x y ts 8 w ox ltac:(lia) eq_refl HX) as (oy & HY). exists ox, oy. split; [exact HX|]. split; [exact HY|]. split.
  - intros f c Hf Hc. rewrite (c32_pmh_closed_form x ts 8 w ox f c ltac:(lia) HX Hf Hc), (c32_pmh_closed_form y ts 8 w oy f c ltac:(lia) HY Hf Hc). apply csum_ext. intros k Ik. apply in_arange in Ik. assert (Jk : 0 <= k < 4) by exact Ik. clear Ik.
    assert (D : (c = 0 /\ k = 3) \/ (c = 3 /\ k = 0) \/ (cnth x c * Cconj (cnth x k) = cnth y c * Cconj (cnth y k))%C).
    { assert (c = 0 \/ c = 1 \/ c = 2 \/ c = 3) as [-> |[-> |[-> | ->]]] by lia; assert (k = 0 \/ k = 1 \/ k = 2 \/ k = 3) as [-> |[-> |[-> | ->]]] by lia; try (left; split; reflexivity); try (right; left; split; reflexivity); right; right; rewrite ?(eq_refl : cnth x 0 = RtoC 1), ?(eq_refl : cnth x 1 = RtoC 0), ?(eq_refl : cnth x 2 = RtoC 0), ?(eq_refl : cnth x 3 = RtoC 1), ?(eq_refl : cnth y 0 = RtoC 1), ?(eq_refl : cnth y 1 = RtoC 0), ?(eq_refl : cnth y 2 = RtoC 0), ?(eq_refl : cnth y 3 = RtoC (-1)), ?Cconj_R, <- ?RtoC_mult; apply (f_equal RtoC); ring. }
    destruct D as [[-> ->]|[[-> ->]|D]]; [rewrite winf_out by (vm_compute; auto); ring|rewrite winf_out by (vm_compute; auto); ring|]. rewrite <- (Cmult_assoc (winf w (c - 1 - k)) (cnth x c)), D. ring.
  - intros (u & U). assert (A := U 0 ltac:(lia)). assert (B := U 3 ltac:(lia)). change (cnth y 0) with (RtoC 1) in A. change (cnth x 0) with (RtoC 1) in A. change (cnth y 3) with (RtoC (-1)) in B. change (cnth x 3) with (RtoC 1) in B. rewrite <- A in B. apply RtoC_inj in B. lra.
Qed.
(** 2, i with [1, 1, 1] on 8 rows: column 1 gives back i * conj(2). *)
Example c166_example : exists o, pmh [RtoC 2; Ci] (Some (TsI [0; 1])) (Some 8) (Some [RtoC 1; RtoC 1; RtoC 1]) = Ok o /\ csum (arange 0 8) (fun f => at2 (r_tfr o) f 1 * root 8 (f * 0))%C = (0, 16)%R.
Proof.
  set (x := [RtoC 2; Ci]). set (w := [RtoC 1; RtoC 1; RtoC 1]). set (ts := TsI [0; 1]).
  destruct (c32_pmh_outcome x ts 8 w ltac:(lia)) as [[_ (o & H)]|[R _]]; [|exfalso; apply R; right; split; [vm_compute; discriminate|left; apply Z.ltb_lt; reflexivity]].
  exists o. split; [exact H|]. assert (P := c166_products x ts 8 w o 1 0 ltac:(lia) H ltac:(change (ts_len ts) with 2; lia) ltac:(change (zlen x) with 2; lia) ltac:(vm_compute; discriminate)). change (1 - 1 - 0) with 0 in P. rewrite P. change (winf w 0) with (RtoC 1). change (cnth x 1) with Ci. change (cnth x 0) with (RtoC 2). apply injective_projections; cbn; ring.
Qed.
