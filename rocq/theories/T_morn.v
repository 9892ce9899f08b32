(** C165: morlet_scalogram with a negative time-bandwidth product. *)
From Coq Require Import Reals ZArith List Lia Lra Bool.
From Coquelicot Require Import Coquelicot.
From Flocq Require Import Core.
From Verif Require Import Py Scalars CSum DFT Spec M_base P_base M_reas M_mor M_morn T_utils T_reas T_reas2 T_mor.
Import ListNotations.
Local Open Scope Z_scope.

(** ** Specification: the rows the loops write, and the timestamps that raise *)
Definition written (n j : Z) : bool := ((1 <=? j) && (j <? n / 2)) || ((1 <=? n - j) && (n - j <? n / 2)) || (j =? round_half n).
Definition fatal (N n : Z) (tbp : R) (t : Z) : Prop := t <= N /\ - round_half n < reach n tbp /\ (reach n tbp < -1 \/ t < 1 - N).

Lemma reach_neg n tbp : 1 <= n -> (tbp < 0)%R -> reach n tbp <= 0.
Proof.
  intros Hn Ht. assert (NP : (0 < IZR n)%R) by (apply IZR_lt; lia). unfold reach. apply Zceil_glb. assert (S := sqrt_pos (2 * ln 1000)). assert (P : (0 <= - tbp * IZR n * sqrt (2 * ln 1000))%R) by (apply Rmult_le_pos; [apply Rmult_le_pos; lra|exact S]). lra.
Qed.
Lemma ceilz M m : 1 <= m -> M <= 0 -> Zceil (IZR M / IZR m) <= 0 /\ (Zceil (IZR M / IZR m) = 0 <-> - m < M).
Proof.
  intros Hm HM. assert (MP : (0 < IZR m)%R) by (apply IZR_lt; lia). assert (I0 : (0 < / IZR m)%R) by now apply Rinv_0_lt_compat. assert (C0 : Zceil (IZR M / IZR m) <= 0).
  { apply Zceil_glb. apply IZR_le in HM. unfold Rdiv. assert (Q : (0 <= - IZR M * / IZR m)%R) by (apply Rmult_le_pos; lra). lra. }
  split; [exact C0|]. assert (U := Zceil_ub (IZR M / IZR m)). split.
  - intros E. assert (L := Zceil_lb (IZR M / IZR m)). rewrite E in L. apply lt_IZR. rewrite opp_IZR. replace (IZR M) with (IZR M / IZR m * IZR m)%R by (field; lra). apply (Rmult_lt_compat_r (IZR m)) in L; [|exact MP]. assert (Q : (-1 < IZR M / IZR m)%R) by (assert (L' := Zceil_lb (IZR M / IZR m)); rewrite E in L'; lra). apply (Rmult_lt_compat_r (IZR m)) in Q; [|exact MP]. lra.
  - intros L. apply IZR_lt in L. rewrite opp_IZR in L. assert (Q : (-1 < IZR M / IZR m)%R). { apply (Rmult_lt_reg_r (IZR m)); [exact MP|]. replace (IZR M / IZR m * IZR m)%R with (IZR M) by (field; lra). lra. } assert (-1 < Zceil (IZR M / IZR m)) by (apply lt_IZR; lra). lia.
Qed.
Lemma neg_empty M m t : 1 <= m -> M <= 0 -> mor_neg M m t = [].
Proof. intros Hm HM. unfold mor_neg. apply arange_empty. assert (C := proj1 (ceilz M m Hm HM)). lia. Qed.
Lemma pos_cases N M m t : 1 <= m -> M <= 0 -> (- m < M /\ t <= N /\ mor_pos N M m t = [0]) \/ ((M <= - m \/ N < t) /\ mor_pos N M m t = []).
Proof.
  intros Hm HM. destruct (ceilz M m Hm HM) as [C0 CI]. unfold mor_pos. set (c := Zceil (IZR M / IZR m)) in *. clearbody c. destruct (Z_lt_le_dec (- m) M) as [L|L].
  - rewrite (proj2 CI L). destruct (Z_le_gt_dec t N) as [T|T]; [left; split; [exact L|split; [exact T|]]|right; split; [lia|apply arange_empty; lia]]. replace (Z.min 0 (N - t) + 1) with 1 by lia. reflexivity.
  - right. split; [now left|]. apply arange_empty. assert (c <> 0) by (intros E; apply CI in E; lia). lia.
Qed.
Lemma row_fine x h g n tbp m t : 2 <= n -> (tbp < 0)%R -> 1 <= m <= round_half n -> zlen h = Z.max 0 (hlen n tbp) -> ~ fatal (zlen x) n tbp t -> exists v, mor_row x h g (reach n tbp) m t = Ok v.
Proof.
  intros Hn Ht Hm Lh NF. assert (RN := reach_neg n tbp ltac:(lia) Ht). unfold fatal in NF. unfold mor_row. rewrite neg_empty by lia. destruct (pos_cases (zlen x) (reach n tbp) m t ltac:(lia) RN) as [(A & B & ->)|(_ & ->)].
  - rewrite dot_ok; [eexists; reflexivity| |]; intros s [<-|[]]; [rewrite Lh; unfold hlen; lia|lia].
  - eexists. reflexivity.
Qed.
Lemma mid_fine x h g n tbp t : 2 <= n -> (tbp < 0)%R -> zlen h = Z.max 0 (hlen n tbp) -> ~ fatal (zlen x) n tbp t -> exists v, mor_mid x h g (reach n tbp) (round_half n) t = Ok v.
Proof.
  intros Hn Ht Lh NF. assert (HB := half_bounds n Hn). assert (RN := reach_neg n tbp ltac:(lia) Ht). unfold fatal in NF. unfold mor_mid. rewrite neg_empty by lia. destruct (pos_cases (zlen x) (reach n tbp) (round_half n) t ltac:(lia) RN) as [(A & B & ->)|(_ & ->)].
  - cbn [map]. rewrite dot_ok; [eexists; reflexivity| |]; intros s [<-|[]]; [rewrite Lh; unfold hlen; lia|lia].
  - eexists. reflexivity.
Qed.
Lemma cell_fine x n tbp t j : 2 <= n -> (tbp < 0)%R -> ~ fatal (zlen x) n tbp t -> 0 <= j < n -> morn_cell x n tbp t j = Ok (if written n j then None else Some 0%R).
Proof.
  intros Hn Ht NF Hj. assert (HB := half_bounds n Hn). unfold morn_cell, written. cbv zeta. rewrite mor_M_eq, hstar_eq. set (h := map _ (arange 0 (hlen n tbp))). assert (Lh : zlen h = Z.max 0 (hlen n tbp)) by (unfold h; rewrite zlen_map; unfold zlen; rewrite arange_length; lia). assert (Lg : zlen (map Cconj h) = Z.max 0 (hlen n tbp)) by now rewrite zlen_map.
  destruct ((1 <=? j) && (j <? n / 2)) eqn:E1.
  { apply andb_true_iff in E1. destruct E1 as [A B]. apply Z.leb_le in A. apply Z.ltb_lt in B. destruct (row_fine x h (map Cconj h) n tbp j t Hn Ht ltac:(lia) Lh NF) as (v & ->). reflexivity. }
  destruct ((1 <=? n - j) && (n - j <? n / 2)) eqn:E2.
  { apply andb_true_iff in E2. destruct E2 as [A B]. apply Z.leb_le in A. apply Z.ltb_lt in B. destruct (row_fine x (map Cconj h) h n tbp (n - j) t Hn Ht ltac:(lia) Lg NF) as (v & ->). reflexivity. }
  cbn [orb]. destruct (Z.eqb_spec j (round_half n)) as [->|NE]; [|reflexivity]. destruct (mid_fine x h (map Cconj h) n tbp t Hn Ht Lh NF) as (v & ->). reflexivity.
Qed.
Lemma take_cases {A} (l : list A) idx : (exists v, take l idx = Ok v) \/ take l idx = Raise IndexError.
Proof.
  unfold take. induction idx as [|i idx IH]; [left; eexists; reflexivity|]. cbn [mapM]. destruct (get_cases l i) as [[a ->]| ->]; [cbn [bind]|right; reflexivity]. destruct IH as [[v ->]| ->]; [left; eexists; reflexivity|right; reflexivity].
Qed.
Lemma dot_any h x fh fx taus : (exists v, mor_dot h x fh fx taus = Ok v) \/ mor_dot h x fh fx taus = Raise IndexError.
Proof.
  unfold mor_dot. destruct (take_cases h (map fh taus)) as [[a ->]| ->]; [cbn [bind]|right; reflexivity]. destruct (take_cases x (map fx taus)) as [[b ->]| ->]; [left; eexists; reflexivity|right; reflexivity].
Qed.
Lemma row_any x h g M m t : (exists v, mor_row x h g M m t = Ok v) \/ mor_row x h g M m t = Raise IndexError.
Proof.
  unfold mor_row. destruct (dot_any h x (fun s => m * s - 1) (fun s => t + s - 1) (mor_pos (zlen x) M m t)) as [[a ->]| ->]; [cbn [bind]|right; reflexivity]. destruct (mor_neg M m t) as [|b l]; [left; eexists; reflexivity|]. destruct (dot_any g x (fun s => s * m) (fun s => t - s) (b :: l)) as [[v ->]| ->]; [left; eexists; reflexivity|right; reflexivity].
Qed.
Lemma mid_any x h g M m t : (exists v, mor_mid x h g M m t = Ok v) \/ mor_mid x h g M m t = Raise IndexError.
Proof.
  unfold mor_mid. destruct (dot_any h x (fun s => m * s) (fun s => t + s) (map (fun s => s - 1) (mor_pos (zlen x) M m t))) as [[a ->]| ->]; [cbn [bind]|right; reflexivity]. destruct (map (fun s => s - 1) (mor_neg M m t)) as [|b l]; [left; eexists; reflexivity|]. destruct (dot_any g x (fun s => s * m) (fun s => t - s) (b :: l)) as [[v ->]| ->]; [left; eexists; reflexivity|right; reflexivity].
Qed.
Lemma cell_any x n tbp t j : (exists v, morn_cell x n tbp t j = Ok v) \/ morn_cell x n tbp t j = Raise IndexError.
Proof.
  unfold morn_cell. cbv zeta. set (h := mor_hstar n tbp). destruct (_ && _); [|destruct (_ && _); [|destruct (_ =? _); [|left; eexists; reflexivity]]].
  - destruct (row_any x h (map Cconj h) (mor_M n tbp) j t) as [[v ->]| ->]; [left; eexists; reflexivity|right; reflexivity].
  - destruct (row_any x (map Cconj h) h (mor_M n tbp) (n - j) t) as [[v ->]| ->]; [left; eexists; reflexivity|right; reflexivity].
  - destruct (mid_any x h (map Cconj h) (mor_M n tbp) j t) as [[v ->]| ->]; [left; eexists; reflexivity|right; reflexivity].
Qed.
Lemma cell_fatal x n tbp t : 1 <= zlen x -> 2 <= n -> (tbp < 0)%R -> fatal (zlen x) n tbp t -> morn_cell x n tbp t (round_half n) = Raise IndexError.
Proof.
  intros HN Hn Ht (F1 & F2 & F3). assert (HB := half_bounds n Hn). assert (RN := reach_neg n tbp ltac:(lia) Ht). unfold morn_cell. cbv zeta. rewrite mor_M_eq, hstar_eq. set (h := map _ (arange 0 (hlen n tbp))). assert (Lh : zlen h = Z.max 0 (hlen n tbp)) by (unfold h; rewrite zlen_map; unfold zlen; rewrite arange_length; lia).
  destruct (Z.ltb_spec (round_half n) (n / 2)); [lia|]. destruct (Z.ltb_spec (n - round_half n) (n / 2)); [lia|]. rewrite !andb_false_r, Z.eqb_refl. unfold mor_mid. destruct (pos_cases (zlen x) (reach n tbp) (round_half n) t ltac:(lia) RN) as [(_ & _ & ->)|([B|B] & _)]; [|lia|lia]. cbn [map]. change (0 - 1) with (-1). unfold mor_dot, take. cbn [map mapM].
  destruct (Z_lt_le_dec (reach n tbp) (-1)) as [L|L].
  - rewrite (get_raise h) by (rewrite Lh; unfold hlen; lia). reflexivity.
  - destruct (get_cases h (round_half n * -1)) as [[v ->]| ->]; [cbn [bind]|reflexivity]. rewrite (get_raise x) by lia. reflexivity.
Qed.
Lemma fatal_dec N n tbp t : {fatal N n tbp t} + {~ fatal N n tbp t}.
Proof. unfold fatal. set (M := reach n tbp). clearbody M. destruct (Z_le_dec t N); [|right; lia]. destruct (Z_lt_dec (- round_half n) M); [|right; lia]. destruct (Z_lt_dec M (-1)); [left; lia|]. destruct (Z_lt_dec t (1 - N)); [left; lia|right; lia]. Qed.
Lemma neg_regular x a d T n tbp : 2 <= T -> morlet_neg x (Some (steps a d T)) (Some n) tbp =
  (tfr <- mapM (fun ti => mapM (morn_cell x n tbp ti) (arange 0 n)) (steps a d T) ;; rtfr <- mapM (mapM (morn_copy (mean2 x * (1 / 1000000))%R)) tfr ;; Ok (tfr, rtfr)).
Proof.
  intros HT. unfold morlet_neg. cbv zeta. rewrite zdiffs_steps. set (D := map _ (arange 0 (T - 1))). assert (ND : D <> []) by (unfold D; rewrite arange_cons by lia; discriminate). assert (HD : forall b, In b D -> b = d) by (intros b Hb; unfold D in Hb; apply in_map_iff in Hb; destruct Hb as (? & <- & _); reflexivity).
  destruct (zmin_ok D ND) as [mn Emn]. destruct (zmax_ok D ND) as [mx Emx]. rewrite Emn, Emx. cbn [bind]. apply zmin_spec in Emn. apply zmax_spec in Emx. rewrite (HD mn (proj1 Emn)), (HD mx (proj1 Emx)), Z.eqb_refl. reflexivity.
Qed.
(** NaN on every row the loops write, 0 on the others, whatever the signal; both arrays alike. *)
Lemma c165_nan : forall x a d T n tbp, 1 <= zlen x -> 2 <= T -> 2 <= n -> (tbp < 0)%R -> (forall i, 0 <= i < T -> ~ fatal (zlen x) n tbp (a + d * i)) ->
  let m := map (fun _ => map (fun j => if written n j then None else Some 0%R) (arange 0 n)) (arange 0 T) in morlet_neg x (Some (steps a d T)) (Some n) tbp = Ok (m, m).
Proof.
  intros x a d T n tbp HN HT Hn Ht NF m. rewrite neg_regular by exact HT. unfold steps. rewrite mapM_map. rewrite (mapM_ok _ (fun _ => map (fun j => if written n j then None else Some 0%R) (arange 0 n))).
  2:{ intros i Hi. apply in_arange in Hi. apply mapM_ok. intros j Hj. apply in_arange in Hj. now apply cell_fine; [| |apply NF|]. }
  cbn [bind]. fold m. assert (P : (0 <= mean2 x * (1 / 1000000))%R).
  { apply Rmult_le_pos; [|lra]. unfold mean2. apply Rmult_le_pos; [apply rsum_nonneg; intros z _; apply pow2_ge_0|]. apply Rlt_le, Rinv_0_lt_compat, IZR_lt. lia. }
  rewrite (mapM_ok _ (fun c => c)); [cbn [bind]; now rewrite map_id|]. intros c Hc. unfold m in Hc. apply in_map_iff in Hc. destruct Hc as (i & <- & _). rewrite (mapM_ok _ (fun v => v)); [now rewrite map_id|]. intros v Hv. apply in_map_iff in Hv. destruct Hv as (j & <- & _). destruct (written n j); [reflexivity|]. cbn. destruct (Rlt_dec _ 0); [lra|reflexivity].
Qed.
Lemma c165_raises : forall x a d T n tbp i, 1 <= zlen x -> 2 <= T -> 2 <= n -> (tbp < 0)%R -> 0 <= i < T -> fatal (zlen x) n tbp (a + d * i) -> morlet_neg x (Some (steps a d T)) (Some n) tbp = Raise IndexError.
Proof.
  intros x a d T n tbp i HN HT Hn Ht Hi F. assert (HB := half_bounds n Hn). rewrite neg_regular by exact HT. unfold steps. rewrite mapM_map. rewrite (mapM_raise _ _ IndexError); [reflexivity| |].
  - intros k _. destruct (fatal_dec (zlen x) n tbp (a + d * k)) as [G|G].
    + right. apply mapM_raise; [intros j _; apply cell_any|]. exists (round_half n). split; [apply in_arange; lia|now apply cell_fatal].
    + left. eexists. apply mapM_ok. intros j Hj. apply in_arange in Hj. now apply cell_fine.
  - exists i. split; [now apply in_arange|]. apply mapM_raise; [intros j _; apply cell_any|]. exists (round_half n). split; [apply in_arange; lia|now apply cell_fatal].
Qed.
Lemma c165_irregular : forall x l n tbp, (forall a d T, 2 <= T -> l <> steps a d T) -> morlet_neg x (Some l) n tbp = Raise ValueError.
Proof.
  intros x l n tbp H. unfold morlet_neg. cbv zeta. destruct (zdiffs l) as [|d0 ds] eqn:ED; [reflexivity|]. destruct (zmin_ok (d0 :: ds)) as [mn Emn]; [discriminate|]. destruct (zmax_ok (d0 :: ds)) as [mx Emx]; [discriminate|]. rewrite Emn, Emx. cbn [bind]. destruct (Z.eqb_spec mn mx) as [->|]; [|reflexivity]. exfalso.
  apply zmin_spec in Emn. apply zmax_spec in Emx. apply (H (nth 0 l 0) mx (zlen l)).
  - destruct l as [|a [|b l]]; try discriminate. unfold zlen. cbn [length]. lia.
  - apply steps_of; [destruct l as [|a [|b l]]; try discriminate; unfold zlen; cbn [length]; lia|]. intros b Hb. rewrite ED in Hb. destruct Emn as [_ A], Emx as [_ B]. specialize (A b Hb). specialize (B b Hb). lia.
Qed.
Lemma spread_bounds : (3 < sqrt (2 * ln 1000) < 45)%R.
Proof.
  assert (L : (6 < ln 1000)%R). { rewrite <- (ln_exp 6). apply ln_increasing; [apply exp_pos|]. replace 6%R with (1 + 1 + 1 + 1 + 1 + 1)%R by ring. rewrite !exp_plus. assert (E := exp_le_3). assert (P := exp_pos 1). set (e := exp 1) in *. assert (e * e <= 9)%R by nra. assert (e * e * e <= 27)%R by nra. assert (e * e * e * e <= 81)%R by nra. assert (e * e * e * e * e <= 243)%R by nra. nra. }
  assert (U : (ln 1000 < 1000)%R). { rewrite <- (ln_exp 1000) at 2. apply ln_increasing; [lra|]. assert (Q := exp_ineq1 1000 ltac:(lra)). lra. }
  split; [replace 3%R with (sqrt (3 * 3)) by (apply sqrt_square; lra)|replace 45%R with (sqrt (45 * 45)) by (apply sqrt_square; lra)]; apply sqrt_lt_1; lra.
Qed.
(** The sign of the default lost, or anything below: NaN at all timestamps. *)
Lemma c165_quarter : forall x a d T n tbp, 1 <= zlen x -> 2 <= T -> 2 <= n -> (tbp <= - (1 / 4))%R ->
  let m := map (fun _ => map (fun j => if written n j then None else Some 0%R) (arange 0 n)) (arange 0 T) in morlet_neg x (Some (steps a d T)) (Some n) tbp = Ok (m, m).
Proof.
  intros x a d T n tbp HN HT Hn Ht. apply c165_nan; auto; [lra|]. intros i _ (_ & F & _). assert (HB := round_half_bounds n). assert (S := spread_bounds). assert (reach n tbp <= - round_half n); [|lia]. unfold reach. apply Zceil_glb. rewrite opp_IZR.
  assert (N2 : (2 <= IZR n)%R) by (apply (IZR_le 2); exact Hn). assert (R2 : (2 * IZR (round_half n) <= IZR n + 1)%R) by (rewrite <- mult_IZR, <- plus_IZR; apply IZR_le; lia). set (s := sqrt (2 * ln 1000)) in *. assert (A : (IZR n * s >= IZR n * 3)%R) by nra. replace (tbp * IZR n * s)%R with (tbp * (IZR n * s))%R by ring. nra.
Qed.
(** 5, 5, 5: with tbp = -1/4 and 4 bins rows 1 to 3 are NaN; with tbp = -1/96 and 64 bins IndexError. *)
Example c165_example : let x := [RtoC 5; RtoC 5; RtoC 5] in
  (exists tfr, morlet_neg x None (Some 4) (- (1 / 4))%R = Ok (tfr, tfr) /\ nth 1 tfr [] = [Some 0%R; None; None; None]) /\ morlet_neg x None (Some 64) (- (1 / 96))%R = Raise IndexError.
Proof.
  cbv zeta. set (x := [RtoC 5; RtoC 5; RtoC 5]). assert (D : forall n tbp, morlet_neg x None (Some n) tbp = morlet_neg x (Some (steps 0 1 3)) (Some n) tbp) by reflexivity. split.
  - rewrite D. eexists. split; [apply c165_quarter; [change (zlen x) with 3; lia|lia|lia|lra]|reflexivity].
  - rewrite D. apply (c165_raises x 0 1 3 64 (- (1 / 96))%R 0); [change (zlen x) with 3; lia|lia|lia|lra|lia|]. assert (S := spread_bounds). unfold fatal. change (zlen x) with 3. change (round_half 64) with 32. assert (reach 64 (- (1 / 96)) <= -2) by (unfold reach; apply Zceil_glb; lra). assert (-32 < reach 64 (- (1 / 96))); [|lia]. unfold reach. assert (U := Zceil_ub (- (1 / 96) * 64 * sqrt (2 * ln 1000))). apply lt_IZR. lra.
Qed.
