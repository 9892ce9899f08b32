(** C145: the reassigned pseudo Wigner-Ville distribution of a linear chirp. *)
From Coq Require Import Reals ZArith List Lia Lra Psatz Bool.
From Coquelicot Require Import Coquelicot.
From Flocq Require Import Core.
From Verif Require Import Py Scalars CSum DFT Spec M_base M_stft M_cohen M_putils M_reas M_gen1 P_base T_noise T_key T_noise T_putils T_reas T_reas2 T_conc T_rpwv T_chirp T_rtone.
Import ListNotations.
Local Open Scope Z_scope.

(** A signal of power A at every sample whose frequency at sample t is law t and
    changes linearly: samples at equal distances from t differ by the phase of a tone. *)
Definition sweeps (x : list C) (A : R) (law : Z -> R) : Prop := (forall m, 0 <= m < zlen x -> (Cmod (cnth x m) ^ 2)%R = A) /\
  forall t u, 0 <= t - u < zlen x -> 0 <= t + u < zlen x -> (cnth x (t + u) * Cconj (cnth x (t - u)))%C = (RtoC A * cis (4 * PI * law t * IZR u))%C.
(** The window reaches no sample outside the signal. *)
Definition fits (x w : list C) (ti : Z) : Prop := let L := (zlen w - 1) / 2 in L + 1 <= ti <= zlen x - L.

(** Quadratic phases sweep, in particular tones; so does fmlin, along the law it returns. *)
Lemma c145_quadratic : forall x a f0 b, (forall m, 0 <= m < zlen x -> cnth x m = (a * cis (2 * PI * (f0 * IZR m + b * IZR m ^ 2 / 2)))%C) ->
  sweeps x (Cmod a ^ 2) (fun t => f0 + b * IZR t)%R.
Proof.
  intros x a f0 b H. split.
  - intros m Hm. rewrite H, Cmod_mult, Cmod_cis by auto. ring.
  - intros t u H1 H2. rewrite !H, Cconj_mult, <- cis_opp by auto. replace (RtoC (Cmod a ^ 2)) with (a * Cconj a)%C by (symmetry; now rewrite Cmod2_conj).
    replace (a * cis (2 * PI * (f0 * IZR (t + u) + b * IZR (t + u) ^ 2 / 2)) * (Cconj a * cis (- (2 * PI * (f0 * IZR (t - u) + b * IZR (t - u) ^ 2 / 2)))))%C
      with (a * Cconj a * (cis (2 * PI * (f0 * IZR (t + u) + b * IZR (t + u) ^ 2 / 2)) * cis (- (2 * PI * (f0 * IZR (t - u) + b * IZR (t - u) ^ 2 / 2)))))%C by ring.
    rewrite <- cis_plus. do 2 f_equal. rewrite plus_IZR, minus_IZR. field.
Qed.
Lemma c145_fmlin : forall n fi ff t0 y law, fmlin n fi ff t0 = Ok (y, law) -> sweeps y 1 (rnth law).
Proof.
  intros n fi ff t0 y law H. destruct (fmlin_sym _ _ _ _ _ _ H) as (L & _ & _ & M & K). split.
  - intros m Hm. rewrite M by lia. ring.
  - intros t u H1 H2. rewrite K by lia. ring.
Qed.
(** The transforms of a column. *)
Lemma sweep_S x A law fw (g : list C) (gr : Z -> R) n ti j : 0 < n -> zlen fw mod 2 <> 0 -> fits x fw ti -> sweeps x A law ->
  (forall t, - ((zlen fw - 1) / 2) <= t <= (zlen fw - 1) / 2 -> cnth g ((zlen fw - 1) / 2 + t) = RtoC (gr t)) ->
  rp_S x fw g n ti j = (RtoC A * csum (arange (- ((zlen fw - 1) / 2)) ((zlen fw - 1) / 2 + 1)) (fun t => RtoC (gr t) * cis (- (2 * PI * (IZR j / IZR n - 2 * law (ti - 1)%Z) * IZR t))))%C.
Proof.
  intros Hn Ho (I1 & I2) (_ & K) G. unfold rp_S, rp_m. rewrite lh_eq by auto. set (L := (zlen fw - 1) / 2) in *. rewrite Z.min_r by lia. rewrite <- csum_scal_l. apply csum_ext. intros t Ht. apply in_arange in Ht.
  unfold rp_val. rewrite G by lia. replace (ti + t - 1) with (ti - 1 + t) by lia. replace (ti - t - 1) with (ti - 1 - t) by lia. rewrite <- (Cmult_assoc (RtoC (gr t))), K by lia.
  replace (cis (- (2 * PI * (IZR j / IZR n - 2 * law (ti - 1)%Z) * IZR t)))%C with (cis (4 * PI * law (ti - 1)%Z * IZR t) * root n (- (j * t))%Z)%C; [ring|].
  unfold root. rewrite <- cis_plus. f_equal. rewrite opp_IZR, mult_IZR. field. apply not_0_IZR. lia.
Qed.
Lemma fw_props w : zlen w mod 2 <> 0 -> cnth w (win_lh w) <> RtoC 0 -> real_list w -> symmetric w ->
  lagw w 0 <> 0%R /\ real_list (rp_fw w) /\ symmetric (rp_fw w) /\ (forall k, lagw (rp_fw w) k = lagw w k / lagw w 0)%R /\ forall t, (gain (rp_fw w) t = gain w t / lagw w 0)%R.
Proof.
  intros Ho C0 RW S. assert (W := odd_lh w Ho). rewrite lh_eq in C0, W by auto. assert (W1 := zlen_nonneg w).
  assert (EC : cnth w ((zlen w - 1) / 2) = RtoC (lagw w 0)) by (unfold lagw; rewrite Z.add_0_r; apply real_val; auto; lia).
  assert (L0 : lagw w 0 <> 0%R) by (intros Q; apply C0; now rewrite EC, Q). split; [exact L0|].
  assert (CN : forall k, cnth (rp_fw w) k = (cnth w k / RtoC (lagw w 0))%C).
  { intros k. unfold rp_fw. rewrite lh_eq, EC by auto. unfold cnth at 1. replace (RtoC 0) with ((fun v => v / RtoC (lagw w 0))%C (RtoC 0)) at 1 by (unfold Cdiv; ring). now rewrite (map_nth (fun v => v / RtoC (lagw w 0))%C). }
  assert (RE : forall z, Re (z / RtoC (lagw w 0))%C = (Re z / lagw w 0)%R) by (intros z; unfold Cdiv; rewrite <- RtoC_inv by auto; rewrite Cmult_comm, Re_scal; unfold Rdiv; ring).
  assert (LW : forall k, lagw (rp_fw w) k = (lagw w k / lagw w 0)%R) by (intros k; unfold lagw; rewrite rp_fw_zlen, CN; apply RE).
  split; [|split; [|split; [exact LW|]]].
  - intros k Hk. rewrite rp_fw_zlen in Hk. rewrite CN, real_val by auto. rewrite <- RtoC_div by auto. reflexivity.
  - intros k Hk. rewrite rp_fw_zlen in *. rewrite !CN. f_equal. now apply S.
  - intros t. unfold gain. rewrite rp_fw_zlen. unfold Rdiv. rewrite <- rsum_scal_r. apply rsum_ext. intros k _. rewrite LW. field. auto.
Qed.

(** Cell (j, i): the transform of the window, centred at twice the frequency of sample ti - 1. *)
Lemma c145_cells : forall x ts n w tfr rtfr vec A law j i, rpwv x ts n w = Ok (Some (tfr, rtfr, vec)) -> sweeps x A law ->
  let l := rp_ts x ts in let w := rp_w x n w in let n := rp_n x n in real_list w -> symmetric w -> 0 <= j < n -> 0 <= i < zlen l ->
  let ti := nth (Z.to_nat i) l 0 in fits x w ti ->
  rent tfr j i = (A * gain w (2 * PI * (IZR j / IZR n - 2 * law (ti - 1)%Z)) / lagw w 0)%R.
Proof.
  intros x ts n w tfr rtfr vec A law j i H K l w' n' RW S Hj Hi ti I. apply rpwv_run in H. cbv zeta in H. fold l n' w' in H. destruct H as (Hn & Ho & C0 & Hb & St & Sr & Ht & _).
  destruct (fw_props w' Ho C0 RW S) as (L0 & RF & SF & LF & GF). rewrite Ht by auto. fold ti.
  assert (ZF := rp_fw_zlen w'). assert (W := odd_lh w' Ho). rewrite lh_eq in W by auto.
  rewrite (sweep_S x A law (rp_fw w') (rp_fw w') (lagw (rp_fw w')) n' ti j Hn); [|now rewrite ZF|unfold fits; now rewrite ZF|exact K|].
  - rewrite even_sum by (intros k Hk; apply lag_even; auto; now rewrite ZF). fold (gain (rp_fw w') (2 * PI * (IZR j / IZR n' - 2 * law (ti - 1)%Z))). rewrite <- RtoC_mult. cbn [Re RtoC fst]. rewrite GF. field. auto.
  - intros t Ht'. unfold lagw. apply real_val; auto. rewrite ZF in *. lia.
Qed.
Lemma slice_power x A law a b : sweeps x A law -> 0 <= a < zlen x -> a <= b -> rp_thr x a b = Some (A / 1000000)%R.
Proof.
  intros (P & _) Ha Hb. unfold rp_thr. set (e := Z.min (b + 1) (zlen x)).
  assert (E : pyslice x a (b + 1) = map (fun k => cnth x k) (arange a e)).
  { unfold pyslice. cbv zeta. destruct (Z.ltb_spec a 0); [lia|]. destruct (Z.ltb_spec (b + 1) 0); [lia|]. rewrite (Z.min_l a) by lia. fold e. assert (LE : a < e <= zlen x) by (unfold e; lia). apply (nth_ext _ _ (RtoC 0) (RtoC 0)).
    - rewrite firstn_length, skipn_length, map_length. assert (L := arange_zlen a e). unfold zlen in *. lia.
    - intros k Hk. rewrite firstn_length, skipn_length in Hk. rewrite (nth_indep (map _ _) (RtoC 0) (cnth x 0)) by (rewrite map_length; assert (L := arange_zlen a e); unfold zlen in *; lia).
      rewrite (map_nth (fun k => cnth x k)). unfold arange. rewrite (nth_indep _ 0 (a + Z.of_nat 0)) by (rewrite map_length, seq_length; lia). rewrite (map_nth (fun i => a + Z.of_nat i)), seq_nth by lia. unfold cnth. rewrite nth_firstn by lia. rewrite nth_skipn. f_equal. lia. }
  assert (LE : a < e <= zlen x) by (unfold e; lia). rewrite E. unfold mean2. rewrite zlen_map, arange_zlen, rsum_map, Z.max_r by lia.
  rewrite (rsum_ext _ _ (fun _ => A)) by (intros k Hk; apply in_arange in Hk; apply P; lia). rewrite rsum_const, INR_IZR_INZ, arange_length, Z2Nat.id by lia.
  destruct (map _ (arange a e)) eqn:Q; [exfalso; apply (f_equal zlen) in Q; rewrite zlen_map, arange_zlen in Q; unfold zlen in Q at 1; cbn in Q; lia|]. f_equal. field. apply not_0_IZR. lia.
Qed.
(** Where the cells go. *)
Lemma c145_vectors : forall x ts n w tfr rtfr vec A law j i, rpwv x ts n w = Ok (Some (tfr, rtfr, vec)) -> sweeps x A law -> (0 < A)%R ->
  let l := rp_ts x ts in let w := rp_w x n w in let n := rp_n x n in real_list w -> symmetric w -> 3 <= zlen w -> 0 <= j < n -> 0 <= i < zlen l -> (forall t, In t l -> 0 <= t) ->
  let ti := nth (Z.to_nat i) l 0 in fits x w ti ->
  let t := (2 * PI * (IZR j / IZR n - 2 * law (ti - 1)%Z))%R in let L := (zlen w - 1) / 2 in
  let bend := (sin t + lagw w L * (sin (t * IZR L) - sin (t * IZR (L + 1))) / gain w t)%R in
  rdest vec j i = if Rlt_dec (A / 1000000) (Rabs (rent tfr j i)) then (j - ZnearestE (IZR n / (2 * PI) * bend) - 1) mod n else j.
Proof.
  intros x ts n w tfr rtfr vec A law j i H K A0 l w' n' RW S H3 Hj Hi NN ti I t L bend.
  assert (CE := c145_cells x ts n w tfr rtfr vec A law j i H K RW S Hj Hi I). fold l n' w' ti t in CE.
  assert (VE := c39_vectors x ts n w tfr rtfr vec H). cbv zeta in VE. fold l n' w' in VE. destruct VE as (dh & Ed & VE).
  apply rpwv_run in H. cbv zeta in H. fold l n' w' in H. destruct H as (Hn & Ho & C0 & Hb & St & Sr & Ht & mn & mx & dh' & Hmn & Hmx & Hd & Hv & Hdn & Hr).
  apply zmin_spec in Hmn. apply zmax_spec in Hmx. destruct Hmn as [In1 M1]. destruct Hmx as [In2 M2].
  assert (TI : In ti l) by (unfold ti; apply nth_In; unfold zlen in Hi; lia). assert (W := odd_lh w' Ho). rewrite lh_eq in W by auto. fold L in W.
  assert (TH : rp_thr x mn mx = Some (A / 1000000)%R). { apply (slice_power x A law); auto. destruct I as (I1 & I2). fold L in I1, I2. assert (Q1 := M1 ti TI). assert (Q2 := NN mn In1). lia. }
  destruct (fw_props w' Ho C0 RW S) as (L0 & RF & SF & LF & GF). assert (ZF := rp_fw_zlen w').
  specialize (Hv j i Hj Hi). rewrite TH in Hv. unfold above in Hv. destruct (Rlt_dec (A / 1000000) (Rabs (rent tfr j i))) as [LT|LT]; [|unfold rdest; now rewrite Hv].
  destruct (VE j i Hj Hi _ Hv) as (d & -> & ->). cbv zeta. fold ti. do 3 f_equal. unfold rp_df. f_equal.
  assert (G0 : gain w' t <> 0%R). { intros G. rewrite CE, G in LT. unfold Rdiv in LT. rewrite Rmult_0_r, Rmult_0_l, Rabs_R0 in LT. lra. }
  destruct (derive_lags (rp_fw w') d ltac:(now rewrite ZF) ltac:(now rewrite ZF) SF RF Ed) as (RD & LD & D1 & D2 & D3). rewrite ZF in D1, D2, D3, LD. fold L in D1, D2, D3.
  rewrite (sweep_S x A law (rp_fw w') d (lagw d) n' ti j Hn); [|now rewrite ZF|unfold fits; now rewrite ZF|exact K|].
  2:{ intros u Hu. rewrite ZF in Hu |- *. fold L in Hu |- *. unfold lagw. rewrite LD. fold L. apply real_val; auto. lia. }
  rewrite ZF. fold L t. rewrite odd_sum.
  2:{ intros k Hk. destruct (c48_symmetric (rp_fw w') d ltac:(rewrite ZF; lia) SF Ed) as (AS & _). unfold lagw. rewrite LD. fold L. replace (L + - k) with (zlen (rp_fw w') - 1 - (L + k)) by (rewrite ZF; lia). rewrite AS by (rewrite ZF; lia). reflexivity. }
  rewrite (diff_sum L (lagw (rp_fw w')) (lagw d) t) by (first [lia | exact D1 | exact D2 | exact D3 | symmetry; apply lag_even; auto; rewrite ZF; auto; fold L; lia]).
  replace (rsum (arange (- L) (L + 1)) (fun k => lagw (rp_fw w') k * cos (t * IZR k))%R) with (gain (rp_fw w') t) by (unfold gain; rewrite ZF; reflexivity).
  rewrite Cmult_assoc, <- RtoC_mult, Im_scal. unfold Ci, Im. cbn [snd]. rewrite GF, LF, CE. assert (P0 := PI_RGT_0). unfold bend. field. repeat split; auto; lra.
Qed.
Lemma sweep_bend x ts n w tfr rtfr vec A law j i q : rpwv x ts n w = Ok (Some (tfr, rtfr, vec)) -> sweeps x A law -> (0 < A)%R ->
  let l := rp_ts x ts in let w := rp_w x n w in let n := rp_n x n in real_list w -> symmetric w -> 3 <= zlen w -> cnth w 0 = RtoC 0 -> 0 <= j < n -> 0 <= i < zlen l -> (forall t, In t l -> 0 <= t) ->
  let ti := nth (Z.to_nat i) l 0 in fits x w ti -> (A / 1000000 < Rabs (rent tfr j i))%R ->
  let dlt := (IZR (j + q * n) - 2 * IZR n * law (ti - 1)%Z)%R in
  rdest vec j i = (j - ZnearestE (IZR n / (2 * PI) * sin (2 * PI * dlt / IZR n)) - 1) mod n.
Proof.
  intros H K A0 l w' n' RW S H3 W0 Hj Hi NN ti I LT dlt. rewrite (c145_vectors x ts n w tfr rtfr vec A law j i H K A0 RW S H3 Hj Hi NN I). fold l w' n' ti. destruct (Rlt_dec _ _); [|tauto].
  assert (LE : lagw w' ((zlen w' - 1) / 2) = 0%R).
  { apply rpwv_run in H. cbv zeta in H. fold w' in H. destruct H as (_ & Ho & _). rewrite <- lag_even by (auto; Z.to_euclidean_division_equations; lia). unfold lagw. rewrite Z.add_opp_diag_r, W0. reflexivity. }
  rewrite LE. set (t := (2 * PI * (IZR j / IZR n' - 2 * law (ti - 1)%Z))%R). replace (sin t + 0 * (sin (t * IZR ((zlen w' - 1) / 2)) - sin (t * IZR ((zlen w' - 1) / 2 + 1))) / gain w' t)%R with (sin t) by (unfold Rdiv; ring).
  replace (sin (2 * PI * dlt / IZR n')) with (sin t); [reflexivity|]. assert (N0 : IZR n' <> 0%R) by (apply not_0_IZR; lia).
  replace (2 * PI * dlt / IZR n')%R with (t + 2 * PI * IZR q)%R by (unfold dlt, t; rewrite plus_IZR, mult_IZR; field; auto).
  assert (Q := cis_2PI_k q). unfold cis in Q. assert (Q1 := f_equal fst Q). assert (Q2 := f_equal snd Q). cbn [fst snd RtoC] in Q1, Q2. rewrite sin_plus, Q1, Q2. ring.
Qed.
(** A window that vanishes at its ends: every moved cell within n/2 bins of the ridge is
    sent next to the row of the frequency at that instant, the better the closer. *)
Lemma c145_rows : forall x ts n w tfr rtfr vec A law j i q, rpwv x ts n w = Ok (Some (tfr, rtfr, vec)) -> sweeps x A law -> (0 < A)%R ->
  let l := rp_ts x ts in let w := rp_w x n w in let n := rp_n x n in real_list w -> symmetric w -> 3 <= zlen w -> cnth w 0 = RtoC 0 -> 0 <= j < n -> 0 <= i < zlen l -> (forall t, In t l -> 0 <= t) ->
  let ti := nth (Z.to_nat i) l 0 in fits x w ti -> (A / 1000000 < Rabs (rent tfr j i))%R ->
  let f := law (ti - 1) in let dlt := (IZR (j + q * n) - 2 * IZR n * f)%R in (Rabs dlt <= IZR n / 2)%R ->
  exists p, rdest vec j i = (p - 1) mod n /\ (Rabs (IZR p - 2 * IZR n * f) <= 1 / 2 + 2 * PI ^ 2 * Rabs dlt ^ 3 / (3 * IZR n ^ 2))%R.
Proof.
  intros x ts n w tfr rtfr vec A law j i q H K A0 l w' n' RW S H3 W0 Hj Hi NN ti I LT f dlt HD. assert (E := sweep_bend x ts n w tfr rtfr vec A law j i q H K A0 RW S H3 W0 Hj Hi NN I LT). fold l w' n' ti f dlt in E.
  set (y := (IZR n' / (2 * PI) * sin (2 * PI * dlt / IZR n'))%R) in *. exists (j + q * n' - ZnearestE y). split.
  - rewrite E. replace (j + q * n' - ZnearestE y - 1) with (j - ZnearestE y - 1 + q * n') by lia. rewrite Z.mod_add by lia. reflexivity.
  - assert (B := bend_cubic n' dlt ltac:(lia) HD). fold y in B. assert (Q := Znearest_half (fun z => negb (Z.even z)) y). fold ZnearestE in Q. rewrite minus_IZR. unfold dlt in *.
    replace (IZR (j + q * n') - IZR (ZnearestE y) - 2 * IZR n' * f)%R with ((IZR (j + q * n') - 2 * IZR n' * f - y) + (y - IZR (ZnearestE y)))%R by ring.
    eapply Rle_trans; [apply Rabs_triang|]. lra.
Qed.
Lemma rsum_Rabs {T} (l : list T) g : (Rabs (rsum l g) <= rsum l (fun a => Rabs (g a)))%R.
Proof. induction l as [|a l IH]; [rewrite !rsum_nil, Rabs_R0; lra|]. rewrite !rsum_cons. eapply Rle_trans; [apply Rabs_triang|]. lra. Qed.
(** An instant at which twice the frequency is bin k0: the cells up to D bins away meet in
    row k0 - 1 of the same column, up to the small cells and the far ones. *)
Lemma c145_collect : forall x ts n w tfr rtfr vec A law k0 D i, rpwv x ts n w = Ok (Some (tfr, rtfr, vec)) -> sweeps x A law -> (0 < A)%R ->
  let l := rp_ts x ts in let w := rp_w x n w in let n := rp_n x n in real_list w -> symmetric w -> 3 <= zlen w -> cnth w 0 = RtoC 0 -> 0 <= i < zlen l -> (forall t, In t l -> 0 <= t) ->
  let ti := nth (Z.to_nat i) l 0 in fits x w ti -> (2 * IZR n * law (ti - 1)%Z = IZR k0)%R ->
  0 <= D -> (4 * PI ^ 2 * IZR D ^ 3 < 3 * IZR n ^ 2)%R ->
  (forall d, - D <= d <= D -> (A / 1000000 < Rabs (rent tfr ((k0 + d) mod n)%Z i))%R -> rdest vec ((k0 + d) mod n)%Z i = (k0 - 1) mod n) /\
  (Rabs (rent rtfr ((k0 - 1) mod n)%Z i - rsum (arange (- D) (D + 1)) (fun d => rent tfr ((k0 + d) mod n)%Z i)) <=
    IZR (2 * D + 1) * (A / 1000000) + rsum (arange (D + 1) (n - D)) (fun d => Rabs (rent tfr ((k0 + d) mod n)%Z i)))%R.
Proof.
  intros x ts n w tfr rtfr vec A law k0 D i H K A0 l w' n' RW S H3 W0 Hi NN ti I EK HD BD.
  assert (R0 := rpwv_run _ _ _ _ _ _ _ H). cbv zeta in R0. fold n' in R0. destruct R0 as (Hn & _). assert (N0 : (0 < IZR n')%R) by (apply IZR_lt; lia). assert (P3 := PI2_3_2). assert (P4 := PI_4). assert (PP : (9 < PI ^ 2)%R) by (cbn; nra).
  assert (SM : 2 * D + 1 <= n').
  { destruct (Z.eq_dec D 0) as [->|ND]; [lia|]. assert (D1 : (1 <= IZR D)%R) by (apply (IZR_le 1); lia). assert (Q : (36 * IZR D ^ 3 < 3 * IZR n' ^ 2)%R).
    { eapply Rlt_trans; [|exact BD]. apply Rmult_lt_compat_r; [apply pow_lt; lra|lra]. }
    assert (D2 : (0 <= IZR D ^ 2)%R) by apply pow2_ge_0. assert (Q' : (IZR D ^ 2 <= IZR D ^ 3)%R) by (replace (IZR D ^ 3)%R with (IZR D ^ 2 * IZR D)%R by ring; nra). assert (Q2 : (12 * IZR D ^ 2 < IZR n' ^ 2)%R) by lra. rewrite !pow_IZR in Q2. rewrite <- mult_IZR in Q2. apply lt_IZR in Q2. change (Z.of_nat 2) with 2 in Q2. nia. }
  assert (DEST : forall d, - D <= d <= D -> (A / 1000000 < Rabs (rent tfr ((k0 + d) mod n')%Z i))%R -> rdest vec ((k0 + d) mod n')%Z i = (k0 - 1) mod n').
  { intros d Hd LT. assert (BJ := Z.mod_pos_bound (k0 + d) n' Hn). set (j := (k0 + d) mod n') in *. set (q := (k0 + d) / n').
    assert (EJ : j + q * n' = k0 + d) by (unfold j, q; rewrite Z.add_comm, Z.mul_comm; symmetry; apply Z.div_mod; lia).
    assert (E := sweep_bend x ts n w tfr rtfr vec A law j i q H K A0 RW S H3 W0 BJ Hi NN I LT). fold l w' n' ti in E. cbv zeta in E. rewrite EJ, EK in E.
    replace (IZR (k0 + d) - IZR k0)%R with (IZR d) in E by (rewrite plus_IZR; ring). rewrite E.
    assert (DD : (Rabs (IZR d) <= IZR D)%R) by (rewrite <- abs_IZR; apply IZR_le; lia).
    assert (B := bend_cubic n' (IZR d) Hn). specialize (B ltac:(assert (2 * IZR D + 1 <= IZR n')%R by (change 2%R with (IZR 2); change 1%R with (IZR 1); rewrite <- mult_IZR, <- plus_IZR; apply IZR_le; lia); lra)).
    assert (C3 : (Rabs (IZR d) ^ 3 <= IZR D ^ 3)%R) by (apply pow_incr; split; [apply Rabs_pos|exact DD]).
    assert (LT2 : (2 * PI ^ 2 * Rabs (IZR d) ^ 3 / (3 * IZR n' ^ 2) < / 2)%R).
    { apply (Rmult_lt_reg_r (3 * IZR n' ^ 2)); [assert (0 < IZR n' ^ 2)%R by (apply pow_lt; lra); lra|]. unfold Rdiv. rewrite Rmult_assoc, Rinv_l by (assert (0 < IZR n' ^ 2)%R by (apply pow_lt; lra); lra). nra. }
    rewrite (Znearest_imp (fun z => negb (Z.even z)) _ d); [|rewrite Rabs_minus_sym; lra].
    replace (j - d - 1) with (k0 - 1 + - q * n') by lia. rewrite Z.mod_add by lia. reflexivity. }
  split; [exact DEST|]. destruct (c39_mass _ _ _ _ _ _ _ i H Hi) as (_ & F & _). cbv zeta in F. fold n' in F.
  rewrite F by (apply Z.mod_pos_bound; lia). set (r := (k0 - 1) mod n') in *.
  set (G := fun j => (if rdest vec j i =? r then rent tfr j i else 0)%R). change (fun j => if rdest vec j i =? r then rent tfr j i else 0%R) with G.
  rewrite <- (rsum_perm _ _ G (perm_mod_shift n' (k0 - D) Hn)). rewrite rsum_map. rewrite (arange_app 0 (2 * D + 1) n') by lia. rewrite rsum_app.
  assert (Q4 : rsum (arange 0 (2 * D + 1)) (fun k => G ((k + (k0 - D)) mod n')%Z) = rsum (arange (- D) (D + 1)) (fun d => G ((k0 + d) mod n')%Z)).
  { replace (arange 0 (2 * D + 1)) with (arange (- D + D) (D + 1 + D)) by (f_equal; lia). rewrite rsum_arange_shift. apply rsum_ext. intros d _. do 2 f_equal. lia. }
  assert (Q6 : rsum (arange (2 * D + 1) n') (fun k => G ((k + (k0 - D)) mod n')%Z) = rsum (arange (D + 1) (n' - D)) (fun d => G ((k0 + d) mod n')%Z)).
  { replace (arange (2 * D + 1) n') with (arange (D + 1 + D) (n' - D + D)) by (f_equal; lia). rewrite rsum_arange_shift. apply rsum_ext. intros d _. do 2 f_equal. lia. }
  rewrite Q4, Q6. clear Q4 Q6.
  assert (Q5 : (Rabs (rsum (arange (- D) (D + 1)) (fun d => G ((k0 + d) mod n')%Z - rent tfr ((k0 + d) mod n')%Z i)) <= IZR (2 * D + 1) * (A / 1000000))%R).
  { eapply Rle_trans; [apply rsum_Rabs|]. eapply Rle_trans; [apply (rsum_le _ _ (fun _ => A / 1000000)%R)|].
    - intros d Hd. apply in_arange in Hd. unfold G. destruct (Rlt_dec (A / 1000000) (Rabs (rent tfr ((k0 + d) mod n') i))) as [LT|LT].
      + rewrite DEST by (auto; lia). rewrite Z.eqb_refl. rewrite Rminus_eq_0, Rabs_R0. lra.
      + destruct (_ =? r); [rewrite Rminus_eq_0, Rabs_R0; lra|]. rewrite Rminus_0_l, Rabs_Ropp. lra.
    - rewrite rsum_const, INR_IZR_INZ, arange_length, Z2Nat.id by lia. replace (D + 1 - - D) with (2 * D + 1) by lia. lra. }
  assert (Q7 : (Rabs (rsum (arange (D + 1) (n' - D)) (fun d => G ((k0 + d) mod n')%Z)) <= rsum (arange (D + 1) (n' - D)) (fun d => Rabs (rent tfr ((k0 + d) mod n')%Z i)))%R).
  { eapply Rle_trans; [apply rsum_Rabs|]. apply rsum_le. intros d _. unfold G. destruct (_ =? r); [lra|]. rewrite Rabs_R0. apply Rabs_pos. }
  rewrite rsum_minus in Q5. set (X := rsum (arange (- D) (D + 1)) (fun d => G ((k0 + d) mod n')%Z)) in *. set (Y := rsum (arange (D + 1) (n' - D)) (fun d => G ((k0 + d) mod n')%Z)) in *. set (Z0 := rsum (arange (- D) (D + 1)) (fun d => rent tfr ((k0 + d) mod n')%Z i)) in *.
  replace (X + Y - Z0)%R with ((X - Z0) + Y)%R by ring. eapply Rle_trans; [apply Rabs_triang|]. lra.
Qed.

(** Eight samples exp(2 i pi m^2/16), whose frequency at sample m is m/8, window (0, 1, 0): flat
    columns of ones; after reassignment row 2(i-1) - 1 (mod 8) of column i holds 3. *)
Example c145_example : exists x tfr rtfr vec, (forall m, 0 <= m < 8 -> cnth x m = cis (2 * PI * (IZR m ^ 2 / 16))) /\ zlen x = 8 /\
  rpwv x None None (Some [RtoC 0; RtoC 1; RtoC 0]) = Ok (Some (tfr, rtfr, vec)) /\
  forall i, 2 <= i < 8 -> (forall j, 0 <= j < 8 -> rent tfr j i = 1%R) /\ rent rtfr ((2 * (i - 1) - 1) mod 8)%Z i = 3%R.
Proof.
  set (w := [RtoC 0; RtoC 1; RtoC 0]). set (x := map (fun m => cis (2 * PI * (IZR m ^ 2 / 16))) (arange 0 8)). assert (ZX : zlen x = 8) by (unfold x; rewrite zlen_map, arange_zlen; reflexivity).
  assert (X : forall m, 0 <= m < 8 -> cnth x m = cis (2 * PI * (IZR m ^ 2 / 16))) by (intros m Hm; unfold x, cnth; rewrite nth_map_arange by lia; now rewrite Z.add_0_l).
  assert (K : sweeps x 1 (fun t => IZR t / 8)%R).
  { assert (Q := c145_quadratic x (RtoC 1) 0 (1 / 8)). rewrite Cmod_1, pow1 in Q. destruct Q as (Q1 & Q2).
    - intros m Hm. rewrite ZX in Hm. rewrite X, Cmult_1_l by auto. f_equal. field.
    - split; [exact Q1|]. intros t u Ht Hu. rewrite Q2 by auto. do 2 f_equal. field. }
  assert (ZW : zlen w = 3) by reflexivity. assert (RW : real_list w) by (intros k Hk; rewrite ZW in Hk; assert (k = 0 \/ k = 1 \/ k = 2) as [-> | [-> | ->]] by lia; reflexivity).
  assert (S : symmetric w) by (intros k Hk; rewrite ZW in *; assert (k = 0 \/ k = 1 \/ k = 2) as [-> | [-> | ->]] by lia; reflexivity).
  assert (OK : exists o, rpwv x None None (Some w) = Ok (Some o)).
  { change (rpwv x None None (Some w)) with (rpwv x (Some (arange 0 (zlen x))) (Some (zlen x)) (Some w)). rewrite ZX. destruct (c39_outcome x (arange 0 8) 8 w ltac:(lia)) as (_ & _ & O). cbv zeta in O.
    specialize (O ltac:(discriminate) ltac:(lia) ltac:(discriminate)). destruct (Ceq_dec _ _) as [E|_] in O; [change (RtoC 1 = RtoC 0) in E; apply RtoC_inj in E; lra|]. apply O. intros ti _. change (round_half 8 - 1) with 3. change (win_lh w) with 1. lia. }
  destruct OK as [[[tfr rtfr] vec] H]. exists x, tfr, rtfr, vec. split; [exact X|]. split; [exact ZX|]. split; [exact H|]. intros i Hi.
  assert (NI : nth (Z.to_nat i) (rp_ts x None) 0 = i) by (cbn [rp_ts]; rewrite ZX; rewrite <- (map_id (arange 0 8)), nth_map_arange by lia; lia).
  assert (HI : 0 <= i < zlen (rp_ts x None)) by (cbn [rp_ts]; rewrite arange_zlen, ZX; lia).
  assert (I : fits x w (nth (Z.to_nat i) (rp_ts x None) 0)) by (rewrite NI; unfold fits; rewrite ZX, ZW; change ((3 - 1) / 2) with 1; lia).
  assert (NN : forall t, In t (rp_ts x None) -> 0 <= t) by (intros t Ht; cbn [rp_ts] in Ht; apply in_arange in Ht; lia).
  assert (L1 : lagw w (-1) = 0%R) by reflexivity. assert (L2 : lagw w 0 = 1%R) by reflexivity. assert (L3 : lagw w 1 = 0%R) by reflexivity.
  assert (G : forall t, gain w t = 1%R) by (intros t; unfold gain; rewrite ZW; change (arange (- ((3 - 1) / 2)) ((3 - 1) / 2 + 1)) with [-1; 0; 1]; rewrite !rsum_cons, rsum_nil; rewrite L1, L2, L3, !Rmult_0_r, cos_0; ring).
  assert (CE : forall j, 0 <= j < 8 -> rent tfr j i = 1%R).
  { intros j Hj. rewrite (c145_cells x None None (Some w) tfr rtfr vec 1 _ j i H K RW S ltac:(cbn [rp_n]; lia) HI I). cbn [rp_w]. rewrite G, L2. field. }
  split; [exact CE|]. assert (P3 := PI2_3_2). assert (P4 := PI_4). assert (P0 := PI_RGT_0). set (k0 := 2 * (i - 1)).
  assert (B : forall d, rdest vec ((k0 + d) mod 8) i = (k0 + d - 1 - ZnearestE (8 / (2 * PI) * sin (2 * PI * IZR d / 8))) mod 8).
  { intros d. assert (BJ := Z.mod_pos_bound (k0 + d) 8 ltac:(lia)). set (j := (k0 + d) mod 8) in *. set (q := (k0 + d) / 8).
    assert (EJ : j + q * 8 = k0 + d) by (unfold j, q; rewrite Z.add_comm, Z.mul_comm; symmetry; apply Z.div_mod; lia).
    assert (E := sweep_bend x None None (Some w) tfr rtfr vec 1 _ j i q H K ltac:(lra) RW S ltac:(cbn [rp_w]; lia) eq_refl ltac:(cbn [rp_n]; lia) HI NN I). cbn [rp_n] in E. rewrite ZX, NI, EJ, CE, Rabs_R1 in E by auto. specialize (E ltac:(lra)). cbv zeta in E.
    replace (IZR (k0 + d) - 2 * 8 * (IZR (i - 1) / 8))%R with (IZR d) in E by (unfold k0; rewrite plus_IZR, mult_IZR; field). rewrite E.
    set (z := ZnearestE _). replace (j - z - 1) with (k0 + d - 1 - z + - q * 8) by lia. rewrite Z.mod_add by lia. reflexivity. }
  assert (SQ : (7 / 10 < sin (PI / 4) < 3 / 4)%R). { rewrite sin_PI4. assert (S1 : (14 / 10 < sqrt 2 < 10 / 7)%R) by (split; [rewrite <- (sqrt_square (14 / 10)) by lra; apply sqrt_lt_1; lra|rewrite <- (sqrt_square (10 / 7)) by lra; apply sqrt_lt_1; lra]). split; apply (Rmult_lt_reg_r (sqrt 2)); try lra; unfold Rdiv; rewrite ?Rmult_1_l, Rinv_l by lra; lra. }
  set (y := (8 / (2 * PI))%R) in *. assert (Y : (1 <= y < 4 / 3)%R). { unfold y. split; [apply (Rmult_le_reg_r (2 * PI)) | apply (Rmult_lt_reg_r (2 * PI))]; try lra; unfold Rdiv; rewrite Rmult_assoc, Rinv_l by lra; lra. }
  set (s := sin (PI / 4)) in *.
  assert (NE : forall v m, (Rabs (y * v - IZR m) < / 2)%R -> ZnearestE (y * v) = m) by (intros v m Q; apply Znearest_imp; exact Q).
  assert (V0 : sin (2 * PI * IZR 0 / 8) = 0%R) by (replace (2 * PI * IZR 0 / 8)%R with 0%R by (cbn; field); apply sin_0).
  assert (V1 : sin (2 * PI * IZR 1 / 8) = s) by (unfold s; f_equal; cbn; field).
  assert (V2 : sin (2 * PI * IZR 2 / 8) = 1%R) by (replace (2 * PI * IZR 2 / 8)%R with (PI / 2)%R by (cbn; field); apply sin_PI2).
  assert (V3 : sin (2 * PI * IZR 3 / 8) = s) by (replace (2 * PI * IZR 3 / 8)%R with (PI - PI / 4)%R by (cbn; field); apply sin_PI_x).
  assert (V4 : sin (2 * PI * IZR 4 / 8) = 0%R) by (replace (2 * PI * IZR 4 / 8)%R with PI by (cbn; field); apply sin_PI).
  assert (V5 : sin (2 * PI * IZR 5 / 8) = (- s)%R) by (replace (2 * PI * IZR 5 / 8)%R with (PI / 4 + PI)%R by (cbn; field); apply neg_sin).
  assert (V6 : sin (2 * PI * IZR 6 / 8) = (-1)%R) by (replace (2 * PI * IZR 6 / 8)%R with (PI / 2 + PI)%R by (cbn; field); rewrite neg_sin, sin_PI2; lra).
  assert (V7 : sin (2 * PI * IZR 7 / 8) = (- s)%R) by (replace (2 * PI * IZR 7 / 8)%R with (PI - PI / 4 + PI)%R by (cbn; field); rewrite neg_sin, sin_PI_x; reflexivity).
  assert (YS : (7 / 10 <= y * s < 1)%R) by (split; nra).
  assert (Z0 : ZnearestE (y * 0) = 0) by (apply NE; rewrite Rmult_0_r, Rminus_0_r, Rabs_R0; lra).
  assert (Z1 : ZnearestE (y * s) = 1) by (apply NE; apply Rabs_def1; lra).
  assert (Z2 : ZnearestE (y * 1) = 1) by (apply NE; apply Rabs_def1; lra).
  assert (Z3 : ZnearestE (y * - s) = -1) by (apply NE; apply Rabs_def1; lra).
  assert (Z4 : ZnearestE (y * -1) = -1) by (apply NE; apply Rabs_def1; lra).
  destruct (c39_mass x None None (Some w) tfr rtfr vec i H HI) as (_ & F & _). cbn [rp_n] in F. rewrite ZX in F. cbv zeta in F. rewrite F by (apply Z.mod_pos_bound; lia). set (r := (k0 - 1) mod 8).
  set (g := fun j => (if rdest vec j i =? r then rent tfr j i else 0)%R). change (fun j => if rdest vec j i =? r then rent tfr j i else 0%R) with g.
  rewrite <- (rsum_perm _ _ g (perm_mod_shift 8 k0 ltac:(lia))). rewrite rsum_map.
  assert (EV : forall d m, ZnearestE (y * sin (2 * PI * IZR d / 8)) = m -> g ((d + k0) mod 8) = if (d - m) mod 8 =? 0 then 1%R else 0%R).
  { intros d m Q. unfold g. rewrite (Z.add_comm d k0), B, Q, CE by (apply Z.mod_pos_bound; lia). replace ((k0 + d - 1 - m) mod 8 =? r) with ((d - m) mod 8 =? 0); [reflexivity|].
    unfold r. destruct (Z.eqb_spec ((d - m) mod 8) 0); destruct (Z.eqb_spec ((k0 + d - 1 - m) mod 8) ((k0 - 1) mod 8)); auto; exfalso; Z.to_euclidean_division_equations; lia. }
  change (arange 0 8) with [0; 1; 2; 3; 4; 5; 6; 7]. rewrite !rsum_cons, rsum_nil.
  rewrite (EV 0 0), (EV 1 1), (EV 2 1), (EV 3 1), (EV 4 0), (EV 5 (-1)), (EV 6 (-1)), (EV 7 (-1)) by (rewrite ?V0, ?V1, ?V2, ?V3, ?V4, ?V5, ?V6, ?V7; assumption).
  cbn. ring.
Qed.
