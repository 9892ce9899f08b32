(** C141: the affine distributions with fmax < fmin. *)
From Coq Require Import Reals ZArith List Lia Lra Psatz Bool.
From Coquelicot Require Import Coquelicot.
From Flocq Require Import Core.
From Verif Require Import Py Scalars CSum DFT Spec M_base P_base M_utils M_putils M_post M_gen1 M_gen2 M_gen3 M_aff M_wb M_bwd P_spec T_post T_utils T_putils T_dom T_gen1 T_gen2 T_hil T_key T_noise T_misc T_misc2 T_aff T_aff2 T_wb T_aff3.
Import ListNotations.
Local Open Scope Z_scope.

(** The ratio, the roots. *)
Lemma rev_ratio fmin fmax : (0 < fmax < fmin)%R -> (0 < fmax / fmin < 1)%R /\ (1 < fmin / fmax)%R /\ (fmax / fmin = / (fmin / fmax))%R.
Proof.
  intros H. split; [split; [apply Rdiv_lt_0_compat; lra|apply (Rmult_lt_reg_r fmin); [lra|unfold Rdiv; rewrite Rmult_assoc, Rinv_l; lra]]|]. split; [apply (Rmult_lt_reg_r fmax); [lra|unfold Rdiv; rewrite Rmult_assoc, Rinv_l; lra]|]. field. lra.
Qed.
Lemma voices_rev fmin fmax T : (0 < fmax < fmin)%R ->
  ((fmax - fmin) * IZR T * (1 + 2 / ((fmax - fmin) / (fmin + fmax) * 2)) * ln ((1 + (fmax - fmin) / (fmin + fmax) * 2 / 2) / (1 - (fmax - fmin) / (fmin + fmax) * 2 / 2)) / 2 = fmax * IZR T * ln (fmax / fmin))%R.
Proof.
  intros H. replace ((1 + (fmax - fmin) / (fmin + fmax) * 2 / 2) / (1 - (fmax - fmin) / (fmin + fmax) * 2 / 2))%R with (fmax / fmin)%R by (field; repeat split; lra).
  field. repeat split; lra.
Qed.
(** A positive length T gives a negative number of samples. *)
Lemma c141_voices : forall fmin fmax T, (0 < fmax < fmin)%R -> 1 <= T -> get_nvoices fmin fmax (Some T) = Raise ValueError.
Proof.
  intros fmin fmax T Hf HT. destruct (rev_ratio _ _ Hf) as (R1 & _ & _). unfold get_nvoices. cbv zeta. rewrite voices_rev by auto.
  assert (L : (ln (fmax / fmin) < 0)%R) by (rewrite <- ln_1; apply ln_increasing; lra). assert (T0 : (1 <= IZR T)%R) by (apply (IZR_le 1); lia).
  assert (Q : (fmax * IZR T * ln (fmax / fmin) <= IZR 0)%R) by (assert (0 < fmax * IZR T)%R by (apply Rmult_lt_0_compat; lra); nra). assert (C0 := Zceil_glb 0 _ Q). set (c := Zceil _) in *.
  rewrite c02_nextpow2_nonpositive; [reflexivity|]. apply (IZR_le _ 0). Z.to_euclidean_division_equations; lia.
Qed.
Lemma c141_bertrand : forall x ts fmin fmax nv, (0 < fmax < fmin)%R -> aff_new Bert x ts (Some fmin) (Some fmax) nv = Raise ValueError.
Proof.
  intros x ts fmin fmax nv Hf. destruct (rev_ratio _ _ Hf) as (R1 & _ & _). unfold aff_new, affine_band. cbn [bind umax_of]. destruct (Rlt_dec (fmax / fmin) 1); [reflexivity|lra].
Qed.
(** D-Flandrin: the root of the band the right way round; the default number of voices never works. *)
Lemma c141_flandrin : forall x ts fmin fmax, 1 <= zlen x -> (0 < fmax < fmin)%R ->
  let N := zlen x in let v := (fmax * aff_root Dfl (fmin / fmax))%R in
  aff_new Dfl x ts (Some fmin) (Some fmax) None = Raise (if Rlt_dec (IZR (half_len N)) (IZR (2 * half_len N) * v) then ValueError else AttributeError) /\
  forall nv, exists o, aff_new Dfl x ts (Some fmin) (Some fmax) (Some nv) = Ok o /\ a_nv o = nv /\ a_umax o = aff_root Dfl (fmin / fmax) /\ half_len N <= a_m1 o /\
    a_fmin o = fmin /\ a_fmax o = fmax.
Proof.
  intros x ts fmin fmax HN Hf N v. destruct (rev_ratio _ _ Hf) as (R1 & R2 & RI). assert (RP := aff_root_pos Dfl _ R2). assert (VP : (0 < v)%R) by (unfold v; apply Rmult_lt_0_compat; lra).
  assert (U : umaxdfla (fmax / fmin) = aff_root Dfl (fmin / fmax)) by (rewrite RI; rewrite (proj1 (c71_reciprocal _ R2)); apply umaxdfla_eq, R2).
  destruct (size_spec Dfl N fmax (aff_root Dfl (fmin / fmax)) HN VP) as [S1 S2]. change (aff_bound Dfl N) with (2 * half_len N) in *. fold v in S1, S2. destruct (half_len_spec N HN) as [HL _].
  assert (NEW : forall nv, aff_new Dfl x ts (Some fmin) (Some fmax) nv = bind (aff_size Dfl N fmax (aff_root Dfl (fmin / fmax))) (fun mt => let '(m1, T) := mt in bind (match nv with Some v => Ok v | None => get_nvoices fmin fmax T end) (fun nv => Ok (mkaff Dfl x match ts with Some t => t | None => arange 0 N end fmin fmax (aff_root Dfl (fmin / fmax)) m1 nv)))).
  { intros nv. unfold aff_new, affine_band. cbn [bind umax_of]. rewrite U. reflexivity. }
  split; [rewrite NEW; destruct (Rlt_dec (IZR (half_len N)) (IZR (2 * half_len N) * v)) as [L|L]|intros nv; rewrite NEW; destruct (Rlt_dec (IZR (half_len N)) (IZR (2 * half_len N) * v)) as [L|L]].
  - destruct (S1 L) as (-> & _ & P). cbn [bind]. rewrite c141_voices by (auto; lia). reflexivity.
  - rewrite S2 by lra. reflexivity.
  - destruct (S1 L) as (-> & _ & P). cbn [bind]. eexists. split; [reflexivity|]. cbn. repeat split; lia.
  - rewrite S2 by lra. cbn [bind]. eexists. split; [reflexivity|]. cbn. repeat split; lia.
Qed.
(** The number of points of the grid of u has the sign of umax times that of m1. *)
Lemma c141_count : forall u m, m <> 0 -> ((0 < u)%R -> aff_count u m = 2 * m) /\ ((u < 0)%R -> aff_count u m = - (2 * m)).
Proof.
  intros u m Hm. assert (NZ : IZR m <> 0%R) by (apply IZR_neq; lia). split; intros Hu; unfold aff_count.
  - rewrite Rabs_pos_eq by lra. replace ((u - - u) / ((u - - u) / IZR (2 * m)))%R with (IZR (2 * m)) by (rewrite mult_IZR; field; split; lra). apply Ztrunc_IZR.
  - rewrite Rabs_left by lra. replace ((u - - u) / (- (u - - u) / IZR (2 * m)))%R with (IZR (- (2 * m))) by (rewrite opp_IZR, mult_IZR; field; split; lra). apply Ztrunc_IZR.
Qed.
(** On the objects described so far nothing changes. *)
Lemma c141_same : forall spl form o, (0 < a_umax o)%R -> 1 <= a_m1 o -> aff_run_any spl form o = aff_run spl form o.
Proof.
  intros spl form o HU HM. unfold aff_run_any. cbv zeta. rewrite (proj1 (c141_count (a_umax o) (a_m1 o) ltac:(lia)) HU).
  destruct (a_nv o =? 1) eqn:E1; [unfold aff_run; cbv zeta; now rewrite E1|]. destruct (a_nv o <=? 0) eqn:E2; [unfold aff_run; cbv zeta; now rewrite E1, E2|].
  destruct (Z.eqb_spec (a_m1 o) 0); [lia|]. destruct (Z.ltb_spec (2 * a_m1 o) 0); [lia|]. destruct (Z.leb_spec (- (2 * a_m1 o)) (a_m1 o)); [|lia]. destruct (Z.ltb_spec (a_m1 o) (2 * a_m1 o)); [|lia]. destruct (Z.ltb_spec (a_m1 o) 0); [lia|]. reflexivity.
Qed.
(** Unterberger: a negative root and T always set.  The default number of voices is refused when m1 >= 1;
    whatever the number of voices, run never returns. *)
Lemma c141_unterberger : forall x ts fmin fmax, 1 <= zlen x -> (0 < fmax < fmin)%R ->
  let v := (fmax * (sqrt (fmin / fmax) - / sqrt (fmin / fmax)))%R in
  (0 < v)%R /\ exists m1,
  (Rabs (IZR m1 - 1 + 2 * IZR (half_len (zlen x)) * v) <= / 2)%R /\
  (1 <= m1 -> aff_new Unt x ts (Some fmin) (Some fmax) None = Raise ValueError) /\
  (forall nv, exists o, aff_new Unt x ts (Some fmin) (Some fmax) (Some nv) = Ok o /\ a_nv o = nv) /\
  forall nv o, aff_new Unt x ts (Some fmin) (Some fmax) nv = Ok o -> a_m1 o = m1 /\ (a_umax o < 0)%R /\
    forall spl form, aff_run_any spl form o = Raise (if a_nv o =? 1 then ZeroDivisionError else if (1 <=? a_nv o) && (m1 =? 0) then IndexError else ValueError).
Proof.
  intros x ts fmin fmax HN Hf v. set (m1 := aff_pad (zlen x) (- v)). destruct (rev_ratio _ _ Hf) as (R1 & R2 & RI). assert (RP := aff_root_pos Unt _ R2). cbn [aff_root] in RP. assert (VP : (0 < v)%R) by (unfold v; apply Rmult_lt_0_compat; lra). split; [exact VP|]. exists m1.
  destruct (sqrt_gt_1 _ R2) as [W1 W2]. assert (SI : sqrt (fmax / fmin) = (/ sqrt (fmin / fmax))%R) by (rewrite RI; apply sqrt_inv; lra).
  destruct (half_len_spec (zlen x) HN) as [HL _]. set (m := half_len (zlen x)) in *. assert (M1 : (1 <= IZR m)%R) by (apply (IZR_le 1); lia).
  assert (SZ : aff_size Unt (zlen x) fmax (sqrt (fmax / fmin) - / sqrt (fmax / fmin)) = Ok (m1, Some (2 * m1 - 1))).
  { unfold aff_size. fold m. cbv zeta. rewrite SI, Rinv_inv. replace (fmax * (/ sqrt (fmin / fmax) - sqrt (fmin / fmax)))%R with (- v)%R by (unfold v; ring). destruct (Req_EM_T (- v) 0); [lra|].
    destruct (Rlt_dec (IZR m / - v) (IZR (2 * m))) as [_|L].
    - unfold m1, aff_pad. fold m. replace (2 * IZR m ^ 2 / (IZR m / - v) - IZR m)%R with (IZR m * (2 * - v - 1))%R by (field; lra). rewrite <- Z.add_assoc. reflexivity.
    - exfalso. apply L. apply Rlt_trans with 0%R; [|apply IZR_lt; lia]. unfold Rdiv. assert (/ - v < 0)%R by (apply Rinv_lt_0_compat; lra). nra. }
  assert (NEW : forall nv, aff_new Unt x ts (Some fmin) (Some fmax) nv = bind (match nv with Some v => Ok v | None => get_nvoices fmin fmax (Some (2 * m1 - 1)) end) (fun nv => Ok (mkaff Unt x match ts with Some t => t | None => arange 0 (zlen x) end fmin fmax (sqrt (fmax / fmin) - / sqrt (fmax / fmin)) m1 nv))).
  { intros nv. unfold aff_new, affine_band. cbn [bind umax_of]. rewrite SZ. reflexivity. }
  split; [|split; [|split]].
  - unfold m1, aff_pad. fold m. assert (Q := Znearest_half (fun z => negb (Z.even z)) (IZR m * (2 * - v - 1))). rewrite !plus_IZR. set (z := IZR (Znearest _ _)) in *. apply Rabs_le_inv in Q. apply Rabs_le. lra.
  - intros P. rewrite NEW, c141_voices by (auto; lia). reflexivity.
  - intros nv. rewrite NEW. eexists. split; reflexivity.
  - intros nv o H. rewrite NEW in H. destruct (match nv with Some v => Ok v | None => _ end) as [n|]; [|discriminate]. cbn [bind] in H. injection H as <-. cbn [a_m1 a_umax a_nv].
    assert (UN : (sqrt (fmax / fmin) - / sqrt (fmax / fmin) < 0)%R) by (rewrite SI, Rinv_inv; lra). split; [reflexivity|]. split; [exact UN|]. intros spl form. unfold aff_run_any. cbv zeta. cbn [a_nv a_m1 a_umax].
    destruct (Z.eqb_spec n 1); [reflexivity|]. destruct (Z.leb_spec n 0), (Z.leb_spec 1 n); cbn [andb]; try lia; [reflexivity|]. destruct (Z.eqb_spec m1 0) as [E|E]; [reflexivity|]. rewrite (proj2 (c141_count _ _ E) UN).
    destruct (Z.ltb_spec (- (2 * m1)) 0); [reflexivity|]. destruct (Z.leb_spec (- - (2 * m1)) m1); [|lia]. destruct (Z.ltb_spec m1 (- (2 * m1))); [|lia]. cbn [andb negb]. destruct (Z.ltb_spec m1 0); [reflexivity|lia].
Qed.
(** The frequency axis then goes down from fmin to fmax in a constant ratio. *)
Lemma c141_axis : forall fmin fmax nv, (0 < fmax < fmin)%R -> 2 <= nv -> let f := geo_grid fmin fmax nv in
  zlen f = nv /\ rnth f 0 = fmin /\ rnth f (nv - 1) = fmax /\ exists q, (0 < q < 1)%R /\ forall k, 0 <= k < nv - 1 -> (rnth f (k + 1) = q * rnth f k)%R.
Proof.
  intros fmin fmax nv Hf Hn f. destruct (rev_ratio _ _ Hf) as (R1 & _ & _). assert (NP : (0 < IZR (nv - 1))%R) by (apply IZR_lt; lia).
  assert (LQ : ln (geo_q fmin fmax nv) = (1 / IZR (nv - 1) * ln (fmax / fmin))%R) by (unfold geo_q, Rpower; apply ln_exp).
  assert (AT : forall k, 0 <= k < nv -> rnth f k = (fmin * exp (IZR k / IZR (nv - 1) * ln (fmax / fmin)))%R) by (intros k Hk; unfold f, geo_grid; rewrite rnth_map_arange by lia; rewrite Z.add_0_l, LQ; do 2 f_equal; field; lra).
  split; [unfold f, geo_grid; rewrite zlen_map_arange; lia|]. split; [|split].
  - rewrite AT by lia. unfold Rdiv at 1. rewrite !Rmult_0_l, exp_0. ring.
  - rewrite AT by lia. replace (IZR (nv - 1) / IZR (nv - 1))%R with 1%R by (field; lra). rewrite Rmult_1_l, exp_ln by lra. field. lra.
  - exists (exp (1 / IZR (nv - 1) * ln (fmax / fmin))). split.
    + split; [apply exp_pos|]. apply Rlt_le_trans with (exp 0); [|rewrite exp_0; lra]. apply exp_increasing. assert (ln (fmax / fmin) < 0)%R by (rewrite <- ln_1; apply ln_increasing; lra). assert (P : (0 < 1 / IZR (nv - 1))%R) by (apply Rdiv_lt_0_compat; lra). rewrite <- (Rmult_0_r (1 / IZR (nv - 1))). apply Rmult_lt_compat_l; assumption.
    + intros k Hk. rewrite !AT by lia. replace (IZR (k + 1) / IZR (nv - 1) * ln (fmax / fmin))%R with (1 / IZR (nv - 1) * ln (fmax / fmin) + IZR k / IZR (nv - 1) * ln (fmax / fmin))%R by (rewrite plus_IZR; field; lra). rewrite exp_plus. ring.
Qed.
Lemma filter_keep {A} (P : A -> bool) l : (forall a, In a l -> P a = true) -> filter P l = l.
Proof. induction l as [|a l IH]; intros H; [reflexivity|]. cbn [filter]. rewrite (H a) by now left. f_equal. apply IH. intros b Hb. apply H. now right. Qed.
Lemma gamma_bound fmax N m1 j : (0 < fmax)%R -> 2 <= N -> 1 <= m1 -> 0 <= j < 2 * m1 -> (- (fmax * (IZR (N - 1) / 2)) <= gamma_at fmax N m1 j <= fmax * (IZR (N - 1) / 2))%R.
Proof.
  intros Hf HN Hm Hj. unfold gamma_at. assert (M0 : (0 < IZR (2 * m1 - 1))%R) by (apply IZR_lt; lia). assert (T0 : (0 < fmax * (IZR (N - 1) / 2))%R) by (apply Rmult_lt_0_compat; [lra|]; assert (0 < IZR (N - 1))%R by (apply IZR_lt; lia); lra). set (T := (fmax * _)%R) in *.
  assert (B : (- 1 <= IZR (2 * j - (2 * m1 - 1)) / IZR (2 * m1 - 1) <= 1)%R); [|set (w := (IZR (2 * j - _) / _)%R) in *; nra].
  assert (- IZR (2 * m1 - 1) <= IZR (2 * j - (2 * m1 - 1)) <= IZR (2 * m1 - 1))%R by (split; [rewrite <- opp_IZR|]; apply IZR_le; lia). split; apply (Rmult_le_reg_r (IZR (2 * m1 - 1))); try lra; unfold Rdiv; rewrite Rmult_assoc, Rinv_l by lra; lra.
Qed.
(** D-Flandrin with a number of voices given does return, for three samples and more: every point of the warped
    time axis, built from the last (here the lowest) frequency, is kept for every voice. *)
Lemma c141_flandrin_run : forall spl form x ts fmin fmax nv o, (forall u v w, zlen (spl u v w) = zlen w) -> 3 <= zlen x -> (0 < fmax < fmin)%R -> 2 <= nv ->
  aff_new Dfl x ts (Some fmin) (Some fmax) (Some nv) = Ok o -> 2 <= zlen (a_ts o) ->
  exists tfr, aff_run_any spl form o = Ok (tfr, a_ts o, geo_grid fmin fmax nv).
Proof.
  intros spl form x ts fmin fmax nv o SL HN Hf Hn HO Ht. destruct (rev_ratio _ _ Hf) as (R1 & R2 & RI). destruct (c141_flandrin x ts fmin fmax ltac:(lia) Hf) as [_ D]. destruct (D nv) as (o' & HO' & V1 & U1 & M1 & F1 & F2). assert (o' = o) by congruence. subst o'. clear D HO'.
  assert (XS : a_sig o = x /\ a_kind o = Dfl). { unfold aff_new, affine_band in HO. cbn [bind umax_of] in HO. destruct (aff_size Dfl _ _ _) as [[m t]|]; [|discriminate]. cbn [bind] in HO. injection HO as <-. split; reflexivity. }
  destruct XS as [X1 K1]. assert (UP := aff_root_pos Dfl _ R2). rewrite <- U1 in UP. assert (M2 : 2 <= a_m1 o) by (unfold half_len in M1; Z.to_euclidean_division_equations; lia).
  rewrite c141_same by (auto; lia). unfold aff_run. cbv zeta. rewrite V1, F1, F2, K1, X1. destruct (Z.eqb_spec nv 1); [lia|]. destruct (Z.leb_spec nv 0); [lia|].
  destruct (c141_axis fmin fmax nv Hf Hn) as (LG & _ & GL & q & Q1 & Q2). set (geo := geo_grid fmin fmax nv) in *.
  assert (GE : forall d, (Z.of_nat d <= nv - 1) -> (fmax <= rnth geo (nv - 1 - Z.of_nat d))%R).
  { induction d; intros Hd; [rewrite Z.sub_0_r, GL; lra|]. specialize (IHd ltac:(lia)). assert (SQ := Q2 (nv - 1 - Z.of_nat (S d)) ltac:(lia)). replace (nv - 1 - Z.of_nat (S d) + 1) with (nv - 1 - Z.of_nat d) in SQ by lia. set (g := rnth geo (nv - 1 - Z.of_nat (S d))) in *. nra. }
  assert (GI : forall i, 0 <= i < nv -> (fmax <= rnth geo i)%R) by (intros i Hi; assert (G := GE (Z.to_nat (nv - 1 - i)) ltac:(lia)); rewrite Z2Nat.id in G by lia; now replace (nv - 1 - (nv - 1 - i)) with i in G by ring).
  set (tffr := aff_tffr _ _ _ _ _ _ _). assert (IT : exists g, aff_interp spl 0 geo (a_ts o) (zlen (map Re x)) nv (a_m1 o) tffr = Ok (map g (arange 0 nv)) /\ forall i, zlen (g i) = zlen (a_ts o)).
  { unfold aff_interp. cbv zeta. rewrite (get_ok 0%R) by lia. cbn [bind]. fold (rnth geo (nv - 1)). rewrite GL, zlen_map. rewrite gamma_grid by lia. rewrite zlen_map_arange by lia. rewrite Z.sub_0_r.
    eexists. split; [apply mapM_ok|].
    - intros i Hi. apply in_arange in Hi. cbv beta. match goal with |- context [filter ?P ?l] => replace (filter P l) with l end.
      + rewrite arange_zlen. destruct (Z.leb_spec (Z.max 0 (2 * a_m1 o - 0)) 3); [lia|]. reflexivity.
      + symmetry. apply filter_keep. intros j Hj. apply in_arange in Hj. rewrite rnth_map_arange by lia. rewrite Z.add_0_l. specialize (GI i Hi). assert (B := gamma_bound fmax (zlen x) (a_m1 o) j ltac:(lra) ltac:(lia) ltac:(lia) Hj).
        assert (T0 : (0 < IZR (zlen x - 1) / 2)%R) by (assert (0 < IZR (zlen x - 1))%R by (apply IZR_lt; lia); lra). set (T := (IZR (zlen x - 1) / 2)%R) in *. set (g := gamma_at _ _ _ _) in *. destruct (Rle_dec (- rnth geo i * T) g); [|nra]. destruct (Rle_dec g (rnth geo i * T)); [reflexivity|nra].
    - intros i. cbv beta. rewrite SL. apply zlen_map. }
  destruct IT as (g & -> & GZ). cbn [bind]. unfold aff_mult. destruct (hil_ok (map Re x)) as [z Hz]; [destruct x; [unfold zlen in HN; cbn in HN; lia|discriminate]|]. rewrite Hz. cbn [bind].
  unfold aff_normal. rewrite integrate_formula. 2:lia. 2:{ rewrite zlen_map_arange; lia. } 2:{ intros r Hr. apply in_map_iff in Hr. destruct Hr as (i & <- & _). apply GZ. } 2:{ now rewrite zlen_map. } 2:{ rewrite zlen_map_arange; lia. }
  cbn [bind]. destruct (Req_EM_T _ 0); cbn [bind]; eexists; reflexivity.
Qed.
(** The matrix is scaled by the energy of the spectrum between fmin and fmax, an empty slice here: it is zero throughout
    (or NaN, None, when the integral is zero). *)
Lemma pyslice_none {A} (l : list A) a b : 0 <= b <= a -> pyslice l a b = [].
Proof.
  intros H. unfold pyslice, pyclip, slice. destruct (Z.ltb_spec a 0); [lia|]. destruct (Z.ltb_spec b 0); [lia|]. replace (Z.to_nat (Z.min b (zlen l) - Z.min a (zlen l))) with 0%nat by lia. reflexivity.
Qed.
Lemma near_gap u v : (0 <= v)%R -> (1 < u - v)%R -> 0 <= ZnearestE v < ZnearestE u.
Proof.
  intros H0 H. assert (A := Znearest_half (fun z => negb (Z.even z)) u). assert (B := Znearest_half (fun z => negb (Z.even z)) v). apply Rabs_le_inv in A, B. split; [|apply lt_IZR; lra]. assert (-1 < ZnearestE v); [apply lt_IZR; lra|lia].
Qed.
Lemma c141_flandrin_zero : forall spl form x ts fmin fmax nv o m t f, (0 < fmax < fmin)%R -> aff_new Dfl x ts (Some fmin) (Some fmax) nv = Ok o -> 2 <= zlen (a_ts o) -> (1 < (fmin - fmax) * IZR (zlen (a_ts o) - 2))%R ->
  aff_run_any spl form o = Ok (Some m, t, f) -> forall row v, In row m -> In v row -> v = 0%R.
Proof.
  intros spl form x ts fmin fmax nv o m t f Hf HO Ht HG H row v Hr Hv.
  assert (FO : a_fmin o = fmin /\ a_fmax o = fmax). { unfold aff_new, affine_band in HO. cbn [bind umax_of] in HO. destruct (aff_size Dfl _ _ _) as [[m1 T]|]; [|discriminate]. cbn [bind] in HO. destruct (match nv with Some v => _ | None => _ end); [|discriminate]. cbn [bind] in HO. injection HO as <-. split; reflexivity. }
  destruct FO as [F1 F2]. unfold aff_run_any in H. cbv zeta in H. destruct (a_nv o =? 1) eqn:E1; [discriminate|]. destruct (a_nv o <=? 0) eqn:E2; [discriminate|]. destruct (a_m1 o =? 0); [discriminate|]. destruct (_ <? 0) in H; [discriminate|]. destruct (negb _) in H; [discriminate|]. destruct (a_m1 o <? 0); [discriminate|].
  unfold aff_run in H. cbv zeta in H. rewrite E1, E2 in H. destruct (match a_kind o with Unt => negb form | _ => false end); [discriminate|]. destruct (aff_interp _ _ _ _ _ _ _ _) as [rows|]; [|discriminate]. cbn [bind] in H.
  unfold aff_mult in H. destruct (hilbert _) as [z|]; [|discriminate]. cbn [bind] in H. rewrite F1, F2 in H.
  assert (N0 : (0 <= IZR (zlen (a_ts o) - 2))%R) by (apply (IZR_le 0); lia). destruct (near_gap (fmin * IZR (zlen (a_ts o) - 2)) (fmax * IZR (zlen (a_ts o) - 2))) as [G0 G1]; [apply Rmult_le_pos; lra|lra|]. rewrite pyslice_none, rsum_nil in H by lia.
  unfold aff_normal in H. destruct (integrate_2d _ _ _ _) as [i|]; [|discriminate]. cbn [bind] in H. destruct (Req_EM_T i 0); cbn [bind] in H; [discriminate|]. injection H as <- _ _. apply in_map_iff in Hr. destruct Hr as (r0 & <- & _). apply in_map_iff in Hv. destruct Hv as (v0 & <- & _). unfold Rdiv. ring.
Qed.
Lemma c141_scalogram_zero : forall x ts fmin fmax nv wp m t f wt, (0 < fmax < fmin)%R -> 2 <= zlen x -> (1 < (fmin - fmax) * IZR (zlen x - 2))%R ->
  scalogram x ts (Some fmin) (Some fmax) nv wp = Ok (Some m, t, f, wt) -> forall row v, In row m -> In v row -> v = 0%R.
Proof.
  intros x ts fmin fmax nv wp m t f wt Hf HN HG H row v Hr Hv. unfold scalogram, affine_band in H. cbn [bind] in H. cbv zeta in H. destruct (scal_z x) as [z|]; [|discriminate]. cbn [bind] in H. destruct (_ <? 0) in H; [discriminate|].
  destruct (match wp with Some w => w | None => _ end) as [w|]; [|discriminate]. destruct (scal_rows _ _ _ _ _ _ _) as [[wt' rows]|]; [|discriminate]. cbn [bind] in H. destruct (integrate_2d _ _ _ _) as [i|]; [|discriminate]. cbn [bind] in H. destruct (Req_EM_T i 0); [discriminate|]. injection H as <- _ _ _.
  assert (N0 : (0 <= IZR (zlen x - 2))%R) by (apply (IZR_le 0); lia). destruct (near_gap (fmin * IZR (zlen x - 2)) (fmax * IZR (zlen x - 2))) as [G0 G1]; [apply Rmult_le_pos; lra|lra|].
  assert (SM : scal_mult z (zlen x) fmin fmax = 0%R) by (unfold scal_mult; cbv zeta; rewrite pyslice_none by lia; reflexivity). apply in_map_iff in Hr. destruct Hr as (r0 & <- & _). apply in_map_iff in Hv. destruct Hv as (v0 & <- & _). rewrite SM. unfold Rdiv. ring.
Qed.
(** 16 samples, band 0.4 down to 0.1, 8 voices: m1 = -1 and run raises ValueError. *)
Example c141_example : forall x, zlen x = 16 -> exists o, aff_new Unt x None (Some (4 / 10)%R) (Some (1 / 10)%R) (Some 8) = Ok o /\ a_m1 o = -1 /\ forall spl form, aff_run_any spl form o = Raise ValueError.
Proof.
  intros x HX. assert (Hf : (0 < 1 / 10 < 4 / 10)%R) by lra. destruct (c141_unterberger x None _ _ ltac:(lia) Hf) as (_ & m1 & D & _ & B & A). destruct (B 8) as (o & Ho & V). exists o. split; [exact Ho|]. destruct (A _ _ Ho) as (M & _ & W).
  rewrite HX in *. replace (4 / 10 / (1 / 10))%R with 4%R in * by field. replace (sqrt 4) with 2%R in * by (symmetry; apply sqrt_lem_1; lra). change (half_len 16) with 8 in D.
  assert (E : m1 = -1). { apply Rabs_le_inv in D. assert (-2 < m1 < 0); [|lia]. split; apply lt_IZR; lra. }
  rewrite E in M, W. split; [exact M|]. intros spl form. rewrite W, V. reflexivity.
Qed.
