(** Arbitrary frequency modulation and the phase laws (C56, C57). *)
From Coq Require Import Reals ZArith List Lia Lra Bool.
From Coquelicot Require Import Coquelicot.
From Flocq Require Import Core.
From Verif Require Import Py Scalars CSum DFT M_base Spec P_base M_putils M_dom T_reas T_dom M_gen1 T_gen1.
Import ListNotations.
Local Open Scope Z_scope.

(** *** C56 *)
Lemma cumsum_length a l : length (cumsum a l) = length l.
Proof. revert a. induction l as [|v l IH]; intros a; cbn; [reflexivity|]. now rewrite IH. Qed.
Lemma cumsum_nth a l k : (k < length l)%nat -> nth k (cumsum a l) 0%R = (match k with O => a | S k' => nth k' (cumsum a l) 0 end + nth k l 0)%R.
Proof.
  revert a k. induction l as [|v l IH]; intros a k H; cbn in H; [lia|]. destruct k as [|k]; [reflexivity|]. cbn [cumsum nth]. rewrite IH by lia.
  destruct k as [|k]; reflexivity.
Qed.
Definition within_half (law : list R) : Prop := forall v, In v law -> (Rabs v <= 1 / 2)%R.
Lemma too_large_spec law : too_large law = false <-> within_half law.
Proof.
  unfold too_large, within_half. split.
  - intros H v Hv. destruct (Rle_dec (Rabs v) (1 / 2)) as [|N]; [auto|]. exfalso. rewrite <- not_true_iff_false in H. apply H. apply existsb_exists. exists v. split; auto. destruct (Rlt_dec _ _); [reflexivity|lra].
  - intros H. apply not_true_iff_false. intros Q. apply existsb_exists in Q. destruct Q as (v & Hv & Q). specialize (H v Hv). destruct (Rlt_dec _ _); [lra|discriminate].
Qed.
Lemma c56_raises : forall law t0,
  (fmodany None [] t0 = Raise ValueError) /\
  (law <> [] -> ~ within_half law -> fmodany None law t0 = Raise TypeError) /\
  (law <> [] -> within_half law -> zlen law < t0 \/ t0 = 0 -> fmodany None law t0 = Raise TypeError) /\
  (law <> [] -> within_half law -> t0 = zlen law \/ t0 < - zlen law -> fmodany None law t0 = Raise IndexError) /\
  (forall c, c <> 1 -> fmodany (Some c) law t0 = Raise TypeError) /\
  (zlen law < t0 \/ t0 = 0 -> fmodany (Some 1) law t0 = Raise TypeError).
Proof.
  intros law t0.
  assert (LN : law <> [] -> zlen law =? 0 = false) by (intros H; destruct law; [easy|]; apply Z.eqb_neq; unfold zlen; cbn; lia).
  assert (LP : law <> [] -> 0 < zlen law) by (intros H; destruct law; [easy|]; unfold zlen; cbn; lia).
  assert (BT : zlen law < t0 \/ t0 = 0 -> (zlen law <? t0) || (t0 =? 0) = true) by (intros [H| ->]; [apply orb_true_iff; left; apply Z.ltb_lt; lia|apply orb_true_r]).
  repeat split.
  - intros H1 H2. unfold fmodany. rewrite LN by auto. destruct (too_large law) eqn:E; [reflexivity|]. apply too_large_spec in E. tauto.
  - intros H1 H2 H3. unfold fmodany. rewrite LN, (proj2 (too_large_spec law)) by auto. cbn [bind]. now rewrite BT.
  - intros H1 H2 H3. unfold fmodany. rewrite LN, (proj2 (too_large_spec law)) by auto. cbn [bind]. specialize (LP H1).
    replace ((zlen law <? t0) || (t0 =? 0)) with false by (symmetry; apply orb_false_iff; split; [apply Z.ltb_ge|apply Z.eqb_neq]; lia).
    rewrite get_raise; [reflexivity|]. rewrite zlen_map. unfold zlen in *. rewrite cumsum_length. lia.
  - intros c H. unfold fmodany. destruct (Z.eqb_spec c 1); [easy|reflexivity].
  - intros H. unfold fmodany. cbn [Z.eqb bind]. now rewrite BT.
Qed.
(** The signal whenever one is returned: unit modulus, 1 at index t0, phase
    increments 2 pi iflaw. *)
Lemma c56_signal : forall cols law t0 y, fmodany cols law t0 = Ok y ->
  zlen y = zlen law /\ (forall k, 0 <= k < zlen law -> Cmod (cnth y k) = 1%R) /\
  cnth y (t0 mod zlen law) = RtoC 1 /\
  (forall k, 0 < k < zlen law -> cnth y k = (cnth y (k - 1) * cis (2 * PI * rnth law k))%C).
Proof.
  intros cols law t0 y H. unfold fmodany in H. match type of H with (_ <- ?X ;; _) = _ => destruct X as [[]|] end; cbn [bind] in H; [|discriminate].
  destruct ((zlen law <? t0) || (t0 =? 0)); [discriminate|].
  set (y0 := map (fun v => cis (2 * PI * v)) (cumsum 0 law)) in H. destruct (get y0 t0) as [c|] eqn:EG; cbn [bind] in H; [|discriminate]. injection H as <-.
  assert (L0 : zlen y0 = zlen law) by (unfold y0; rewrite zlen_map; unfold zlen; now rewrite cumsum_length).
  set (cs := fun k : Z => nth (Z.to_nat k) (cumsum 0 law) 0%R).
  assert (Y0 : forall k, 0 <= k < zlen law -> cnth y0 k = cis (2 * PI * cs k)).
  { intros k Hk. unfold cnth, y0. rewrite (nth_indep _ _ (cis (2 * PI * 0))) by (rewrite map_length, cumsum_length; unfold zlen in Hk; lia). exact (map_nth (fun v => cis (2 * PI * v)) (cumsum 0 law) 0%R (Z.to_nat k)). }
  assert (HR := get_in_range _ _ _ EG). rewrite L0 in HR.
  assert (HC : c = cnth y0 (t0 mod zlen law)).
  { destruct (Z_lt_ge_dec t0 0).
    - rewrite (get_neg (RtoC 0)) in EG by lia. injection EG as <-. unfold cnth. do 2 f_equal. rewrite L0. rewrite <- (Z.mod_small (t0 + zlen law) (zlen law)) by lia.
      rewrite <- Z.add_mod_idemp_r, Z.mod_same, Z.add_0_r by lia. reflexivity.
    - rewrite (get_ok (RtoC 0)) in EG by lia. injection EG as <-. unfold cnth. do 2 f_equal. rewrite Z.mod_small; lia. }
  assert (HM := Z.mod_pos_bound t0 (zlen law) ltac:(lia)).
  assert (YK : forall k, 0 <= k < zlen law -> cnth (map (fun z => z * Cconj c)%C y0) k = (cnth y0 k * Cconj c)%C).
  { intros k Hk. unfold cnth. rewrite (nth_indep _ _ (RtoC 0 * Cconj c)%C) by (rewrite map_length; unfold zlen in *; lia). exact (map_nth (fun z => z * Cconj c)%C y0 (RtoC 0) (Z.to_nat k)). }
  split; [now rewrite zlen_map|]. split; [|split].
  - intros k Hk. rewrite YK, Cmod_mult, Cmod_conj, HC, !Y0, !Cmod_cis by lia. ring.
  - rewrite YK, HC, Y0 by lia. apply cis_conj_mul.
  - intros k Hk. rewrite !YK, !Y0 by lia. assert (E : cs k = (cs (k - 1)%Z + rnth law k)%R).
    { unfold cs. rewrite cumsum_nth by (unfold zlen in Hk; lia). replace (Z.to_nat k) with (S (Z.to_nat (k - 1))) by lia. unfold rnth. do 3 f_equal. lia. }
    rewrite E, Rmult_plus_distr_l, cis_plus. ring.
Qed.
Lemma c56_ok : forall law t0, law <> [] -> within_half law -> - zlen law <= t0 < zlen law -> t0 <> 0 -> exists y, fmodany None law t0 = Ok y.
Proof.
  intros law t0 H1 H2 H3 H4. assert (LP : 0 < zlen law) by (destruct law; [easy|]; unfold zlen; cbn; lia).
  unfold fmodany. destruct (Z.eqb_spec (zlen law) 0); [lia|]. rewrite (proj2 (too_large_spec law) H2). cbn [bind].
  replace ((zlen law <? t0) || (t0 =? 0)) with false by (symmetry; apply orb_false_iff; split; [apply Z.ltb_ge|apply Z.eqb_neq]; lia).
  set (y0 := map _ _). assert (L0 : zlen y0 = zlen law) by (unfold y0; rewrite zlen_map; unfold zlen; now rewrite cumsum_length).
  destruct (Z_lt_ge_dec t0 0); [rewrite (get_neg (RtoC 0)) by lia|rewrite (get_ok (RtoC 0)) by lia]; cbn [bind]; eauto.
Qed.
(** A column vector escapes the range check. *)
Lemma c56_column_refuted : exists law, ~ within_half law /\ exists y, fmodany (Some 1) law 1 = Ok y.
Proof.
  exists [0; 3]%R. split; [intros H; specialize (H 3%R ltac:(cbn; auto)); rewrite Rabs_right in H; lra|].
  unfold fmodany. cbn [Z.eqb Pos.eqb bind]. change ((zlen [0; 3]%R <? 1) || (1 =? 0)) with false. cbv iota zeta.
  rewrite (get_ok (RtoC 0)) by (rewrite zlen_map; unfold zlen; cbn; lia). cbn [bind]. eexists. reflexivity.
Qed.
(** The documented range 1..len(iflaw) includes one value that fails. *)
Lemma c56_last_refuted : forall law, law <> [] -> within_half law -> fmodany None law (zlen law) = Raise IndexError.
Proof. intros law H1 H2. destruct (c56_raises law (zlen law)) as (_ & _ & _ & Q & _). apply Q; auto. Qed.
Example c56_example : fmodany None [0; 1 / 4; 1 / 4]%R 1 = Ok [(- Ci)%C; RtoC 1; Ci].
Proof.
  destruct (c56_ok [0; 1 / 4; 1 / 4]%R 1) as [y E]; [discriminate| |unfold zlen; cbn; lia|lia|].
  { intros v [<-|[<-|[<-|[]]]]; [rewrite Rabs_R0|rewrite Rabs_right|rewrite Rabs_right]; lra. }
  rewrite E. f_equal. destruct (c56_signal _ _ _ _ E) as (L & _ & V & I). change (zlen [0; 1 / 4; 1 / 4]%R) with 3 in *. change (1 mod 3) with 1 in V.
  destruct y as [|a [|b [|c [|]]]]; try (unfold zlen in L; cbn in L; lia). assert (I1 := I 1 ltac:(lia)). assert (I2 := I 2 ltac:(lia)).
  change (cnth [a; b; c] 1) with b in V, I1, I2. change (cnth [a; b; c] (1 - 1)) with a in I1. change (cnth [a; b; c] 2) with c in I2. change (cnth [a; b; c] (2 - 1)) with b in I2.
  change (rnth [0; 1 / 4; 1 / 4]%R 1) with (1 / 4)%R in I1. change (rnth [0; 1 / 4; 1 / 4]%R 2) with (1 / 4)%R in I2.
  assert (C2 : cis (2 * PI * (1 / 4)) = Ci) by (replace (2 * PI * (1 / 4))%R with (PI / 2)%R by field; unfold cis; rewrite cos_PI2, sin_PI2; reflexivity).
  rewrite C2 in I1, I2. rewrite V in *. f_equal; [|f_equal; f_equal; rewrite I2; ring].
  assert (E1 : (a * (Ci * Ci) = Ci)%C) by (rewrite Cmult_assoc, <- I1; ring). replace (Ci * Ci)%C with (RtoC (-1)) in E1 by (apply injective_projections; cbn; ring).
  replace a with (- (a * RtoC (-1)))%C by (apply injective_projections; cbn; ring). now rewrite E1.
Qed.

(** *** C57 *)
(** fmhyp: phase p(t) = 2 pi (f0 t + c ln t), law f0 + c / t through both points. *)
Lemma c57_fmhyp : forall n a1 b1 a2 b2, a1 <> 0%R -> a2 <> 0%R -> a1 <> a2 ->
  let c := ((b2 - b1) / (1 / a2 - 1 / a1))%R in
  let f0 := (b1 - c / a1)%R in
  let p := fun t => (2 * PI * (f0 * t + c * ln t))%R in
  let law := fun t => (f0 + c / t)%R in
  fmhyp n a1 b1 a2 b2 = Ok (map (fun k => cis (p (IZR k))) (arange 1 (n + 1)), map (fun k => law (IZR k)) (arange 1 (n + 1))) /\
  (forall t, (0 < t)%R -> is_derive p t (2 * PI * law t)%R) /\ law a1 = b1 /\ law a2 = b2.
Proof.
  intros n a1 b1 a2 b2 H1 H2 Hd c f0 p law.
  assert (HD : (1 / a2 - 1 / a1)%R <> 0%R).
  { intros Q. apply Hd. assert (E : (/ a2 = / a1)%R) by lra. rewrite <- (Rinv_inv a1), <- (Rinv_inv a2). now rewrite E. }
  assert (P1 : (a1 - a2 <> 0)%R) by lra.
  split; [|split; [|split]].
  - unfold fmhyp, hyp_coeffs. destruct (Req_EM_T a2 0); [lra|]. destruct (Req_EM_T a1 0); [lra|]. destruct (Req_EM_T _ 0); [tauto|]. cbn [bind]. fold c. fold f0.
    assert (A : forall k, In k (arange 1 (n + 1)) -> Rabs (IZR k) = IZR k) by (intros k Hk; apply in_arange in Hk; apply Rabs_right, Rle_ge, IZR_le; lia).
    do 2 f_equal; apply map_ext_in; intros k Hk; rewrite A by auto; reflexivity.
  - intros t Ht. unfold p, law. auto_derive; [auto|]. field. lra.
  - unfold law, f0. field. lra.
  - unfold law, f0, c. field. repeat split; try lra.
Qed.
Lemma c57_fmhyp_raises : forall n a1 b1 a2 b2, a1 = 0%R \/ a2 = 0%R \/ a1 = a2 -> fmhyp n a1 b1 a2 b2 = Raise ZeroDivisionError.
Proof.
  intros n a1 b1 a2 b2 H. unfold fmhyp, hyp_coeffs. destruct (Req_EM_T a2 0); [reflexivity|]. destruct (Req_EM_T a1 0); [reflexivity|]. destruct (Req_EM_T _ 0) as [|N]; [reflexivity|].
  exfalso. destruct H as [H|[H| ->]]; [easy|easy|]. apply N. ring.
Qed.

(** fmpower: phase 2 pi (f0 t + c t^(1-k) / (1-k)), law f0 + c t^(-k). *)
Definition pow_p (f0 c k t : R) : R := (2 * PI * (f0 * t + c / (1 - k) * Rpower t (1 - k)))%R.
Definition pow_law (f0 c k t : R) : R := (f0 + c * Rpower t (- k))%R.
Lemma pow_derive f0 c k t : k <> 1%R -> (0 < t)%R -> is_derive (pow_p f0 c k) t (2 * PI * pow_law f0 c k t)%R.
Proof.
  intros Hk Ht. unfold pow_p, pow_law, Rpower. auto_derive; [auto|]. replace ((1 - k) * ln t)%R with (- k * ln t + ln t)%R by ring. rewrite exp_plus, exp_ln by auto. field. split; lra.
Qed.
Lemma c57_fmpower : forall n k f0 c, k <> 1%R ->
  exists y law, fmpower n (DFloat k) [f0; c] = Ok (y, law) /\ zlen y = Z.max 0 n /\ zlen law = Z.max 0 n /\
  (forall j, 0 < j < n -> nth (Z.to_nat j) y None = Some (cis (pow_p f0 c k (IZR j))) /\ nth (Z.to_nat j) law None = Some (pow_law f0 c k (IZR j))) /\
  (forall t, (0 < t)%R -> is_derive (pow_p f0 c k) t (2 * PI * pow_law f0 c k t)%R) /\
  (0 < n -> (0 < k)%R -> nth 0 law None = None).
Proof.
  intros n k f0 c Hk. unfold fmpower. cbn [pow_coeffs bind dval]. destruct (Req_EM_T k 1); [tauto|]. eexists _, _. split; [reflexivity|].
  split; [rewrite zlen_map, arange_zlen; lia|]. split; [rewrite zlen_map, arange_zlen; lia|]. split; [|split].
  - intros j Hj. rewrite !nth_map_arange, Z.add_0_l by lia. unfold npow. destruct (Z.eqb_spec j 0); [lia|]. split; reflexivity.
  - intros t Ht. now apply pow_derive.
  - intros Hn Hk0. change 0%nat with (Z.to_nat 0). rewrite nth_map_arange, Z.add_0_l by lia. unfold npow. cbn [Z.eqb]. destruct (Req_EM_T (- k) 0); [lra|]. destruct (Rlt_dec 0 (- k)); [lra|]. reflexivity.
Qed.
(** Two points give the coefficients of a law through both. *)
Lemma c57_fmpower_points : forall n k a1 b1 a2 b2 rest, (0 < a1)%R -> (0 < a2)%R ->
  Rpower a1 (dval k) <> Rpower a2 (dval k) ->
  exists f0 c, fmpower n k (a1 :: b1 :: a2 :: b2 :: rest) = fmpower n k [f0; c] /\ pow_law f0 c (dval k) a1 = b1 /\ pow_law f0 c (dval k) a2 = b2.
Proof.
  intros n k a1 b1 a2 b2 rest H1 H2 Hd. set (q1 := Rpower a1 (dval k)) in *. set (q2 := Rpower a2 (dval k)) in *.
  assert (P1 : (0 < q1)%R) by apply exp_pos. assert (P2 : (0 < q2)%R) by apply exp_pos.
  set (c := ((b2 - b1) / (1 / q2 - 1 / q1))%R). exists (b1 - c / q1)%R, c. split; [|split].
  - unfold fmpower. cbn [pow_coeffs]. fold q1 q2. destruct (Req_EM_T _ 0) as [Q|Q]; [|reflexivity].
    exfalso. apply Hd. assert (E : (/ q2 = / q1)%R) by lra. rewrite <- (Rinv_inv q1), <- (Rinv_inv q2). now rewrite E.
  - unfold pow_law. rewrite Rpower_Ropp. fold q1. field. lra.
  - unfold pow_law. rewrite Rpower_Ropp. fold q2. unfold c. field. repeat split; lra.
Qed.
(** Every positive integer degree (the documented type) raises. *)
Lemma c57_fmpower_int : forall n k f0 c, 1 <= n -> 1 <= k -> fmpower n (DInt k) [f0; c] = Raise (if k =? 1 then ZeroDivisionError else ValueError).
Proof.
  intros n k f0 c Hn Hk. unfold fmpower. cbn [pow_coeffs bind dval]. destruct (Z.eqb_spec k 1) as [->|N].
  - destruct (Req_EM_T 1 1); [reflexivity|easy].
  - destruct (Req_EM_T (IZR k) 1) as [Q|_]; [apply eq_IZR in Q; lia|]. rewrite (proj2 (Z.ltb_lt 1 k)), (proj2 (Z.ltb_lt 0 n)) by lia. reflexivity.
Qed.
Lemma c57_fmpower_coeffs : forall n k l, length l = 0%nat \/ length l = 1%nat \/ length l = 3%nat ->
  fmpower n k l = Raise (if Nat.eqb (length l) 3 then IndexError else UnboundLocalError).
Proof. intros n k l H. destruct l as [|? [|? [|? [|? l]]]]; cbn in H |- *; try reflexivity; destruct H as [H|[H|H]]; discriminate. Qed.

(** fmsin: the law is the derivative of the phase, stays within the band,
    passes through fnorm0 at t0 in the direction pm1. *)
Definition sin_phi (fmin fmax f0 pm1 : R) : R := (- pm1 * acos ((f0 - (fmin + fmax) / 2) / ((fmax - fmin) / 2)))%R.
Definition sin_p (fmin fmax per f0 pm1 t : R) : R :=
  (2 * PI * ((fmin + fmax) / 2) * t + (fmax - fmin) / 2 * per * sin (2 * PI * t / per + sin_phi fmin fmax f0 pm1) - sin (sin_phi fmin fmax f0 pm1))%R.
Definition sin_law (fmin fmax per f0 pm1 t : R) : R :=
  ((fmin + fmax) / 2 + (fmax - fmin) / 2 * cos (2 * PI * t / per + sin_phi fmin fmax f0 pm1))%R.
Lemma c57_fmsin : forall n fmin fmax per t0 f0 pm1, (fmin < fmax)%R -> per <> 0%R -> (fmin <= f0 <= fmax)%R -> (pm1 = 1 \/ pm1 = -1)%R ->
  let p := sin_p fmin fmax per f0 pm1 in
  let law := sin_law fmin fmax per f0 pm1 in
  fmsin n fmin fmax (Some per) (Some t0) (Some f0) pm1 =
    Ok (Some (map (fun k => cis (p (IZR k - t0)%R)) (arange 0 n), map (fun k => law (IZR k - t0)%R) (arange 0 n))) /\
  (forall t, is_derive p t (2 * PI * law t)%R) /\
  (forall t, fmin <= law t <= fmax)%R /\ law 0%R = f0 /\
  (exists d : R, is_derive law 0%R d /\ d = (pm1 * (2 * PI / per) * sqrt (((fmax - fmin) / 2) ^ 2 - (f0 - (fmin + fmax) / 2) ^ 2))%R).
Proof.
  intros n fmin fmax per t0 f0 pm1 HF HP0 Hf Hpm p law. assert (HPI := PI_RGT_0).
  set (u := ((f0 - (fmin + fmax) / 2) / ((fmax - fmin) / 2))%R).
  assert (HU : (-1 <= u <= 1)%R).
  { assert (EU : (u * ((fmax - fmin) / 2) = f0 - (fmin + fmax) / 2)%R) by (unfold u; field; lra). split; apply Rmult_le_reg_r with ((fmax - fmin) / 2)%R; lra. }
  assert (CU : cos (sin_phi fmin fmax f0 pm1) = u).
  { unfold sin_phi. fold u. destruct Hpm as [-> | ->]; [replace (- (1) * acos u)%R with (- acos u)%R by ring; rewrite cos_neg|replace (- -1 * acos u)%R with (acos u) by ring]; now apply cos_acos. }
  assert (SU : sin (sin_phi fmin fmax f0 pm1) = (- pm1 * sqrt (1 - u ^ 2))%R).
  { unfold sin_phi. fold u. assert (E := sin_acos u HU). unfold Rsqr in E. replace (u ^ 2)%R with (u * u)%R by ring.
    destruct Hpm as [-> | ->]; [replace (- (1) * acos u)%R with (- acos u)%R by ring; rewrite sin_neg|replace (- -1 * acos u)%R with (acos u) by ring]; rewrite E; ring. }
  split; [|split; [|split; [|split]]].
  - unfold fmsin. cbv zeta. assert (E1 : (1 / 2 * (fmax + fmin) = (fmin + fmax) / 2)%R) by lra. assert (E2 : (1 / 2 * (fmax - fmin) = (fmax - fmin) / 2)%R) by lra. rewrite E1, E2.
    destruct (Req_EM_T _ 0); [lra|]. destruct (Z.leb_spec n 0) as [N0|N0]; [rewrite !(arange_empty 0 n) by lia; reflexivity|].
    fold u. destruct (Rlt_dec 1 (Rabs u)) as [Q|_]; [exfalso; assert (Rabs u <= 1)%R by (apply Rabs_le; lra); lra|]. destruct (Req_EM_T per 0); [tauto|].
    rewrite !map_map. reflexivity.
  - intros t. unfold p, sin_p, law, sin_law. auto_derive; [auto|]. unfold Rdiv. field. auto.
  - intros t. unfold law, sin_law. assert (B := COS_bound (2 * PI * t / per + sin_phi fmin fmax f0 pm1)). nra.
  - unfold law, sin_law. replace (2 * PI * 0 / per + sin_phi fmin fmax f0 pm1)%R with (sin_phi fmin fmax f0 pm1) by (field; auto). rewrite CU. unfold u. field. lra.
  - eexists. split; [unfold law, sin_law; auto_derive; [auto|reflexivity]|].
    replace (2 * PI * 0 * / per + sin_phi fmin fmax f0 pm1)%R with (sin_phi fmin fmax f0 pm1) by (field; auto). rewrite SU.
    assert (ES : sqrt (((fmax - fmin) / 2) ^ 2 - (f0 - (fmin + fmax) / 2) ^ 2) = ((fmax - fmin) / 2 * sqrt (1 - u ^ 2))%R).
    { rewrite <- (sqrt_pow2 ((fmax - fmin) / 2)) at 2 by lra. rewrite <- sqrt_mult_alt by apply pow2_ge_0. f_equal. unfold u. field. lra. }
    rewrite ES. field. auto.
Qed.
Lemma c57_fmsin_defaults : forall n fmin fmax pm1,
  fmsin n fmin fmax None None None pm1 = fmsin n fmin fmax (Some (IZR n)) (Some (IZR n / 2)%R) (Some ((fmin + fmax) / 2)%R) pm1.
Proof. intros. unfold fmsin. cbv zeta. replace (1 / 2 * (fmin + fmax))%R with ((fmin + fmax) / 2)%R by lra. reflexivity. Qed.
Lemma c57_fmsin_equal_band : forall n f per t0 f0 pm1, fmsin n f f per t0 f0 pm1 = Raise ZeroDivisionError.
Proof. intros. unfold fmsin. cbv zeta. destruct (Req_EM_T _ 0) as [|Q]; [reflexivity|]. exfalso. apply Q. ring. Qed.
(** fnorm0 outside the band: every sample is NaN. *)
Lemma c57_fmsin_outside : forall n fmin fmax per t0 f0 pm1, 1 <= n -> (fmin < fmax)%R -> (f0 < fmin \/ fmax < f0)%R ->
  fmsin n fmin fmax per t0 (Some f0) pm1 = Ok None.
Proof.
  intros n fmin fmax per t0 f0 pm1 N1 HF H. unfold fmsin. cbv zeta. destruct (Req_EM_T _ 0); [lra|]. destruct (Z.leb_spec n 0); [lia|].
  set (d := (1 / 2 * (fmax - fmin))%R). assert (Hd : (0 < d)%R) by (unfold d; lra). set (e := (f0 - 1 / 2 * (fmax + fmin))%R).
  destruct (Rlt_dec 1 _) as [|Q]; [reflexivity|]. exfalso. apply Q. unfold Rdiv. rewrite Rabs_mult, Rabs_inv, (Rabs_right d) by lra.
  apply Rmult_lt_reg_r with d; [lra|]. rewrite Rmult_assoc, Rinv_l by lra. unfold e, d, Rabs. destruct (Rcase_abs _); lra.
Qed.
(** A zero period: every sample is NaN.  No points: two empty arrays, whatever the other parameters. *)
Lemma c57_fmsin_zero_period : forall n fmin fmax t0 f0 pm1, 1 <= n -> fmin <> fmax -> fmsin n fmin fmax (Some 0%R) t0 f0 pm1 = Ok None.
Proof.
  intros n fmin fmax t0 f0 pm1 N1 HF. unfold fmsin. cbv zeta. destruct (Req_EM_T _ 0) as [E|_]; [exfalso; apply HF; lra|]. destruct (Z.leb_spec n 0); [lia|].
  destruct (Rlt_dec _ _); [reflexivity|]. destruct (Req_EM_T 0 0); [reflexivity|tauto].
Qed.
Lemma c57_fmsin_no_points : forall n fmin fmax per t0 f0 pm1, n <= 0 -> fmin <> fmax -> fmsin n fmin fmax per t0 f0 pm1 = Ok (Some ([], [])).
Proof.
  intros n fmin fmax per t0 f0 pm1 N0 HF. unfold fmsin. cbv zeta. destruct (Req_EM_T _ 0) as [E|_]; [exfalso; apply HF; lra|]. destruct (Z.leb_spec n 0); [reflexivity|lia].
Qed.
(** The phase at the reference time is (delta*period - 1) sin(phi), not 0. *)
Lemma c57_fmsin_phase : forall fmin fmax per f0 pm1, per <> 0%R ->
  sin_p fmin fmax per f0 pm1 0 = (((fmax - fmin) / 2 * per - 1) * sin (sin_phi fmin fmax f0 pm1))%R.
Proof. intros. unfold sin_p. replace (2 * PI * 0 / per + sin_phi fmin fmax f0 pm1)%R with (sin_phi fmin fmax f0 pm1) by (field; auto). ring. Qed.

(** fmpar: exact condition for the law to be the derivative of the phase. *)
Definition par_p (a0 a1 a2 t : R) : R := (2 * PI * (a0 * t + (a1 / 2 * t) ^ 2 + (a2 / 3 * t) ^ 3))%R.
Definition par_law (a0 a1 a2 t : R) : R := (a0 + a1 * t + a2 * t ^ 2)%R.
Lemma c57_fmpar : forall n a0 a1 a2,
  fmpar n a0 a1 a2 = (map (fun k => cis (par_p a0 a1 a2 (IZR k))) (arange 0 n), map (fun k => par_law a0 a1 a2 (IZR k)) (arange 0 n)) /\
  (forall t, is_derive (par_p a0 a1 a2) t (2 * PI * (a0 + a1 ^ 2 / 2 * t + a2 ^ 3 / 9 * t ^ 2))%R) /\
  ((forall t, is_derive (par_p a0 a1 a2) t (2 * PI * par_law a0 a1 a2 t)%R) <-> (a1 = 0 \/ a1 = 2)%R /\ (a2 = 0 \/ a2 = 3 \/ a2 = -3)%R).
Proof.
  intros n a0 a1 a2. assert (HPI := PI_RGT_0).
  assert (D : forall t, is_derive (par_p a0 a1 a2) t (2 * PI * (a0 + a1 ^ 2 / 2 * t + a2 ^ 3 / 9 * t ^ 2))%R).
  { intros t. unfold par_p. auto_derive; [auto|]. field. }
  split; [unfold fmpar; now rewrite !map_map|]. split; [exact D|]. unfold par_law. split.
  - intros H. assert (E : forall t, (a0 + a1 ^ 2 / 2 * t + a2 ^ 3 / 9 * t ^ 2 = a0 + a1 * t + a2 * t ^ 2)%R).
    { intros t. apply Rmult_eq_reg_l with (2 * PI)%R; [|lra]. assert (A := D t). assert (B := H t). apply is_derive_unique in A. apply is_derive_unique in B. congruence. }
    assert (E1 := E 1%R). assert (E2 := E 2%R). split.
    + assert (Q : (a1 * (a1 - 2) = 0)%R) by nra. apply Rmult_integral in Q. destruct Q; [left|right]; lra.
    + assert (Q : (a2 * ((a2 - 3) * (a2 + 3)) = 0)%R) by nra. apply Rmult_integral in Q. destruct Q as [Q|Q]; [left; lra|]. apply Rmult_integral in Q. destruct Q; [right; left|right; right]; lra.
  - intros [H1 H2] t. replace (2 * PI * (a0 + a1 * t + a2 * t ^ 2))%R with (2 * PI * (a0 + a1 ^ 2 / 2 * t + a2 ^ 3 / 9 * t ^ 2))%R; [apply D|].
    destruct H1 as [-> | ->], H2 as [-> |[-> | ->]]; field.
Qed.
(** The docstring's own coefficients fail. *)
Lemma c57_fmpar_refuted : exists a0 a1 a2, ~ (forall t, is_derive (par_p a0 a1 a2) t (2 * PI * par_law a0 a1 a2 t)%R).
Proof. exists (2 / 5)%R, (-7 / 625)%R, (1 / 11520)%R. intros H. apply c57_fmpar in H. lra. exact 0. Qed.
Example c57_example : forall n, exists y law, fmhyp n 1 (1 / 2) 2 (1 / 4) = Ok (y, law) /\ (0 < n -> nth 0 law 0%R = (1 / 2)%R).
Proof.
  intros n. destruct (c57_fmhyp n 1 (1 / 2) 2 (1 / 4)) as (E & _ & E1 & _); try lra. eexists _, _. split; [exact E|].
  intros Hn. change 0%nat with (Z.to_nat 0). rewrite nth_map_arange by lia. exact E1.
Qed.
