(** C49-C52: time and frequency localisation, instantaneous frequency, group delay. *)
From Coq Require Import Reals ZArith List Lia Lra Bool.
From Coquelicot Require Import Coquelicot.
From Flocq Require Import Core.
From Verif Require Import Py Scalars CSum DFT Spec M_base M_putils M_dom P_base T_putils T_reas.
Import ListNotations.
Local Open Scope Z_scope.

Lemma rsum_div {A} (l : list A) (f : A -> R) c : rsum l (fun a => f a / c)%R = (rsum l f / c)%R.
Proof. unfold Rdiv. exact (rsum_scal_r l (/ c) f). Qed.

(** Weighted mean and mean squared deviation. *)
Definition wmean (n : Z) (t p : Z -> R) : R := (rsum (arange 0 n) (fun k => t k * p k) / rsum (arange 0 n) p)%R.
Definition wvar (n : Z) (t p : Z -> R) : R := (rsum (arange 0 n) (fun k => (t k - wmean n t p) ^ 2 * p k) / rsum (arange 0 n) p)%R.

Lemma moments_spec (n : Z) (t p : Z -> R) : 1 <= n ->
  moments (map t (arange 0 n)) (map p (arange 0 n)) =
  Ok (if Req_EM_T (rsum (arange 0 n) p) 0 then None else Some (wmean n t p, (2 * sqrt (PI * wvar n t p))%R)).
Proof.
  intros Hn. set (S := rsum (arange 0 n) p).
  assert (HN : (0 < IZR n)%R) by (apply IZR_lt; lia).
  assert (EM : rmean (map p (arange 0 n)) = (S / IZR n)%R).
  { unfold rmean. rewrite rsum_map, zlen_map, arange_zlen. replace (Z.max 0 (n - 0)) with n by lia. reflexivity. }
  unfold moments. rewrite EM, map_map.
  rewrite (bcast_map Rmult t (fun k => (p k / (S / IZR n))%R) (arange 0 n)). cbn [bind].
  set (tm := rmean _). rewrite map_map.
  rewrite (bcast_map Rmult (fun k => ((t k - tm) ^ 2)%R) (fun k => (p k / (S / IZR n))%R) (arange 0 n)). cbn [bind].
  destruct (Req_EM_T S 0) as [E|E].
  - destruct (Req_EM_T (S / IZR n) 0) as [|Q]; [reflexivity|]. exfalso. apply Q. rewrite E. unfold Rdiv. ring.
  - destruct (Req_EM_T (S / IZR n) 0) as [Q|_].
    { exfalso. apply E. replace S with (S / IZR n * IZR n)%R by (field; lra). rewrite Q. ring. }
    assert (EQ : forall g : Z -> R, rmean (map (fun k => g k * (p k / (S / IZR n)))%R (arange 0 n)) = (rsum (arange 0 n) (fun k => g k * p k) / S)%R).
    { intros g. unfold rmean. rewrite rsum_map, zlen_map, arange_zlen. replace (Z.max 0 (n - 0)) with n by lia.
      rewrite (rsum_ext _ _ (fun k => (g k * p k) * (IZR n / S))%R) by (intros; field; lra).
      rewrite rsum_scal_r. field. lra. }
    rewrite zlen_map, arange_zlen. destruct (Z.eqb_spec (Z.max 0 (n - 0)) 0); [lia|].
    rewrite (EQ (fun k => ((t k - tm) ^ 2)%R)). assert (ET : tm = wmean n t p) by (unfold tm; apply EQ). rewrite ET. reflexivity.
Qed.

Lemma wmean_bounds n t p a b : (forall k, 0 <= k < n -> (0 <= p k)%R) -> (0 < rsum (arange 0 n) p)%R ->
  (forall k, 0 <= k < n -> (a <= t k <= b)%R) -> (a <= wmean n t p <= b)%R.
Proof.
  intros Hp HS Ht. unfold wmean. set (S := rsum (arange 0 n) p) in *.
  assert (H1 : (a * S <= rsum (arange 0 n) (fun k => t k * p k))%R).
  { unfold S. rewrite <- rsum_scal_l. apply rsum_le. intros k Hk. apply in_arange in Hk. apply Rmult_le_compat_r; [apply Hp|apply Ht]; lia. }
  assert (H2 : (rsum (arange 0 n) (fun k => t k * p k) <= b * S)%R).
  { unfold S. rewrite <- rsum_scal_l. apply rsum_le. intros k Hk. apply in_arange in Hk. apply Rmult_le_compat_r; [apply Hp|apply Ht]; lia. }
  split; [apply Rmult_le_reg_r with S; auto|apply Rmult_le_reg_r with S; auto]; unfold Rdiv; rewrite Rmult_assoc, Rinv_l by lra; lra.
Qed.
Lemma wvar_nonneg n t p : (forall k, 0 <= k < n -> (0 <= p k)%R) -> (0 < rsum (arange 0 n) p)%R -> (0 <= wvar n t p)%R.
Proof.
  intros Hp HS. apply Rmult_le_pos; [|apply Rlt_le, Rinv_0_lt_compat; auto]. apply rsum_nonneg. intros k Hk. apply in_arange in Hk.
  apply Rmult_le_pos; [apply pow2_ge_0|apply Hp; lia].
Qed.
(** Zero deviation: all the weight is at positions equal to the mean. *)
Lemma wvar_zero n t p : (forall k, 0 <= k < n -> (0 <= p k)%R) -> (0 < rsum (arange 0 n) p)%R ->
  (wvar n t p = 0%R <-> forall k, 0 <= k < n -> p k = 0%R \/ t k = wmean n t p).
Proof.
  intros Hp HS. unfold wvar. split.
  - intros H k Hk. assert (HZ : rsum (arange 0 n) (fun k => (t k - wmean n t p) ^ 2 * p k)%R = 0%R).
    { set (S := rsum (arange 0 n) p) in *. apply Rmult_eq_reg_r with (/ S)%R; [|apply Rinv_neq_0_compat; lra]. rewrite Rmult_0_l. exact H. }
    assert (E := rsum_nonneg_0 _ _ (fun j Hj => Rmult_le_pos _ _ (pow2_ge_0 _) (Hp j (proj1 (in_arange _ _ _) Hj))) HZ k (proj2 (in_arange _ _ _) Hk)).
    cbn beta in E. apply Rmult_integral in E. destruct E as [E|E]; [right|left; exact E].
    apply Rsqr_0_uniq in E || (rewrite <- Rsqr_pow2 in E; apply Rsqr_0_uniq in E). lra.
  - intros H. rewrite rsum_0; [unfold Rdiv; ring|]. intros k Hk. apply in_arange in Hk. destruct (H k Hk) as [->| ->]; ring.
Qed.

(** *** C49 *)
Definition pw (x : list C) (k : Z) : R := (Cmod (cnth x k) ^ 2)%R.
Definition tcentre (x : list C) : R := (rsum (arange 0 (zlen x)) (fun k => IZR k * Cmod (cnth x k) ^ 2) / energy x)%R.
Definition tspread (x : list C) : R :=
  (2 * sqrt (PI * (rsum (arange 0 (zlen x)) (fun k => (IZR k - tcentre x) ^ 2 * Cmod (cnth x k) ^ 2) / energy x)))%R.
Lemma energy_pw x : energy x = rsum (arange 0 (zlen x)) (pw x).
Proof. apply energy_nth. Qed.
Lemma pw_nonneg x k : (0 <= pw x k)%R.
Proof. apply pow2_ge_0. Qed.
Lemma energy_0_len x : zlen x = 0 -> energy x = 0%R.
Proof. intros H. unfold zlen in H. destruct x; [reflexivity|cbn in H; lia]. Qed.
Lemma tcentre_w x : tcentre x = wmean (zlen x) IZR (pw x).
Proof. unfold tcentre, wmean. now rewrite energy_pw. Qed.
Lemma tspread_w x : tspread x = (2 * sqrt (PI * wvar (zlen x) IZR (pw x)))%R.
Proof. unfold tspread, wvar. rewrite tcentre_w. now rewrite energy_pw. Qed.

(** The result in closed form; NaN exactly when the energy is zero. *)
Lemma c49_formula : forall x, loctime x = Ok (if Req_EM_T (energy x) 0 then None else Some (tcentre x, tspread x)).
Proof.
  intros x. unfold loctime. destruct (Z.eqb_spec (zlen x) 0) as [E|E].
  - rewrite energy_0_len by auto. destruct (Req_EM_T 0 0); [reflexivity|tauto].
  - assert (Hn := zlen_nonneg x).
    replace (map (fun z => Cmod (z * z)%C) x) with (map (pw x) (arange 0 (zlen x))).
    + rewrite moments_spec by lia. rewrite <- energy_pw, <- tcentre_w, <- tspread_w. reflexivity.
    + rewrite (list_as_map x) at 3. rewrite map_map. apply map_ext. intros k. unfold pw. rewrite Cmod_mult. ring.
Qed.

Lemma energy_pos x : energy x <> 0%R -> (0 < energy x)%R.
Proof. intros H. assert (H0 := energy_nonneg x). lra. Qed.
Lemma c49_bounds : forall x, energy x <> 0%R -> (0 <= tcentre x <= IZR (zlen x - 1))%R /\ (0 <= tspread x)%R.
Proof.
  intros x H. apply energy_pos in H. rewrite energy_pw in H. split.
  - rewrite tcentre_w. apply wmean_bounds; auto; [intros; apply pw_nonneg|]. intros k Hk. split; apply IZR_le; lia.
  - unfold tspread. apply Rmult_le_pos; [lra|apply sqrt_pos].
Qed.
(** Zero spread exactly for a signal supported on one sample. *)
Lemma c49_zero_spread : forall x, energy x <> 0%R ->
  (tspread x = 0%R <-> exists k, 0 <= k < zlen x /\ cnth x k <> RtoC 0 /\ forall j, 0 <= j < zlen x -> j <> k -> cnth x j = RtoC 0).
Proof.
  intros x H. apply energy_pos in H. assert (HE := H). rewrite energy_pw in H.
  assert (HV := wvar_nonneg (zlen x) IZR (pw x) (fun k _ => pw_nonneg x k) H).
  assert (Z0 : forall k, pw x k = 0%R <-> cnth x k = RtoC 0).
  { intros k. unfold pw. split; intros Q.
    - rewrite <- Rsqr_pow2 in Q. apply Rsqr_0_uniq in Q. now apply Cmod_eq_0.
    - rewrite Q, Cmod_0. ring. }
  assert (ES : tspread x = 0%R <-> wvar (zlen x) IZR (pw x) = 0%R).
  { rewrite tspread_w. assert (HP := PI_RGT_0). split; intros Q.
    - assert (Q2 : sqrt (PI * wvar (zlen x) IZR (pw x)) = 0%R) by lra. apply sqrt_eq_0 in Q2; [nra|nra].
    - rewrite Q, Rmult_0_r, sqrt_0. ring. }
  rewrite ES, (wvar_zero _ _ _ (fun k _ => pw_nonneg x k) H). split.
  - intros Q.
    assert (EX : exists k, 0 <= k < zlen x /\ pw x k <> 0%R).
    { destruct (existsb (fun k => if Req_EM_T (pw x k) 0 then false else true) (arange 0 (zlen x))) eqn:EX.
      - apply existsb_exists in EX. destruct EX as (k & Hk & Q2). apply in_arange in Hk. exists k. split; auto. destruct (Req_EM_T (pw x k) 0); [discriminate|auto].
      - exfalso. rewrite rsum_0 in H; [lra|]. intros k Hk. destruct (Req_EM_T (pw x k) 0) as [|N]; auto. exfalso.
        assert (T : existsb (fun k => if Req_EM_T (pw x k) 0 then false else true) (arange 0 (zlen x)) = true); [|congruence].
        apply existsb_exists. exists k. split; auto. destruct (Req_EM_T (pw x k) 0); tauto. }
    destruct EX as (k & Hk & Hp). exists k. split; auto. split; [intros Q2; apply Hp; now apply Z0|].
    intros j Hj Hjk. apply Z0. destruct (Q j Hj) as [|Qj]; auto. exfalso. destruct (Q k Hk) as [|Qk]; [tauto|]. apply Hjk. apply eq_IZR. congruence.
  - intros (k & Hk & Hx & Ho).
    assert (EM : wmean (zlen x) IZR (pw x) = IZR k).
    { unfold wmean. rewrite (rsum_ext _ (fun j => IZR j * pw x j)%R (fun j => IZR k * pw x j)%R).
      - rewrite rsum_scal_l. field. lra.
      - intros j Hj. apply in_arange in Hj. destruct (Z.eq_dec j k) as [->|D]; auto. rewrite (proj2 (Z0 j)) by (apply Ho; auto). ring. }
    rewrite EM. intros j Hj. destruct (Z.eq_dec j k) as [->|D]; [now right|left]. apply Z0, Ho; auto.
Qed.
Lemma energy_scale c x : energy (scale c x) = (Cmod c ^ 2 * energy x)%R.
Proof. unfold energy, scale. rewrite rsum_map. rewrite <- rsum_scal_l. apply rsum_ext. intros. rewrite Cmod_mult. ring. Qed.
Lemma c49_scale : forall c x, c <> RtoC 0 -> loctime (scale c x) = loctime x.
Proof.
  intros c x Hc. rewrite !c49_formula, energy_scale. assert (Hm : (0 < Cmod c ^ 2)%R) by (apply pow_lt, Cmod_gt_0; auto).
  assert (EP : forall k, 0 <= k < zlen x -> (Cmod (cnth (scale c x) k) ^ 2 = Cmod c ^ 2 * Cmod (cnth x k) ^ 2)%R).
  { intros k Hk. rewrite scale_nth by auto. rewrite Cmod_mult. ring. }
  destruct (Req_EM_T (energy x) 0) as [->|N]; [rewrite Rmult_0_r; destruct (Req_EM_T 0 0); [reflexivity|tauto]|].
  destruct (Req_EM_T (Cmod c ^ 2 * energy x) 0) as [Q|_]; [apply Rmult_integral in Q; lra|].
  assert (ET : tcentre (scale c x) = tcentre x).
  { unfold tcentre. rewrite energy_scale, scale_zlen. rewrite (rsum_ext _ _ (fun k => Cmod c ^ 2 * (IZR k * Cmod (cnth x k) ^ 2))%R).
    - rewrite rsum_scal_l. field. split; auto. intros Q. rewrite Q in Hm. cbn in Hm. lra.
    - intros k Hk. apply in_arange in Hk. rewrite EP by auto. ring. }
  do 3 f_equal; auto. unfold tspread. rewrite ET, energy_scale, scale_zlen. do 3 f_equal.
  rewrite (rsum_ext _ _ (fun k => Cmod c ^ 2 * ((IZR k - tcentre x) ^ 2 * Cmod (cnth x k) ^ 2))%R).
  - rewrite rsum_scal_l. field. split; auto. intros Q. rewrite Q in Hm. cbn in Hm. lra.
  - intros k Hk. apply in_arange in Hk. rewrite EP by auto. ring.
Qed.
(** Delaying the signal by s samples adds s to the centre and keeps the spread. *)
Lemma c49_shift : forall s x tm T, 0 <= s -> loctime x = Ok (Some (tm, T)) -> loctime (delay s x) = Ok (Some ((tm + IZR s)%R, T)).
Proof.
  intros s x tm T Hs. rewrite !c49_formula.
  assert (SH : forall g : Z -> R, rsum (arange 0 (zlen (delay s x))) (fun k => g k * Cmod (cnth (delay s x) k) ^ 2)%R = rsum (arange 0 (zlen x)) (fun k => g (k + s)%Z * Cmod (cnth x k) ^ 2)%R).
  { intros g. assert (Hn := zlen_nonneg x). rewrite delay_zlen by auto. rewrite (arange_app 0 s) by lia. rewrite rsum_app, rsum_0.
    - replace (arange s (s + zlen x)) with (arange (0 + s) (zlen x + s)) by (f_equal; lia). rewrite arange_shift, rsum_map, Rplus_0_l. apply rsum_ext.
      intros k Hk. apply in_arange in Hk. rewrite delay_hi by lia. do 4 f_equal. lia.
    - intros k Hk. apply in_arange in Hk. rewrite delay_lo by lia. rewrite Cmod_0. ring. }
  assert (EE : energy (delay s x) = energy x).
  { rewrite !energy_nth. rewrite (rsum_ext _ _ (fun k => 1 * Cmod (cnth (delay s x) k) ^ 2)%R) by (intros; ring). rewrite (SH (fun _ => 1%R)). apply rsum_ext. intros; ring. }
  rewrite EE. destruct (Req_EM_T (energy x) 0) as [|N]; [discriminate|]. intros H. injection H as <- <-.
  assert (ET : tcentre (delay s x) = (tcentre x + IZR s)%R).
  { unfold tcentre. rewrite EE, (SH IZR). rewrite (rsum_ext _ _ (fun k => IZR k * Cmod (cnth x k) ^ 2 + IZR s * Cmod (cnth x k) ^ 2)%R) by (intros; rewrite plus_IZR; ring).
    rewrite rsum_plus, rsum_scal_l. rewrite <- energy_nth. field. auto. }
  do 3 f_equal; auto. unfold tspread. rewrite ET, EE. do 4 f_equal. rewrite (SH (fun k => (IZR k - (tcentre x + IZR s)) ^ 2)%R). apply rsum_ext. intros k _. rewrite plus_IZR. ring.
Qed.
Example c49_example : loctime [RtoC 1; RtoC 0; RtoC 1] = Ok (Some (1, 2 * sqrt (PI * 1))%R).
Proof.
  rewrite c49_formula.
  assert (E : energy [RtoC 1; RtoC 0; RtoC 1] = 2%R).
  { unfold energy, rsum. cbn [fold_right]. rewrite Cmod_1, Cmod_0. ring. }
  assert (T : tcentre [RtoC 1; RtoC 0; RtoC 1] = 1%R).
  { unfold tcentre. rewrite E. change (arange 0 (zlen [RtoC 1; RtoC 0; RtoC 1])) with [0; 1; 2]. unfold rsum. cbn [fold_right].
    change (cnth [RtoC 1; RtoC 0; RtoC 1] 0) with (RtoC 1). change (cnth [RtoC 1; RtoC 0; RtoC 1] 1) with (RtoC 0). change (cnth [RtoC 1; RtoC 0; RtoC 1] 2) with (RtoC 1). rewrite Cmod_1, Cmod_0. field. }
  rewrite E. destruct (Req_EM_T 2 0); [lra|]. rewrite T. do 5 f_equal. unfold tspread. rewrite T, E. do 3 f_equal.
  change (arange 0 (zlen [RtoC 1; RtoC 0; RtoC 1])) with [0; 1; 2]. unfold rsum. cbn [fold_right].
  change (cnth [RtoC 1; RtoC 0; RtoC 1] 0) with (RtoC 1). change (cnth [RtoC 1; RtoC 0; RtoC 1] 1) with (RtoC 0). change (cnth [RtoC 1; RtoC 0; RtoC 1] 2) with (RtoC 1). rewrite Cmod_1, Cmod_0. field.
Qed.

(** *** C50 *)
(** Label given to bin k: k/n below n//2, (k-n)/n from there on. *)
Definition flab (n k : Z) : R := if k <? n / 2 then (IZR k / IZR n)%R else (IZR (k - n) / IZR n)%R.
Lemma zfloor_half n : Zfloor (IZR n / 2) = n / 2.
Proof.
  apply Zfloor_imp. rewrite plus_IZR. assert (H : n = 2 * (n / 2) + n mod 2) by (apply Z.div_mod; lia).
  assert (H2 := Z.mod_pos_bound n 2 ltac:(lia)). set (q := n / 2) in *. set (r := n mod 2) in *.
  rewrite H, plus_IZR, mult_IZR. assert (0 <= IZR r <= 1)%R by (split; apply IZR_le; lia). lra.
Qed.
Lemma znear_half n : ZnearestE (IZR n / 2) = if n mod 4 =? 1 then n / 2 else (n + 1) / 2.
Proof.
  assert (H : n = 4 * (n / 4) + n mod 4) by (apply Z.div_mod; lia). assert (H2 := Z.mod_pos_bound n 4 ltac:(lia)).
  set (q := n / 4) in *. set (r := n mod 4) in *. clearbody q r.
  assert (Q : r = 0 \/ r = 1 \/ r = 2 \/ r = 3) by lia.
  assert (EV : forall m, IZR n = (2 * IZR m)%R -> ZnearestE (IZR n / 2) = m).
  { intros m Em. replace (IZR n / 2)%R with (IZR m) by lra. apply (Zrnd_IZR ZnearestE). }
  assert (OD : forall m, IZR n = (2 * IZR m + 1)%R -> ZnearestE (IZR n / 2) = if Z.even m then m else m + 1).
  { intros m Em. assert (F : Zfloor (IZR n / 2) = m) by (apply Zfloor_imp; rewrite plus_IZR; lra).
    assert (Hc : Zceil (IZR n / 2) = m + 1) by (apply Zceil_imp; replace (m + 1 - 1) with m by lia; rewrite plus_IZR; lra).
    unfold Znearest. rewrite F, Hc, Rcompare_Eq by lra. destruct (Z.even m); reflexivity. }
  destruct Q as [->|[->|[->| ->]]]; cbn [Z.eqb Pos.eqb].
  - rewrite (EV (2 * q)) by (rewrite H; rewrite plus_IZR, !mult_IZR; lra). rewrite H. Z.to_euclidean_division_equations; lia.
  - rewrite (OD (2 * q)) by (rewrite H; rewrite plus_IZR, !mult_IZR; lra). rewrite Z.even_mul. cbn [Z.even orb]. rewrite H. Z.to_euclidean_division_equations; lia.
  - rewrite (EV (2 * q + 1)) by (rewrite H; rewrite !plus_IZR, !mult_IZR; lra). rewrite H. Z.to_euclidean_division_equations; lia.
  - rewrite (OD (2 * q + 1)) by (rewrite H; rewrite !plus_IZR, !mult_IZR; lra). rewrite Z.even_add, Z.even_mul. cbn [Z.even orb eqb]. rewrite H. Z.to_euclidean_division_equations; lia.
Qed.
Lemma locfreq_freqs_ok n : 1 <= n -> n mod 4 <> 1 -> locfreq_freqs n = map (flab n) (arange 0 n).
Proof.
  intros Hn Hm. unfold locfreq_freqs. rewrite zfloor_half, znear_half. destruct (Z.eqb_spec (n mod 4) 1); [tauto|].
  rewrite (arange_app 0 (n / 2) n) by (Z.to_euclidean_division_equations; lia). rewrite !map_app. f_equal.
  - apply map_ext_in. intros k Hk. apply in_arange in Hk. unfold flab. rewrite (proj2 (Z.ltb_lt k (n / 2))) by lia. reflexivity.
  - replace (arange (- ((n + 1) / 2)) 0) with (arange (n / 2 + - n) (n + - n)) by (f_equal; Z.to_euclidean_division_equations; lia). rewrite arange_shift, map_map.
    apply map_ext_in. intros k Hk. apply in_arange in Hk. unfold flab. rewrite (proj2 (Z.ltb_ge k (n / 2))) by lia. reflexivity.
Qed.

Definition fcentre (x : list C) : R :=
  (rsum (arange 0 (zlen x)) (fun k => flab (zlen x) k * Cmod (cnth (fft x) k) ^ 2) / (IZR (zlen x) * energy x))%R.
Definition fspread (x : list C) : R :=
  (2 * sqrt (PI * (rsum (arange 0 (zlen x)) (fun k => (flab (zlen x) k - fcentre x) ^ 2 * Cmod (cnth (fft x) k) ^ 2) / (IZR (zlen x) * energy x))))%R.
Lemma fft_energy x : rsum (arange 0 (zlen x)) (pw (fft x)) = (IZR (zlen x) * energy x)%R.
Proof.
  destruct (Z.eq_dec (zlen x) 0) as [E|E]; [rewrite E, arange_empty by lia; rewrite rsum_nil; ring|]. assert (Hn := zlen_nonneg x).
  rewrite energy_nth. rewrite (rsum_ext _ _ (fun f => Cmod (esum (zlen x) (arange 0 (zlen x)) (cnth x) f) ^ 2)%R).
  - apply esum_energy; [lia|]. apply NoDup_mod_arange; lia.
  - intros f Hf. apply in_arange in Hf. unfold pw. rewrite fft_nth by lia. reflexivity.
Qed.
Lemma fcentre_w x : fcentre x = wmean (zlen x) (flab (zlen x)) (pw (fft x)).
Proof. unfold fcentre, wmean. now rewrite fft_energy. Qed.
Lemma fspread_w x : fspread x = (2 * sqrt (PI * wvar (zlen x) (flab (zlen x)) (pw (fft x))))%R.
Proof. unfold fspread, wvar. rewrite fcentre_w. now rewrite fft_energy. Qed.

(** Lengths other than 1 mod 4: energy-weighted mean of the bin labels. *)
Lemma c50_formula : forall x, 1 <= zlen x -> zlen x mod 4 <> 1 ->
  locfreq x = Ok (if Req_EM_T (energy x) 0 then None else Some (fcentre x, fspread x)).
Proof.
  intros x Hn Hm. unfold locfreq. destruct (Z.eqb_spec (zlen x) 0) as [E|E]; [lia|].
  rewrite locfreq_freqs_ok by auto.
  replace (map (fun z => (Cmod z ^ 2)%R) (fft x)) with (map (pw (fft x)) (arange 0 (zlen x))).
  - rewrite moments_spec by lia. rewrite <- fcentre_w, <- fspread_w, fft_energy. assert (0 < IZR (zlen x))%R by (apply IZR_lt; lia).
    destruct (Req_EM_T (energy x) 0) as [->|N]; [rewrite Rmult_0_r; destruct (Req_EM_T 0 0); [reflexivity|tauto]|].
    destruct (Req_EM_T (IZR (zlen x) * energy x) 0) as [Q|_]; [apply Rmult_integral in Q; lra|reflexivity].
  - transitivity (map (fun z => (Cmod z ^ 2)%R) (map (cnth (fft x)) (arange 0 (zlen (fft x))))).
    + rewrite map_map, fft_zlen. reflexivity.
    + f_equal. symmetry. apply list_as_map.
Qed.
(** Lengths 1 mod 4: ValueError, whatever the signal; NaN for one sample. *)
Lemma c50_raises : forall x, zlen x mod 4 = 1 -> 5 <= zlen x -> locfreq x = Raise ValueError.
Proof.
  intros x Hm Hn. unfold locfreq. destruct (Z.eqb_spec (zlen x) 0) as [E|E]; [lia|]. unfold moments.
  set (fr := locfreq_freqs (zlen x)). set (q := map _ (map _ (fft x))).
  assert (L1 : zlen fr = zlen x - 1).
  { unfold fr, locfreq_freqs. rewrite zlen_map. unfold zlen at 1. rewrite app_length, !arange_length, zfloor_half, znear_half, (proj2 (Z.eqb_eq _ _) Hm).
    Z.to_euclidean_division_equations; lia. }
  assert (L2 : zlen q = zlen x) by (unfold q; rewrite !zlen_map; apply fft_zlen).
  unfold bcast. rewrite (proj2 (Nat.eqb_neq (length fr) (length q))) by (unfold zlen in *; lia).
  unfold zlen in *. destruct fr as [|a [|b fr]]; cbn [length] in L1; try lia. destruct q as [|c [|d q]]; cbn [length] in L2; try lia. reflexivity.
Qed.
Lemma c50_empty : locfreq [] = Raise ValueError.
Proof. reflexivity. Qed.
Lemma c50_one_sample : forall z, locfreq [z] = Ok None.
Proof.
  intros z. unfold locfreq. change (zlen [z] =? 0) with false. cbv iota. unfold moments.
  assert (E : locfreq_freqs (zlen [z]) = []).
  { unfold locfreq_freqs. change (zlen [z]) with 1. rewrite zfloor_half, znear_half. reflexivity. }
  rewrite E. assert (L : length (fft [z]) = 1%nat) by apply fft_length. destruct (fft [z]) as [|a [|]]; cbn in L; try lia. cbn [map bcast length Nat.eqb bind].
  destruct (Req_EM_T _ 0); reflexivity.
Qed.
Lemma flab_bounds n k : 1 <= n -> 0 <= k < n -> (- IZR ((n + 1) / 2) / IZR n <= flab n k <= IZR (n / 2 - 1) / IZR n)%R \/ (n = 1 /\ flab n k = (-1)%R).
Proof.
  intros Hn Hk. assert (HN : (0 < IZR n)%R) by (apply IZR_lt; lia). unfold flab.
  destruct (Z.eq_dec n 1) as [->|N]; [right; split; auto; destruct (Z.ltb_spec k (1 / 2)); [change (1 / 2) with 0 in *; lia|]; replace k with 0 by lia; cbn; field|left].
  assert (H2 : 1 <= n / 2) by (Z.to_euclidean_division_equations; lia).
  rewrite <- opp_IZR. unfold Rdiv. destruct (Z.ltb_spec k (n / 2)); split; apply Rmult_le_compat_r; try (apply Rlt_le, Rinv_0_lt_compat; lra); apply IZR_le; Z.to_euclidean_division_equations; lia.
Qed.
(** The centre lies between the extreme labels, the spread is non-negative. *)
Lemma c50_bounds : forall x, 2 <= zlen x -> energy x <> 0%R ->
  (- IZR ((zlen x + 1) / 2) / IZR (zlen x) <= fcentre x <= IZR (zlen x / 2 - 1) / IZR (zlen x))%R /\ (0 <= fspread x)%R /\
  (Z.even (zlen x) = true -> (- (1 / 2) <= fcentre x < 1 / 2)%R).
Proof.
  intros x Hn H. apply energy_pos in H. assert (HN : (0 < IZR (zlen x))%R) by (apply IZR_lt; lia).
  assert (HS : (0 < rsum (arange 0 (zlen x)) (pw (fft x)))%R) by (rewrite fft_energy; nra).
  assert (B : (- IZR ((zlen x + 1) / 2) / IZR (zlen x) <= fcentre x <= IZR (zlen x / 2 - 1) / IZR (zlen x))%R).
  { rewrite fcentre_w. apply wmean_bounds; auto; [intros; apply pw_nonneg|]. intros k Hk. destruct (flab_bounds (zlen x) k ltac:(lia) Hk) as [|[Q _]]; [auto|lia]. }
  split; [auto|split].
  - unfold fspread. apply Rmult_le_pos; [lra|apply sqrt_pos].
  - intros He. apply Z.even_spec in He. destruct He as [h Eh].
    replace ((zlen x + 1) / 2) with h in B by (rewrite Eh; Z.to_euclidean_division_equations; lia). replace (zlen x / 2) with h in B by (rewrite Eh; Z.to_euclidean_division_equations; lia).
    rewrite Eh, mult_IZR in B. rewrite minus_IZR in B. rewrite Eh, mult_IZR in HN.
    replace (- IZR h / (2 * IZR h))%R with (- (1 / 2))%R in B by (field; lra). split; [tauto|].
    apply Rle_lt_trans with ((IZR h - 1) / (2 * IZR h))%R; [tauto|]. apply Rmult_lt_reg_r with (2 * IZR h)%R; [lra|]. unfold Rdiv. rewrite Rmult_assoc, Rinv_l by lra. lra.
Qed.
(** A pure tone at bin m: the centre is the label of that bin, the spread is 0. *)
Definition tone (n m : Z) (c : C) : list C := map (fun k => c * root n (m * k))%C (arange 0 n).
Lemma tone_zlen n m c : 0 <= n -> zlen (tone n m c) = n.
Proof. intros. unfold tone. rewrite zlen_map, arange_zlen. lia. Qed.
Lemma tone_fft n m c f : 1 <= n -> 0 <= m < n -> 0 <= f < n -> cnth (fft (tone n m c)) f = if f =? m then (RtoC (IZR n) * c)%C else RtoC 0.
Proof.
  intros Hn Hm Hf. rewrite fft_nth by (rewrite tone_zlen; lia). rewrite tone_zlen by lia.
  rewrite (csum_ext _ _ (fun k => c * root n (k * (m - f)))%C).
  - rewrite csum_scal_l, root_orth by lia. destruct (Z.eqb_spec f m) as [->|D].
    + rewrite Z.sub_diag, Z.mod_0_l by lia. cbn [Z.eqb]. ring.
    + destruct (Z.eqb_spec ((m - f) mod n) 0) as [Q|]; [|ring]. exfalso. apply Z.mod_divide in Q; [|lia]. destruct Q as [q Q]. assert (K : q = 0 \/ q >= 1 \/ q <= -1) by lia. destruct K as [->|[K|K]]; nia.
  - intros k Hk. apply in_arange in Hk. unfold tone. rewrite cnth_map_arange by lia. rewrite <- Cmult_assoc, <- root_plus. do 2 f_equal. lia.
Qed.
Lemma c50_tone : forall n m c, 2 <= n -> n mod 4 <> 1 -> 0 <= m < n -> c <> RtoC 0 -> locfreq (tone n m c) = Ok (Some (flab n m, 0%R)).
Proof.
  intros n m c Hn H4 Hm Hc. assert (Lz : zlen (tone n m c) = n) by (apply tone_zlen; lia).
  rewrite c50_formula by (rewrite Lz; auto; lia). assert (HN : (0 < IZR n)%R) by (apply IZR_lt; lia).
  assert (HP : forall f, 0 <= f < n -> pw (fft (tone n m c)) f = if m =? f then (IZR n ^ 2 * Cmod c ^ 2)%R else 0%R).
  { intros f Hf. unfold pw. rewrite tone_fft by lia. rewrite Z.eqb_sym. destruct (m =? f); [rewrite Cmod_mult, Cmod_R, Rabs_right by lra; ring|rewrite Cmod_0; ring]. }
  assert (HA : (0 < IZR n ^ 2 * Cmod c ^ 2)%R) by (apply Rmult_lt_0_compat; apply pow_lt; [lra|now apply Cmod_gt_0]).
  assert (HW : forall g : Z -> R, rsum (arange 0 n) (fun k => g k * pw (fft (tone n m c)) k)%R = (g m * (IZR n ^ 2 * Cmod c ^ 2))%R).
  { intros g. rewrite (rsum_ext _ _ (fun k => if m =? k then (g m * (IZR n ^ 2 * Cmod c ^ 2))%R else 0%R)).
    - rewrite rsum_pick by lia. reflexivity.
    - intros k Hk. apply in_arange in Hk. rewrite HP by lia. destruct (Z.eqb_spec m k) as [->|]; ring. }
  assert (HS : rsum (arange 0 n) (pw (fft (tone n m c))) = (IZR n ^ 2 * Cmod c ^ 2)%R).
  { rewrite (rsum_ext _ _ (fun k => 1 * pw (fft (tone n m c)) k)%R) by (intros; ring). rewrite (HW (fun _ => 1%R)). ring. }
  assert (HE : energy (tone n m c) <> 0%R). { intros Q. assert (E := fft_energy (tone n m c)). rewrite Lz, Q, HS in E. lra. }
  assert (HM : wmean n (flab n) (pw (fft (tone n m c))) = flab n m). { unfold wmean. rewrite HW, HS. field. split; [intros Q; rewrite Q in HA; cbn in HA; lra|lra]. }
  destruct (Req_EM_T (energy (tone n m c)) 0); [tauto|]. rewrite fcentre_w, fspread_w, Lz, HM. do 4 f_equal.
  unfold wvar. rewrite HM. rewrite (HW (fun k => (flab n k - flab n m) ^ 2)%R). rewrite Rminus_eq_0. unfold Rdiv. rewrite pow_ne_zero by lia. rewrite !Rmult_0_l, Rmult_0_r, sqrt_0. ring.
Qed.
Lemma c50_refuted : exists x, energy x <> 0%R /\ zlen x = 5 /\ locfreq x = Raise ValueError.
Proof.
  exists (RtoC 1 :: repeat (RtoC 0) 4). split; [|split; [reflexivity|apply c50_raises; [reflexivity|vm_compute; discriminate]]].
  unfold energy, rsum. cbn [repeat fold_right]. rewrite Cmod_1, Cmod_0. lra.
Qed.
(** Length 3, all the energy at frequency 1/3: reported centre -2/3. *)
Lemma c50_range_refuted : exists x, energy x <> 0%R /\ locfreq x = Ok (Some ((- (2 / 3))%R, 0%R)).
Proof.
  exists (tone 3 1 (RtoC 1)). assert (L := c50_tone 3 1 (RtoC 1) ltac:(lia) ltac:(cbn; lia) ltac:(lia) ltac:(intros Q; apply RtoC_inj in Q; lra)). split.
  - intros Q. rewrite c50_formula in L by (rewrite tone_zlen; cbn; lia). destruct (Req_EM_T _ 0); [discriminate|tauto].
  - rewrite L. do 3 f_equal. unfold flab. change (1 <? 3 / 2) with false. cbv iota. change (1 - 3) with (-2). lra.
Qed.
Example c50_example : locfreq (tone 8 3 (RtoC 2)) = Ok (Some ((3 / 8)%R, 0%R)) /\ locfreq (tone 8 6 (RtoC 2)) = Ok (Some ((-2 / 8)%R, 0%R)).
Proof.
  assert (H2 : RtoC 2 <> RtoC 0) by (intros Q; apply RtoC_inj in Q; lra).
  split; (rewrite c50_tone by (auto; cbn; lia)); reflexivity.
Qed.

(** *** C51 *)
(** A choice of angle exists: the argument in (-pi, pi]. *)
Definition Carg (z : C) : R :=
  if Ceq_dec z (RtoC 0) then 0%R
  else if Rle_dec 0 (Im z) then acos (Re z / Cmod z) else (- acos (Re z / Cmod z))%R.
Lemma Carg_angle z : is_angle z (Carg z).
Proof.
  unfold is_angle, Carg. assert (HP := PI_RGT_0). destruct (Ceq_dec z (RtoC 0)) as [->|N].
  - split; [lra|]. split; [rewrite Cmod_0; ring|]. intros _. now left.
  - assert (HM : (0 < Cmod z)%R) by now apply Cmod_gt_0.
    assert (HB : (-1 <= Re z / Cmod z <= 1)%R).
    { assert (A := Rle_trans _ _ _ (Rmax_l (Rabs (fst z)) (Rabs (snd z))) (Rmax_Cmod z)). change (fst z) with (Re z) in A. apply Rabs_le_inv in A. split; apply Rmult_le_reg_r with (Cmod z); auto; unfold Rdiv; rewrite Rmult_assoc, Rinv_l by lra; lra. }
    assert (AB := acos_bound (Re z / Cmod z)). assert (HC := cos_acos _ HB). assert (HS := sin_acos _ HB).
    assert (HQ : (Cmod z * sqrt (1 - (Re z / Cmod z)²) = Rabs (Im z))%R).
    { rewrite <- (sqrt_Rsqr_abs (Im z)). rewrite <- (sqrt_Rsqr (Cmod z)) at 1 by lra. rewrite <- sqrt_mult_alt by apply Rle_0_sqr. f_equal.
      assert (E := Cmod_sqr z). unfold Rsqr. field_simplify; [|lra]. replace (Cmod z ^ 2)%R with (Re z ^ 2 + Im z ^ 2)%R. ring. }
    destruct (Rle_dec 0 (Im z)) as [HI|HI]; (split; [lra|split; [|intros Q; tauto]]); apply injective_projections; cbn [fst snd cis Cmult RtoC]; rewrite ?cos_neg, ?sin_neg, ?HC, ?HS.
    + change (fst z) with (Re z). field. lra.
    + change (snd z) with (Im z). rewrite Rmult_0_l, Rplus_0_r, HQ. symmetry. apply Rabs_right. lra.
    + change (fst z) with (Re z). field. lra.
    + change (snd z) with (Im z). rewrite Rmult_0_l, Rplus_0_r. rewrite <- Ropp_mult_distr_r, HQ, Rabs_left by lra. ring.
Qed.

Lemma is_angle_unique r th a : (0 < r)%R -> (- PI < th < PI)%R -> is_angle (RtoC r * cis th)%C a -> a = th.
Proof.
  intros Hr Hth (Ha & E & _). rewrite Cmod_mult, Cmod_cis, Cmod_R, Rabs_right, Rmult_1_r in E by lra.
  assert (E2 : cis th = cis a).
  { assert (N : RtoC r <> RtoC 0) by (intros Q; apply RtoC_inj in Q; lra).
    replace (cis th) with (/ RtoC r * (RtoC r * cis th))%C by (field; auto). rewrite E. field. auto. }
  assert (E3 : cis (a - th) = RtoC 1).
  { unfold Rminus. rewrite cis_plus, cis_opp, E2. apply cis_conj_mul. }
  apply cis_1_inv in E3. destruct E3 as [k Ek]. assert (HP := PI_RGT_0).
  assert (K : k = 0); [|subst k; lra].
  assert (H1 : (IZR k < IZR 1)%R) by (apply Rmult_lt_reg_l with (2 * PI)%R; cbn; lra).
  assert (H2 : (IZR (-1) < IZR k)%R) by (apply Rmult_lt_reg_l with (2 * PI)%R; cbn; lra).
  apply lt_IZR in H1, H2. lia.
Qed.
Lemma is_angle_neg r a : (0 < r)%R -> is_angle (RtoC (- r)) a -> a = PI \/ a = (- PI)%R.
Proof.
  intros Hr (Ha & E & _). rewrite Cmod_R, Rabs_left in E by lra.
  assert (E1 : (- r = - - r * cos a)%R) by (apply (f_equal Re) in E; cbn in E; lra).
  assert (E2 : cos a = (-1)%R) by (apply Rmult_eq_reg_l with r; lra). assert (HP := PI_RGT_0).
  assert (E3 : sin a = 0%R). { assert (S := sin2_cos2 a). rewrite E2 in S. unfold Rsqr in S. nra. }
  destruct (Req_dec a PI) as [|N1]; [auto|]. destruct (Req_dec a (- PI)) as [|N2]; [auto|]. exfalso.
  destruct (Rtotal_order a 0) as [L|[->|L]].
  - assert (S := sin_lt_0_var a ltac:(lra) L). lra.
  - rewrite cos_0 in E2. lra.
  - assert (S := sin_gt_0 a L ltac:(lra)). lra.
Qed.

(** What entry k is: half the (principal) phase advance over two samples. *)
Definition inst_entry (a : R) : R := (1 / 2 * (a + PI) / (2 * PI))%R.
Lemma c51_outcome : forall ang x t,
  let ts := match t with Some t => t | None => arange 2 (zlen x) end in
  ((forall i, In i ts -> 2 - zlen x <= i < zlen x) ->
    exists fs, inst_freq ang x t = Ok (fs, ts) /\ zlen fs = zlen ts /\
    forall k, 0 <= k < zlen ts -> exists u v, get x (nth (Z.to_nat k) ts 0) = Ok u /\ get x (nth (Z.to_nat k) ts 0 - 2) = Ok v /\
      rnth fs k = inst_entry (ang k (- u * Cconj v)%C)) /\
  ((exists i, In i ts /\ ~ (2 - zlen x <= i < zlen x)) -> inst_freq ang x t = Raise IndexError).
Proof.
  intros ang x t ts. unfold inst_freq. fold ts.
  set (pyn := fun i => if i <? 0 then i + zlen x else i).
  assert (GP : forall i, - zlen x <= i < zlen x -> get x i = Ok (cnth x (pyn i))).
  { intros i Hi. unfold pyn. destruct (Z.ltb_spec i 0); [rewrite (get_neg (RtoC 0)) by lia|rewrite (get_ok (RtoC 0)) by lia]; reflexivity. }
  split.
  - intros H. unfold take. rewrite mapM_map.
    rewrite (mapM_ok (get x) (fun i => cnth x (pyn i))) by (intros i Hi; apply H in Hi; apply GP; lia).
    rewrite (mapM_ok (fun i => get x (i - 2)) (fun i => cnth x (pyn (i - 2)))) by (intros i Hi; apply H in Hi; apply GP; lia).
    cbn [bind]. eexists. split; [reflexivity|]. rewrite zipw_map.
    set (p := map _ ts). assert (Lp : length p = length ts) by apply map_length.
    split; [rewrite zlen_map; unfold zlen; rewrite enum_length; lia|].
    intros k Hk. set (i := nth (Z.to_nat k) ts 0).
    assert (Hi : In i ts) by (apply nth_In; unfold zlen in Hk; lia). specialize (H i Hi).
    exists (cnth x (pyn i)), (cnth x (pyn (i - 2))). split; [apply GP; lia|split; [apply GP; lia|]].
    assert (E : nth_error p (Z.to_nat k) = Some (- cnth x (pyn i) * Cconj (cnth x (pyn (i - 2)%Z)))%C).
    { unfold p. apply map_nth_error with (f := fun a => (- cnth x (pyn a) * Cconj (cnth x (pyn (a - 2)%Z)))%C). apply nth_error_nth'. unfold zlen in Hk. lia. }
    apply enum_nth in E. rewrite Z2Nat.id in E by lia. unfold rnth.
    erewrite nth_error_nth; [|apply map_nth_error; exact E]. reflexivity.
  - intros (i & Hi & Ho). unfold take. rewrite mapM_map.
    destruct (mapM (get x) ts) as [l|e] eqn:E1.
    + cbn [bind]. rewrite (mapM_raise (fun a => get x (a - 2)) ts IndexError); [reflexivity|intros a _; apply get_cases|].
      exists i. split; auto. apply get_raise. apply mapM_ok_inv in E1. destruct E1 as [_ E1]. apply In_nth_error in Hi. destruct Hi as [k Hk].
      destruct (E1 k i Hk) as (b & _ & Hb). apply get_in_range in Hb. lia.
    + cbn [bind]. destruct (existsb (fun j => (j <? - zlen x) || (zlen x <=? j)) ts) eqn:EX.
      * apply existsb_exists in EX. destruct EX as (j & Hj & Q). rewrite (mapM_raise (get x) ts IndexError) in E1; [congruence|intros a _; apply get_cases|].
        exists j. split; auto. apply get_raise. apply orb_true_iff in Q. destruct Q as [Q|Q]; [apply Z.ltb_lt in Q|apply Z.leb_le in Q]; lia.
      * exfalso. rewrite (mapM_ok (get x) (fun i => cnth x (pyn i))) in E1; [discriminate|]. intros j Hj. apply GP.
        assert (Q : ((j <? - zlen x) || (zlen x <=? j)) = false).
        { destruct ((j <? - zlen x) || (zlen x <=? j)) eqn:Q; auto. rewrite <- EX. symmetry. apply existsb_exists. eauto. }
        apply orb_false_iff in Q. destruct Q as [Q1 Q2]. apply Z.ltb_ge in Q1. apply Z.leb_gt in Q2. lia.
Qed.
(** The default instants never raise. *)
Lemma c51_default : forall ang x, exists fs, inst_freq ang x None = Ok (fs, arange 2 (zlen x)) /\ zlen fs = Z.max 0 (zlen x - 2).
Proof.
  intros ang x. destruct (c51_outcome ang x None) as [H _]. destruct H as (fs & E & L & _).
  - intros i Hi. apply in_arange in Hi. lia.
  - exists fs. split; auto. now rewrite L, arange_zlen.
Qed.
(** Every value lies in [0, 1/2]. *)
Lemma c51_range : forall ang x t fs ts, (forall k z, is_angle z (ang k z)) -> inst_freq ang x t = Ok (fs, ts) ->
  forall v, In v fs -> (0 <= v <= 1 / 2)%R.
Proof.
  intros ang x t fs ts HA H v Hv. unfold inst_freq in H. set (t' := match t with Some t => t | None => _ end) in H.
  destruct (take x t') as [a|]; cbn [bind] in H; [|discriminate]. destruct (take x (map _ t')) as [b|]; cbn [bind] in H; [|discriminate].
  injection H as <- <-. apply in_map_iff in Hv. destruct Hv as ([k z] & <- & _). cbn [fst snd]. destruct (HA k z) as [B _]. assert (HP := PI_RGT_0).
  split; apply Rmult_le_reg_r with (2 * PI)%R; try lra; unfold Rdiv; rewrite ?Rmult_0_l, (Rmult_assoc (1 * / 2 * _)) || idtac; field_simplify; lra.
Qed.
(** The phase advance theta over two samples is recovered when it lies strictly
    between 0 and 2 pi; for theta = 0 or 2 pi the answer is 0 or 1/2. *)
Lemma c51_exact : forall ang x t fs ts k a b phi psi, (forall k z, is_angle z (ang k z)) -> inst_freq ang x t = Ok (fs, ts) ->
  0 <= k < zlen ts -> (0 < a)%R -> (0 < b)%R ->
  get x (nth (Z.to_nat k) ts 0) = Ok (RtoC a * cis phi)%C -> get x (nth (Z.to_nat k) ts 0 - 2) = Ok (RtoC b * cis psi)%C ->
  ((0 < phi - psi < 2 * PI)%R -> rnth fs k = ((phi - psi) / (4 * PI))%R) /\
  ((phi - psi = 0 \/ phi - psi = 2 * PI)%R -> rnth fs k = 0%R \/ rnth fs k = (1 / 2)%R).
Proof.
  intros ang x t fs ts k a b phi psi HA H Hk Ha Hb Gu Gv. assert (HP := PI_RGT_0).
  destruct (c51_outcome ang x t) as [HO HR]. set (ts' := match t with Some t => t | None => arange 2 (zlen x) end) in *.
  assert (HI : forall i, In i ts' -> 2 - zlen x <= i < zlen x).
  { intros i Hi. destruct (Z_lt_ge_dec i (2 - zlen x)); [|destruct (Z_lt_ge_dec i (zlen x)); [lia|]]; exfalso; rewrite HR in H; try discriminate; exists i; split; auto; lia. }
  destruct (HO HI) as (fs' & E & L & HF). rewrite E in H. injection H as <- <-.
  destruct (HF k Hk) as (u & v & Eu & Ev & ->). rewrite Gu in Eu. rewrite Gv in Ev. injection Eu as <-. injection Ev as <-.
  assert (EZ : (- (RtoC a * cis phi) * Cconj (RtoC b * cis psi))%C = (- (RtoC (a * b) * cis (phi - psi)))%C).
  { rewrite Cconj_mult, Cconj_R. unfold Rminus. rewrite cis_plus, cis_opp, RtoC_mult. ring. }
  rewrite EZ. split; intros HT.
  - assert (EN : (- (RtoC (a * b) * cis (phi - psi)))%C = (RtoC (a * b) * cis (phi - psi - PI))%C).
    { replace (phi - psi - PI)%R with (phi - psi + - PI)%R by ring. rewrite (cis_plus (phi - psi)), cis_opp, cis_PI.
      apply injective_projections; cbn; ring. }
    rewrite EN. set (z := (RtoC (a * b) * cis (phi - psi - PI))%C). assert (Q := HA k z). unfold z in Q. apply is_angle_unique in Q; [|nra|lra].
    fold z in Q. rewrite Q. unfold inst_entry. field. lra.
  - assert (EN : (- (RtoC (a * b) * cis (phi - psi)))%C = RtoC (- (a * b))).
    { assert (E1 : cis (phi - psi) = RtoC 1). { destruct HT as [->| ->]; [apply cis_0|]. replace (2 * PI)%R with (2 * PI * IZR 1)%R by (cbn; ring). apply cis_2PI_k. }
      rewrite E1, RtoC_opp. ring. }
    rewrite EN. assert (Q := HA k (RtoC (- (a * b)))). apply is_angle_neg in Q; [|nra]. unfold inst_entry. destruct Q as [->| ->]; [right|left]; field; lra.
Qed.
(** Instants 0 and 1 compare with the end of the signal (negative indices). *)
Lemma c51_wrap : forall ang x, 3 <= zlen x -> (forall k z, is_angle z (ang k z)) ->
  exists f0 f1, inst_freq ang x (Some [0; 1]) = Ok ([f0; f1], [0; 1]) /\
    f0 = inst_entry (ang 0 (- cnth x 0 * Cconj (cnth x (zlen x - 2)))%C) /\ f1 = inst_entry (ang 1 (- cnth x 1 * Cconj (cnth x (zlen x - 1)))%C).
Proof.
  intros ang x Hn HA. unfold inst_freq, take. cbn [map mapM]. change (0 - 2) with (-2). change (1 - 2) with (-1).
  rewrite !(get_ok (RtoC 0)) by lia. rewrite !(get_neg (RtoC 0)) by lia. cbn [bind].
  eexists _, _. split; [reflexivity|]. replace (-2 + zlen x) with (zlen x - 2) by lia. replace (-1 + zlen x) with (zlen x - 1) by lia. split; reflexivity.
Qed.
(** 1, i, -1: a quarter turn per sample, frequency 1/4. *)
Example c51_example : inst_freq (fun _ => Carg) [RtoC 1; Ci; RtoC (-1)] None = Ok ([1 / 4]%R, [2]).
Proof.
  destruct (c51_default (fun _ => Carg) [RtoC 1; Ci; RtoC (-1)]) as (fs & E & L). change (arange 2 (zlen [RtoC 1; Ci; RtoC (-1)])) with [2] in E. change (Z.max 0 _) with 1 in L.
  destruct (c51_exact (fun _ => Carg) _ _ _ _ 0 1 1 PI 0 (fun _ => Carg_angle) E) as [Q _]; try lra; [unfold zlen; cbn; lia| | |].
  - change (nth (Z.to_nat 0) [2] 0) with 2. rewrite cis_PI. rewrite (get_ok (RtoC 0)) by (unfold zlen; cbn; lia). f_equal. change (Z.to_nat 2) with 2%nat. apply injective_projections; cbn; ring.
  - change (nth (Z.to_nat 0) [2] 0 - 2) with 0. rewrite cis_0. rewrite (get_ok (RtoC 0)) by (unfold zlen; cbn; lia). f_equal. apply injective_projections; cbn; ring.
  - assert (HP := PI_RGT_0). specialize (Q ltac:(lra)). destruct fs as [|f [|]]; try (unfold zlen in L; cbn in L; lia). rewrite E. do 3 f_equal. change (rnth [f] 0) with f in Q. rewrite Q. field. lra.
Qed.

(** *** C52 *)
Lemma ramped_map x : ramped x = map (fun k => cnth x k * RtoC (IZR (k + 1)))%C (arange 0 (zlen x)).
Proof.
  unfold ramped. rewrite (list_as_map x) at 1. replace (arange 1 (zlen x + 1)) with (map (fun k => k + 1) (arange 0 (zlen x))) by (rewrite <- arange_shift; reflexivity).
  apply (zipw_map (fun a k => a * RtoC (IZR k))%C).
Qed.
Lemma ramped_zlen x : zlen (ramped x) = zlen x.
Proof. rewrite ramped_map, zlen_map_arange; unfold zlen; lia. Qed.
Lemma ramped_nth x k : 0 <= k < zlen x -> cnth (ramped x) k = (cnth x k * RtoC (IZR (k + 1)))%C.
Proof. intros H. rewrite ramped_map, cnth_map_arange by lia. rewrite Z.add_0_l. reflexivity. Qed.

(** The centroid of the samples weighted by the modulated signal. *)
Definition gd_num (x : list C) (f : R) : C :=
  csum (arange 0 (zlen x)) (fun k => RtoC (IZR (k + 1)) * cnth x k * cis (- (2 * PI * f * IZR k)))%C.
Definition gd_den (x : list C) (f : R) : C :=
  csum (arange 0 (zlen x)) (fun k => cnth x k * cis (- (2 * PI * f * IZR k)))%C.
Definition gd_value (x : list C) (f : R) : option R :=
  if Ceq_dec (gd_den x f) (RtoC 0) then None
  else let r := Re (gd_num x f / gd_den x f)%C in
       Some (if Rle_dec 1 r then if Rle_dec r (IZR (zlen x) + 3) then r else 0 else 0)%R.
Lemma gd_entry_value n a b : gd_entry n a b = if Ceq_dec b (RtoC 0) then None else
  Some (if Rle_dec 1 (Re (a / b)%C) then if Rle_dec (Re (a / b)%C) (IZR n + 3) then Re (a / b)%C else 0 else 0)%R.
Proof. unfold gd_entry. destruct (Ceq_dec b (RtoC 0)); [reflexivity|]. f_equal. destruct (Rle_dec 1 _), (Rle_dec _ _); ring. Qed.
Lemma c52_formula : forall x fs, group_delay x (Some fs) = Ok (map (gd_value x) fs).
Proof.
  intros x fs. unfold group_delay. f_equal. apply map_ext. intros f. rewrite gd_entry_value. unfold gd_value.
  assert (E1 : dtft x f = gd_den x f) by (unfold dtft, gd_den; apply csum_ext; intros k _; ring).
  assert (E2 : dtft (ramped x) f = gd_num x f).
  { unfold dtft, gd_num. rewrite ramped_zlen. apply csum_ext. intros k Hk. apply in_arange in Hk. rewrite ramped_nth by lia. ring. }
  rewrite E1, E2. reflexivity.
Qed.
(** Without frequencies: the values at j/n, j = 0..n-1, with the second half
    moved in front; an empty signal cannot be transformed. *)
Lemma c52_default : forall x, 0 < zlen x ->
  group_delay x None = Ok (fftshift (map (fun j => gd_value x (IZR j / IZR (zlen x))) (arange 0 (zlen x)))).
Proof.
  intros x Hn. unfold group_delay. destruct (Z.eqb_spec (zlen x) 0); [lia|]. do 2 f_equal.
  assert (HN : IZR (zlen x) <> 0%R) by (apply not_0_IZR; lia).
  rewrite (list_as_map (fft (ramped x))), (list_as_map (fft x)), !fft_zlen, ramped_zlen, zipw_map. apply map_ext_in. intros j Hj. apply in_arange in Hj.
  rewrite gd_entry_value, !fft_nth, ramped_zlen by (rewrite ?ramped_zlen; lia). unfold gd_value.
  assert (ER : forall k, root (zlen x) (- (j * k)) = cis (- (2 * PI * (IZR j / IZR (zlen x)) * IZR k))).
  { intros k. unfold root. f_equal. rewrite opp_IZR, mult_IZR. field. auto. }
  assert (E1 : csum (arange 0 (zlen x)) (fun k => cnth x k * root (zlen x) (- (j * k)))%C = gd_den x (IZR j / IZR (zlen x))).
  { apply csum_ext. intros k _. now rewrite ER. }
  assert (E2 : csum (arange 0 (zlen x)) (fun k => cnth (ramped x) k * root (zlen x) (- (j * k)))%C = gd_num x (IZR j / IZR (zlen x))).
  { apply csum_ext. intros k Hk. apply in_arange in Hk. rewrite ER, ramped_nth by lia. ring. }
  rewrite E1, E2. reflexivity.
Qed.
Lemma c52_empty : group_delay [] None = Raise ValueError.
Proof. reflexivity. Qed.
(** Range of the values. *)
Lemma c52_range : forall x f v, gd_value x f = Some v -> (v = 0 \/ 1 <= v <= IZR (zlen x) + 3)%R.
Proof. intros x f v. unfold gd_value. destruct (Ceq_dec _ _); [discriminate|]. intros H. injection H as <-. destruct (Rle_dec 1 _); [destruct (Rle_dec _ _)|]; auto. Qed.
Lemma in_fftshift {A} (l : list A) v : In v (fftshift l) <-> In v l.
Proof.
  unfold fftshift. cbv zeta. set (k := Z.to_nat _). assert (E : In v l <-> In v (firstn k l ++ skipn k l)) by now rewrite firstn_skipn.
  rewrite E, !in_app_iff. tauto.
Qed.
Lemma fftshift_repeat {A} (a : A) k : fftshift (repeat a k) = repeat a k.
Proof.
  assert (H : forall l : list A, (forall v, In v l -> v = a) -> l = repeat a (length l)).
  { induction l as [|b l IH]; cbn; intros H; [reflexivity|]. rewrite (H b) by auto. f_equal. apply IH. auto. }
  rewrite (H (fftshift (repeat a k))).
  - f_equal. unfold fftshift. rewrite app_length, firstn_length, skipn_length, repeat_length. lia.
  - intros v Hv. apply (proj1 (in_fftshift _ _)) in Hv. now apply repeat_spec in Hv.
Qed.
Lemma map_const {A B} (b : B) (l : list A) : map (fun _ => b) l = repeat b (length l).
Proof. induction l as [|a l IH]; cbn; congruence. Qed.
Lemma c52_values : forall x fn vs v, group_delay x fn = Ok vs -> In (Some v) vs -> (v = 0 \/ 1 <= v <= IZR (zlen x) + 3)%R.
Proof.
  intros x fn vs v H Hv. destruct fn as [fs|].
  - rewrite c52_formula in H. injection H as <-. apply in_map_iff in Hv. destruct Hv as (f & E & _). now apply c52_range in E.
  - destruct (Z.eq_dec (zlen x) 0) as [E|E]; [unfold group_delay in H; rewrite E in H; discriminate|].
    rewrite c52_default in H by (unfold zlen in *; lia). injection H as <-. apply (proj1 (in_fftshift _ _)), in_map_iff in Hv. destruct Hv as (f & Q & _). now apply c52_range in Q.
Qed.
(** An impulse at sample k is delayed by k+1 at every frequency. *)
Lemma gd_impulse : forall n k c f, 0 <= k < n -> c <> RtoC 0 ->
  gd_value (map (fun j => if j =? k then c else RtoC 0) (arange 0 n)) f = Some (IZR (k + 1)).
Proof.
  intros n k c f Hk Hc. set (x := map _ _). assert (L : zlen x = n) by (unfold x; rewrite zlen_map_arange; lia).
  assert (X : forall j, 0 <= j < n -> cnth x j = if j =? k then c else RtoC 0) by (intros j Hj; unfold x; rewrite cnth_map_arange by lia; now rewrite Z.add_0_l).
  assert (ED : gd_den x f = (c * cis (- (2 * PI * f * IZR k)))%C).
  { unfold gd_den. rewrite L, (csum_single _ k); [now rewrite X, Z.eqb_refl by lia|apply NoDup_arange|apply in_arange; lia|].
    intros b Hb Nb. apply in_arange in Hb. rewrite X by lia. destruct (Z.eqb_spec b k); [easy|ring]. }
  assert (EN : gd_num x f = (RtoC (IZR (k + 1)) * gd_den x f)%C).
  { rewrite ED. unfold gd_num. rewrite L, (csum_single _ k); [rewrite X, Z.eqb_refl by lia; ring|apply NoDup_arange|apply in_arange; lia|].
    intros b Hb Nb. apply in_arange in Hb. rewrite X by lia. destruct (Z.eqb_spec b k); [easy|ring]. }
  assert (ND : gd_den x f <> RtoC 0) by (rewrite ED; apply Cmult_neq_0; [auto|apply cis_neq_0]).
  unfold gd_value. destruct (Ceq_dec _ _) as [Q|_]; [tauto|]. rewrite EN.
  replace (RtoC (IZR (k + 1)) * gd_den x f / gd_den x f)%C with (RtoC (IZR (k + 1))) by (field; auto). cbn [Re RtoC fst]. rewrite L.
  f_equal. destruct (Rle_dec 1 _) as [_|Q]; [destruct (Rle_dec _ _) as [_|Q]; [reflexivity|]|]; exfalso; apply Q; [rewrite <- plus_IZR|]; apply IZR_le; lia.
Qed.
Lemma c52_impulse : forall n k c fs, 0 <= k < n -> c <> RtoC 0 ->
  let x := map (fun j => if j =? k then c else RtoC 0) (arange 0 n) in
  group_delay x (Some fs) = Ok (map (fun _ => Some (IZR (k + 1))) fs) /\
  group_delay x None = Ok (repeat (Some (IZR (k + 1))) (Z.to_nat n)).
Proof.
  intros n k c fs Hk Hc x. assert (L : zlen x = n) by (unfold x; rewrite zlen_map_arange; lia). split.
  - rewrite c52_formula. f_equal. apply map_ext. intros f. now apply gd_impulse.
  - rewrite c52_default by lia. f_equal. rewrite L.
    assert (E : map (fun j => gd_value x (IZR j / IZR n)) (arange 0 n) = repeat (Some (IZR (k + 1))) (Z.to_nat n)).
    { rewrite (map_ext _ (fun _ => Some (IZR (k + 1)))) by (intros j; now apply gd_impulse). rewrite map_const, arange_length. f_equal. lia. }
    rewrite E. apply fftshift_repeat.
Qed.
(** Multiplying the signal by a non-zero constant changes nothing. *)
Lemma c52_scale : forall x c fn, c <> RtoC 0 -> group_delay (scale c x) fn = group_delay x fn.
Proof.
  intros x c fn Hc.
  assert (V : forall f, gd_value (scale c x) f = gd_value x f).
  { intros f. unfold gd_value.
    assert (ED : gd_den (scale c x) f = (c * gd_den x f)%C).
    { unfold gd_den. rewrite scale_zlen, <- csum_scal_l. apply csum_ext. intros k Hk. apply in_arange in Hk. rewrite scale_nth by lia. ring. }
    assert (EN : gd_num (scale c x) f = (c * gd_num x f)%C).
    { unfold gd_num. rewrite scale_zlen, <- csum_scal_l. apply csum_ext. intros k Hk. apply in_arange in Hk. rewrite scale_nth by lia. ring. }
    rewrite ED, EN, scale_zlen. destruct (Ceq_dec (gd_den x f) (RtoC 0)) as [E|E].
    - rewrite E. destruct (Ceq_dec _ _) as [_|Q]; [reflexivity|]. exfalso. apply Q. ring.
    - destruct (Ceq_dec _ _) as [Q|_]; [exfalso; revert Q; now apply Cmult_neq_0|].
      replace (c * gd_num x f / (c * gd_den x f))%C with (gd_num x f / gd_den x f)%C by (field; auto). reflexivity. }
  destruct fn as [fs|].
  - rewrite !c52_formula. f_equal. now apply map_ext.
  - destruct (Z.eq_dec (zlen x) 0) as [E|E]; [unfold group_delay; now rewrite scale_zlen, E|].
    rewrite !c52_default by (rewrite ?scale_zlen; unfold zlen in *; lia). do 2 f_equal. rewrite scale_zlen. now apply map_ext.
Qed.
(** Where the spectrum vanishes the value is not a number: "0 or in [1, n+3]"
    fails for the two-sample signal (1, 1) at frequency 1/2. *)
Lemma c52_nan_refuted : exists x fs, energy x <> 0%R /\ group_delay x (Some fs) = Ok [None].
Proof.
  exists [RtoC 1; RtoC 1], [(1 / 2)%R]. split.
  - unfold energy. cbn [map rsum fold_right]. rewrite !Cmod_1. cbn. lra.
  - rewrite c52_formula. cbn [map]. do 2 f_equal. unfold gd_value, gd_den.
    change (arange 0 (zlen [RtoC 1; RtoC 1])) with [0; 1]. rewrite !csum_cons, csum_nil.
    change (cnth [RtoC 1; RtoC 1] 0) with (RtoC 1). change (cnth [RtoC 1; RtoC 1] 1) with (RtoC 1).
    replace (- (2 * PI * (1 / 2) * IZR 0))%R with 0%R by (cbn; lra). replace (- (2 * PI * (1 / 2) * IZR 1))%R with (- PI)%R by (cbn; lra).
    rewrite cis_0, cis_opp, cis_PI. destruct (Ceq_dec _ _) as [_|Q]; [reflexivity|]. exfalso. apply Q. apply injective_projections; cbn; ring.
Qed.
(** (0, 2, 0): delay 2 at every frequency. *)
Example c52_example : group_delay [RtoC 0; RtoC 2; RtoC 0] (Some [0; 1 / 3]%R) = Ok [Some 2%R; Some 2%R].
Proof. apply (c52_impulse 3 1 (RtoC 2) [0; 1 / 3]%R); [lia|]. intros Q. apply RtoC_inj in Q. lra. Qed.
