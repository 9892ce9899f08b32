(** C130: the circular mean frequency of a Wigner-Ville column is the
    instantaneous frequency. *)
From Coq Require Import Reals ZArith List Lia Lra Bool.
From Coquelicot Require Import Coquelicot.
From Verif Require Import Py Scalars CSum DFT Spec M_base M_stft M_cohen M_amb M_dom P_base P_stft P_wvd P_pwvd T_wvd T_pwvd T_amb T_dual T_dom.
Import ListNotations.
Local Open Scope Z_scope.

Lemma nth_error_arange2 k b : 0 <= k < b - 2 -> nth_error (arange 2 b) (Z.to_nat k) = Some (2 + k).
Proof. intros H. rewrite nth_error_arange by lia. f_equal. lia. Qed.

(** inst_freq at k+2 is the phase of the product of the samples two apart. *)
Lemma inst_phase ang x fs ts k : (forall k z, is_angle z (ang k z)) -> inst_freq ang x None = Ok (fs, ts) -> 0 <= k < zlen x - 2 ->
  (cnth x (k + 2) * Cconj (cnth x k) = RtoC (Cmod (cnth x (k + 2)) * Cmod (cnth x k)) * cis (4 * PI * rnth fs k))%C.
Proof.
  intros HA H Hk. destruct (c51_outcome ang x None) as [O _]. cbv zeta in O. destruct O as (fs' & E & L & V); [intros i Hi; apply in_arange in Hi; lia|].
  rewrite E in H. assert (fs' = fs) by congruence. subst fs'. rewrite arange_zlen in V by lia.
  destruct (V k ltac:(lia)) as (u & v & Gu & Gv & F). rewrite (nth_error_nth (arange 2 (zlen x)) _ 0 (nth_error_arange2 k (zlen x) ltac:(lia))) in Gu, Gv. rewrite (get_ok (RtoC 0)) in Gu by lia. rewrite (get_ok (RtoC 0)) in Gv by lia.
  replace (2 + k) with (k + 2) in * by lia. replace (k + 2 - 2) with k in Gv by lia.
  assert (U : u = cnth x (k + 2)) by (unfold cnth; congruence). assert (W : v = cnth x k) by (unfold cnth; congruence). rewrite <- U, <- W, F.
  destruct (HA k (- u * Cconj v)%C) as (_ & P & _). set (a := ang k (- u * Cconj v)%C) in *.
  assert (M : Cmod (- u * Cconj v)%C = (Cmod u * Cmod v)%R) by (rewrite Cmod_mult, Cmod_opp, Cmod_conj; reflexivity). rewrite M in P.
  unfold inst_entry. replace (4 * PI * (1 / 2 * (a + PI) / (2 * PI)))%R with (a + PI)%R by (field; apply PI_neq0).
  replace (u * Cconj v)%C with (- (- u * Cconj v))%C by ring. rewrite P.
  assert (Q : cis (a + PI) = (- cis a)%C) by (unfold cis; rewrite neg_cos, neg_sin; reflexivity). rewrite Q. ring.
Qed.

Lemma sigf_in x k : 0 <= k < zlen x -> sigf x k = cnth x k.
Proof. intros H. unfold sigf. destruct (Z.leb_spec 0 k), (Z.ltb_spec k (zlen x)); try lia. reflexivity. Qed.

(** The first circular moment of column t over the rows of the Wigner-Ville
    distribution, each row at the frequency the object reports for it. *)
Lemma c130_wvd : forall ang x ts n o fs is t, (forall k z, is_angle z (ang k z)) -> 2 <= n ->
  wvd x (Some ts) (Some n) = Ok o -> inst_freq ang x None = Ok (fs, is) -> 1 <= t < zlen x - 1 ->
  csum (arange 0 n) (fun j => at2 (r_tfr o) j t * cis (4 * PI * rnth (r_freqs o) j))%C
  = (RtoC (IZR n * (Cmod (cnth x (t + 1)) * Cmod (cnth x (t - 1)))) * cis (4 * PI * rnth fs (t - 1)))%C.
Proof.
  intros ang x ts n o fs is t HA Hn H HI Ht. destruct (wvd_ret x ts n o ltac:(lia) H) as (_ & F & _ & EF & _).
  rewrite (csum_ext _ _ (fun f => WV x n f t * root n (f * 1))%C).
  - rewrite WV_inverse by (auto; lia). rewrite !sigf_in by lia.
    assert (P := inst_phase ang x fs is (t - 1) HA HI ltac:(lia)). replace (t - 1 + 2) with (t + 1) in P by lia.
    rewrite P, !RtoC_mult. ring.
  - intros j Hj. apply in_arange in Hj. rewrite (wvd_entry x ts n o j t Hn H Hj) by lia. f_equal. rewrite EF. unfold root. f_equal.
    unfold wvd_freqs. unfold rnth. rewrite nth_map_arange by lia. rewrite Z.add_0_l. rewrite Z.mul_1_r. replace 0.5%R with (/ 2)%R by lra. field. apply not_0_IZR. lia.
Qed.

(** Hence the frequency reported by inst_freq is determined by the column, whenever the two samples do not vanish. *)
Lemma c130_determined : forall ang x y ts ts' n o o' fs is gs js t, (forall k z, is_angle z (ang k z)) -> 2 <= n ->
  wvd x (Some ts) (Some n) = Ok o -> wvd y (Some ts') (Some n) = Ok o' -> zlen x = zlen y ->
  inst_freq ang x None = Ok (fs, is) -> inst_freq ang y None = Ok (gs, js) -> 1 <= t < zlen x - 1 ->
  cnth x (t + 1) <> RtoC 0 -> cnth x (t - 1) <> RtoC 0 ->
  (forall j, 0 <= j < n -> at2 (r_tfr o') j t = at2 (r_tfr o) j t) ->
  (0 < rnth fs (t - 1) < 1 / 2)%R -> rnth gs (t - 1) = rnth fs (t - 1).
Proof.
  intros ang x y ts ts' n o o' fs is gs js t HA Hn H H' L HI HI' Ht N1 N2 HE HB.
  assert (P := c130_wvd ang x ts n o fs is t HA Hn H HI Ht). assert (Q := c130_wvd ang y ts' n o' gs js t HA Hn H' HI' ltac:(lia)).
  destruct (wvd_ret x ts n o ltac:(lia) H) as (_ & _ & _ & EF & _). destruct (wvd_ret y ts' n o' ltac:(lia) H') as (_ & _ & _ & EF' & _).
  assert (E : csum (arange 0 n) (fun j => at2 (r_tfr o) j t * cis (4 * PI * rnth (r_freqs o) j))%C = csum (arange 0 n) (fun j => at2 (r_tfr o') j t * cis (4 * PI * rnth (r_freqs o') j))%C).
  { apply csum_ext. intros j Hj. apply in_arange in Hj. rewrite HE by auto. rewrite EF, EF'. reflexivity. }
  rewrite P, Q in E. set (A := (IZR n * (Cmod (cnth x (t + 1)) * Cmod (cnth x (t - 1))))%R) in *. set (B := (IZR n * (Cmod (cnth y (t + 1)) * Cmod (cnth y (t - 1))))%R) in *.
  assert (PA : (0 < A)%R) by (unfold A; apply Rmult_lt_0_compat; [apply IZR_lt; lia|apply Rmult_lt_0_compat; apply Cmod_gt_0; auto]).
  assert (PB : (0 <= B)%R) by (unfold B; apply Rmult_le_pos; [apply IZR_le; lia|apply Rmult_le_pos; apply Cmod_ge_0]).
  assert (MC : forall a, Cmod (cis a) = 1%R).
  { intros a. unfold Cmod, cis. cbn [fst snd]. rewrite <- sqrt_1 at 1. f_equal. assert (S := sin2_cos2 a). unfold Rsqr in S. lra. }
  assert (EM : A = B).
  { apply (f_equal Cmod) in E. rewrite !Cmod_mult, !MC, !Cmod_R, !Rabs_right in E by lra. lra. }
  rewrite <- EM in E. assert (EC : cis (4 * PI * rnth fs (t - 1)) = cis (4 * PI * rnth gs (t - 1))).
  { apply (f_equal (fun z => / RtoC A * z)%C) in E. rewrite !Cmult_assoc, Cinv_l, !Cmult_1_l in E; auto. intros Z. apply RtoC_inj in Z. lra. }
  assert (U : cis (4 * PI * rnth fs (t - 1) - 4 * PI * rnth gs (t - 1)) = RtoC 1).
  { unfold Rminus. rewrite cis_plus, cis_opp, EC. apply cis_conj_mul. }
  apply cis_1_inv in U. destruct U as (k & U). assert (HP := PI_RGT_0).
  assert (GB : (0 <= rnth gs (t - 1) <= 1 / 2)%R).
  { apply (c51_range ang y None gs js HA HI'). unfold rnth. apply nth_In.
    destruct (c51_outcome ang y None) as [O _]. cbv zeta in O. destruct O as (gs' & E' & LG & _); [intros i Hi; apply in_arange in Hi; lia|].
    assert (gs' = gs) by congruence. subst gs'. rewrite arange_zlen in LG. unfold zlen in LG at 1. lia. }
  assert (D : (2 * (rnth fs (t - 1) - rnth gs (t - 1)) = IZR k)%R).
  { apply Rmult_eq_reg_l with (2 * PI)%R; [|lra]. lra. }
  assert (k = 0).
  { assert (IZR k < 1 /\ - (1) < IZR k)%R by lra. destruct H0 as [K1 K2]. apply lt_IZR in K1. change (-1 < IZR k)%R in K2 || idtac. assert (-1 < k) by (apply lt_IZR; exact K2 || lra). lia. }
  subst k. lra.
Qed.

Lemma PWV_inverse1 x w n t : 2 <= n -> (zlen w - 1) / 2 < round_half n ->
  csum (arange 0 n) (fun f => PWV x w n f t * root n (f * 1))%C = (RtoC (IZR n) * (if 0 <? zlen x then winf w 1 * (sigf x (t + 1) * Cconj (sigf x (t - 1))) else RtoC 0))%C.
Proof.
  intros Hn Hw. assert (RB := round_half_bounds n). unfold PWV.
  rewrite (csum_ext _ _ (fun f => csum (arange (- zlen x) (zlen x + 1)) (fun s => winf w s * (sigf x (t + s) * Cconj (sigf x (t - s))) * root n (f * (1 - s)))%C)).
  2:{ intros f _. rewrite <- csum_scal_r. apply csum_ext. intros s _. rewrite <- Cmult_assoc, <- root_plus. do 2 f_equal. lia. }
  rewrite csum_swap.
  rewrite (csum_ext _ _ (fun s => if s =? 1 then RtoC (IZR n) * (winf w 1 * (sigf x (t + 1) * Cconj (sigf x (t - 1)))) else RtoC 0)%C).
  2:{ intros s Hs. rewrite csum_scal_l. destruct (Z.eqb_spec s 1).
    - subst s. rewrite root_orth by lia. change ((1 - 1) mod n) with (0 mod n). rewrite Z.mod_0_l by lia. cbn [Z.eqb]. ring.
    - unfold winf. cbv zeta. destruct (Z.leb_spec (- ((zlen w - 1) / 2)) s), (Z.leb_spec s ((zlen w - 1) / 2)); cbn [andb]; try ring.
      rewrite root_orth by lia. destruct (Z.eqb_spec ((1 - s) mod n) 0) as [E|E]; [|ring]. exfalso. apply Z.mod_divide in E; [|lia]. destruct E as [q E]. assert (q <> 0) by nia. nia. }
  destruct (Z.ltb_spec 0 (zlen x)).
  - rewrite (csum_single _ 1); [reflexivity|apply NoDup_arange|apply in_arange; lia|].
    intros b _ Hb. destruct (Z.eqb_spec b 1); [lia|reflexivity].
  - rewrite csum_0; [ring|]. intros s Hs. apply in_arange in Hs. destruct (Z.eqb_spec s 1); [lia|reflexivity].
Qed.

(** The pseudo distribution: the same direction, weighted by the window at lag one. *)
Lemma c130_pwvd : forall ang x ts n w o m fs is t, (forall k z, is_angle z (ang k z)) -> 2 <= n -> (zlen w - 1) / 2 < round_half n ->
  (forall k, winf w (- k) = Cconj (winf w k)) ->
  pwvd x (Some ts) (Some n) (Some w) = Ok (o, m) -> inst_freq ang x None = Ok (fs, is) -> 1 <= t < zlen x - 1 -> t < ts_len ts ->
  csum (arange 0 n) (fun j => at2 m j t * cis (2 * PI * IZR j / IZR n))%C
  = (winf w 1 * (RtoC (IZR n * (Cmod (cnth x (t + 1)) * Cmod (cnth x (t - 1)))) * cis (4 * PI * rnth fs (t - 1))))%C.
Proof.
  intros ang x ts n w o m fs is t HA Hn Hw HS H HI Ht Ht'.
  rewrite (csum_ext _ _ (fun f => PWV x w n f t * root n (f * 1))%C).
  - rewrite PWV_inverse1 by auto. destruct (Z.ltb_spec 0 (zlen x)); [|lia]. rewrite !sigf_in by lia.
    assert (P := inst_phase ang x fs is (t - 1) HA HI ltac:(lia)). replace (t - 1 + 2) with (t + 1) in P by lia.
    rewrite P, !RtoC_mult. ring.
  - intros j Hj. apply in_arange in Hj. destruct (c28_pwvd_closed_form x ts n w o m j t ltac:(lia) Hw H Hj ltac:(lia)) as [_ E]. rewrite E by auto.
    rewrite Z.mul_1_r. reflexivity.
Qed.

Example c130_example : exists o, wvd [RtoC 1; Ci; RtoC (-1)] None None = Ok o /\
  inst_freq (fun _ => Carg) [RtoC 1; Ci; RtoC (-1)] None = Ok ([1 / 4]%R, [2]) /\
  csum (arange 0 3) (fun j => at2 (r_tfr o) j 1 * cis (4 * PI * rnth (r_freqs o) j))%C = RtoC (-3).
Proof.
  destruct (c21_wvd_default [RtoC 1; Ci; RtoC (-1)] ltac:(discriminate)) as [_ O]. destruct O as [o O]; [cbn; lia|].
  exists o. split; [exact O|]. split; [exact c51_example|].
  change (wvd _ None None) with (wvd [RtoC 1; Ci; RtoC (-1)] (Some (TsI (arange 0 3))) (Some 3)) in O.
  rewrite (c130_wvd (fun _ => Carg) _ _ 3 o _ _ 1 (fun _ => Carg_angle) ltac:(lia) O c51_example) by (cbn; lia).
  change (rnth [(1 / 4)%R] (1 - 1)) with (1 / 4)%R. change (cnth [RtoC 1; Ci; RtoC (-1)] (1 + 1)) with (RtoC (-1)).
  change (cnth [RtoC 1; Ci; RtoC (-1)] (1 - 1)) with (RtoC 1). rewrite !Cmod_R, Rabs_left, Rabs_right by lra.
  replace (4 * PI * (1 / 4))%R with PI by field. rewrite cis_PI. apply injective_projections; cbn; ring.
Qed.
