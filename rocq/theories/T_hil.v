(** The analytic signal computed by scipy.signal.hilbert, the analytic impulse,
    step and singularity (C59, C77). *)
From Coq Require Import Reals ZArith List Lia Lra Bool.
From Coquelicot Require Import Coquelicot.
From Flocq Require Import Core.
From Verif Require Import Py Scalars CSum DFT M_base Spec P_base M_utils T_utils M_dom T_dom M_gen1 M_gen2 T_gen1.
Import ListNotations.
Local Open Scope Z_scope.

Lemma fft_ifft (x : list C) : fft (ifft x) = x.
Proof.
  rewrite (list_as_map (fft (ifft x))), fft_zlen, ifft_zlen. transitivity (map (cnth x) (arange 0 (zlen x))); [|symmetry; apply list_as_map].
  apply map_ext_in. intros f Hf. apply in_arange in Hf. rewrite fft_nth by (rewrite ifft_zlen; lia). rewrite ifft_zlen. set (n := zlen x) in *.
  assert (HN : RtoC (IZR n) <> RtoC 0) by (intros E; apply RtoC_inj in E; apply eq_IZR in E; lia).
  rewrite (csum_ext _ _ (fun k => csum (arange 0 n) (fun g => / RtoC (IZR n) * (cnth x g * root n (k * (g - f)))))%C).
  - rewrite csum_swap. rewrite (csum_ext _ _ (fun g => / RtoC (IZR n) * cnth x g * csum (arange 0 n) (fun k => root n (k * (g - f))))%C).
    + rewrite (csum_single _ f); [|apply NoDup_arange|apply in_arange; lia|].
      * rewrite root_orth by lia. rewrite Z.sub_diag, Z.mod_0_l by lia. cbn [Z.eqb]. field. exact HN.
      * intros g Hg Ng. apply in_arange in Hg. rewrite root_orth by lia. destruct (Z.eqb_spec ((g - f) mod n) 0) as [E|E]; [|ring].
        exfalso. apply Z.mod_divide in E; [|lia]. destruct E as [q E]. assert (q = 0) by nia. subst. lia.
    + intros g _. rewrite <- csum_scal_l. apply csum_ext. intros k _. ring.
  - intros k Hk. apply in_arange in Hk. rewrite ifft_nth by (fold n; lia). fold n. rewrite <- csum_scal_l, <- csum_scal_r. apply csum_ext. intros g _.
    replace (k * (g - f))%Z with (g * k + - (f * k))%Z by ring. rewrite root_plus. ring.
Qed.

(** The transform of the analytic signal: the spectrum of x at frequency 0
    and at half the sampling frequency, doubled in between, 0 beyond. *)
Lemma hil_spectrum x y : hilbert x = Ok y -> zlen y = zlen x /\
  forall f, 0 <= f < zlen x -> cnth (fft y) f = (RtoC (hfac (zlen x) f) * cnth (fft (map RtoC x)) f)%C.
Proof.
  unfold hilbert. destruct (Z.eqb_spec (zlen x) 0) as [E0|N0]; [discriminate|]. intros H. injection H as <-. set (n := zlen x) in *. set (X := fft (map RtoC x)).
  assert (LX : zlen X = n) by (unfold X; rewrite fft_zlen, zlen_map; reflexivity).
  assert (EZ : zipw (fun Y f => Y * RtoC (hfac n f))%C X (arange 0 n) = map (fun f => cnth X f * RtoC (hfac n f))%C (arange 0 n)).
  { rewrite (list_as_map X) at 1. rewrite LX. rewrite <- (map_id (arange 0 n)) at 2. apply (zipw_map (fun Y f => Y * RtoC (hfac n f))%C). }
  rewrite EZ. split; [rewrite ifft_zlen, zlen_map_arange; unfold n, zlen; lia|].
  intros f Hf. rewrite fft_ifft, cnth_map_arange by lia. rewrite Z.add_0_l. ring.
Qed.
Lemma hfac_sum n f : 0 < n -> 0 <= f < n -> (hfac n f + hfac n ((- f) mod n) = 2)%R.
Proof.
  intros Hn Hf. unfold hfac. destruct (Z.eqb_spec f 0) as [->|N].
  - rewrite Z.mod_0_l by lia. cbn [Z.eqb]. lra.
  - replace ((- f) mod n) with (n - f) by (rewrite Z.mod_opp_l_nz; rewrite ?Z.mod_small by lia; lia).
    destruct (Z.eqb_spec (n - f) 0); [lia|]. destruct (Z.eqb_spec (2 * f) n), (Z.eqb_spec (2 * (n - f)) n), (Z.ltb_spec (2 * f) n), (Z.ltb_spec (2 * (n - f)) n); try lia; lra.
Qed.
(** The real part is the signal. *)
Lemma hil_real x y : hilbert x = Ok y -> map Re y = x.
Proof.
  intros H. destruct (hil_spectrum x y H) as [L S]. set (n := zlen x) in *.
  assert (Hn : 0 < n). { unfold hilbert in H. fold n in H. destruct (Z.eqb_spec n 0); [discriminate|]. unfold n, zlen in *. lia. }
  set (x' := map RtoC x). assert (LX : zlen x' = n) by (unfold x'; now rewrite zlen_map).
  set (X := fun f => csum (arange 0 n) (fun k => cnth x' k * root n (- (f * k)))%C).
  assert (XR : forall k, Cconj (cnth x' k) = cnth x' k).
  { intros k. unfold x', cnth. destruct (Nat.lt_ge_cases (Z.to_nat k) (length (map RtoC x))) as [Q|Q].
    - rewrite (map_nth RtoC x 0%R). apply Cconj_R.
    - rewrite nth_overflow by auto. apply Cconj_R. }
  assert (XC : forall f, Cconj (X f) = X (- f)).
  { intros f. unfold X. rewrite csum_conj. apply csum_ext. intros k _. rewrite Cconj_mult, XR, root_conj. do 2 f_equal. ring. }
  assert (XM : forall f, X (f mod n) = X f).
  { intros f. unfold X. apply csum_ext. intros k _. f_equal. rewrite <- !Z.mul_opp_r. apply root_mod_mul_l. lia. }
  assert (EY : forall k, 0 <= k < n -> cnth y k = (/ RtoC (IZR n) * csum (arange 0 n) (fun f => RtoC (hfac n f) * X f * root n (f * k)))%C).
  { intros k Hk. rewrite <- (ifft_fft y) at 1. rewrite ifft_nth by (rewrite fft_zlen, L; lia). rewrite fft_zlen, L. f_equal. apply csum_ext. intros f Hf. apply in_arange in Hf.
    rewrite S by lia. fold x'. rewrite fft_nth by lia. rewrite LX. reflexivity. }
  assert (EX : forall k, 0 <= k < n -> cnth x' k = (/ RtoC (IZR n) * csum (arange 0 n) (fun f => X f * root n (f * k)))%C).
  { intros k Hk. rewrite <- (ifft_fft x') at 1. rewrite ifft_nth by (rewrite fft_zlen, LX; lia). rewrite fft_zlen, LX. f_equal. apply csum_ext. intros f Hf. apply in_arange in Hf.
    rewrite fft_nth by lia. rewrite LX. reflexivity. }
  assert (HN : RtoC (IZR n) <> RtoC 0) by (intros E; apply RtoC_inj in E; apply eq_IZR in E; lia).
  assert (KEY : forall k, 0 <= k < n -> (cnth y k + Cconj (cnth y k) = RtoC 2 * cnth x' k)%C).
  { intros k Hk. rewrite EY, EX by lia. rewrite Cconj_mult. replace (Cconj (/ RtoC (IZR n))%C) with (/ RtoC (IZR n))%C by (rewrite <- RtoC_inv by (apply not_0_IZR; lia); now rewrite Cconj_R).
    rewrite csum_conj. rewrite (csum_ext _ (fun f => Cconj _) (fun f => (fun g => RtoC (hfac n ((- g) mod n)%Z) * X g * root n (g * k)%Z)%C ((- f) mod n))).
    - rewrite <- (csum_map (fun f => (- f) mod n) (arange 0 n) (fun g => RtoC (hfac n ((- g) mod n)%Z) * X g * root n (g * k)%Z)%C).
      rewrite (csum_perm (map (fun f => (- f) mod n) (arange 0 n)) (arange 0 n)) by now apply perm_mod_opp. rewrite <- Cmult_plus_distr_l, <- csum_plus.
      rewrite (csum_ext _ _ (fun f => RtoC 2 * (X f * root n (f * k)))%C).
      + rewrite csum_scal_l. ring.
      + intros f Hf. apply in_arange in Hf. rewrite <- (hfac_sum n f), RtoC_plus by lia. ring.
    - intros f Hf. apply in_arange in Hf. cbv beta. rewrite !Cconj_mult, Cconj_R, XC, root_conj, XM, root_mod_mul_l by lia.
      replace ((- ((- f) mod n)) mod n) with f.
      + do 2 f_equal. ring.
      + rewrite <- (Z.mul_1_l ((- f) mod n)), <- Z.mul_opp_l, Z.mul_mod_idemp_r by lia. replace (- (1) * - f) with f by lia. symmetry. apply Z.mod_small. lia. }
  apply (nth_ext _ _ 0%R 0%R); [rewrite map_length; unfold n, zlen in L; lia|].
  intros k Hk. rewrite map_length in Hk. assert (Hk' : 0 <= Z.of_nat k < n) by (unfold zlen in L; lia). specialize (KEY (Z.of_nat k) Hk').
  unfold cnth in KEY. rewrite Nat2Z.id in KEY. rewrite (nth_indep _ _ (Re (RtoC 0))) by now rewrite map_length. rewrite map_nth.
  unfold x' in KEY. rewrite (map_nth RtoC x 0%R) in KEY. apply (f_equal Re) in KEY. cbn in KEY. unfold Re. lra.
Qed.
Lemma hil_ok x : x <> [] -> exists y, hilbert x = Ok y.
Proof. intros H. unfold hilbert. destruct (Z.eqb_spec (zlen x) 0) as [E|E]; [destruct x; [easy|unfold zlen in E; cbn in E; lia]|eauto]. Qed.

(** *** C59 *)
(** Analytic means: no negative frequencies; the positive ones are doubled. *)
Definition analytic_of (x : list R) (y : list C) : Prop :=
  map Re y = x /\
  (forall f, zlen x < 2 * f < 2 * zlen x -> cnth (fft y) f = RtoC 0) /\
  (forall f, 0 < 2 * f < zlen x -> cnth (fft y) f = (RtoC 2 * cnth (fft (map RtoC x)) f)%C) /\
  (forall f, f = 0 \/ 2 * f = zlen x -> 0 <= f < zlen x -> cnth (fft y) f = cnth (fft (map RtoC x)) f).
Lemma c59_hilbert : forall x y, hilbert x = Ok y -> analytic_of x y.
Proof.
  intros x y H. split; [now apply hil_real|]. destruct (hil_spectrum x y H) as [_ S]. unfold hfac in S. split; [|split].
  - intros f Hf. rewrite S by lia. destruct (Z.eqb_spec f 0); [lia|]. destruct (Z.eqb_spec (2 * f) (zlen x)); [lia|]. destruct (Z.ltb_spec (2 * f) (zlen x)); [lia|]. ring.
  - intros f Hf. rewrite S by lia. destruct (Z.eqb_spec f 0); [lia|]. destruct (Z.eqb_spec (2 * f) (zlen x)); [lia|]. destruct (Z.ltb_spec (2 * f) (zlen x)); [|lia]. reflexivity.
  - intros f Hf Hr. rewrite S by lia. destruct (Z.eqb_spec f 0); [ring|]. destruct (Z.eqb_spec (2 * f) (zlen x)); [ring|lia].
Qed.
Lemma c59_anapulse : forall n ti, 0 < n ->
  let t := match ti with Some t => t | None => IZR (half_round n) end in
  exists y, anapulse n ti = Ok y /\ zlen y = n /\ analytic_of (map (fun k => if Req_EM_T (IZR k) t then 1%R else 0%R) (arange 0 n)) y.
Proof.
  intros n ti Hn t. unfold anapulse. fold t. set (x := map _ _). assert (L : zlen x = n) by (unfold x; rewrite zlen_map_arange; lia).
  destruct (hil_ok x) as [y E]; [intros Q; rewrite Q in L; unfold zlen in L; cbn in L; lia|]. exists y. split; [exact E|]. split; [rewrite <- L; now apply hil_spectrum|now apply c59_hilbert].
Qed.
Lemma c59_anastep : forall n ti, 0 < n ->
  let t := match ti with Some t => t | None => IZR (half_round n) end in
  exists y, anastep n ti = Ok y /\ zlen y = n /\ analytic_of (map (fun k => if Rlt_dec t (IZR k) then 1%R else 0%R) (arange 0 n)) y.
Proof.
  intros n ti Hn t. unfold anastep. fold t. set (x := map _ _). assert (L : zlen x = n) by (unfold x; rewrite zlen_map_arange; lia).
  destruct (hil_ok x) as [y E]; [intros Q; rewrite Q in L; unfold zlen in L; cbn in L; lia|]. exists y. split; [exact E|]. split; [rewrite <- L; now apply hil_spectrum|now apply c59_hilbert].
Qed.
Lemma c59_raises : forall n ti, n <= 0 -> anapulse n ti = Raise ValueError /\ anastep n ti = Raise ValueError.
Proof. intros n ti Hn. unfold anapulse, anastep. rewrite arange_empty by lia. split; reflexivity. Qed.
(** A position that is not a sample gives the zero signal. *)
Lemma c59_off_grid : forall n t y, (forall k, 0 <= k < n -> IZR k <> t) -> anapulse n (Some t) = Ok y -> forall v, In v y -> v = RtoC 0.
Proof.
  intros n t y Ht H v Hv. unfold anapulse in H. set (x := map _ _) in H.
  assert (X0 : forall f, cnth (fft (map RtoC x)) f = RtoC 0).
  { assert (Z0 : forall k, cnth (map RtoC x) k = RtoC 0).
    { intros k. unfold x. rewrite map_map. unfold cnth. destruct (Nat.lt_ge_cases (Z.to_nat k) (Z.to_nat n)) as [Q|Q]; [|apply nth_overflow; now rewrite map_length, arange_length, Z.sub_0_r].
      replace (Z.to_nat k) with (Z.to_nat (Z.of_nat (Z.to_nat k))) by lia. rewrite nth_map_arange by lia. destruct (Req_EM_T _ _) as [E|]; [|reflexivity]. exfalso. revert E. apply Ht. lia. }
    intros f. unfold cnth at 1. destruct (Nat.lt_ge_cases (Z.to_nat f) (length (fft (map RtoC x)))) as [Q|Q]; [|now apply nth_overflow].
    rewrite fft_length in Q. change (cnth (fft (map RtoC x)) f = RtoC 0).
    destruct (Z_lt_ge_dec f 0) as [Hf|Hf].
    - replace (cnth (fft (map RtoC x)) f) with (cnth (fft (map RtoC x)) 0) by (unfold cnth; f_equal; lia). rewrite fft_nth by (unfold zlen; lia). apply csum_0. intros k _. rewrite Z0. ring.
    - rewrite fft_nth by (unfold zlen; lia). apply csum_0. intros k _. rewrite Z0. ring. }
  destruct (hil_spectrum x y H) as [L S]. apply (In_nth _ _ (RtoC 0)) in Hv. destruct Hv as (k & Hk & <-).
  assert (E : nth k y (RtoC 0) = cnth (ifft (fft y)) (Z.of_nat k)) by (rewrite ifft_fft; unfold cnth; now rewrite Nat2Z.id). rewrite E, ifft_nth by (rewrite fft_zlen; unfold zlen; lia).
  rewrite csum_0; [ring|]. intros f Hf. apply in_arange in Hf. rewrite fft_zlen in Hf. rewrite S, X0 by lia. ring.
Qed.
(** Two samples: the analytic signal of (0, 1) is itself. *)
Example c59_example : exists y, anapulse 2 None = Ok y /\ map Re y = [0; 1]%R.
Proof.
  destruct (c59_anapulse 2 None) as (y & E & _ & A & _); [lia|]. exists y. split; [exact E|]. rewrite A. change (arange 0 2) with [0; 1]. cbn [map].
  assert (H2 : half_round 2 = 1) by (destruct (half_round_spec 2) as [Q|[Q _]]; lia). rewrite H2.
  destruct (Req_EM_T 0 1); [lra|]. destruct (Req_EM_T 1 1); [reflexivity|lra].
Qed.

(** *** C77 *)
Lemma linspace1_zlen a b n : zlen (linspace1 a b n) = Z.max 0 n.
Proof. unfold linspace1. destruct (Z.eqb_spec n 1) as [->|]; [reflexivity|]. unfold linspace. rewrite zlen_map, arange_zlen. lia. Qed.
Lemma rmaxl_spec l : l <> [] -> In (rmaxl l) l /\ forall v, In v l -> (v <= rmaxl l)%R.
Proof.
  induction l as [|a l IH]; [easy|]. intros _. destruct l as [|b l]; [cbn; split; [auto|]; intros v [->|[]]; lra|].
  destruct IH as [I1 I2]; [discriminate|]. change (rmaxl (a :: b :: l)) with (Rmax a (rmaxl (b :: l))). split.
  - unfold Rmax. destruct (Rle_dec _ _); [right; auto|left; auto].
  - intros v [->|Hv]; [apply Rmax_l|]. apply I2 in Hv. assert (Q := Rmax_r a (rmaxl (b :: l))). lra.
Qed.
Lemma rminl_spec l : l <> [] -> In (rminl l) l /\ forall v, In v l -> (rminl l <= v)%R.
Proof.
  induction l as [|a l IH]; [easy|]. intros _. destruct l as [|b l]; [cbn; split; [auto|]; intros v [->|[]]; lra|].
  destruct IH as [I1 I2]; [discriminate|]. change (rminl (a :: b :: l)) with (Rmin a (rminl (b :: l))). split.
  - unfold Rmin. destruct (Rle_dec _ _); [left; auto|right; auto].
  - intros v [->|Hv]; [apply Rmin_l|]. apply I2 in Hv. assert (Q := Rmin_r a (rminl (b :: l))). lra.
Qed.
Lemma rsign_abs v : (rsign v * Rabs v = v)%R.
Proof. unfold rsign, Rabs. destruct (Rlt_dec v 0), (Rcase_abs v), (Req_EM_T v 0); lra. Qed.

(** Outcome for h <= 0 as a function of the number of frequency samples. *)
Definition sing_fits (count n : Z) : Prop := count = Z.max 0 (n / 2 - 1) \/ count = 1.
Lemma c77_outcome : forall count n t0 h, 0 < n -> (h <= 0)%R ->
  (sing_fits (count n) n -> exists r, anasing count n t0 h = Ok r) /\
  (~ sing_fits (count n) n -> anasing count n t0 h = Raise ValueError).
Proof.
  intros count n t0 h Hn Hh. unfold anasing. cbv zeta. destruct (Rle_dec h 0); [|lra]. destruct (Z.eqb_spec n 0); [lia|].
  destruct (Z.ltb_spec (count n) 0); [split; [unfold sing_fits; lia|reflexivity]|]. set (v := map _ (linspace1 _ _ _)).
  assert (LV : zlen v = Z.max 0 (count n)) by (unfold v; rewrite zlen_map; apply linspace1_zlen). unfold sing_fits. split.
  - intros HF. set (m := Z.max 0 (n / 2 - 1)) in *.
    assert (EW : exists w, (if zlen v =? m then Ok v else match v with [w] => Ok (repeat w (Z.to_nat m)) | _ => Raise ValueError end) = Ok w).
    { destruct (Z.eqb_spec (zlen v) m) as [E|E]; [eauto|]. destruct HF as [HF|HF]; [lia|]. rewrite HF in LV. destruct v as [|a [|? ?]]; try (unfold zlen in LV; cbn in LV; lia). eauto. }
    destruct EW as [w ->]. cbn [bind]. set (y := prefix _ n).
    assert (Ly : zlen y = n). { unfold y, prefix, zlen. rewrite firstn_length. cbn [length]. rewrite app_length, repeat_length. lia. }
    destruct (Req_EM_T _ 0); [eauto|].
    match goal with |- exists r, (_ <- hilbert ?X ;; _) = _ => destruct (hil_ok X) as [z ->] end.
    + intros Q. apply (f_equal zlen) in Q. rewrite !zlen_map, ifft_zlen, Ly in Q. unfold zlen in Q. cbn in Q. lia.
    + cbn [bind]. eauto.
  - intros HF. destruct (Z.eqb_spec (zlen v) (Z.max 0 (n / 2 - 1))) as [E|E]; [exfalso; apply HF; left; lia|].
    destruct v as [|a [|? ?]]; try reflexivity. exfalso. apply HF. unfold zlen in LV. cbn in LV. lia.
Qed.
(** Exact arithmetic: every length works. *)
Lemma sing_count_exact n : 0 < n -> sing_count n = Z.max 0 (n / 2 - 1).
Proof.
  intros Hn. unfold sing_count. assert (HN : IZR n <> 0%R) by (apply not_0_IZR; lia).
  replace ((1 / 2 - 1 / IZR n) / (1 / IZR n))%R with (IZR n / 2 - 1)%R by (field; auto).
  destruct (Z.eq_dec n 1) as [->|N1].
  - replace (1 / 2 - 1)%R with (- (1 / 2))%R by lra. rewrite Ztrunc_opp, Ztrunc_floor by lra. rewrite (Zfloor_imp 0); [reflexivity|]. cbn. lra.
  - assert (H2 : (2 <= IZR n)%R) by (apply IZR_le; lia). rewrite Ztrunc_floor by lra. rewrite (Zfloor_imp (n / 2 - 1)); [Z.to_euclidean_division_equations; lia|].
    assert (E1 : (IZR (2 * (n / 2)) <= IZR n)%R) by (apply IZR_le; Z.to_euclidean_division_equations; lia).
    assert (E2 : (IZR n < IZR (2 * (n / 2) + 2))%R) by (apply IZR_lt; Z.to_euclidean_division_equations; lia).
    rewrite plus_IZR in E2. rewrite mult_IZR in E1, E2. rewrite plus_IZR, !minus_IZR. lra.
Qed.
Lemma c77_exact : forall n t0 h, 0 < n -> exists r, anasing sing_count n t0 h = Ok r.
Proof.
  intros n t0 h Hn. destruct (Rle_dec h 0) as [H|H].
  - apply (proj1 (c77_outcome sing_count n t0 h Hn H)). left. rewrite sing_count_exact by lia. lia.
  - unfold anasing. cbv zeta. destruct (Rle_dec h 0); [lra|].
    match goal with |- exists r, (_ <- hilbert ?X ;; _) = _ => destruct (hil_ok X) as [z ->] end; [|cbn [bind]; eauto].
    intros Q. apply (f_equal zlen) in Q. rewrite !zlen_map, arange_zlen in Q. unfold zlen in Q. cbn in Q. lia.
Qed.
(** Without points: division by zero for h <= 0, otherwise ValueError, in exact and in
    double precision. *)
Lemma sing_count_neg n : n < 0 -> sing_count n < 0.
Proof.
  intros Hn. unfold sing_count. assert (HN : (IZR n <= -1)%R) by (apply IZR_le; lia).
  replace ((1 / 2 - 1 / IZR n) / (1 / IZR n))%R with (IZR n / 2 - 1)%R by (field; lra).
  rewrite Ztrunc_ceil by lra. apply (Z.le_lt_trans _ (-1)); [|lia]. apply Zceil_glb. lra.
Qed.
Lemma sing_count64_neg n : n < 0 -> sing_count64 n < 0.
Proof.
  intros Hn. unfold sing_count64. cbv zeta. assert (HN : (IZR n <= -1)%R) by (apply IZR_le; lia).
  assert (VE : Valid_exp (FLX_exp 53)) by (apply FLX_exp_valid; reflexivity).
  set (s := b64 (1 / IZR n)).
  assert (S1 : (1 / IZR n < 0)%R) by (apply Rmult_lt_reg_r with (- IZR n)%R; [lra|]; replace (1 / IZR n * - IZR n)%R with (-1)%R by (field; lra); lra).
  assert (S0 : (s < 0)%R).
  { destruct (Rlt_le_dec s 0) as [|Q]; [assumption|]. exfalso. assert (W : (s <= 0)%R) by (unfold s, b64; apply round_le_generic; [auto|apply valid_rnd_N|apply generic_format_0|lra]).
    assert (Z0 : s = 0%R) by lra. assert (NQ : (1 / IZR n)%R <> 0%R) by lra. assert (PQ : Prec_gt_0 53) by reflexivity. exact (round_neq_0_negligible_exp radix2 (FLX_exp 53) (negligible_exp_FLX 53) ZnearestE (1 / IZR n)%R NQ Z0). }
  assert (T1 : (- s <= b64 (1 / 2 - s))%R).
  { unfold b64. apply round_ge_generic; [auto|apply valid_rnd_N| |lra]. apply generic_format_opp. unfold s, b64. apply generic_format_round; [auto|apply valid_rnd_N]. }
  assert (Q1 : (b64 (1 / 2 - s) / s <= -1)%R).
  { apply Rmult_le_reg_r with (- s)%R; [lra|]. replace (b64 (1 / 2 - s) / s * - s)%R with (- b64 (1 / 2 - s))%R by (field; lra). lra. }
  assert (B1 : (b64 (b64 (1 / 2 - s) / s) <= -1)%R).
  { unfold b64 at 1. apply round_le_generic; [auto|apply valid_rnd_N| |exact Q1].  replace (-1)%R with (- (1))%R by lra. apply generic_format_opp. replace 1%R with (bpow radix2 0) by reflexivity. apply generic_format_bpow. unfold FLX_exp. lia. }
  rewrite Ztrunc_ceil by lra. apply (Z.le_lt_trans _ (-1)); [|lia]. now apply Zceil_glb.
Qed.
Lemma c77_no_points : forall count n t0 h, count = sing_count \/ count = sing_count64 -> n <= 0 ->
  anasing count n t0 h = Raise (if (if Rle_dec h 0 then n =? 0 else false) then ZeroDivisionError else ValueError).
Proof.
  intros count n t0 h HC Hn. unfold anasing. destruct (Rle_dec h 0).
  - destruct (Z.eqb_spec n 0); [reflexivity|]. assert (Q : count n < 0) by (destruct HC as [->| ->]; [apply sing_count_neg|apply sing_count64_neg]; lia).
    destruct (Z.ltb_spec (count n) 0); [reflexivity|lia].
  - rewrite arange_empty by lia. reflexivity.
Qed.
(** Double precision: powers of two work, 40 raises. *)
Lemma c77_pow2 : forall k t0 h, 0 <= k <= 53 -> (h <= 0)%R -> exists r, anasing sing_count64 (2 ^ k) t0 h = Ok r.
Proof.
  intros k t0 h Hk Hh. assert (HP : 0 < 2 ^ k) by (apply Z.pow_pos_nonneg; lia). apply (proj1 (c77_outcome sing_count64 (2 ^ k) t0 h HP Hh)). left.
  assert (EB : IZR (2 ^ k) = bpow radix2 k) by (apply (IZR_Zpower radix2); lia).
  assert (ES : b64 (1 / IZR (2 ^ k)) = bpow radix2 (- k)).
  { rewrite EB. replace (1 / bpow radix2 k)%R with (1 * bpow radix2 (- k))%R by (rewrite bpow_opp; unfold Rdiv; ring). rewrite (b64_repr 1) by (cbn; lia). ring. }
  unfold sing_count64. cbv zeta. rewrite ES.
  assert (P0 : (0 < bpow radix2 (- k))%R) by apply bpow_gt_0.
  destruct (Z.eq_dec k 0) as [->|N0].
  - cbn [Z.opp bpow]. replace (1 / 2 - 1)%R with (IZR (-1) * bpow radix2 (-1))%R by (cbn; lra). rewrite b64_repr by (cbn; lia).
    replace (IZR (-1) * bpow radix2 (-1) / 1)%R with (IZR (-1) * bpow radix2 (-1))%R by field. rewrite b64_repr by (cbn; lia).
    replace (IZR (-1) * bpow radix2 (-1))%R with (- (1 / 2))%R by (cbn; lra). rewrite Ztrunc_opp, Ztrunc_floor by lra. rewrite (Zfloor_imp 0); [reflexivity|]. cbn. lra.
  - assert (PB : 0 < 2 ^ (k - 1) <= 2 ^ 52) by (split; [apply Z.pow_pos_nonneg; lia|apply Z.pow_le_mono_r; lia]).
    assert (E2 : 2 ^ k = 2 * 2 ^ (k - 1)) by (rewrite <- Z.pow_succ_r by lia; f_equal; lia).
    assert (EST : (1 / 2 - bpow radix2 (- k) = IZR (2 ^ (k - 1) - 1) * bpow radix2 (- k))%R).
    { rewrite minus_IZR. replace (IZR (2 ^ (k - 1))) with (bpow radix2 (k - 1)) by (symmetry; apply (IZR_Zpower radix2); lia).
      rewrite Rmult_minus_distr_r, <- bpow_plus. replace (k - 1 + - k) with (-1) by lia. cbn. lra. }
    rewrite EST, b64_repr by lia. replace (IZR (2 ^ (k - 1) - 1) * bpow radix2 (- k) / bpow radix2 (- k))%R with (IZR (2 ^ (k - 1) - 1)) by (field; lra).
    rewrite b64_int by lia. rewrite Ztrunc_IZR. rewrite E2, Z.mul_comm, Z.div_mul by lia. lia.
Qed.
Lemma sing_count64_40 : sing_count64 40 = 18.
Proof.
  unfold sing_count64. cbv zeta.
  assert (E1 : b64 (1 / 40) = (7205759403792794 * bpow radix2 (-58))%R).
  { rewrite (b64_round (1 / 40) (-5) 7205759403792794); [reflexivity|cbn; lra|]. cbn. apply Rabs_def1; lra. }
  rewrite E1. assert (E2 : b64 (1 / 2 - 7205759403792794 * bpow radix2 (-58)) = (8556839292003942 * bpow radix2 (-54))%R).
  { rewrite (b64_round _ (-1) 8556839292003942); [reflexivity|cbn; lra|]. cbn. apply Rabs_def1; lra. }
  rewrite E2. assert (E3 : b64 (8556839292003942 * bpow radix2 (-54) / (7205759403792794 * bpow radix2 (-58))) = (5348024557502463 * bpow radix2 (-48))%R).
  { assert (EQ : (8556839292003942 * bpow radix2 (-54) / (7205759403792794 * bpow radix2 (-58)) = 8556839292003942 * 16 / 7205759403792794)%R) by (cbn; field).
    rewrite EQ, (b64_round _ 5 5348024557502463); [reflexivity|cbn; lra|]. cbn. apply Rabs_def1; lra. }
  rewrite E3, Ztrunc_floor by (cbn; lra). apply Zfloor_imp. cbn. lra.
Qed.
Lemma c77_binary64_refuted : exists n, 0 < n /\ forall t0 h, (h <= 0)%R -> anasing sing_count64 n t0 h = Raise ValueError.
Proof.
  exists 40. split; [lia|]. intros t0 h Hh. apply (proj2 (c77_outcome sing_count64 40 t0 h ltac:(lia) Hh)). rewrite sing_count64_40. unfold sing_fits. cbn. lia.
Qed.
(** Whenever samples are returned there are n of them and their real part is
    non-negative and touches 0. *)
Lemma hil_zlen x y : hilbert x = Ok y -> zlen y = zlen x.
Proof. intros H. now apply hil_spectrum in H. Qed.
Lemma c77_real_part : forall count n t0 h y, 0 < n -> anasing count n t0 h = Ok (Some y) ->
  zlen y = n /\ (forall v, In v (map Re y) -> (0 <= v)%R) /\ In 0%R (map Re y).
Proof.
  intros count n t0 h y Hn H. unfold anasing in H. cbv zeta in H. set (t := match t0 with Some t => t | None => _ end) in H. destruct (Rle_dec h 0).
  - destruct (n =? 0); [discriminate|]. destruct (count n <? 0); [discriminate|]. match type of H with (_ <- ?X ;; _) = _ => destruct X as [v|] end; cbn [bind] in H; [|discriminate].
    set (y0 := prefix _ n) in H. assert (Ly : zlen y0 = n). { unfold y0, prefix, zlen. rewrite firstn_length. cbn [length]. rewrite app_length, repeat_length. lia. }
    destruct (Req_EM_T _ 0); [discriminate|]. set (x := map (fun a => (a / _)%R) _) in H.
    match type of H with (_ <- ?X ;; _) = _ => destruct X as [z|] eqn:EH end; cbn [bind] in H; [|discriminate]. injection H as <-.
    assert (Lx : zlen x = n) by (unfold x; now rewrite !zlen_map, ifft_zlen). assert (NX : x <> []) by (intros Q; rewrite Q in Lx; unfold zlen in Lx; cbn in Lx; lia).
    split; [rewrite (hil_zlen _ _ EH); now rewrite zlen_map|]. rewrite (hil_real _ _ EH). destruct (rminl_spec x NX) as [M1 M2]. split.
    + intros v' Hv. apply in_map_iff in Hv. destruct Hv as (a & <- & Ha). rewrite rsign_abs. specialize (M2 a Ha). lra.
    + apply in_map_iff. exists (rminl x). split; [rewrite rsign_abs; ring|auto].
  - set (x := map _ (arange 0 n)) in H. match type of H with (_ <- ?X ;; _) = _ => destruct X as [z|] eqn:EH end; cbn [bind] in H; [|discriminate]. injection H as <-.
    assert (Lx : zlen x = n) by (unfold x; rewrite zlen_map_arange; lia). assert (NX : x <> []) by (intros Q; rewrite Q in Lx; unfold zlen in Lx; cbn in Lx; lia).
    split; [rewrite (hil_zlen _ _ EH); now rewrite zlen_map|]. rewrite (hil_real _ _ EH). destruct (rmaxl_spec x NX) as [M1 M2]. split.
    + intros v' Hv. apply in_map_iff in Hv. destruct Hv as (a & <- & Ha). specialize (M2 a Ha). lra.
    + apply in_map_iff. exists (rmaxl x). split; [ring|auto].
Qed.
(** h <= 0, even length, as many frequencies as the spectrum has places: a sum
    of cosines with weights f^(-1-h), divided by its maximum and raised to
    touch 0. *)
Definition sing_wave (m : Z) (t h : R) (s : Z) : R :=
  rsum (arange 1 m) (fun k => Rpower (IZR k / IZR (2 * m)) (-1 - h) * cos (2 * PI * IZR k * (IZR s - (t - 1)) / IZR (2 * m)))%R.
Lemma linspace1_even m : 2 <= m -> linspace1 (1 / IZR (2 * m)) (1 / 2 - 1 / IZR (2 * m)) (m - 1) = map (fun j => IZR (j + 1) / IZR (2 * m))%R (arange 0 (m - 1)).
Proof.
  intros Hm. assert (NZ : IZR m <> 0%R) by (apply not_0_IZR; lia). unfold linspace1. destruct (Z.eqb_spec (m - 1) 1) as [E|E].
  - rewrite E. change (arange 0 1) with [0]. cbn [map]. reflexivity.
  - unfold linspace. apply map_ext. intros j. rewrite plus_IZR, !mult_IZR. replace (m - 1 - 1) with (m - 2) by ring. rewrite minus_IZR. assert (IZR m - 2 <> 0)%R by (rewrite <- minus_IZR; apply not_0_IZR; lia). field. auto.
Qed.
Lemma nth_pre {A} (l : list A) n k d : (k < Z.to_nat n)%nat -> nth k (prefix l n) d = nth k l d.
Proof. unfold prefix. generalize (Z.to_nat n) as j. revert l. induction k as [|k IH]; intros [|a l] [|j] H; cbn; try lia; auto. apply IH. lia. Qed.
Lemma sing_spectrum m t h : 2 <= m ->
  let v := map (fun a => RtoC (Rpower a (-1 - h)) * cis (- (2 * PI * a * (t - 1))))%C (map (fun j => IZR (j + 1) / IZR (2 * m))%R (arange 0 (m - 1))) in
  map Re (ifft (prefix (RtoC 0 :: v ++ repeat (RtoC 0) (Z.to_nat (2 * m))) (2 * m))) = map (fun s => sing_wave m t h s / IZR (2 * m))%R (arange 0 (2 * m)) /\
  rsum (arange 0 (2 * m)) (sing_wave m t h) = 0%R.
Proof.
  intros Hm v. set (y := prefix _ _). assert (LV : zlen v = m - 1) by (unfold v; rewrite !zlen_map, arange_zlen; lia).
  assert (Ly : zlen y = 2 * m). { unfold y, prefix, zlen. rewrite firstn_length. cbn [length]. rewrite app_length, repeat_length. lia. }
  assert (NZ : IZR (2 * m) <> 0%R) by (apply not_0_IZR; lia).
  assert (Y0 : cnth y 0 = RtoC 0). { unfold y, cnth, prefix. replace (Z.to_nat (2 * m)) with (S (Z.to_nat (2 * m - 1))) by lia. reflexivity. }
  assert (YV : forall k, 1 <= k < m -> cnth y k = (RtoC (Rpower (IZR k / IZR (2 * m)) (-1 - h)) * cis (- (2 * PI * (IZR k / IZR (2 * m)) * (t - 1))))%C).
  { intros k Hk. unfold y, cnth. rewrite nth_pre by lia. replace (Z.to_nat k) with (S (Z.to_nat (k - 1))) by lia. cbn [nth]. rewrite app_nth1 by (unfold zlen in LV; lia). unfold v. rewrite map_map. rewrite nth_map_arange by lia. rewrite Z.add_0_l. replace (k - 1 + 1) with k by ring. reflexivity. }
  assert (YZ : forall k, m <= k < 2 * m -> cnth y k = RtoC 0).
  { intros k Hk. unfold y, cnth. rewrite nth_pre by lia. replace (Z.to_nat k) with (S (Z.to_nat (k - 1))) by lia. cbn [nth]. rewrite app_nth2 by (unfold zlen in LV; lia). apply nth_repeat. }
  assert (XS : forall s, 0 <= s < 2 * m -> Re (cnth (ifft y) s) = (sing_wave m t h s / IZR (2 * m))%R).
  { intros s Hs. rewrite ifft_nth by lia. rewrite Ly. rewrite <- RtoC_inv by exact NZ. rewrite Re_scal, Re_csum. unfold Rdiv at 1. rewrite Rmult_comm. f_equal. rewrite (arange_app 0 m (2 * m)) by lia. rewrite rsum_app. rewrite (rsum_0 (arange m (2 * m))). 2:{ intros k Hk. apply in_arange in Hk. rewrite YZ by lia. rewrite Cmult_0_l. reflexivity. }
    rewrite Rplus_0_r. rewrite (arange_cons 0 m) by lia. rewrite rsum_cons. rewrite Y0, Cmult_0_l. cbn [Re fst RtoC]. rewrite Rplus_0_l. apply rsum_ext. intros k Hk. apply in_arange in Hk. rewrite YV by lia. rewrite <- Cmult_assoc. unfold root. rewrite <- cis_plus. rewrite Re_scal. f_equal. cbn [cis Re fst]. f_equal. rewrite (mult_IZR k s). field. exact NZ. }
  split.
  - rewrite (list_as_map (ifft y)), ifft_zlen, Ly, map_map. apply map_ext_in. intros s Hs. apply in_arange in Hs. apply XS. lia.
  - assert (F0 := fft_nth (ifft y) 0 ltac:(rewrite ifft_zlen; lia)). rewrite fft_ifft, Y0, ifft_zlen, Ly in F0. apply (f_equal Re) in F0. rewrite Re_csum in F0. cbn [Re fst RtoC] in F0.
    rewrite (rsum_ext _ _ (fun s => sing_wave m t h s * / IZR (2 * m))%R) in F0. 2:{ intros s Hs. apply in_arange in Hs. replace (- (0 * s)) with 0 by ring. rewrite root_0, Cmult_1_r. apply XS. lia. }
    rewrite rsum_scal_r in F0. symmetry in F0. apply Rmult_integral in F0. destruct F0 as [F0|F0]; [exact F0|]. exfalso. revert F0. apply Rinv_neq_0_compat, NZ.
Qed.
Lemma c77_cosines : forall count m t h y, 2 <= m -> count (2 * m) = m - 1 -> (h <= 0)%R -> anasing count (2 * m) (Some t) h = Ok (Some y) ->
  let g s := rsum (arange 1 m) (fun k => Rpower (IZR k / IZR (2 * m)) (-1 - h) * cos (2 * PI * IZR k * (IZR s - (t - 1)) / IZR (2 * m)))%R in
  exists i j, 0 <= i < 2 * m /\ 0 <= j < 2 * m /\ (0 < g i)%R /\ (forall s, 0 <= s < 2 * m -> (g j <= g s <= g i)%R) /\
  forall s, 0 <= s < 2 * m -> rnth (map Re y) s = ((g s - g j) / g i)%R.
Proof.
  intros count m t h y Hm HC Hh H g. change g with (sing_wave m t h). clear g. set (g := sing_wave m t h).
  assert (NP : (0 < IZR (2 * m))%R) by (apply IZR_lt; lia). unfold anasing in H. cbv zeta in H.
  destruct (Rle_dec h 0); [|lra]. destruct (Z.eqb_spec (2 * m) 0); [lia|]. rewrite HC in H. destruct (Z.ltb_spec (m - 1) 0); [lia|]. rewrite linspace1_even in H by lia.
  set (v := map _ (map _ _)) in H.
  assert (LV : zlen v = m - 1) by (unfold v; rewrite !zlen_map, arange_zlen; lia). rewrite LV in H.
  assert (HD : 2 * m / 2 = m) by (rewrite Z.mul_comm; apply Z.div_mul; lia). rewrite HD in H. rewrite (Z.max_r 0 (m - 1)) in H by lia. rewrite Z.eqb_refl in H. cbn [bind] in H.
  destruct (sing_spectrum m t h Hm) as [ES S0]. fold v in ES. rewrite ES in H. fold g in H, S0. set (X := map _ (arange 0 (2 * m))) in H.
  assert (LX : zlen X = 2 * m) by (unfold X; rewrite zlen_map_arange; lia).
  assert (NX : X <> []) by (intros Q; rewrite Q in LX; change (zlen (@nil R)) with 0 in LX; lia).
  destruct (Req_EM_T (rmaxl X) 0) as [|HX]; [discriminate|].
  destruct (rmaxl_spec X NX) as [M1 M2].
  assert (IX := M1). unfold X in IX at 2. apply in_map_iff in IX.
  destruct IX as (i & Ei & Hi). apply in_arange in Hi.
  assert (XG : forall s, 0 <= s < 2 * m -> In (g s / IZR (2 * m))%R X) by (intros s Hs; unfold X; apply in_map_iff; exists s; split; [reflexivity|apply in_arange; lia]).
  assert (GI : forall s, 0 <= s < 2 * m -> (g s <= g i)%R). { intros s Hs.
  assert (Q := M2 _ (XG s Hs)). rewrite <- Ei in Q. apply (Rmult_le_reg_r (/ IZR (2 * m))); [now apply Rinv_0_lt_compat|exact Q]. }
  assert (GP : (0 < g i)%R). { destruct (Rlt_le_dec 0 (g i)) as [|Q]; [assumption|]. exfalso.
  assert (G0 : g i <> 0%R) by (intros Z; apply HX; rewrite <- Ei, Z; unfold Rdiv; ring).
    assert (SN : (0 < rsum (arange 0 (2 * m)) (fun s => - g s))%R). { apply rsum_pos; [|exists i; split; [apply in_arange; lia|lra]]. intros s Hs. apply in_arange in Hs.
  assert (W := GI s ltac:(lia)). lra. } rewrite rsum_opp in SN. lra. }
  set (top := rmaxl X) in *. set (x := map (fun a => a / top)%R X) in H.
  assert (NXx : x <> []) by (unfold x; destruct X; [easy|discriminate]).
  destruct (rminl_spec x NXx) as [M3 M4].
  assert (IX := M3). unfold x in IX at 2. unfold X in IX. rewrite map_map in IX. apply in_map_iff in IX.
  destruct IX as (j & Ej & Hj). apply in_arange in Hj.
  assert (QT : forall s, (g s / IZR (2 * m) / top = g s / g i)%R) by (intros s; rewrite <- Ei; field; split; lra).
  exists i, j. split; [lia|]. split; [lia|]. split; [exact GP|]. split.
  - intros s Hs. split; [|apply GI; lia].
  assert (Q : In (g s / IZR (2 * m) / top)%R x) by (unfold x; apply in_map_iff; eexists; split; [reflexivity|apply XG; lia]). apply M4 in Q. rewrite <- Ej, !QT in Q. apply (Rmult_le_reg_r (/ g i)); [now apply Rinv_0_lt_compat|exact Q].
  - intros s Hs. match type of H with (_ <- ?Y ;; _) = _ => destruct Y as [z|] eqn:EH end; cbn [bind] in H; [|discriminate]. injection H as <-. rewrite (hil_real _ _ EH). rewrite rsign_abs, <- Ej, QT. unfold x, X. rewrite !map_map. rewrite rnth_map_arange by lia. rewrite Z.add_0_l, QT. unfold Rdiv. ring.
Qed.
(** h > 0: the cusp max - |k - t0|^h, largest at the sample nearest to t0. *)
Lemma c77_cusp : forall count n t h y, 0 < n -> (0 < h)%R -> anasing count n (Some t) h = Ok (Some y) ->
  exists M, (forall k, 0 <= k < n -> rnth (map Re y) k = (M - rpow0 (Rabs (IZR k - t)) h)%R) /\
  forall j k, 0 <= j < n -> 0 <= k < n -> (Rabs (IZR k - t) <= Rabs (IZR j - t))%R -> (rnth (map Re y) j <= rnth (map Re y) k)%R.
Proof.
  intros count n t h y Hn Hh H. unfold anasing in H. cbv zeta in H. destruct (Rle_dec h 0); [lra|]. set (x := map _ (arange 0 n)) in H.
  match type of H with (_ <- ?X ;; _) = _ => destruct X as [z|] eqn:EH end; cbn [bind] in H; [|discriminate]. injection H as <-. rewrite (hil_real _ _ EH).
  assert (V : forall k, 0 <= k < n -> rnth (map (fun a => (rmaxl x - a)%R) x) k = (rmaxl x - rpow0 (Rabs (IZR k - t)) h)%R).
  { intros k Hk. unfold x at 2. rewrite map_map, rnth_map_arange by lia. now rewrite Z.add_0_l. }
  exists (rmaxl x). split; [exact V|]. intros j k Hj Hk Hd. rewrite !V by auto. apply Rplus_le_compat_l, Ropp_le_contravar.
  unfold rpow0. assert (P := Rabs_pos (IZR k - t)). destruct (Req_EM_T (Rabs (IZR k - t)) 0) as [E|E].
  - destruct (Req_EM_T (Rabs (IZR j - t)) 0); [lra|]. left. apply exp_pos.
  - destruct (Req_EM_T (Rabs (IZR j - t)) 0); [lra|]. apply Rle_Rpower_l; lra.
Qed.
Example c77_example : exists y, anasing sing_count64 2 (Some 0%R) 1 = Ok (Some y) /\ map Re y = [1; 0]%R.
Proof.
  unfold anasing. cbv zeta. destruct (Rle_dec 1 0); [lra|]. change (arange 0 2) with [0; 1]. cbn [map].
  replace (rpow0 (Rabs (0 - 0)) 1) with 0%R by (unfold rpow0; rewrite Rminus_0_r, Rabs_R0; destruct (Req_EM_T 0 0); lra).
  replace (rpow0 (Rabs (1 - 0)) 1) with 1%R by (unfold rpow0; rewrite Rminus_0_r, Rabs_R1; destruct (Req_EM_T 1 0); [lra|]; rewrite Rpower_1; lra).
  match goal with |- exists y, (_ <- hilbert ?X ;; _) = _ /\ _ => destruct (hil_ok X) as [z E]; [discriminate|] end. rewrite E. cbn [bind]. exists z. split; [reflexivity|].
  rewrite (hil_real _ _ E). cbn [rmaxl]. rewrite Rmax_right by lra. f_equal; [ring|]. f_equal. ring.
Qed.
