(** C63: doppler for a zero sampling frequency or wave speed. *)
From Coq Require Import Reals ZArith List Lia Lra Bool.
From Coquelicot Require Import Coquelicot.
From Flocq Require Import Core.
From Verif Require Import Py Scalars CSum DFT Spec M_base M_utils M_putils M_dom M_gen1 M_gen2 M_gen3 M_over M_ext P_base T_putils T_dom T_gen1 T_gen2 T_hil T_key T_misc.
Import ListNotations.
Local Open Scope Z_scope.

Lemma c63_raises_x : forall n sf f0 dist v t c, ~ doppler_valid n sf f0 dist v t -> doppler_x n sf f0 dist v (Some t) c = Raise TypeError.
Proof.
  intros n sf f0 dist v t c H. unfold doppler_x. repeat match goal with |- (if ?b then _ else _) = _ => destruct b; [reflexivity|] end.
  exfalso. apply H. unfold doppler_valid. lra.
Qed.
Lemma c63_default_x : forall n sf f0 dist v c, doppler_x n sf f0 dist v None c = doppler_x n sf f0 dist v (Some (IZR n / 2)%R) c.
Proof. reflexivity. Qed.

Lemma doppler_x_ok n sf f0 dist v t c : doppler_valid n sf f0 dist v t ->
  doppler_x n sf f0 dist v (Some t) c =
  Ok (map (fun k => dop_fm f0 c (dop_t sf t (k + 1)) (dop_dist dist v (dop_t sf t (k + 1)))) (arange 0 n),
      if Rlt_dec (Rabs f0) (bpow radix2 (-52)) then None
      else Some (map (fun k => xquot (Fin 1) (xsqrt (dop_dist dist v (dop_t sf t (k + 1))))) (arange 0 n)),
      map (fun k => dop_law sf f0 v c (dop_t sf t (k + 1)) (dop_dist dist v (dop_t sf t (k + 1)))) (arange 0 n)).
Proof.
  intros (H1 & H2 & H3 & H4 & H5). unfold doppler_x. repeat match goal with |- (if ?b then _ else _) = _ => destruct b; [lra|] end. cbv zeta.
  replace (arange 1 (n + 1)) with (map (fun k => k + 1) (arange 0 n)) by (rewrite <- arange_shift; reflexivity). rewrite !map_map.
  rewrite (zipw_map (dop_fm f0 c)), (zipw_map (dop_law sf f0 v c)). reflexivity.
Qed.

Lemma xdiv_fin a b : b <> 0%R -> xdiv a b = Fin (a / b).
Proof. intros H. unfold xdiv. destruct (Req_EM_T b 0); [contradiction|reflexivity]. Qed.
Lemma xdiv_0 a : xdiv a 0 = if Req_EM_T a 0 then NaN else Inf (negb_of a).
Proof. unfold xdiv. destruct (Req_EM_T 0 0); [reflexivity|contradiction]. Qed.
Lemma dop_t_fin sf t k : (0 < sf)%R -> dop_t sf t k = Fin ((IZR k - t) / sf).
Proof. intros H. unfold dop_t, xquot. apply xdiv_fin. lra. Qed.
Lemma dop_dist_fin dist v u : (0 < dist)%R -> dop_dist dist v (Fin u) = Fin (sqrt (dist ^ 2 + (v * u) ^ 2)).
Proof.
  intros H. unfold dop_dist. cbn [xmul xadd xsqrt]. assert (Q := pow2_ge_0 (v * u)). assert (0 < dist ^ 2)%R by nra.
  replace (v * u * (v * u))%R with ((v * u) ^ 2)%R by ring. destruct (Rlt_dec _ _); [lra|reflexivity].
Qed.
Lemma dist_pos dist v u : (0 < dist)%R -> (0 < sqrt (dist ^ 2 + (v * u) ^ 2))%R.
Proof. intros H. apply sqrt_lt_R0. assert (Q := pow2_ge_0 (v * u)). assert (0 < dist ^ 2)%R by nra. lra. Qed.

Definition xcomplex (z : C) : xc := (Fin (Re z), Fin (Im z)).

(** Away from the zeros nothing is infinite and the two models agree. *)
Lemma c63_finite : forall n sf f0 dist v t c fm am law, doppler_valid n sf f0 dist v t -> (0 < sf)%R -> c <> 0%R ->
  doppler n sf f0 dist v (Some t) c = Ok (fm, am, law) ->
  doppler_x n sf f0 dist v (Some t) c = Ok (map xcomplex fm, option_map (map Fin) am, map Fin law).
Proof.
  intros n sf f0 dist v t c fm am law HV Hs Hc H. rewrite doppler_ok in H by auto. injection H as <- <- <-.
  rewrite doppler_x_ok by auto. destruct HV as (H1 & H2 & H3 & H4 & H5). rewrite !map_map.
  assert (E : forall k, dop_t sf t (k + 1) = Fin ((IZR k + 1 - t) / sf)) by (intros k; rewrite dop_t_fin by auto; now rewrite plus_IZR).
  f_equal. f_equal; [f_equal|].
  - apply map_ext. intros k. rewrite E, dop_dist_fin by auto. unfold dop_fm, xcomplex, dop_phase, dop_d.
    set (u := ((IZR k + 1 - t) / sf)%R). set (d := sqrt _). cbn [xquot]. rewrite xdiv_fin by auto.
    cbn [xsub xneg xadd xcmul fst snd xmul xcexp].
    replace (0 * (u + - (d / c)) + - (2 * PI * f0 * 0))%R with 0%R by ring. rewrite exp_0, !Rmult_1_l.
    replace (0 * 0 + 2 * PI * f0 * (u + - (d / c)))%R with (2 * PI * f0 * (u - d / c))%R by ring.
    reflexivity.
  - destruct (Rlt_dec _ _); [reflexivity|]. cbn [option_map]. f_equal. rewrite map_map. apply map_ext. intros k.
    rewrite E, dop_dist_fin by auto. unfold dop_d. set (u := ((IZR k + 1 - t) / sf)%R). assert (P := dist_pos dist v u H1).
    cbn [xsqrt]. destruct (Rlt_dec _ _); [lra|]. cbn [xquot]. rewrite xdiv_fin; [reflexivity|]. apply Rgt_not_eq, sqrt_lt_R0, P.
  - apply map_ext. intros k. rewrite E, dop_dist_fin by auto. unfold dop_law, dop_d.
    set (u := ((IZR k + 1 - t) / sf)%R). assert (P := dist_pos dist v u H1).
    cbn [xmul xquot]. rewrite xdiv_fin by lra. cbn [xquot]. rewrite xdiv_fin by auto. cbn [xsub xneg xadd xmul xquot].
    rewrite xdiv_fin by lra. f_equal.
Qed.

Lemma xquot_nan_r a : xquot a NaN = NaN.
Proof. destruct a; reflexivity. Qed.
Lemma xadd_nan_r a : xadd a NaN = NaN.
Proof. destruct a; reflexivity. Qed.
Lemma xmul_nan_r a : xmul a NaN = NaN.
Proof. destruct a; reflexivity. Qed.

(** Without a sampling frequency (f0 is then 0) every sample and every value of
    the law is NaN, and the amplitude is the number 0. *)
Lemma c63_no_sampling : forall n f0 dist v t c, doppler_valid n 0 f0 dist v t ->
  f0 = 0%R /\
  doppler_x n 0 f0 dist v (Some t) c = Ok (map (fun _ => (NaN, NaN)) (arange 0 n), None, map (fun _ => NaN) (arange 0 n)).
Proof.
  intros n f0 dist v t c HV. assert (F : f0 = 0%R) by (destruct HV as (_ & _ & _ & H & _); lra). split; [exact F|].
  rewrite doppler_x_ok by auto. destruct HV as (H1 & H2 & H3 & H4 & H5). subst f0. rewrite Rabs_R0.
  assert (T : forall k, dop_t 0 t k = NaN \/ exists s, dop_t 0 t k = Inf s).
  { intros k. unfold dop_t, xquot, xdiv. destruct (Req_EM_T 0 0); [|contradiction]. destruct (Req_EM_T (IZR k - t) 0); eauto. }
  assert (D : forall s, dop_dist dist v (Inf s) = NaN \/ dop_dist dist v (Inf s) = Inf false).
  { intros s. unfold dop_dist. cbn [xmul]. destruct (Req_EM_T v 0); [left; reflexivity|right]. cbn [xmul]. rewrite xorb_nilpotent. reflexivity. }
  destruct (Rlt_dec 0 (bpow radix2 (-52))) as [_|N]; [|exfalso; apply N, bpow_gt_0].
  f_equal. f_equal; [f_equal|].
  - apply map_ext. intros k. unfold dop_fm. rewrite Rmult_0_r. cbn [xcmul fst snd].
    assert (S : xsub (dop_t 0 t (k + 1)) (xquot (dop_dist dist v (dop_t 0 t (k + 1))) (Fin c)) = NaN \/
                exists s, xsub (dop_t 0 t (k + 1)) (xquot (dop_dist dist v (dop_t 0 t (k + 1))) (Fin c)) = Inf s).
    { destruct (T (k + 1)) as [-> |[s ->]]; [left; reflexivity|]. destruct (D s) as [-> | ->]; [left; reflexivity|].
      cbn [xquot xsub xneg xadd]. destruct (Bool.eqb _ _); eauto. }
    destruct S as [-> |[s ->]]; [reflexivity|]. unfold xcmul. cbn [fst snd xmul xsub xneg xadd].
    destruct (Req_EM_T 0 0); [|contradiction]. reflexivity.
  - apply map_ext. intros k. unfold dop_law.
    assert (S : xquot (xmul (Fin (v ^ 2)) (dop_t 0 t (k + 1))) (dop_dist dist v (dop_t 0 t (k + 1))) = NaN).
    { destruct (T (k + 1)) as [-> |[s ->]]; [reflexivity|]. destruct (D s) as [-> | ->]; [apply xquot_nan_r|].
      cbn [xmul]. destruct (Req_EM_T (v ^ 2) 0); reflexivity. }
    rewrite S. reflexivity.
Qed.

(** Without a wave speed every sample is NaN and the law infinite, away from t0. *)
Lemma c63_no_wave : forall n sf f0 dist v t, doppler_valid n sf f0 dist v t -> (0 < sf)%R ->
  exists fm am law, doppler_x n sf f0 dist v (Some t) 0 = Ok (fm, am, law) /\
  fm = map (fun _ => (NaN, NaN)) (arange 0 n) /\
  (am = None <-> (f0 < bpow radix2 (-52))%R) /\
  (forall a, am = Some a -> a = map (fun k => Fin (1 / sqrt (dop_d sf dist v t (IZR k + 1)))) (arange 0 n)) /\
  zlen law = n /\
  forall k, 0 <= k < n ->
    (f0 = 0%R \/ v = 0%R \/ IZR (k + 1) = t -> nth (Z.to_nat k) law (Fin 0) = NaN) /\
    (f0 <> 0%R -> v <> 0%R -> (IZR (k + 1) < t)%R -> nth (Z.to_nat k) law (Fin 0) = Inf false) /\
    (f0 <> 0%R -> v <> 0%R -> (t < IZR (k + 1))%R -> nth (Z.to_nat k) law (Fin 0) = Inf true).
Proof.
  intros n sf f0 dist v t HV Hs. rewrite doppler_x_ok by auto. destruct HV as (H1 & H2 & H3 & H4 & H5).
  assert (Hn : 0 <= n) by (apply le_IZR; lra).
  assert (Q : (Rabs f0 = f0)%R) by (apply Rabs_right; lra). rewrite Q.
  eexists _, _, _. split; [reflexivity|]. split.
  { apply map_ext. intros k. rewrite dop_t_fin, dop_dist_fin by auto. set (u := ((IZR (k + 1) - t) / sf)%R).
    assert (P := dist_pos dist v u H1). unfold dop_fm. cbn [xquot]. unfold xdiv.
    destruct (Req_EM_T 0 0); [|contradiction]. destruct (Req_EM_T _ 0); [lra|]. unfold negb_of. destruct (Rlt_dec _ 0); [lra|].
    unfold xcmul. cbn [xsub xneg xadd fst snd negb xmul]. destruct (Req_EM_T 0 0); [|contradiction]. cbn [xadd xneg].
    destruct (Req_EM_T (2 * PI * f0) 0); reflexivity. }
  split; [destruct (Rlt_dec f0 _); split; intros; try congruence; lra|].
  split.
  { intros a. destruct (Rlt_dec f0 _); [discriminate|]. intros [= <-]. apply map_ext. intros k.
    rewrite dop_t_fin, dop_dist_fin by auto. unfold dop_d. rewrite plus_IZR. set (u := ((IZR k + 1 - t) / sf)%R).
    assert (P := dist_pos dist v u H1). cbn [xsqrt]. destruct (Rlt_dec _ _); [lra|]. cbn [xquot].
    rewrite xdiv_fin; [reflexivity|]. apply Rgt_not_eq, sqrt_lt_R0, P. }
  split; [rewrite zlen_map_arange; lia|].
  intros k Hk. rewrite nth_map_arange by lia. rewrite Z.add_0_l. rewrite dop_t_fin, dop_dist_fin by auto.
  assert (U0 : IZR (k + 1) = t -> ((IZR (k + 1) - t) / sf = 0)%R) by (intros ->; unfold Rdiv; ring).
  assert (Un : (IZR (k + 1) < t)%R -> ((IZR (k + 1) - t) / sf < 0)%R).
  { intros L. unfold Rdiv. assert (I := Rinv_0_lt_compat sf Hs). nra. }
  assert (Up : (t < IZR (k + 1))%R -> (0 < (IZR (k + 1) - t) / sf)%R).
  { intros L. unfold Rdiv. assert (I := Rinv_0_lt_compat sf Hs). nra. }
  set (u := ((IZR (k + 1) - t) / sf)%R) in *. assert (P := dist_pos dist v u H1). set (d := sqrt _) in *.
  assert (I := Rinv_0_lt_compat d P).
  unfold dop_law. cbn [xmul xquot]. rewrite xdiv_fin by lra. cbn [xquot]. rewrite xdiv_0.
  split; [|split].
  - intros H. destruct (Req_EM_T (v ^ 2 * u / d) 0) as [Z0|Z0]; [reflexivity|].
    destruct H as [-> |[-> |H]].
    + cbn [xsub xneg xadd xmul]. destruct (Req_EM_T 0 0); [|contradiction]. reflexivity.
    + exfalso. apply Z0. unfold Rdiv. ring.
    + exfalso. apply Z0. rewrite (U0 H). unfold Rdiv. ring.
  - intros Hf Hv L. specialize (Un L). assert (V : (0 < v ^ 2)%R) by nra.
    assert (N : (v ^ 2 * u / d < 0)%R) by (unfold Rdiv; assert (v ^ 2 * u < 0)%R by nra; nra).
    destruct (Req_EM_T _ 0); [lra|]. unfold negb_of at 1. destruct (Rlt_dec _ 0); [|lra].
    cbn [xsub xneg xadd negb xmul]. destruct (Req_EM_T f0 0); [contradiction|]. cbn [xquot].
    unfold negb_of. destruct (Rlt_dec f0 0); [lra|]. destruct (Rlt_dec sf 0); [lra|]. reflexivity.
  - intros Hf Hv L. specialize (Up L). assert (V : (0 < v ^ 2)%R) by nra.
    assert (N : (0 < v ^ 2 * u / d)%R) by (unfold Rdiv; assert (0 < v ^ 2 * u)%R by nra; nra).
    destruct (Req_EM_T _ 0); [lra|]. unfold negb_of at 1. destruct (Rlt_dec _ 0); [lra|].
    cbn [xsub xneg xadd negb xmul]. destruct (Req_EM_T f0 0); [contradiction|]. cbn [xquot].
    unfold negb_of. destruct (Rlt_dec f0 0); [lra|]. destruct (Rlt_dec sf 0); [lra|]. reflexivity.
Qed.

Example c63_no_wave_example : exists fm am law, doppler_x 3 4 1 1 1 (Some 2%R) 0 = Ok (fm, am, law) /\ law = [Inf false; NaN; Inf true].
Proof.
  assert (V : doppler_valid 3 4 1 1 1 2) by (unfold doppler_valid; lra).
  destruct (c63_no_wave 3 4 1 1 1 2 V ltac:(lra)) as (fm & am & law & E & _ & _ & _ & L & K).
  exists fm, am, law. split; [exact E|].
  destruct law as [|a [|b [|d [|e law]]]]; try (exfalso; unfold zlen in L; cbn [length] in L; lia).
  destruct (K 0 ltac:(lia)) as (_ & A & _). destruct (K 1 ltac:(lia)) as (B & _ & _). destruct (K 2 ltac:(lia)) as (_ & _ & D).
  change (nth (Z.to_nat 0) [a; b; d] (Fin 0)) with a in A. change (nth (Z.to_nat 1) [a; b; d] (Fin 0)) with b in B. change (nth (Z.to_nat 2) [a; b; d] (Fin 0)) with d in D. cbn in A, B, D. rewrite A, B, D by (try (right; right); lra). reflexivity.
Qed.
