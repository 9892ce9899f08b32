(** The range of double precision: what the limits of M_over are, in terms of rounding
    to nearest even in Flocq's binary64 format. *)
From Coq Require Import Reals ZArith List Lia Lra Bool.
From Coquelicot Require Import Coquelicot.
From Flocq Require Import Core.
From Verif Require Import Py Scalars CSum DFT M_base Spec P_base M_utils M_putils M_dom T_dom T_utils M_gen1 T_gen1 M_gen2 M_gen3 M_over T_misc2 T_over.
Import ListNotations.
Local Open Scope Z_scope.

Lemma near_odd K m : Z.even K = false -> (IZR K <= m < IZR K + 1)%R -> (IZR K + 1 / 2 <= m)%R <-> ZnearestE m = K + 1.
Proof.
  intros HK Hm. assert (F : Zfloor m = K) by (apply Zfloor_imp; rewrite plus_IZR; exact Hm).
  unfold ZnearestE, Znearest. rewrite F, HK. cbn [negb].
  destruct (Rcompare_spec (m - IZR K) (/ 2)) as [L|L|L].
  - split; [lra|lia].
  - split; [intros _|lra]. assert (NE : IZR (Zfloor m) <> m) by (rewrite F; lra). rewrite (Zceil_floor_neq m NE), F. lia.
  - split; [intros _|lra]. assert (NE : IZR (Zfloor m) <> m) by (rewrite F; lra). rewrite (Zceil_floor_neq m NE), F. lia.
Qed.
Lemma near_zero m : (0 <= m < 1)%R -> (m <= 1 / 2)%R <-> ZnearestE m = 0.
Proof.
  intros Hm. assert (F : Zfloor m = 0) by (apply Zfloor_imp; exact Hm).
  unfold ZnearestE, Znearest. rewrite F. cbn [Z.even negb].
  destruct (Rcompare_spec (m - 0) (/ 2)) as [L|L|L]; [split; [reflexivity|lra]|split; [reflexivity|lra]|].
  split; [lra|]. assert (NE : IZR (Zfloor m) <> m) by (rewrite F; lra). rewrite (Zceil_floor_neq m NE), F. lia.
Qed.

Lemma c127_limits : forall v, (0 <= v)%R -> let rd := round radix2 (FLT_exp (-1074) 53) ZnearestE in
  ((huge <= v)%R <-> (bpow radix2 1024 <= rd v)%R) /\ ((v <= tiny)%R <-> rd v = 0%R).
Proof.
  intros v Hv rd. assert (VE : Valid_exp (FLT_exp (-1074) 53)) by (apply FLT_exp_valid; unfold Prec_gt_0; lia).
  assert (VR : Valid_rnd ZnearestE) by apply valid_rnd_N.
  assert (GB : forall e, -1074 <= e -> rd (bpow radix2 e) = bpow radix2 e).
  { intros e He. apply round_generic; auto. apply generic_format_bpow. unfold FLT_exp. lia. }
  assert (ME : forall a b, (a <= b)%R -> (rd a <= rd b)%R) by (intros a b Hab; now apply round_le).
  split.
  - assert (B1024 : bpow radix2 1024 = (2 * bpow radix2 1023)%R) by (change (bpow radix2 1024) with (bpow radix2 (1 + 1023)); rewrite bpow_plus; reflexivity).
    assert (B1023 : (bpow radix2 970 < bpow radix2 1023)%R) by (apply bpow_lt; lia).
    destruct (Rle_lt_dec (bpow radix2 1024) v) as [L|L].
    { split; intros _; [rewrite <- (GB 1024) by lia; now apply ME|]. unfold huge. assert (A := bpow_gt_0 radix2 970). lra. }
    destruct (Rlt_le_dec v (bpow radix2 1023)) as [L'|L'].
    { split; intros Q; exfalso; [unfold huge in Q; lra|]. assert (A := ME v (bpow radix2 1023) ltac:(lra)). rewrite GB in A by lia. assert (P := bpow_gt_0 radix2 1023). lra. }
    assert (MG : (mag radix2 v : Z) = 1024). { apply mag_unique. rewrite Rabs_pos_eq by lra. change (1024 - 1) with 1023. lra. }
    assert (CE : cexp radix2 (FLT_exp (-1074) 53) v = 971) by (unfold cexp, FLT_exp; rewrite MG; lia).
    assert (RD : rd v = (IZR (ZnearestE (v * bpow radix2 (-971))) * bpow radix2 971)%R) by (unfold rd, round, F2R, scaled_mantissa; cbn [Fnum Fexp]; rewrite CE; reflexivity).
    set (m := (v * bpow radix2 (-971))%R) in *. assert (P971 := bpow_gt_0 radix2 971).
    assert (II : (bpow radix2 971 * bpow radix2 (-971) = 1)%R) by (rewrite <- bpow_plus; reflexivity).
    assert (VM : v = (m * bpow radix2 971)%R) by (unfold m; rewrite Rmult_assoc, (Rmult_comm (bpow radix2 (-971))), II; ring).
    assert (E1 : bpow radix2 1024 = (IZR (2 ^ 53) * bpow radix2 971)%R) by (change (bpow radix2 1024) with (bpow radix2 (53 + 971)); rewrite bpow_plus; reflexivity).
    assert (E2 : (bpow radix2 970 = 1 / 2 * bpow radix2 971)%R) by (change (bpow radix2 971) with (bpow radix2 (1 + 970)); rewrite bpow_plus; change (bpow radix2 1) with 2%R; field).
    set (K := 2 ^ 53 - 1). assert (EK : IZR (2 ^ 53) = (IZR K + 1)%R) by (unfold K; rewrite <- plus_IZR; f_equal).
    assert (MU : (m < IZR K + 1)%R). { apply Rmult_lt_reg_r with (bpow radix2 971); auto. rewrite <- VM, <- EK, <- E1. exact L. }
    assert (HH : (huge <= v)%R <-> (IZR K + 1 / 2 <= m)%R).
    { unfold huge. rewrite E1, E2, EK. split; intros Q.
      - apply Rmult_le_reg_r with (bpow radix2 971); auto. rewrite <- VM. lra.
      - rewrite VM. apply Rle_trans with ((IZR K + 1 / 2) * bpow radix2 971)%R; [lra|]. apply Rmult_le_compat_r; lra. }
    rewrite HH, RD, E1.
    destruct (Rle_lt_dec (IZR K) m) as [LK|LK].
    + rewrite (near_odd K m eq_refl ltac:(lra)). split.
      * intros ->. rewrite EK, plus_IZR. lra.
      * intros Q. apply Rmult_le_reg_r in Q; auto. apply le_IZR in Q. assert (A : ZnearestE m <= K + 1). { apply le_IZR. assert (B := Zrnd_le ZnearestE m _ (Rlt_le _ _ MU)). rewrite <- plus_IZR in B. rewrite (Zrnd_IZR ZnearestE) in B. apply IZR_le. exact B. } unfold K in *. lia.
    + split; [lra|]. intros Q. exfalso. apply Rmult_le_reg_r in Q; auto. apply le_IZR in Q. assert (B := Zrnd_le ZnearestE m _ (Rlt_le _ _ LK)). rewrite (Zrnd_IZR ZnearestE) in B. unfold K in *. lia.
  - destruct (Rle_lt_dec (bpow radix2 (-1074)) v) as [L|L].
    { assert (A := ME _ _ L). rewrite GB in A by lia. assert (P := bpow_gt_0 radix2 (-1074)). assert (T : (tiny < bpow radix2 (-1074))%R) by (apply bpow_lt; lia). split; intros Q; lra. }
    destruct Hv as [Hv|Hv]. 2:{ subst v. assert (T := tiny_pos). split; [intros _; apply round_0; auto|lra]. }
    assert (MG : (mag radix2 v : Z) <= -1074). { apply mag_le_bpow; [lra|]. rewrite Rabs_pos_eq by lra. exact L. }
    assert (CE : cexp radix2 (FLT_exp (-1074) 53) v = -1074) by (unfold cexp, FLT_exp; lia).
    assert (RD : rd v = (IZR (ZnearestE (v * bpow radix2 1074)) * bpow radix2 (-1074))%R) by (unfold rd, round, F2R, scaled_mantissa; cbn [Fnum Fexp]; rewrite CE; reflexivity).
    set (m := (v * bpow radix2 1074)%R) in *. assert (P := bpow_gt_0 radix2 (-1074)). assert (P' := bpow_gt_0 radix2 1074).
    assert (II : (bpow radix2 (-1074) * bpow radix2 1074 = 1)%R) by (rewrite <- bpow_plus; reflexivity).
    assert (TT : (tiny * bpow radix2 1074 = 1 / 2)%R) by (unfold tiny; rewrite <- bpow_plus; change (bpow radix2 (-1075 + 1074)) with (/ 2)%R; lra).
    assert (M1 : (0 <= m < 1)%R). { unfold m. split; [left; now apply Rmult_lt_0_compat|]. rewrite <- II. now apply Rmult_lt_compat_r. }
    transitivity (m <= 1 / 2)%R.
    { unfold m. rewrite <- TT. split; intros Q; [apply Rmult_le_compat_r; lra|now apply Rmult_le_reg_r in Q]. }
    rewrite (near_zero m M1), RD. split; [intros ->; ring|]. intros Q. apply Rmult_integral in Q. destruct Q as [Q|Q]; [now apply eq_IZR|lra].
Qed.

(** A spread of zero: every sample is 0 or NaN. *)
Lemma c127_zero_spread : forall n t, 0 < n ->
  amexpos_x n (Some t) (Some 0%R) false = Ok (map (fun k => if Rlt_dec t (IZR k) then Fin 0 else NaN) (arange 0 n)) /\
  amexpos_x n (Some t) (Some 0%R) true = Ok (map (fun k => if Req_EM_T (IZR k) t then NaN else Fin 0) (arange 0 n)).
Proof.
  intros n t Hn. unfold amexpos_x. rewrite !am_args_ok by lia. cbn [bind]. assert (SP : (0 < sqrt PI)%R) by (apply sqrt_lt_R0, PI_RGT_0). assert (SP2 : (0 < sqrt (2 * PI))%R) by (apply sqrt_lt_R0; assert (Q := PI_RGT_0); lra).
  split; f_equal; apply map_ext; intros k.
  - unfold unilateral_x, xdiv. destruct (Req_EM_T 0 0); [|lra]. set (d := (IZR k - t)%R).
    destruct (Req_EM_T (- sqrt PI * d) 0) as [E|E].
    + assert (D : d = 0%R) by (apply Rmult_integral in E; destruct E; lra). unfold d in D. cbn [xexp xmulb]. destruct (Rlt_dec t (IZR k)); [lra|reflexivity].
    + assert (D : d <> 0%R) by (intros D; apply E; rewrite D; ring). cbn [xexp]. unfold negb_of. destruct (Rlt_dec (- sqrt PI * d) 0) as [L|L].
      * assert (0 < d)%R by nra. unfold d in *. cbn [xmulb]. destruct (Rlt_dec t (IZR k)); [|lra]. destruct (Rle_dec 0 (IZR k - t)); reflexivity.
      * assert (d < 0)%R by nra. unfold d in *. destruct (Rle_dec 0 (IZR k - t)); [lra|]. destruct (Rlt_dec t (IZR k)); [lra|]. reflexivity.
  - unfold bilateral_x, xdiv. destruct (Req_EM_T 0 0); [|lra]. set (d := (IZR k - t)%R).
    destruct (Req_EM_T (IZR k) t) as [E|E].
    + assert (D : d = 0%R) by (unfold d; lra). rewrite D, Rabs_R0. destruct (Req_EM_T (- sqrt (2 * PI) * 0) 0); [reflexivity|lra].
    + assert (D : (0 < Rabs d)%R) by (apply Rabs_pos_lt; unfold d; lra). destruct (Req_EM_T (- sqrt (2 * PI) * Rabs d) 0); [nra|]. unfold negb_of. destruct (Rlt_dec (- sqrt (2 * PI) * Rabs d) 0); [reflexivity|nra].
Qed.

(** A negative spread: the envelopes grow away from the centre and overflow to infinity,
    never to NaN. *)
Lemma c127_negative_spread : forall n t s, 0 < n -> (s < 0)%R ->
  (exists l, amexpos_x n (Some t) (Some s) false = Ok l /\ zlen l = n /\ forall k, 0 <= k < n ->
     ((IZR k < t)%R -> xnth l k = Fin 0) /\
     ((t <= IZR k)%R -> let v := exp (sqrt PI * (IZR k - t) / - s) in ((huge <= v)%R -> xnth l k = Inf false) /\ ((v < huge)%R -> xnth l k = Fin v))) /\
  (exists l, amexpos_x n (Some t) (Some s) true = Ok l /\ zlen l = n /\ forall k, 0 <= k < n ->
     let v := exp (sqrt (2 * PI) * Rabs (IZR k - t) / - s) in ((huge <= v)%R -> xnth l k = Inf false) /\ ((v < huge)%R -> xnth l k = Fin v)).
Proof.
  intros n t s Hn Hs. assert (SP : (0 < sqrt PI)%R) by (apply sqrt_lt_R0, PI_RGT_0). assert (SP2 : (0 < sqrt (2 * PI))%R) by (apply sqrt_lt_R0; assert (Q := PI_RGT_0); lra).
  assert (IS : (0 < / - s)%R) by (apply Rinv_0_lt_compat; lra). assert (T1 := tiny_lt_1). assert (G1 := huge_gt_1).
  assert (RB : forall u, (0 <= u)%R -> ((huge <= exp u)%R -> rng (exp u) = Inf false) /\ ((exp u < huge)%R -> rng (exp u) = Fin (exp u))).
  { intros u Hu. assert (E1 := exp_ineq1_le u). unfold rng. rewrite Rabs_pos_eq by lra. split; intros Q.
    - destruct (Rle_dec huge (exp u)); [|lra]. unfold negb_of. destruct (Rlt_dec (exp u) 0); [lra|reflexivity].
    - destruct (Rle_dec huge (exp u)); [lra|]. destruct (Rle_dec (exp u) tiny); [lra|reflexivity]. }
  unfold amexpos_x. rewrite !am_args_ok by lia. cbn [bind]. split; (eexists; split; [reflexivity|]; split; [rewrite zlen_map_arange; lia|]); intros k Hk; unfold xnth.
  - rewrite (nth_map_arange (fun k => unilateral_x s (IZR k - t))) by lia. rewrite Z.add_0_l. unfold unilateral_x, xdiv. destruct (Req_EM_T s 0); [lra|]. cbn [xexp].
    replace (- sqrt PI * (IZR k - t) / s)%R with (sqrt PI * (IZR k - t) / - s)%R by (field; lra). split; intros L.
    + destruct (Rle_dec 0 (IZR k - t)); [lra|]. assert (U : (sqrt PI * (IZR k - t) / - s <= 0)%R) by (assert (sqrt PI * (IZR k - t) <= 0)%R by nra; unfold Rdiv; nra).
      destruct (exp_le_0 _ U) as [U1 U2]. rewrite rng_small by lra. reflexivity.
    + cbv zeta. destruct (Rle_dec 0 (IZR k - t)); [|lra]. assert (U : (0 <= sqrt PI * (IZR k - t) / - s)%R) by (apply Rmult_le_pos; [nra|lra]).
      destruct (RB _ U) as [R1 R2]. split; intros Q; [rewrite R1 by exact Q|rewrite R2 by exact Q]; reflexivity.
  - rewrite (nth_map_arange (fun k => bilateral_x s (IZR k - t))) by lia. rewrite Z.add_0_l. unfold bilateral_x, xdiv. destruct (Req_EM_T s 0); [lra|]. cbn [xexp].
    replace (- sqrt (2 * PI) * Rabs (IZR k - t) / s)%R with (sqrt (2 * PI) * Rabs (IZR k - t) / - s)%R by (field; lra). cbv zeta.
    assert (A := Rabs_pos (IZR k - t)). assert (U : (0 <= sqrt (2 * PI) * Rabs (IZR k - t) / - s)%R) by (apply Rmult_le_pos; [nra|lra]). exact (RB _ U).
Qed.

(** Three samples around the centre 1. *)
Example c127_zero_spread_example :
  amexpos_x 3 (Some 1%R) (Some 0%R) false = Ok [NaN; NaN; Fin 0] /\ amexpos_x 3 (Some 1%R) (Some 0%R) true = Ok [Fin 0; NaN; Fin 0].
Proof.
  destruct (c127_zero_spread 3 1 ltac:(lia)) as [-> ->]. change (arange 0 3) with [0; 1; 2]. cbn [map].
  destruct (Rlt_dec 1 0); [lra|]. destruct (Rlt_dec 1 1); [lra|]. destruct (Rlt_dec 1 2); [|lra].
  destruct (Req_EM_T 0 1); [lra|]. destruct (Req_EM_T 1 1); [|lra]. destruct (Req_EM_T 2 1); [lra|]. split; reflexivity.
Qed.

(** When klauder raises: exactly as without overflow. *)
Lemma c127_klauder_outcome : forall n att f0,
  (n <= 0 \/ ~ (0 < f0 < 1 / 2)%R -> klauder_x n att f0 = Raise AssertionError) /\
  (n = 1 -> (0 < f0 < 1 / 2)%R -> klauder_x n att f0 = Raise ValueError) /\
  (2 <= n -> (0 < f0 < 1 / 2)%R -> exists l, klauder_x n att f0 = Ok l /\ zlen l = 2 * (n / 2)).
Proof.
  intros n att f0. unfold klauder_x. split; [|split].
  - intros H. destruct (Z.leb_spec n 0); [reflexivity|]. destruct (Rlt_dec f0 (1 / 2)), (Rlt_dec 0 f0); try reflexivity. exfalso. destruct H; [lia|lra].
  - intros -> H. change (1 <=? 0) with false. destruct (Rlt_dec f0 (1 / 2)), (Rlt_dec 0 f0); try lra. reflexivity.
  - intros Hn H. destruct (Z.leb_spec n 0); [lia|]. destruct (Rlt_dec f0 (1 / 2)), (Rlt_dec 0 f0); try lra. cbv zeta.
    set (m := n / 2). assert (Hm : 1 <= m) by (unfold m; Z.to_euclidean_division_equations; lia).
    assert (KW := klauder_wave_x n att f0 Hm). cbv zeta in KW. fold m in KW. rewrite KW. rewrite zlen_map_arange by lia. destruct (Z.eqb_spec (2 * m - 0) 0); [lia|].
    assert (FL : forall l : list C, zlen (fftshift l) = zlen l) by (intros l; unfold fftshift; set (j := Z.to_nat _); clearbody j; unfold zlen; rewrite app_length, skipn_length, firstn_length; lia).
    eexists. split; [reflexivity|]. rewrite zlen_map, FL, ifft_zlen, zlen_map, zlen_map_arange by lia. lia.
Qed.
