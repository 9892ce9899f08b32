(** C53 for spreads that are not positive; C127: overflow and underflow. *)
From Coq Require Import Reals ZArith List Lia Lra Bool.
From Coquelicot Require Import Coquelicot.
From Flocq Require Import Core.
From Verif Require Import Py Scalars CSum DFT M_base Spec P_base M_utils M_putils M_dom T_dom T_utils M_gen1 T_gen1 M_gen2 M_gen3 M_over T_misc2.
Import ListNotations.
Local Open Scope Z_scope.

(** *** C53: spreads that are not positive *)
(** The sign of the spread does not matter for the Gaussian; a negative spread turns the
    exponential into its reciprocal, and gives the empty rectangle and triangle. *)
Lemma c53_negative_spread : forall n t s, 0 < n -> (s < 0)%R ->
  amgauss n (Some t) (Some s) = amgauss n (Some t) (Some (- s)%R) /\
  (exists y z, amexpos n (Some t) (Some s) true = Ok (map Some y) /\ amexpos n (Some t) (Some (- s)%R) true = Ok (map Some z) /\ zlen y = n /\ zlen z = n /\
     forall k, 0 <= k < n -> (rnth y k * rnth z k = 1)%R /\ (1 <= rnth y k)%R) /\
  (exists y, amexpos n (Some t) (Some s) false = Ok (map Some y) /\ zlen y = n /\
     forall k, 0 <= k < n -> ((IZR k < t)%R -> rnth y k = 0%R) /\ ((t <= IZR k)%R -> rnth y k = exp (sqrt PI * (IZR k - t) / - s) /\ (1 <= rnth y k)%R)) /\
  amrect n (Some t) (Some s) = Ok (repeat false (Z.to_nat n)) /\
  amtriang n (Some t) (Some s) = Ok (repeat (Some 0%R) (Z.to_nat n)).
Proof.
  intros n t s Hn Hs. unfold amgauss, amexpos, amrect, amtriang. rewrite !am_args_ok by lia. cbn [bind].
  assert (SP : (0 < sqrt PI)%R) by (apply sqrt_lt_R0, PI_RGT_0). assert (SP2 : (0 < sqrt (2 * PI))%R) by (apply sqrt_lt_R0; assert (Q := PI_RGT_0); lra).
  assert (E1 : forall u, (0 <= u)%R -> (1 <= exp u)%R) by (intros u Hu; assert (Q := exp_ineq1_le u); lra).
  assert (DV : forall u, (0 <= u)%R -> (0 <= u / - s)%R) by (intros u Hu; apply Rmult_le_pos; [lra|left; apply Rinv_0_lt_compat; lra]).
  assert (RP : forall (A : Type) (v : A) (g : Z -> A), (forall k, g k = v) -> map g (arange 0 n) = repeat v (Z.to_nat n)).
  { intros A v g Hg. rewrite (map_ext _ (fun _ => v)) by auto. rewrite map_const. f_equal. rewrite arange_length. lia. }
  split; [|split; [|split; [|split]]].
  - f_equal. apply map_ext. intros k. unfold gauss_at. destruct (Req_EM_T s 0), (Req_EM_T (- s) 0); try lra. do 3 f_equal. f_equal. field. lra.
  - exists (map (fun k => exp (- sqrt (2 * PI) * Rabs (IZR k - t) / s)) (arange 0 n)), (map (fun k => exp (- sqrt (2 * PI) * Rabs (IZR k - t) / - s)) (arange 0 n)).
    rewrite !map_map, !zlen_map_arange by lia. split; [f_equal; apply map_ext; intros k; unfold bilateral_at; destruct (Req_EM_T s 0); [lra|reflexivity]|].
    split; [f_equal; apply map_ext; intros k; unfold bilateral_at; destruct (Req_EM_T (- s) 0); [lra|reflexivity]|]. split; [lia|]. split; [lia|].
    intros k Hk. rewrite !rnth_map_arange, Z.add_0_l by lia. split.
    + rewrite <- exp_plus. replace (- sqrt (2 * PI) * Rabs (IZR k - t) / s + - sqrt (2 * PI) * Rabs (IZR k - t) / - s)%R with 0%R by (field; lra). apply exp_0.
    + apply E1. replace (- sqrt (2 * PI) * Rabs (IZR k - t) / s)%R with ((sqrt (2 * PI) * Rabs (IZR k - t)) / - s)%R by (field; lra). apply DV. assert (Q := Rabs_pos (IZR k - t)). nra.
  - exists (map (fun k => exp (- sqrt PI * (IZR k - t) / s) * (if Rle_dec 0 (IZR k - t) then 1 else 0))%R (arange 0 n)). rewrite map_map, zlen_map_arange by lia.
    split; [f_equal; apply map_ext; intros k; unfold unilateral_at; destruct (Req_EM_T s 0); [lra|reflexivity]|]. split; [lia|].
    intros k Hk. rewrite !rnth_map_arange, Z.add_0_l by lia. split; intros H; destruct (Rle_dec 0 (IZR k - t)); try lra.
    replace (- sqrt PI * (IZR k - t) / s)%R with (sqrt PI * (IZR k - t) / - s)%R by (field; lra). rewrite Rmult_1_r. split; [reflexivity|]. apply E1, DV. nra.
  - f_equal. apply RP. intros k. destruct (Rle_dec _ _) as [Q|]; [|reflexivity]. exfalso. assert (A := Rabs_pos (IZR k - t)). assert (0 < sqrt (3 / PI))%R by (apply sqrt_lt_R0, Rdiv_lt_0_compat; [lra|apply PI_RGT_0]). nra.
  - f_equal. apply RP. intros k. unfold triang_at. cbv zeta. set (L := (sqrt (10 / PI) * s / 2)%R). assert (HL : (L < 0)%R) by (unfold L; assert (0 < sqrt (10 / PI))%R by (apply sqrt_lt_R0, Rdiv_lt_0_compat; [lra|apply PI_RGT_0]); nra).
    destruct (Req_EM_T L 0); [lra|]. f_equal. rewrite Rmax_right; [unfold Rdiv; ring|]. unfold Rmin. destruct (Rle_dec _ _); lra.
Qed.

(** Spread 0: the Gaussian is 0 with NaN at its centre, the rectangle is one sample (if
    the centre is one), the triangle is NaN everywhere. *)
Lemma c53_zero_spread_others : forall n t, 0 < n ->
  amgauss n (Some t) (Some 0%R) = Ok (map (fun k => if Req_EM_T (IZR k) (t - 1) then None else Some 0%R) (arange 0 n)) /\
  amrect n (Some t) (Some 0%R) = Ok (map (fun k => if Req_EM_T (IZR k) t then true else false) (arange 0 n)) /\
  amtriang n (Some t) (Some 0%R) = Ok (repeat None (Z.to_nat n)).
Proof.
  intros n t Hn. unfold amgauss, amrect, amtriang. rewrite !am_args_ok by lia. cbn [bind]. split; [|split]; f_equal.
  - replace (arange 1 (n + 1)) with (arange (0 + 1) (n + 1)) by (f_equal; lia). rewrite arange_shift, map_map. apply map_ext. intros k. unfold gauss_at. destruct (Req_EM_T 0 0); [|lra]. rewrite plus_IZR.
    destruct (Req_EM_T (IZR k + 1 - t) 0), (Req_EM_T (IZR k) (t - 1)); try lra; reflexivity.
  - apply map_ext. intros k. replace (1 / 2 * 0 * sqrt (3 / PI))%R with 0%R by ring. destruct (Rle_dec (Rabs (IZR k - t)) 0) as [H|H], (Req_EM_T (IZR k) t) as [E|E]; try reflexivity; exfalso.
    + apply E. assert (A := Rabs_pos (IZR k - t)). assert (Rabs (IZR k - t) = 0)%R by lra. apply Rabs_eq_0 in H0. lra.
    + apply H. rewrite E, Rminus_diag_eq, Rabs_R0 by reflexivity. lra.
  - rewrite (map_ext _ (fun _ => None)). 2:{ intros k. unfold triang_at. cbv zeta. replace (sqrt (10 / PI) * 0 / 2)%R with 0%R by field. destruct (Req_EM_T 0 0); [reflexivity|lra]. } rewrite map_const. f_equal. rewrite arange_length. lia.
Qed.

(** *** C127 *)
Lemma huge_gt_1 : (1 < huge)%R.
Proof.
  unfold huge. assert (A : (bpow radix2 970 <= bpow radix2 1023)%R) by (apply bpow_le; lia).
  replace (bpow radix2 1024) with (bpow radix2 (1 + 1023)) by reflexivity. rewrite bpow_plus. change (bpow radix2 1) with 2%R.
  assert (B : (bpow radix2 1 <= bpow radix2 1023)%R) by (apply bpow_le; lia). change (bpow radix2 1) with 2%R in B. lra.
Qed.
Lemma tiny_pos : (0 < tiny)%R.
Proof. apply bpow_gt_0. Qed.
Lemma tiny_lt_1 : (tiny < 1)%R.
Proof. unfold tiny. change 1%R with (bpow radix2 0). apply bpow_lt. lia. Qed.
Lemma rng_small v : (0 <= v <= 1)%R -> rng v = Fin (flush v).
Proof.
  intros H. assert (G := huge_gt_1). unfold rng, flush. rewrite Rabs_pos_eq by lra. destruct (Rle_dec huge v); [lra|]. destruct (Rle_dec v tiny); reflexivity.
Qed.
Lemma flush_bounds v : (0 <= v)%R -> (0 <= flush v <= v)%R.
Proof. intros H. unfold flush. destruct (Rle_dec _ _); lra. Qed.
Lemma exp_le_0 u : (u <= 0)%R -> (0 <= exp u <= 1)%R.
Proof. intros H. split; [left; apply exp_pos|]. rewrite <- exp_0. destruct H as [H| ->]; [left; now apply exp_increasing|lra]. Qed.
Lemma rng_case v : (exists r, rng v = Fin r) \/ (huge <= Rabs v)%R.
Proof. unfold rng. destruct (Rle_dec huge (Rabs v)); [right; auto|left]. destruct (Rle_dec (Rabs v) tiny); eauto. Qed.
Definition xnth (l : list xnum) (k : Z) : xnum := nth (Z.to_nat k) l NaN.

(** The unilateral exponential: 0 or the value of the formula from the centre on; before
    the centre 0, or NaN where exp overflows. *)
Lemma c127_unilateral : forall n t s, 0 < n -> (0 < s)%R ->
  exists l, amexpos_x n (Some t) (Some s) false = Ok l /\ zlen l = n /\
  forall k, 0 <= k < n ->
    ((t <= IZR k)%R -> exists v, xnth l k = Fin v /\ (v = exp (- sqrt PI * (IZR k - t) / s) \/ (v = 0 /\ exp (- sqrt PI * (IZR k - t) / s) <= tiny))%R) /\
    ((IZR k < t)%R -> (huge <= exp (sqrt PI * (t - IZR k) / s))%R -> xnth l k = NaN) /\
    ((IZR k < t)%R -> (exp (sqrt PI * (t - IZR k) / s) < huge)%R -> xnth l k = Fin 0).
Proof.
  intros n t s Hn Hs. assert (SP : (0 < sqrt PI)%R) by (apply sqrt_lt_R0, PI_RGT_0).
  unfold amexpos_x. rewrite am_args_ok by lia. cbn [bind]. eexists. split; [reflexivity|]. split; [rewrite zlen_map_arange; lia|].
  intros k Hk. unfold xnth. rewrite (nth_map_arange (fun k => unilateral_x s (IZR k - t))) by lia. rewrite Z.add_0_l.
  unfold unilateral_x, xdiv. destruct (Req_EM_T s 0); [lra|]. cbn [xexp].
  assert (IS : (0 < / s)%R) by now apply Rinv_0_lt_compat.
  split; [|split].
  - intros H. assert (HE : (0 <= exp (- sqrt PI * (IZR k - t) / s) <= 1)%R).
    { apply exp_le_0. replace (- sqrt PI * (IZR k - t) / s)%R with (- (sqrt PI * (IZR k - t) * / s))%R by (unfold Rdiv; ring). assert (0 <= sqrt PI * (IZR k - t))%R by nra. nra. }
    rewrite rng_small by exact HE. destruct (Rle_dec 0 (IZR k - t)); [|lra]. cbn [xmulb]. eexists. split; [reflexivity|]. unfold flush. rewrite Rabs_pos_eq by lra. destruct (Rle_dec _ tiny); auto.
  - intros H HH. replace (- sqrt PI * (IZR k - t) / s)%R with (sqrt PI * (t - IZR k) / s)%R by (field; lra). unfold rng. rewrite Rabs_pos_eq by (left; apply exp_pos). destruct (Rle_dec huge _); [|lra]. destruct (Rle_dec 0 (IZR k - t)); [lra|]. reflexivity.
  - intros H HH. replace (- sqrt PI * (IZR k - t) / s)%R with (sqrt PI * (t - IZR k) / s)%R by (field; lra). unfold rng. rewrite Rabs_pos_eq by (left; apply exp_pos). destruct (Rle_dec huge _); [lra|]. destruct (Rle_dec 0 (IZR k - t)); [lra|].
    destruct (Rle_dec _ tiny); reflexivity.
Qed.
(** exp overflows from 500 spreads before the centre on, at the latest. *)
Lemma c127_unilateral_nan : forall n t s k, (0 < s)%R -> 0 <= k < n -> (IZR k <= t - 500 * s)%R ->
  exists l, amexpos_x n (Some t) (Some s) false = Ok l /\ xnth l k = NaN.
Proof.
  intros n t s k Hs Hk HT. destruct (c127_unilateral n t s ltac:(lia) Hs) as (l & HL & _ & HV). exists l. split; [exact HL|]. destruct (HV k Hk) as (_ & HN & _). apply HN; [lra|].
  assert (S3 : (433 / 250 < sqrt PI)%R).
  { assert (P3 := PI2_3_2). apply Rlt_trans with (sqrt 3); [|apply sqrt_lt_1; lra]. rewrite <- (sqrt_square (433 / 250)) by lra. apply sqrt_lt_1; lra. }
  assert (IS : (0 < / s)%R) by now apply Rinv_0_lt_compat.
  assert (Q : (866 <= sqrt PI * (t - IZR k) / s)%R).
  { apply Rle_trans with (433 / 250 * (500 * s) / s)%R; [right; field; lra|]. unfold Rdiv. apply Rmult_le_compat_r; [lra|]. nra. }
  apply Rle_trans with (exp 866); [|destruct Q as [Q| ->]; [left; now apply exp_increasing|lra]].
  apply Rle_trans with (bpow radix2 1024); [unfold huge; assert (A := bpow_gt_0 radix2 970); lra|].
  replace 866%R with (INR 1024 * (866 / 1024))%R by (replace (INR 1024) with 1024%R by (rewrite INR_IZR_INZ; f_equal); field).
  assert (EP : forall (m : nat) x, exp (INR m * x) = (exp x ^ m)%R) by (induction m as [|m IH]; intros x; [cbn; rewrite Rmult_0_l; apply exp_0|replace (INR (S m) * x)%R with (INR m * x + x)%R by (rewrite S_INR; ring); rewrite exp_plus, IH; cbn; ring]).
  rewrite EP. change (bpow radix2 1024) with (bpow radix2 (Z.of_nat 1024)). rewrite bpow_powerRZ, <- pow_powerRZ. apply pow_incr. split; [cbn; lra|].
  change (IZR radix2) with 2%R. replace (866 / 1024)%R with (433 / 1024 + 433 / 1024)%R by field. rewrite exp_plus. assert (X := exp_ineq1_le (433 / 1024)). nra.
Qed.
(** The bilateral kind is always finite. *)
Lemma c127_bilateral : forall n t s, 0 < n -> (0 < s)%R ->
  exists l, amexpos_x n (Some t) (Some s) true = Ok l /\ zlen l = n /\
  forall k, 0 <= k < n -> exists v, xnth l k = Fin v /\ (0 <= v <= 1)%R /\
    (v = exp (- sqrt (2 * PI) * Rabs (IZR k - t) / s) \/ (v = 0 /\ exp (- sqrt (2 * PI) * Rabs (IZR k - t) / s) <= tiny))%R.
Proof.
  intros n t s Hn Hs. assert (SP : (0 <= sqrt (2 * PI))%R) by apply sqrt_pos.
  unfold amexpos_x. rewrite am_args_ok by lia. cbn [bind]. eexists. split; [reflexivity|]. split; [rewrite zlen_map_arange; lia|].
  intros k Hk. unfold xnth. rewrite (nth_map_arange (fun k => bilateral_x s (IZR k - t))) by lia. rewrite Z.add_0_l.
  unfold bilateral_x, xdiv. destruct (Req_EM_T s 0); [lra|]. cbn [xexp].
  assert (IS : (0 < / s)%R) by now apply Rinv_0_lt_compat.
  assert (HE : (0 <= exp (- sqrt (2 * PI) * Rabs (IZR k - t) / s) <= 1)%R).
  { apply exp_le_0. replace (- sqrt (2 * PI) * Rabs (IZR k - t) / s)%R with (- (sqrt (2 * PI) * Rabs (IZR k - t) * / s))%R by (unfold Rdiv; ring). assert (A := Rabs_pos (IZR k - t)). assert (0 <= sqrt (2 * PI) * Rabs (IZR k - t))%R by nra. nra. }
  rewrite rng_small by exact HE. eexists. split; [reflexivity|]. split; [assert (F := flush_bounds _ (proj1 HE)); lra|]. unfold flush. rewrite Rabs_pos_eq by lra. destruct (Rle_dec _ tiny); auto.
Qed.
(** So: one sample before the centre is NaN for a spread of 1/500. *)
Lemma c127_refuted : exists n t s l k, (0 < s)%R /\ 0 <= k < n /\ amexpos_x n (Some t) (Some s) false = Ok l /\ xnth l k = NaN.
Proof.
  destruct (c127_unilateral_nan 3 1 (1 / 500) 0 ltac:(lra) ltac:(lia) ltac:(lra)) as (l & H1 & H2).
  exists 3, 1%R, (1 / 500)%R, l, 0. split; [lra|]. split; [lia|]. auto.
Qed.

(** klauder. *)
Definition kbin_x (m : Z) (att f0 : R) (j : Z) : R := if j =? 0 then 0%R else klauder_mod_x att f0 (IZR j / IZR (2 * m)).
Lemma klauder_wave_x n att f0 : let m := n / 2 in 1 <= m ->
  let wave := 0%R :: skipn 1 (map (klauder_mod_x att f0) (linspace1 0 (1 / 2) (m + 1))) in
  prefix wave m ++ rev (slice wave 1 (m + 1)) = map (fun j => kbin_x m att f0 (if j <? m then j else 2 * m - j)) (arange 0 (2 * m)).
Proof.
  intros m Hm wave.
  assert (EW : wave = map (kbin_x m att f0) (arange 0 (m + 1))).
  { unfold wave. rewrite (arange_cons 0 (m + 1)) by lia. cbn [map]. f_equal. unfold linspace1. destruct (Z.eqb_spec (m + 1) 1); [lia|]. unfold linspace. rewrite map_map.
    rewrite (arange_cons 0 (m + 1)) by lia. cbn [map skipn]. apply map_ext_in. intros k Hk. apply in_arange in Hk. unfold kbin_x. destruct (Z.eqb_spec k 0); [lia|].
    assert (HM : IZR m <> 0%R) by (apply not_0_IZR; lia). f_equal.
    replace (m + 1 - 1) with m by lia. rewrite mult_IZR. field. auto. }
  rewrite EW. unfold prefix, slice. replace (Z.to_nat m) with (Z.to_nat (m - 0)) by lia. rewrite firstn_map_arange by lia.
  replace (Z.to_nat 1) with (Z.to_nat (1 - 0)) by lia. rewrite skipn_map_arange by lia. rewrite firstn_all2 by (rewrite map_length, arange_length; lia).
  rewrite <- map_rev, rev_arange_at. rewrite (arange_app 0 m (2 * m)), map_app by lia. f_equal.
  - apply map_ext_in. intros k Hk. apply in_arange in Hk. destruct (Z.ltb_spec k m); [reflexivity|lia].
  - rewrite map_map. replace (arange m (2 * m)) with (arange (1 + (m - 1)) (m + 1 + (m - 1))) by (f_equal; lia). rewrite arange_shift, map_map.
    apply map_ext_in. intros k Hk. apply in_arange in Hk. destruct (Z.ltb_spec (k + (m - 1)) m) as [Q|Q]; [lia|]. f_equal. lia.
Qed.
Lemma kmod_bound att f0 f : (0 <= att)%R -> (0 < f <= 1 / 2)%R -> (538 <= 2 * PI * att * f0 - 1 / 2)%R ->
  (0 <= klauder_mod_x att f0 f <= bpow radix2 (-538))%R.
Proof.
  intros Ha Hf Hp. unfold klauder_mod_x. assert (P := PI_RGT_0).
  assert (A : (0 <= flush (exp (- 2 * PI * att * f)) <= 1)%R).
  { assert (X : (0 <= exp (- 2 * PI * att * f) <= 1)%R) by (apply exp_le_0; assert (0 <= PI * att)%R by nra; nra). assert (Y := flush_bounds _ (proj1 X)). lra. }
  assert (B : (0 <= flush (Rpower f (2 * PI * att * f0 - 1 / 2)) <= bpow radix2 (-538))%R).
  { set (p := (2 * PI * att * f0 - 1 / 2)%R) in *. assert (X : (0 <= Rpower f p)%R) by (left; apply exp_pos). assert (Y := flush_bounds _ X). split; [lra|]. apply Rle_trans with (Rpower f p); [lra|].
    unfold Rpower. rewrite bpow_exp. change (IZR radix2) with 2%R.
    assert (L2 : (0 < ln 2)%R) by (rewrite <- ln_1; apply ln_increasing; lra).
    assert (LF : (ln f <= - ln 2)%R). { rewrite <- ln_Rinv by lra. destruct (Req_dec f (/ 2)) as [->|NE]; [lra|]. left. apply ln_increasing; lra. }
    assert (Q : (p * ln f <= IZR (-538) * ln 2)%R). { change (IZR (-538)) with (Ropp 538). nra. }
    destruct Q as [Q| ->]; [left; now apply exp_increasing|lra]. }
  assert (X : (0 <= flush (exp (- 2 * PI * att * f)) * flush (Rpower f (2 * PI * att * f0 - 1 / 2)) <= bpow radix2 (-538))%R).
  { set (u := flush (exp _)) in *. set (v := flush (Rpower _ _)) in *. split; [nra|]. apply Rle_trans with (1 * v)%R; [|lra]. apply Rmult_le_compat_r; lra. }
  assert (Y := flush_bounds _ (proj1 X)). lra.
Qed.
(** With a large attenuation no sample of the wavelet is a number. *)
Lemma c127_klauder : forall n att f0, 2 <= n -> (0 < f0 < 1 / 2)%R -> (538 <= 2 * PI * att * f0 - 1 / 2)%R ->
  exists l, klauder_x n att f0 = Ok l /\ zlen l = 2 * (n / 2) /\ forall v, In v l -> forall r, v <> Fin r.
Proof.
  intros n att f0 Hn Hf Hp. assert (P := PI_RGT_0).
  assert (Ha : (0 <= att)%R). { destruct (Rle_lt_dec 0 att); auto. exfalso. assert (PI * att * f0 <= 0)%R by (assert (PI * att <= 0)%R by nra; nra). lra. }
  set (m := n / 2). assert (Hm : 1 <= m) by (unfold m; Z.to_euclidean_division_equations; lia).
  unfold klauder_x. destruct (Z.leb_spec n 0); [lia|]. destruct (Rlt_dec f0 (1 / 2)); [|lra]. destruct (Rlt_dec 0 f0); [|lra]. cbv zeta.
  assert (KW := klauder_wave_x n att f0 Hm). cbv zeta in KW. fold m in KW. fold m. rewrite KW. rewrite zlen_map_arange by lia. destruct (Z.eqb_spec (2 * m - 0) 0); [lia|].
  set (W := fun j : Z => kbin_x m att f0 (if j <? m then j else 2 * m - j)) in *.
  assert (WB : forall f, 0 <= f < 2 * m -> (0 <= W f <= bpow radix2 (-538))%R).
  { intros f Hf'. unfold W, kbin_x. set (j := if f <? m then f else 2 * m - f). assert (HJ : 0 <= j <= m) by (unfold j; destruct (Z.ltb_spec f m); lia).
    destruct (Z.eqb_spec j 0); [split; [lra|apply bpow_ge_0]|]. apply kmod_bound; auto. rewrite mult_IZR.
    assert (H1 : (1 <= IZR j)%R) by (apply IZR_le; lia). assert (H2 : (IZR j <= IZR m)%R) by (apply IZR_le; lia). split; [apply Rdiv_lt_0_compat; lra|].
    apply (Rmult_le_reg_r (2 * IZR m)); [lra|]. unfold Rdiv. rewrite Rmult_assoc, Rinv_l by lra. lra. }
  assert (WS : forall f, 0 < f < 2 * m -> W (2 * m - f) = W f).
  { intros f Hf'. unfold W. f_equal. destruct (Z.ltb_spec (2 * m - f) m), (Z.ltb_spec f m); lia. }
  set (T := ktime m W).
  assert (EI : ifft (map RtoC (map W (arange 0 (2 * m)))) = map (fun k => RtoC (T k)) (arange 0 (2 * m))).
  { rewrite (list_as_map (ifft _)). rewrite ifft_zlen, zlen_map, zlen_map_arange by lia. rewrite Z.sub_0_r. apply map_ext_in. intros k Hk. apply in_arange in Hk. now apply ktime_ifft. }
  rewrite EI, fftshift_map by lia. set (w := map _ (arange 0 (2 * m))).
  assert (TB : forall k, (T k ^ 2 <= tiny)%R).
  { intros k. assert (T0 := ktime_le m W k Hm (fun f Hf' => proj1 (WB f Hf'))). fold T in T0.
    assert (T1 : (T 0%Z <= bpow radix2 (-538))%R).
    { unfold T, ktime. assert (HN : (0 < IZR (2 * m))%R) by (apply IZR_lt; lia). apply (Rmult_le_reg_l (IZR (2 * m))); [lra|]. rewrite <- Rmult_assoc, Rinv_r, Rmult_1_l by lra.
      apply Rle_trans with (rsum (arange 0 (2 * m)) (fun _ => bpow radix2 (-538))).
      - apply rsum_le. intros f Hf'. apply in_arange in Hf'. rewrite Z.mul_0_r. replace (2 * PI * 0 / IZR (2 * m))%R with 0%R by (unfold Rdiv; ring). rewrite cos_0, Rmult_1_r. apply WB. lia.
      - right. assert (RC : forall l : list Z, rsum l (fun _ => bpow radix2 (-538)) = (IZR (zlen l) * bpow radix2 (-538))%R).
        { induction l as [|a l IH]; [cbn; ring|]. rewrite rsum_cons, IH. unfold zlen. cbn [length]. rewrite Nat2Z.inj_succ, succ_IZR. ring. }
        rewrite RC. f_equal. f_equal. unfold zlen. rewrite arange_length. lia. }
    assert (A := Rabs_pos (T k)). apply Rle_trans with (bpow radix2 (-538) * bpow radix2 (-538))%R.
    - rewrite <- pow2_abs. replace (Rabs (T k) ^ 2)%R with (Rabs (T k) * Rabs (T k))%R by ring. apply Rmult_le_compat; lra.
    - rewrite <- bpow_plus. unfold tiny. apply bpow_le. lia. }
  assert (EN : rsum w (fun z => flush (Re z ^ 2) + flush (Im z ^ 2))%R = 0%R).
  { unfold w. rewrite rsum_map. rewrite (rsum_ext _ _ (fun _ => 0%R)).
    - clear. induction (arange 0 (2 * m)) as [|a l IH]; [reflexivity|]. rewrite rsum_cons, IH. ring.
    - intros k _. unfold flush at 1. cbn [Re Im fst snd RtoC]. rewrite (Rabs_pos_eq (T _ ^ 2)) by apply pow2_ge_0. destruct (Rle_dec _ tiny) as [_|Q]; [|exfalso; apply Q, TB].
      unfold flush. replace (0 ^ 2)%R with 0%R by ring. rewrite Rabs_R0. destruct (Rle_dec 0 tiny); ring. }
  rewrite EN, sqrt_0. eexists. split; [reflexivity|]. split; [unfold w; rewrite map_map, zlen_map_arange; lia|].
  intros v Hv rr. apply in_map_iff in Hv. destruct Hv as (z & <- & _). unfold xdiv. destruct (Req_EM_T 0 0); [|lra]. destruct (Req_EM_T (Re z) 0); discriminate.
Qed.

(** The default attenuation 10 on two points is finite; 1000 is not. *)
Example c127_example :
  klauder_x 2 10 (1 / 5) = Ok [Fin (- sqrt (1 / 2)); Fin (sqrt (1 / 2))] /\
  (exists l, klauder_x 2 1000 (1 / 5) = Ok l /\ zlen l = 2 /\ forall r, ~ In (Fin r) l).
Proof.
  split.
  - assert (P := PI_RGT_0). assert (P4 := PI_4). assert (TP := tiny_pos).
    unfold klauder_x. change (2 <=? 0) with false. cbv iota. destruct (Rlt_dec (1 / 5) (1 / 2)); [|lra]. destruct (Rlt_dec 0 (1 / 5)); [|lra]. cbv zeta.
    assert (KW := klauder_wave_x 2 10 (1 / 5) ltac:(cbn; lia)). cbv zeta in KW. rewrite KW. clear KW. change (2 / 2) with 1. change (2 * 1) with 2. change (arange 0 2) with [0; 1]. cbn [map].
    change (zlen _ =? 0) with false. cbv iota.
    change (kbin_x 1 10 (1 / 5) (if 0 <? 1 then 0 else 2 - 0)) with 0%R. change (kbin_x 1 10 (1 / 5) (if 1 <? 1 then 1 else 2 - 1)) with (klauder_mod_x 10 (1 / 5) (1 / 2)).
    set (v := klauder_mod_x 10 (1 / 5) (1 / 2)).
    assert (HV : (bpow radix2 (-104) <= v)%R).
    { assert (TB : (tiny < bpow radix2 (-104))%R) by (apply bpow_lt; lia).
      assert (T80 : (bpow radix2 (-104) <= bpow radix2 (-88))%R) by (apply bpow_le; lia). assert (T16 : (bpow radix2 (-88) <= bpow radix2 (-16))%R) by (apply bpow_le; lia).
      assert (L2 : (0 < ln 2)%R) by (rewrite <- ln_1; apply ln_increasing; lra).
      assert (L2' : (1 / 2 <= ln 2)%R). { destruct (Rle_lt_dec (1 / 2) (ln 2)); auto. exfalso. apply exp_increasing in r1. rewrite exp_ln in r1 by lra. assert (E3 := exp_le_3). assert (EH : (exp (1 / 2) * exp (1 / 2) <= 3)%R) by (rewrite <- exp_plus; replace (1 / 2 + 1 / 2)%R with 1%R by field; exact E3). nra. }
      assert (XE : (bpow radix2 (-88) <= exp (- 2 * PI * 10 * (1 / 2)))%R).
      { rewrite bpow_exp. change (IZR radix2) with 2%R. left. apply exp_increasing. change (IZR (-88)) with (Ropp 88). nra. }
      assert (XP : (bpow radix2 (-16) <= Rpower (1 / 2) (2 * PI * 10 * (1 / 5) - 1 / 2))%R).
      { unfold Rpower. replace (ln (1 / 2)) with (- ln 2)%R by (rewrite <- ln_Rinv by lra; f_equal; field). rewrite bpow_exp. change (IZR radix2) with 2%R. left. apply exp_increasing. change (IZR (-16)) with (Ropp 16). nra. }
      unfold v, klauder_mod_x, flush. set (a := exp _) in *. set (b := Rpower _ _) in *. rewrite (Rabs_pos_eq a), (Rabs_pos_eq b) by (left; apply exp_pos).
      destruct (Rle_dec a tiny); [lra|]. destruct (Rle_dec b tiny); [lra|]. assert (AB : (bpow radix2 (-104) <= a * b)%R).
      { change (-104) with (-88 + -16). rewrite bpow_plus. apply Rmult_le_compat; auto; apply bpow_ge_0. }
      rewrite (Rabs_pos_eq (a * b)) by (assert (Q := bpow_ge_0 radix2 (-104)); lra). destruct (Rle_dec (a * b) tiny); lra. }
    assert (VP : (0 < v)%R) by (assert (Q := bpow_gt_0 radix2 (-104)); lra).
    set (W := fun j : Z => if j =? 0 then 0%R else v).
    assert (EI : ifft (map RtoC [0%R; v]) = [RtoC (v / 2); RtoC (- v / 2)]).
    { change (map RtoC [0%R; v]) with (map RtoC (map W (arange 0 (2 * 1)))). assert (WS : forall f, 0 < f < 2 * 1 -> W (2 * 1 - f) = W f) by (intros f Hf; now replace f with 1 by lia).
      rewrite (list_as_map (ifft _)). rewrite ifft_zlen, zlen_map, zlen_map_arange by lia. change (arange 0 (2 * 1 - 0)) with [0; 1]. cbn [map]. change (cnth ?x ?k) with (nth (Z.to_nat k) x (RtoC 0)). fold (cnth (ifft (map RtoC (map W (arange 0 (2 * 1))))) 0). fold (cnth (ifft (map RtoC (map W (arange 0 (2 * 1))))) 1).
      rewrite (ktime_ifft 1 W 0), (ktime_ifft 1 W 1) by (auto; lia). unfold ktime. change (arange 0 (2 * 1)) with [0; 1]. rewrite !rsum_cons, !rsum_nil. change (W 0) with 0%R. change (W 1) with v. change (IZR (2 * 1)) with 2%R. change (IZR (1 * 0)) with 0%R. change (IZR (1 * 1)) with 1%R.
      replace (2 * PI * 0 / 2)%R with 0%R by field. replace (2 * PI * 1 / 2)%R with PI by field. rewrite cos_0, cos_PI. f_equal; [f_equal; field|]. f_equal. f_equal. field. }
    change (map RtoC [0%R; v]) with [RtoC 0; RtoC v] in EI. rewrite EI. change (fftshift [RtoC (v / 2); RtoC (- v / 2)]) with [RtoC (- v / 2); RtoC (v / 2)].
    assert (FL : flush (v ^ 2 / 4) = (v ^ 2 / 4)%R).
    { unfold flush. rewrite Rabs_pos_eq by nra. destruct (Rle_dec _ tiny) as [Q|]; [exfalso|reflexivity]. assert (TB : (tiny < bpow radix2 (-104) * bpow radix2 (-104) / 4)%R).
      { rewrite <- bpow_plus. replace (bpow radix2 (-104 + -104) / 4)%R with (bpow radix2 (-210)). { apply bpow_lt. lia. } replace (/ 4)%R with (bpow radix2 (-2)) by (cbn; lra). change (bpow radix2 (-210)) with (bpow radix2 (-104 + -104 + -2)). rewrite (bpow_plus radix2 (-104 + -104)). reflexivity. }
      assert (bpow radix2 (-104) * bpow radix2 (-104) <= v * v)%R by (apply Rmult_le_compat; auto; apply bpow_ge_0). lra. }
    assert (F0 : flush (0 ^ 2) = 0%R) by (unfold flush; replace (0 ^ 2)%R with 0%R by ring; destruct (Rle_dec _ _); reflexivity).
    assert (NM : sqrt (rsum [RtoC (- v / 2); RtoC (v / 2)] (fun z => flush (Re z ^ 2) + flush (Im z ^ 2))%R) = (v * sqrt (1 / 2))%R).
    { rewrite !rsum_cons, rsum_nil. cbn [Re Im fst snd RtoC]. rewrite F0. replace ((- v / 2) ^ 2)%R with (v ^ 2 / 4)%R by field. replace ((v / 2) ^ 2)%R with (v ^ 2 / 4)%R by field. rewrite FL.
      replace (v ^ 2 / 4 + 0 + (v ^ 2 / 4 + 0 + 0))%R with (v * v * (1 / 2))%R by field. rewrite sqrt_mult, sqrt_square by nra. reflexivity. }
    rewrite NM. assert (SH : (0 < sqrt (1 / 2))%R) by (apply sqrt_lt_R0; lra). assert (SS : (sqrt (1 / 2) * sqrt (1 / 2) = 1 / 2)%R) by (apply sqrt_sqrt; lra).
    cbn [map]. unfold xdiv. destruct (Req_EM_T (v * sqrt (1 / 2)) 0); [nra|]. change (Re (RtoC (- v / 2))) with (- v / 2)%R. change (Re (RtoC (v / 2))) with (v / 2)%R.
    set (h := sqrt (1 / 2)) in *. do 2 f_equal; [|f_equal]; f_equal.
    + apply (Rmult_eq_reg_r (v * h)); [|nra]. unfold Rdiv at 1. rewrite (Rmult_assoc _ (/ (v * h))), Rinv_l by nra. nra.
    + apply (Rmult_eq_reg_r (v * h)); [|nra]. unfold Rdiv at 1. rewrite (Rmult_assoc _ (/ (v * h))), Rinv_l by nra. nra.
  - destruct (c127_klauder 2 1000 (1 / 5) ltac:(lia) ltac:(lra)) as (l & H & L & N).
    + assert (P := PI2_3_2). lra.
    + exists l. split; [exact H|]. split; [exact L|]. intros r HI. exact (N _ HI r eq_refl).
Qed.
