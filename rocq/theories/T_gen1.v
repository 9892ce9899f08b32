(** Amplitude modulators and the constant/linear frequency modulators
    (C53, C54, C55 and the consequences for C51). *)
From Coq Require Import Reals ZArith List Lia Lra Bool.
From Coquelicot Require Import Coquelicot.
From Flocq Require Import Core.
From Verif Require Import Py Scalars CSum DFT M_base Spec P_base M_putils M_dom T_dom M_gen1.
Import ListNotations.
Local Open Scope Z_scope.

Lemma rnth_map_arange (g : Z -> R) a b k : 0 <= k < b - a -> rnth (map g (arange a b)) k = g (a + k).
Proof. apply nth_map_arange. Qed.
Lemma trunc_IZR k : Ztrunc (IZR k) = k.
Proof. apply Ztrunc_IZR. Qed.

(** *** C53 *)
(** Default centre: an integer at distance at most 1/2 from n/2, the even one
    when there are two. *)
Lemma half_round_spec n : let c := half_round n in 2 * c = n \/ (Z.abs (2 * c - n) = 1 /\ Z.even c = true).
Proof.
  cbv zeta. unfold half_round. rewrite znear_half. destruct (Z.eqb_spec (n mod 4) 1) as [E|E].
  - right. assert (n / 2 = 2 * (n / 4)) by (Z.to_euclidean_division_equations; lia). rewrite H, Z.even_mul. split; [|reflexivity]. Z.to_euclidean_division_equations; lia.
  - destruct (Z.eq_dec (n mod 4) 3) as [E3|E3]; [right|left; Z.to_euclidean_division_equations; lia].
    assert ((n + 1) / 2 = 2 * ((n + 1) / 4)) by (Z.to_euclidean_division_equations; lia). rewrite H, Z.even_mul. split; [|reflexivity]. Z.to_euclidean_division_equations; lia.
Qed.

(** Shape of an envelope with centre c: values in [0,1], 1 at the centre, the
    same at equal distances and smaller further away. *)
Definition envelope (y : list R) (c : R) : Prop :=
  (forall k, 0 <= k < zlen y -> (0 <= rnth y k <= 1)%R) /\
  (forall k, 0 <= k < zlen y -> IZR k = c -> rnth y k = 1%R) /\
  (forall j k, 0 <= j < zlen y -> 0 <= k < zlen y -> (Rabs (IZR k - c) <= Rabs (IZR j - c))%R -> (rnth y j <= rnth y k)%R) /\
  (forall j k, 0 <= j < zlen y -> 0 <= k < zlen y -> (IZR j + IZR k = 2 * c)%R -> rnth y j = rnth y k).
Lemma envelope_of (g : R -> R) n c s :
  0 < n -> (forall d, (0 <= g d <= 1)%R) -> g 0%R = 1%R -> (forall d e, (Rabs d <= Rabs e)%R -> (g e <= g d)%R) ->
  c = (s - 0)%R -> envelope (map (fun k => g (IZR k - s)) (arange 0 n))%R c.
Proof.
  intros Hn HB H1 HM ->. rewrite Rminus_0_r. unfold envelope. rewrite zlen_map_arange, Z.sub_0_r by lia.
  repeat split; intros; rewrite ?rnth_map_arange by lia; rewrite ?Z.add_0_l; try apply HB.
  - rewrite H0, Rminus_eq_0. exact H1.
  - now apply HM.
  - assert (E : (Rabs (IZR j - s) = Rabs (IZR k - s))%R) by (replace (IZR j - s)%R with (- (IZR k - s))%R by lra; apply Rabs_Ropp).
    apply Rle_antisym; apply HM; lra.
Qed.

Lemma c53_raises : forall n t0 spread b, n <= 0 ->
  let e := match spread with None => if n <? 0 then ValueError else TypeError | Some _ => TypeError end in
  amgauss n t0 spread = Raise e /\ amexpos n t0 spread b = Raise e /\ amrect n t0 spread = Raise e /\ amtriang n t0 spread = Raise e.
Proof.
  intros n t0 spread b Hn. assert (E : am_args n t0 spread = Raise match spread with None => if n <? 0 then ValueError else TypeError | Some _ => TypeError end).
  { unfold am_args. destruct spread; [|destruct (Z.ltb_spec n 0)]; cbn [bind]; destruct (Z.leb_spec n 0); reflexivity || lia. }
  cbv zeta. unfold amgauss, amexpos, amrect, amtriang. rewrite E. auto.
Qed.
Lemma am_args_ok n t0 spread : 0 < n ->
  am_args n t0 spread = Ok (match t0 with Some t => t | None => IZR (half_round n) end, match spread with Some s => s | None => 2 * sqrt (IZR n) end)%R.
Proof.
  intros Hn. unfold am_args. destruct spread; [|destruct (Z.ltb_spec n 0); [lia|]]; cbn [bind]; (destruct (Z.leb_spec n 0); [lia|reflexivity]).
Qed.
(** Leaving out an argument is the same as passing the documented default. *)
Lemma c53_defaults : forall n, 0 < n ->
  (forall sp, amgauss n None sp = amgauss n (Some (IZR (half_round n))) sp) /\ (forall t, amgauss n t None = amgauss n t (Some (2 * sqrt (IZR n))%R)) /\
  (forall sp b, amexpos n None sp b = amexpos n (Some (IZR (half_round n))) sp b) /\ (forall t b, amexpos n t None b = amexpos n t (Some (2 * sqrt (IZR n))%R) b) /\
  (forall sp, amrect n None sp = amrect n (Some (IZR (half_round n))) sp) /\ (forall t, amrect n t None = amrect n t (Some (2 * sqrt (IZR n))%R)) /\
  (forall sp, amtriang n None sp = amtriang n (Some (IZR (half_round n))) sp) /\ (forall t, amtriang n t None = amtriang n t (Some (2 * sqrt (IZR n))%R)) /\
  (2 * half_round n = n \/ (Z.abs (2 * half_round n - n) = 1 /\ Z.even (half_round n) = true)).
Proof.
  intros n Hn. unfold amgauss, amexpos, amrect, amtriang. repeat split; try (intros; rewrite !am_args_ok by lia; reflexivity). apply half_round_spec.
Qed.

Lemma exp_le_1 x : (x <= 0)%R -> (exp x <= 1)%R.
Proof. intros H. rewrite <- exp_0. destruct H as [H| ->]; [left; now apply exp_increasing|right; reflexivity]. Qed.
Lemma exp_mono x y : (x <= y)%R -> (exp x <= exp y)%R.
Proof. intros [H| ->]; [left; now apply exp_increasing|right; reflexivity]. Qed.
Lemma abs_sq d e : (Rabs d <= Rabs e)%R -> (d ^ 2 <= e ^ 2)%R.
Proof. intros H. rewrite <- (pow2_abs d), <- (pow2_abs e). apply pow_incr. split; [apply Rabs_pos|auto]. Qed.

(** amgauss: centred on sample t0 - 1 (counting from 0). *)
Lemma c53_amgauss : forall n t s, 0 < n -> (0 < s)%R ->
  exists y, amgauss n (Some t) (Some s) = Ok (map Some y) /\ zlen y = n /\ envelope y (t - 1) /\
  forall k, 0 <= k < n -> rnth y k = exp (- PI * ((IZR k - (t - 1)) / s) ^ 2).
Proof.
  intros n t s Hn Hs. assert (HP := PI_RGT_0). set (g := fun d : R => exp (- PI * (d / s) ^ 2)).
  exists (map (fun k => g (IZR k - (t - 1))%R) (arange 0 n)).
  assert (L : zlen (map (fun k => g (IZR k - (t - 1))%R) (arange 0 n)) = n) by (rewrite zlen_map_arange; lia).
  split; [|split; [exact L|split]].
  - unfold amgauss. rewrite am_args_ok by lia. cbn [bind]. f_equal. rewrite map_map.
    replace (arange 1 (n + 1)) with (map (fun k => k + 1) (arange 0 n)) by (rewrite <- arange_shift; reflexivity).
    rewrite map_map. apply map_ext. intros k. unfold gauss_at. destruct (Req_EM_T s 0); [lra|]. unfold g. do 2 f_equal. rewrite plus_IZR. field. lra.
  - apply envelope_of; [lia| | | |lra]; unfold g.
    + intros d. split; [left; apply exp_pos|]. apply exp_le_1. assert (Q := pow2_ge_0 (d / s)). nra.
    + replace (- PI * (0 / s) ^ 2)%R with 0%R by (field; lra). apply exp_0.
    + intros d e H. apply exp_mono. assert (Q : ((d / s) ^ 2 <= (e / s) ^ 2)%R); [|nra].
      apply abs_sq. unfold Rdiv. rewrite !Rabs_mult. apply Rmult_le_compat_r; [apply Rabs_pos|auto].
  - intros k Hk. rewrite rnth_map_arange by lia. unfold g. now rewrite Z.add_0_l.
Qed.
(** The one-sided exponential and the others are centred on sample t0. *)
Lemma c53_amexpos : forall n t s, 0 < n -> (0 < s)%R ->
  exists y, amexpos n (Some t) (Some s) true = Ok (map Some y) /\ zlen y = n /\ envelope y t /\
  forall k, 0 <= k < n -> rnth y k = exp (- sqrt (2 * PI) * Rabs (IZR k - t) / s).
Proof.
  intros n t s Hn Hs. assert (HP := PI_RGT_0). set (g := fun d : R => exp (- sqrt (2 * PI) * Rabs d / s)).
  assert (HS : (0 < sqrt (2 * PI))%R) by (apply sqrt_lt_R0; lra). assert (HI : (0 < / s)%R) by now apply Rinv_0_lt_compat.
  exists (map (fun k => g (IZR k - t)%R) (arange 0 n)).
  assert (L : zlen (map (fun k => g (IZR k - t)%R) (arange 0 n)) = n) by (rewrite zlen_map_arange; lia).
  split; [|split; [exact L|split]].
  - unfold amexpos. rewrite am_args_ok by lia. cbn [bind]. f_equal. rewrite map_map.
    apply map_ext. intros k. unfold bilateral_at. destruct (Req_EM_T s 0); [lra|]. reflexivity.
  - apply envelope_of; [lia| | | |lra]; unfold g.
    + intros d. split; [left; apply exp_pos|]. apply exp_le_1. assert (Q := Rabs_pos d). unfold Rdiv. assert (0 <= sqrt (2 * PI) * Rabs d)%R by nra. nra.
    + rewrite Rabs_R0. replace (- sqrt (2 * PI) * 0 / s)%R with 0%R by (field; lra). apply exp_0.
    + intros d e H. apply exp_mono. unfold Rdiv. apply Rmult_le_compat_r; [lra|]. nra.
  - intros k Hk. rewrite rnth_map_arange by lia. unfold g. now rewrite Z.add_0_l.
Qed.
(** Spread 0: 0/0 at the centre, inf * 0 before it. *)
Lemma c53_zero_spread : forall n t, 0 < n ->
  amexpos n (Some t) (Some 0%R) true = Ok (map (fun k => if Req_EM_T (IZR k) t then None else Some 0%R) (arange 0 n)) /\
  amexpos n (Some t) (Some 0%R) false = Ok (map (fun k => if Rle_dec (IZR k) t then None else Some 0%R) (arange 0 n)).
Proof.
  intros n t Hn. unfold amexpos. rewrite !am_args_ok by lia. cbn [bind]. split; f_equal; apply map_ext; intros k.
  - unfold bilateral_at. destruct (Req_EM_T 0 0); [|lra]. destruct (Req_EM_T (IZR k - t) 0), (Req_EM_T (IZR k) t); try lra; reflexivity.
  - unfold unilateral_at. destruct (Req_EM_T 0 0); [|lra]. destruct (Rlt_dec 0 (IZR k - t)), (Rle_dec (IZR k) t); try lra; reflexivity.
Qed.
Lemma c53_amexpos_unilateral : forall n t s, 0 < n -> (0 < s)%R ->
  exists y, amexpos n (Some t) (Some s) false = Ok (map Some y) /\ zlen y = n /\
  (forall k, 0 <= k < n -> (0 <= rnth y k <= 1)%R) /\
  (forall k, 0 <= k < n -> (IZR k < t)%R -> rnth y k = 0%R) /\
  (forall k, 0 <= k < n -> (t <= IZR k)%R -> rnth y k = exp (- sqrt PI * (IZR k - t) / s)) /\
  (forall k, 0 <= k < n -> IZR k = t -> rnth y k = 1%R) /\
  (forall j k, 0 <= j < n -> 0 <= k < n -> (t <= IZR k <= IZR j)%R -> (rnth y j <= rnth y k)%R).
Proof.
  intros n t s Hn Hs. assert (HP := PI_RGT_0). set (g := fun d : R => (exp (- sqrt PI * d / s) * (if Rle_dec 0 d then 1 else 0))%R).
  assert (HS : (0 < sqrt PI)%R) by (apply sqrt_lt_R0; lra). assert (HI : (0 < / s)%R) by now apply Rinv_0_lt_compat.
  assert (HB : forall d, (0 <= d)%R -> (- sqrt PI * d / s <= 0)%R) by (intros d Hd; unfold Rdiv; assert (0 <= sqrt PI * d)%R by nra; nra).
  exists (map (fun k => g (IZR k - t)%R) (arange 0 n)).
  split; [|split; [rewrite zlen_map_arange; lia|]].
  - unfold amexpos. rewrite am_args_ok by lia. cbn [bind]. f_equal. rewrite map_map.
    apply map_ext. intros k. unfold unilateral_at. destruct (Req_EM_T s 0); [lra|]. reflexivity.
  - repeat split; intros; rewrite ?rnth_map_arange by lia; rewrite ?Z.add_0_l; unfold g.
    + destruct (Rle_dec _ _) as [Q|Q]; [rewrite Rmult_1_r; left; apply exp_pos|lra].
    + destruct (Rle_dec _ _) as [Q|Q]; [rewrite Rmult_1_r; now apply exp_le_1, HB|lra].
    + destruct (Rle_dec _ _); [lra|]. ring.
    + destruct (Rle_dec _ _); [|lra]. now rewrite Rmult_1_r.
    + rewrite H0, Rminus_eq_0. destruct (Rle_dec _ _); [|lra]. replace (- sqrt PI * 0 / s)%R with 0%R by (field; lra). rewrite exp_0. ring.
    + destruct (Rle_dec _ _); [|lra]. destruct (Rle_dec _ _); [|lra]. rewrite !Rmult_1_r. apply exp_mono. unfold Rdiv. apply Rmult_le_compat_r; [lra|]. nra.
Qed.
(** amrect is the indicator of |k - t0| <= spread/2 * sqrt(3/pi); so it is 1 at
    the centre, symmetric and non-increasing away from it. *)
Lemma c53_amrect : forall n t s, 0 < n ->
  exists y, amrect n (Some t) (Some s) = Ok y /\ zlen y = n /\
  (forall k, 0 <= k < n -> nth (Z.to_nat k) y false = true <-> (Rabs (IZR k - t) <= s / 2 * sqrt (3 / PI))%R) /\
  ((0 < s)%R -> envelope (map (fun b : bool => if b then 1 else 0)%R y) t).
Proof.
  intros n t s Hn. assert (HP := PI_RGT_0). unfold amrect. rewrite am_args_ok by lia. cbn [bind]. eexists. split; [reflexivity|].
  split; [rewrite zlen_map_arange; lia|]. split.
  - intros k Hk. rewrite nth_map_arange by lia. rewrite Z.add_0_l. replace (1 / 2 * s * sqrt (3 / PI))%R with (s / 2 * sqrt (3 / PI))%R by lra.
    destruct (Rle_dec _ _); split; intros; auto; discriminate || tauto.
  - intros Hs. rewrite map_map. set (g := fun d => (if (if Rle_dec (Rabs d) (1 / 2 * s * sqrt (3 / PI)) then true else false) then 1 else 0)%R).
    assert (HQ : (0 < sqrt (3 / PI))%R) by (apply sqrt_lt_R0, Rdiv_lt_0_compat; lra).
    apply (envelope_of g); [lia| | | |lra]; unfold g.
    + intros d. destruct (Rle_dec _ _); lra.
    + rewrite Rabs_R0. destruct (Rle_dec _ _) as [_|Q]; [reflexivity|]. exfalso. apply Q. nra.
    + intros d e H. destruct (Rle_dec (Rabs d) _), (Rle_dec (Rabs e) _); lra.
Qed.
Lemma c53_amtriang : forall n t s, 0 < n -> (0 < s)%R ->
  let L := (sqrt (10 / PI) * s / 2)%R in
  exists y, amtriang n (Some t) (Some s) = Ok (map Some y) /\ zlen y = n /\ envelope y t /\
  forall k, 0 <= k < n ->
    rnth y k = if Rle_dec (Rabs (IZR k - t)) L then (1 - Rabs (IZR k - t) / L)%R else 0%R.
Proof.
  intros n t s Hn Hs L. assert (HP := PI_RGT_0).
  assert (HL : (0 < L)%R). { unfold L. assert (0 < sqrt (10 / PI))%R by (apply sqrt_lt_R0, Rdiv_lt_0_compat; lra). nra. }
  set (g := fun d : R => (Rmax (Rmin (L + d) (L - d)) 0 / L)%R).
  assert (GE : forall d, g d = if Rle_dec (Rabs d) L then (1 - Rabs d / L)%R else 0%R).
  { intros d. unfold g. assert (E : Rmin (L + d) (L - d) = (L - Rabs d)%R).
    { unfold Rmin, Rabs. destruct (Rle_dec _ _), (Rcase_abs d); lra. }
    rewrite E. unfold Rmax. destruct (Rle_dec (L - Rabs d) 0), (Rle_dec (Rabs d) L); try lra.
    - replace (Rabs d) with L by lra. field. lra.
    all: field; lra. }
  exists (map (fun k => g (IZR k - t)%R) (arange 0 n)).
  split; [|split; [rewrite zlen_map_arange; lia|split]].
  - unfold amtriang. rewrite am_args_ok by lia. cbn [bind]. f_equal. rewrite map_map.
    apply map_ext. intros k. unfold triang_at. fold L. destruct (Req_EM_T L 0); [lra|]. reflexivity.
  - assert (HI : (0 < / L)%R) by now apply Rinv_0_lt_compat.
    assert (D : forall d, (Rabs d <= L -> Rabs d / L <= 1)%R).
    { intros d H. apply Rmult_le_reg_r with L; auto. unfold Rdiv. rewrite Rmult_assoc, Rinv_l by lra. lra. }
    assert (P : forall d, (0 <= Rabs d / L)%R) by (intros d; apply Rmult_le_pos; [apply Rabs_pos|lra]).
    apply envelope_of; [lia| | | |lra].
    + intros d. rewrite GE. destruct (Rle_dec _ _) as [Q|Q]; [|lra]. specialize (D d Q). specialize (P d). lra.
    + rewrite GE, Rabs_R0. destruct (Rle_dec _ _); [field|]; lra.
    + intros d e H. rewrite !GE. destruct (Rle_dec (Rabs e) L) as [Q|Q]; destruct (Rle_dec (Rabs d) L) as [Q'|Q']; try lra.
      * assert (Rabs d / L <= Rabs e / L)%R by (apply Rmult_le_compat_r; lra). lra.
      * specialize (D d Q'). lra.
  - intros k Hk. rewrite rnth_map_arange by lia. rewrite Z.add_0_l. apply GE.
Qed.
(** A one-sample Gaussian misses its own centre. *)
Lemma c53_gauss_one_refuted : exists v, amgauss 1 None None = Ok [Some v] /\ (v < 1)%R.
Proof.
  unfold amgauss. rewrite am_args_ok by lia. cbn [bind]. change (arange 1 (1 + 1)) with [1]. cbn [map]. unfold gauss_at.
  assert (ES : (2 * sqrt 1 = 2)%R) by (rewrite sqrt_1; ring). rewrite ES. destruct (Req_EM_T 2 0); [lra|]. eexists. split; [reflexivity|].
  assert (H := half_round_spec 1). cbv zeta in H. assert (E : half_round 1 = 0).
  { destruct H as [H|[H1 H2]]; [lia|]. destruct (Z.eq_dec (half_round 1) 1) as [E|]; [rewrite E in H2; discriminate|lia]. }
  rewrite E. apply Rlt_le_trans with (exp 0); [|right; apply exp_0]. apply exp_increasing. assert (HP := PI_RGT_0).
  match goal with |- (?x < 0)%R => replace x with (- PI / 4)%R by (cbn; field) end. lra.
Qed.
(** Spread 0: the Gaussian is 0 away from the centre and NaN at it. *)
Lemma c53_zero_spread_refuted : exists n t, amgauss n (Some t) (Some 0%R) = Ok [None; Some 0%R].
Proof.
  exists 2, 1%R. unfold amgauss. rewrite am_args_ok by lia. cbn [bind]. change (arange 1 (2 + 1)) with [1; 2]. cbn [map]. unfold gauss_at.
  destruct (Req_EM_T 0 0); [|lra]. destruct (Req_EM_T (1 - 1) 0); [|lra]. destruct (Req_EM_T (2 - 1) 0); [lra|]. reflexivity.
Qed.
Example c53_example : amgauss 3 (Some 2%R) (Some 1%R) = Ok [Some (exp (- PI)); Some 1%R; Some (exp (- PI))].
Proof.
  unfold amgauss. rewrite am_args_ok by lia. cbn [bind]. change (arange 1 (3 + 1)) with [1; 2; 3]. cbn [map]. unfold gauss_at.
  destruct (Req_EM_T 1 0); [lra|]. do 2 f_equal; [f_equal; f_equal; field|]. f_equal; [|do 2 f_equal; f_equal; field].
  f_equal. transitivity (exp 0); [f_equal; field|apply exp_0].
Qed.

Lemma nth_arange a b k : (Z.of_nat k < b - a) -> nth k (arange a b) 0 = a + Z.of_nat k.
Proof. intros H. apply nth_error_nth. apply nth_error_arange. lia. Qed.
(** *** C54 *)
Definition centre_of (n : Z) (t0 : option R) : R := match t0 with Some t => t | None => IZR (half_round n) end.
Lemma half_round_range n : 0 < n -> 0 <= half_round n < n.
Proof. intros H. destruct (half_round_spec n) as [E|[E1 E2]]; [lia|]. destruct (Z.eq_dec n 1) as [->|]; [|lia].
  assert (half_round 1 = 0 \/ half_round 1 = 1) as [E|E] by lia; [lia|]. rewrite E in E2. discriminate. Qed.
Lemma get_map_arange {A} (g : Z -> A) n i :
  get (map g (arange 0 n)) i = if (0 <=? i) && (i <? n) then Ok (g i) else if (- n <=? i) && (i <? 0) then Ok (g (i + n)) else Raise IndexError.
Proof.
  destruct (Z_lt_ge_dec n 0) as [Hn|Hn].
  - rewrite arange_empty by lia. cbn [map]. rewrite get_raise by (unfold zlen; cbn; lia).
    destruct (Z.leb_spec 0 i), (Z.ltb_spec i n), (Z.leb_spec (- n) i), (Z.ltb_spec i 0); cbn; lia || reflexivity.
  - assert (L : zlen (map g (arange 0 n)) = n) by (rewrite zlen_map_arange; lia).
    destruct (Z.leb_spec 0 i); cbn [andb]; [destruct (Z.ltb_spec i n); [|destruct (Z.leb_spec (- n) i), (Z.ltb_spec i 0); cbn; try lia]|destruct (Z.leb_spec (- n) i), (Z.ltb_spec i 0); cbn; try lia].
    + rewrite (get_ok (g 0)) by lia. now rewrite nth_map_arange, Z.add_0_l by lia.
    + apply get_raise. lia.
    + rewrite (get_neg (g 0)) by lia. rewrite L, nth_map_arange, Z.add_0_l by lia. reflexivity.
    + apply get_raise. lia.
Qed.
(** Which exception is raised, for every argument. *)
Lemma c54_raises : forall n f t0,
  (n <= 0 -> fmconst n f t0 = Raise TypeError) /\
  (0 < n -> (1 / 2 < Rabs f)%R -> fmconst n f t0 = Raise TypeError) /\
  (0 < n -> (Rabs f <= 1 / 2)%R -> (Ztrunc (centre_of n t0) < - n \/ n <= Ztrunc (centre_of n t0)) -> fmconst n f t0 = Raise IndexError) /\
  (0 < n -> (Rabs f <= 1 / 2)%R -> - n <= Ztrunc (centre_of n t0) < n -> exists r, fmconst n f t0 = Ok r).
Proof.
  intros n f t0. unfold fmconst. fold (centre_of n t0). cbv zeta. split; [|split; [|split]].
  - intros H. destruct (Z.leb_spec n 0); [reflexivity|lia].
  - intros H Hf. destruct (Z.leb_spec n 0); [lia|]. destruct (Rlt_dec _ _); [reflexivity|lra].
  - intros H Hf Ht. destruct (Z.leb_spec n 0); [lia|]. destruct (Rlt_dec _ _); [lra|]. rewrite get_raise; [reflexivity|]. rewrite zlen_map_arange by lia. lia.
  - intros H Hf Ht. destruct (Z.leb_spec n 0); [lia|]. destruct (Rlt_dec _ _); [lra|].
    destruct (get_cases (map (fun k => cis (2 * PI * f * (IZR k - centre_of n t0))) (arange 0 n)) (Ztrunc (centre_of n t0))) as [[c E]|E]; [rewrite E; cbn [bind]; eauto|].
    exfalso. rewrite get_map_arange in E. destruct (Z.leb_spec 0 (Ztrunc (centre_of n t0))), (Z.ltb_spec (Ztrunc (centre_of n t0)) n); cbn in E; try discriminate; try lia;
      destruct (Z.leb_spec (- n) (Ztrunc (centre_of n t0))), (Z.ltb_spec (Ztrunc (centre_of n t0)) 0); cbn in E; discriminate || lia.
Qed.
(** A centre on a sample: the tone, for every length and frequency. *)
Lemma c54_tone : forall n f c, 0 <= c < n -> (Rabs f <= 1 / 2)%R ->
  exists y, fmconst n f (Some (IZR c)) = Ok (map Some y, map (fun _ => f) (arange 0 n)) /\ zlen y = n /\
  (forall k, 0 <= k < n -> cnth y k = cis (2 * PI * f * IZR (k - c))) /\
  cnth y c = RtoC 1 /\
  (forall k, 0 <= k < n -> Cmod (cnth y k) = 1%R) /\
  (forall k, 0 <= k < n - 1 -> cnth y (k + 1) = (cnth y k * cis (2 * PI * f))%C).
Proof.
  intros n f c Hc Hf. set (g := fun k => cis (2 * PI * f * (IZR k - IZR c))).
  assert (G : forall k, cnth (map g (arange 0 n)) k = g k \/ ~ (0 <= k < n)) by (intros k; destruct (Z_le_dec 0 k); [destruct (Z_lt_dec k n)|]; try (right; lia); left; rewrite cnth_map_arange by lia; now rewrite Z.add_0_l).
  assert (GK : forall k, 0 <= k < n -> cnth (map g (arange 0 n)) k = g k) by (intros k Hk; destruct (G k); [auto|lia]).
  exists (map g (arange 0 n)). split; [|split; [rewrite zlen_map_arange; lia|]].
  - unfold fmconst. destruct (Z.leb_spec n 0); [lia|]. destruct (Rlt_dec _ _); [lra|]. rewrite trunc_IZR. cbv zeta. fold g. rewrite get_map_arange.
    rewrite (proj2 (Z.leb_le 0 c)), (proj2 (Z.ltb_lt c n)) by lia. cbn [andb bind].
    assert (E : g c = RtoC 1) by (unfold g; rewrite Rminus_eq_0, Rmult_0_r; apply cis_0). rewrite E. cbn [Re RtoC fst]. destruct (Req_EM_T 1 0); [lra|].
    do 2 f_equal. apply map_ext. intros z. f_equal. field. intros Q. apply RtoC_inj in Q. lra.
  - repeat split.
    + intros k Hk. rewrite GK by lia. unfold g. now rewrite minus_IZR.
    + rewrite GK by lia. unfold g. rewrite Rminus_eq_0, Rmult_0_r. apply cis_0.
    + intros k Hk. rewrite GK by lia. apply Cmod_cis.
    + intros k Hk. rewrite !GK by lia. unfold g. rewrite <- cis_plus. f_equal. rewrite plus_IZR. ring.
Qed.
Lemma c54_default : forall n f, fmconst n f None = fmconst n f (Some (IZR (half_round n))).
Proof. reflexivity. Qed.
(** Between samples the signal is divided by a cosine instead of having unit
    modulus; a negative centre uses the sample counted from the end. *)
Lemma c54_modulus : forall n f t, 0 < n -> (Rabs f <= 1 / 2)%R -> - n <= Ztrunc t < n ->
  let i := if Ztrunc t <? 0 then Ztrunc t + n else Ztrunc t in
  let d := cos (2 * PI * f * (IZR i - t)) in
  fmconst n f (Some t) =
    Ok (map (fun k => if Req_EM_T d 0 then None else Some (cis (2 * PI * f * (IZR k - t)) / RtoC d)%C) (arange 0 n), map (fun _ => f) (arange 0 n)) /\
  forall k, d <> 0%R -> Cmod (cis (2 * PI * f * (IZR k - t)) / RtoC d)%C = (1 / Rabs d)%R.
Proof.
  intros n f t Hn Hf Ht i d. split.
  - unfold fmconst. destruct (Z.leb_spec n 0); [lia|]. destruct (Rlt_dec _ _); [lra|]. cbv zeta. rewrite get_map_arange.
    assert (E : (if (0 <=? Ztrunc t) && (Ztrunc t <? n) then Ok (cis (2 * PI * f * (IZR (Ztrunc t) - t))) else
        if (- n <=? Ztrunc t) && (Ztrunc t <? 0) then Ok (cis (2 * PI * f * (IZR (Ztrunc t + n) - t))) else Raise IndexError) = Ok (cis (2 * PI * f * (IZR i - t)))).
    { unfold i. destruct (Z.leb_spec 0 (Ztrunc t)), (Z.ltb_spec (Ztrunc t) n), (Z.leb_spec (- n) (Ztrunc t)), (Z.ltb_spec (Ztrunc t) 0); cbn [andb]; try lia; reflexivity. }
    rewrite E. cbn [bind]. change (Re (cis (2 * PI * f * (IZR i - t)))) with d. rewrite map_map. reflexivity.
  - intros k Hd. rewrite Cmod_div by (intros Q; apply RtoC_inj in Q; tauto). now rewrite Cmod_cis, Cmod_R.
Qed.
(** t0 = 3/2, f = 1/4: every sample has modulus sqrt 2. *)
Lemma c54_fraction_refuted : exists n f t y l, (0 <= t < IZR n)%R /\ fmconst n f (Some t) = Ok (y, l) /\ y <> [] /\
  forall z, In z y -> exists w, z = Some w /\ (Cmod w = sqrt 2)%R.
Proof.
  assert (HP := PI_RGT_0).
  assert (HT : Ztrunc (3 / 2) = 1). { rewrite Ztrunc_floor by lra. apply Zfloor_imp. cbn. lra. }
  exists 2, (1 / 4)%R, (3 / 2)%R. destruct (c54_modulus 2 (1 / 4) (3 / 2)) as [E M]; [lia|rewrite Rabs_right; lra|rewrite HT; lia|].
  rewrite HT in E, M. change (1 <? 0) with false in E, M. cbv beta iota zeta in E, M.
  assert (ED : cos (2 * PI * (1 / 4) * (IZR 1 - 3 / 2)) = (1 / sqrt 2)%R).
  { replace (2 * PI * (1 / 4) * (IZR 1 - 3 / 2))%R with (- (PI / 4))%R by (cbn; field). rewrite cos_neg. apply cos_PI4. }
  assert (S2 : (0 < sqrt 2)%R) by (apply sqrt_lt_R0; lra). assert (HD : (0 < 1 / sqrt 2)%R) by (apply Rdiv_lt_0_compat; lra).
  rewrite ED in E, M. eexists _, _. split; [cbn; lra|]. split; [exact E|]. split; [discriminate|].
  intros z Hz. apply in_map_iff in Hz. destruct Hz as (k & <- & _). destruct (Req_EM_T _ 0); [lra|]. eexists. split; [reflexivity|].
  rewrite M by lra. rewrite Rabs_right by lra. field. lra.
Qed.
Example c54_example : exists l, fmconst 3 (1 / 4) (Some (IZR 1)) = Ok ([Some (- Ci)%C; Some (RtoC 1); Some Ci], l).
Proof.
  destruct (c54_tone 3 (1 / 4) 1) as (y & E & L & V & _); [lia|rewrite Rabs_right; lra|]. eexists. rewrite E. do 2 f_equal.
  destruct y as [|a [|b [|c [|? ?]]]]; try (unfold zlen in L; cbn in L; lia). cbn [map].
  assert (V0 := V 0 ltac:(lia)). assert (V1 := V 1 ltac:(lia)). assert (V2 := V 2 ltac:(lia)).
  change (cnth [a; b; c] 0) with a in V0. change (cnth [a; b; c] 1) with b in V1. change (cnth [a; b; c] 2) with c in V2. rewrite V0, V1, V2.
  assert (C2 : cis (PI / 2) = Ci) by (unfold cis; rewrite cos_PI2, sin_PI2; reflexivity).
  replace (2 * PI * (1 / 4) * IZR (0 - 1))%R with (- (PI / 2))%R by (cbn; field). replace (2 * PI * (1 / 4) * IZR (1 - 1))%R with 0%R by (cbn; field).
  replace (2 * PI * (1 / 4) * IZR (2 - 1))%R with (PI / 2)%R by (cbn; field). rewrite cis_opp, C2, cis_0. do 2 f_equal. apply injective_projections; cbn; ring.
Qed.

(** *** C55 *)
Lemma c55_raises : forall n fi ff t0,
  (n <= 0 \/ (1 / 2 < Rabs fi)%R \/ (1 / 2 < Rabs ff)%R -> fmlin n fi ff t0 = Raise TypeError) /\
  ((Rabs fi <= 1 / 2)%R -> (Rabs ff <= 1 / 2)%R -> fmlin 1 fi ff t0 = Raise ZeroDivisionError) /\
  (2 <= n -> (Rabs fi <= 1 / 2)%R -> (Rabs ff <= 1 / 2)%R -> (Ztrunc (centre_of n t0) < 1 - n \/ n < Ztrunc (centre_of n t0)) -> fmlin n fi ff t0 = Raise IndexError).
Proof.
  intros n fi ff t0. unfold fmlin. fold (centre_of n t0). cbv zeta. repeat split.
  - intros H. destruct (Z.leb_spec n 0); [reflexivity|]. destruct (Rlt_dec _ (Rabs fi)); [reflexivity|]. destruct (Rlt_dec _ (Rabs ff)); [reflexivity|]. destruct H as [H|[H|H]]; lia || lra.
  - intros Hi Hf. change (1 <=? 0) with false. destruct (Rlt_dec _ (Rabs fi)); [lra|]. destruct (Rlt_dec _ (Rabs ff)); [lra|]. reflexivity.
  - intros H Hi Hf Ht. destruct (Z.leb_spec n 0); [lia|]. destruct (Rlt_dec _ (Rabs fi)); [lra|]. destruct (Rlt_dec _ (Rabs ff)); [lra|]. destruct (Z.eqb_spec n 1); [lia|].
    rewrite get_raise; [reflexivity|]. rewrite !zlen_map, arange_zlen. lia.
Qed.
(** The chirp: for every centre (real number) in range. *)
Lemma c55_chirp : forall n fi ff t0, 2 <= n -> (Rabs fi <= 1 / 2)%R -> (Rabs ff <= 1 / 2)%R -> 1 - n <= Ztrunc (centre_of n t0) <= n ->
  exists y law, fmlin n fi ff t0 = Ok (y, law) /\ zlen y = n /\ zlen law = n /\
  (forall k, 0 <= k < n -> rnth law k = (fi + (ff - fi) * IZR k / IZR (n - 1))%R) /\
  rnth law 0 = fi /\ rnth law (n - 1) = ff /\
  (forall k, 0 <= k < n -> Cmod (cnth y k) = 1%R) /\
  cnth y ((Ztrunc (centre_of n t0) - 1) mod n) = RtoC 1 /\
  (forall k, 0 <= k < n - 1 -> cnth y (k + 1) = (cnth y k * cis (2 * PI * ((rnth law k + rnth law (k + 1)) / 2)))%C) /\
  (forall k, 0 <= k < n - 2 -> cnth y (k + 2) = (cnth y k * cis (4 * PI * rnth law (k + 1)))%C).
Proof.
  intros n fi ff t0 Hn Hi Hf Ht. set (t := centre_of n t0) in *.
  set (ph := fun k : Z => (2 * PI * (fi * (IZR (k + 1) - t) + (ff - fi) / (2 * IZR (n - 1)) * ((IZR (k + 1) - 1) ^ 2 - (t - 1) ^ 2)))%R).
  assert (HN : IZR (n - 1) <> 0%R) by (apply not_0_IZR; lia).
  set (i := (Ztrunc t - 1) mod n). assert (Hmod : 0 <= i < n) by (apply Z.mod_pos_bound; lia).
  set (y0 := map (fun k => cis (ph k)) (arange 0 n)).
  assert (EG : get y0 (Ztrunc t - 1) = Ok (cis (ph i))).
  { unfold y0. rewrite get_map_arange. unfold i. destruct (Z.leb_spec 0 (Ztrunc t - 1)).
    - rewrite (proj2 (Z.ltb_lt _ _)) by lia. cbn [andb]. rewrite Z.mod_small by lia. reflexivity.
    - cbn [andb]. rewrite (proj2 (Z.leb_le _ _)), (proj2 (Z.ltb_lt _ _)) by lia. cbn [andb]. replace ((Ztrunc t - 1) mod n) with (Ztrunc t - 1 + n); [reflexivity|].
      rewrite <- (Z.mod_small (Ztrunc t - 1 + n) n) by lia. rewrite <- Z.add_mod_idemp_r, Z.mod_same, Z.add_0_r by lia. reflexivity. }
  exists (map (fun z => z / cis (ph i))%C y0), (linspace fi ff n).
  assert (EL : forall k, 0 <= k < n -> rnth (linspace fi ff n) k = (fi + (ff - fi) * IZR k / IZR (n - 1))%R).
  { intros k Hk. unfold linspace. rewrite rnth_map_arange by lia. rewrite Z.add_0_l. field. auto. }
  assert (EY : forall k, 0 <= k < n -> cnth (map (fun z => z / cis (ph i))%C y0) k = cis (ph k - ph i)).
  { intros k Hk. unfold y0. rewrite map_map, cnth_map_arange by lia. rewrite Z.add_0_l. unfold Rminus. rewrite cis_plus, cis_opp.
    unfold Cdiv. f_equal. rewrite <- (Cmult_1_r (/ cis (ph i))%C), <- (cis_conj_mul (ph i)). field. apply cis_neq_0. }
  split; [|split; [|split; [|split; [exact EL|split; [|split; [|split; [|split; [|split]]]]]]]].
  - unfold fmlin. fold t. cbv zeta. destruct (Z.leb_spec n 0); [lia|]. destruct (Rlt_dec _ (Rabs fi)); [lra|]. destruct (Rlt_dec _ (Rabs ff)); [lra|]. destruct (Z.eqb_spec n 1); [lia|].
    replace (arange 1 (n + 1)) with (map (fun k => k + 1) (arange 0 n)) by (rewrite <- arange_shift; reflexivity). rewrite !map_map.
    unfold centre_of in t. fold t. fold y0. change (map (fun x => cis (ph x)) (arange 0 n)) with y0. fold ph.
    match goal with |- (c <- get ?Y _ ;; _) = _ => change Y with y0 end. rewrite EG. reflexivity.
  - unfold y0. rewrite !zlen_map, arange_zlen. lia.
  - unfold linspace. rewrite zlen_map, arange_zlen. lia.
  - rewrite EL by lia. field. auto.
  - rewrite EL by lia. field. auto.
  - intros k Hk. rewrite EY by lia. apply Cmod_cis.
  - rewrite EY by lia. rewrite Rminus_eq_0. apply cis_0.
  - intros k Hk. rewrite !EY, !EL by lia. rewrite <- cis_plus. f_equal. unfold ph. rewrite !plus_IZR. field. auto.
  - intros k Hk. rewrite !EY, !EL by lia. rewrite <- cis_plus. f_equal. unfold ph. rewrite !plus_IZR. field. auto.
Qed.
Lemma c55_default : forall n fi ff, 2 <= n -> 1 <= half_round n <= n /\ fmlin n fi ff None = fmlin n fi ff (Some (IZR (half_round n))).
Proof. intros n fi ff Hn. split; [|reflexivity]. assert (H := half_round_range n). destruct (half_round_spec n) as [E|[E _]]; lia. Qed.
(** Two samples, frequencies 0 and 1/2, centre 1: (1, i). *)
Example c55_example : exists y, fmlin 2 0 (1 / 2) (Some 1%R) = Ok (y, [0; 1 / 2]%R) /\ y = [RtoC 1; Ci].
Proof.
  assert (T1 : Ztrunc 1 = 1) by apply (trunc_IZR 1).
  destruct (c55_chirp 2 0 (1 / 2) (Some 1%R)) as (y & law & E & L1 & L2 & EL & _ & _ & _ & E1 & EI & _); [lia|rewrite Rabs_R0; lra|rewrite Rabs_right; lra|cbn [centre_of]; rewrite T1; lia|].
  cbn [centre_of] in E1. rewrite T1 in E1. change ((1 - 1) mod 2) with 0 in E1. specialize (EI 0 ltac:(lia)). rewrite !EL in EI by lia.
  exists y. rewrite E. assert (A0 := EL 0 ltac:(lia)). assert (A1 := EL 1 ltac:(lia)).
  destruct y as [|a [|b [|]]]; try (unfold zlen in L1; cbn in L1; lia). destruct law as [|u [|v [|]]]; try (unfold zlen in L2; cbn in L2; lia).
  change (rnth [u; v] 0) with u in A0. change (rnth [u; v] 1) with v in A1. change (cnth [a; b] 0) with a in E1, EI. change (cnth [a; b] (0 + 1)) with b in EI.
  split.
  - do 2 f_equal. f_equal; [rewrite A0; cbn; field|]. f_equal. rewrite A1. cbn. field.
  - rewrite E1. f_equal. f_equal. rewrite EI, E1.
    replace (2 * PI * ((0 + (1 / 2 - 0) * 0 / IZR (2 - 1) + (0 + (1 / 2 - 0) * IZR (0 + 1) / IZR (2 - 1))) / 2))%R with (PI / 2)%R by (cbn; field).
    unfold cis. rewrite cos_PI2, sin_PI2. apply injective_projections; cbn; ring.
Qed.

(** *** C51 on the generated signals *)
Lemma c51_fmconst : forall ang n f c y law, (forall k z, is_angle z (ang k z)) -> 0 <= c < n -> (0 < f <= 1 / 2)%R ->
  fmconst n f (Some (IZR c)) = Ok (map Some y, law) ->
  exists fs, inst_freq ang y None = Ok (fs, arange 2 n) /\
  forall v, In v fs -> if Rlt_dec f (1 / 2) then v = f else (v = 0 \/ v = 1 / 2)%R.
Proof.
  intros ang n f c y law HA Hc Hf E. assert (HP := PI_RGT_0).
  destruct (c54_tone n f c) as (y' & E' & L & V & _); [lia|rewrite Rabs_right; lra|]. rewrite E' in E. injection E as EY _.
  assert (y' = y). { clear -EY. revert y EY. induction y' as [|a l IH]; intros [|b m] H; cbn in H; try discriminate; [reflexivity|]. injection H as -> H. f_equal. auto. }
  subst y'. destruct (c51_default ang y) as (fs & EF & LF). rewrite L in EF. exists fs. split; [exact EF|].
  intros v Hv. apply (In_nth _ _ 0%R) in Hv. destruct Hv as (k & Hk & <-). rewrite L in LF. unfold zlen in LF.
  assert (LA : zlen (arange 2 n) = n - 2) by (rewrite arange_zlen; lia).
  assert (EN : nth k (arange 2 n) 0 = 2 + Z.of_nat k) by (rewrite nth_arange; lia).
  destruct (c51_exact ang y None fs (arange 2 n) (Z.of_nat k) 1 1 (2 * PI * f * IZR (2 + Z.of_nat k - c)) (2 * PI * f * IZR (Z.of_nat k - c)) HA EF) as [Q1 Q2]; [lia|lra|lra| | |].
  - rewrite Nat2Z.id, EN, (get_ok (RtoC 0)) by lia. f_equal. change (nth (Z.to_nat (2 + Z.of_nat k)) y (RtoC 0)) with (cnth y (2 + Z.of_nat k)). rewrite V by lia. ring.
  - rewrite Nat2Z.id, EN. replace (2 + Z.of_nat k - 2) with (Z.of_nat k) by lia. rewrite (get_ok (RtoC 0)) by lia. f_equal. change (nth (Z.to_nat (Z.of_nat k)) y (RtoC 0)) with (cnth y (Z.of_nat k)). rewrite V by lia. ring.
  - unfold rnth in Q1, Q2. rewrite Nat2Z.id in Q1, Q2.
    assert (ED : (2 * PI * f * IZR (2 + Z.of_nat k - c) - 2 * PI * f * IZR (Z.of_nat k - c))%R = (4 * PI * f)%R) by (rewrite !minus_IZR, plus_IZR; ring).
    rewrite ED in Q1, Q2. destruct (Rlt_dec f (1 / 2)).
    + rewrite Q1 by nra. field. lra.
    + apply Q2. right. replace f with (1 / 2)%R by lra. field.
Qed.
Lemma c51_fmlin : forall ang n fi ff t0 y law, (forall k z, is_angle z (ang k z)) -> 2 <= n -> (Rabs fi <= 1 / 2)%R -> (Rabs ff <= 1 / 2)%R ->
  fmlin n fi ff t0 = Ok (y, law) ->
  exists fs, inst_freq ang y None = Ok (fs, arange 2 n) /\ zlen fs = n - 2 /\
  forall k, 0 <= k < n - 2 -> (0 < rnth law (k + 1) < 1 / 2)%R -> rnth fs k = rnth law (k + 1).
Proof.
  intros ang n fi ff t0 y law HA Hn Hi Hf E. assert (HP := PI_RGT_0).
  destruct (Z_lt_ge_dec (Ztrunc (centre_of n t0)) (1 - n)) as [R1|R1]; [destruct (c55_raises n fi ff t0) as (_ & _ & Q); rewrite Q in E by (auto; lia); discriminate|].
  destruct (Z_lt_ge_dec n (Ztrunc (centre_of n t0))) as [R2|R2]; [destruct (c55_raises n fi ff t0) as (_ & _ & Q); rewrite Q in E by (auto; lia); discriminate|].
  destruct (c55_chirp n fi ff t0) as (y' & law' & E' & L1 & L2 & EL & _ & _ & EM & _ & _ & EI); auto; [lia|]. rewrite E' in E. injection E as <- <-.
  destruct (c51_default ang y') as (fs & EF & LF). rewrite L1 in EF, LF. exists fs. split; [exact EF|]. split; [lia|].
  intros k Hk Hl. assert (EN : nth (Z.to_nat k) (arange 2 n) 0 = 2 + k) by (rewrite nth_arange; lia).
  set (psi := Carg (cnth y' k)). assert (Y0 : cnth y' k = (RtoC 1 * cis psi)%C). { destruct (Carg_angle (cnth y' k)) as (_ & Q & _). rewrite Q at 1. rewrite EM by lia. reflexivity. }
  destruct (c51_exact ang y' None fs (arange 2 n) k 1 1 (psi + 4 * PI * rnth law' (k + 1)) psi HA EF) as [Q1 _]; [rewrite arange_zlen; lia|lra|lra| | |].
  - rewrite EN, (get_ok (RtoC 0)) by lia. f_equal. change (nth (Z.to_nat (2 + k)) y' (RtoC 0)) with (cnth y' (2 + k)). replace (2 + k) with (k + 2) by lia. rewrite EI, Y0, cis_plus by lia. ring.
  - rewrite EN. replace (2 + k - 2) with k by lia. rewrite (get_ok (RtoC 0)) by lia. f_equal. exact Y0.
  - rewrite Q1; [field; lra|]. nra.
Qed.
