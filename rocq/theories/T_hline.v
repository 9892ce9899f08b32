(** C109: the Hough transform finds lines. *)
From Coq Require Import Reals ZArith List Lia Lra Bool.
From Coquelicot Require Import Coquelicot.
From Flocq Require Import Core.
From Verif Require Import Py Scalars CSum DFT Spec M_base M_putils M_reas M_post P_base P_stft T_putils T_reas T_post.
Import ListNotations.
Local Open Scope Z_scope.

Lemma jordan x : (0 < x <= PI / 2)%R -> (2 / PI * x <= sin x)%R.
Proof.
  intros [H0 H1]. assert (HP := PI_RGT_0). assert (D : forall c, derivable_pt_lim sin c (cos c)) by (intros; apply derivable_pt_lim_sin).
  destruct (Req_dec x (PI / 2)) as [->|N]. { rewrite sin_PI2. right. field. lra. }
  destruct (MVT_cor2 sin cos 0 x H0 (fun c _ => D c)) as (c1 & E1 & B1). destruct (MVT_cor2 sin cos x (PI / 2) ltac:(lra) (fun c _ => D c)) as (c2 & E2 & B2).
  rewrite sin_0 in E1. rewrite sin_PI2 in E2. assert (L : (cos c2 <= cos c1)%R) by (apply cos_decr_1; lra).
  apply (Rmult_le_reg_r (PI / 2)); [lra|]. replace (2 / PI * x * (PI / 2))%R with x by (field; lra).
  assert (Q : ((PI / 2 - x) * cos c2 <= (PI / 2 - x) * cos c1)%R) by (apply Rmult_le_compat_l; lra). nra.
Qed.
Lemma sin_grid n j : 0 < j < n -> (2 / IZR n <= sin (PI * IZR j / IZR n))%R.
Proof.
  intros H. assert (HP := PI_RGT_0). assert (N0 : (0 < IZR n)%R) by (apply IZR_lt; lia).
  assert (K : forall i, 0 < i -> 2 * i <= n -> (2 / IZR n <= sin (PI * IZR i / IZR n))%R).
  { intros i Hi Hn. assert (I1 : (1 <= IZR i)%R) by (apply IZR_le; lia). assert (I2 : (2 * IZR i <= IZR n)%R) by (rewrite <- mult_IZR; apply IZR_le; lia).
    apply Rle_trans with (2 / PI * (PI * IZR i / IZR n))%R.
    - replace (2 / PI * (PI * IZR i / IZR n))%R with (2 / IZR n * IZR i)%R by (field; lra). assert (0 < 2 / IZR n)%R by (apply Rdiv_lt_0_compat; lra). nra.
    - apply jordan. split; [apply Rdiv_lt_0_compat; nra|]. apply (Rmult_le_reg_r (IZR n)); [lra|]. replace (PI * IZR i / IZR n * IZR n)%R with (PI * IZR i)%R by (field; lra). nra. }
  destruct (Z_le_dec (2 * j) n) as [L|L]; [apply K; lia|]. rewrite <- sin_PI_x. replace (PI - PI * IZR j / IZR n)%R with (PI * IZR (n - j) / IZR n)%R by (rewrite minus_IZR; field; lra). apply K; lia.
Qed.
Lemma sin_shift_abs x q : 0 <= q -> Rabs (sin (x + PI * IZR q)) = Rabs (sin x).
Proof.
  revert q. apply natlike_ind.
  - f_equal. f_equal. ring.
  - intros p Hp IH. rewrite <- IH. rewrite <- (Rabs_Ropp (sin (x + PI * IZR p))). f_equal. rewrite <- neg_sin. f_equal. unfold Z.succ. rewrite plus_IZR. ring.
Qed.
Lemma sin_angle n k : 0 <= k < n -> 2 * k mod n <> 0 -> (2 / IZR n <= Rabs (sin (2 * PI * IZR k / IZR n)))%R.
Proof.
  intros Hk H. assert (N0 : (0 < IZR n)%R) by (apply IZR_lt; lia). assert (B := Z.mod_pos_bound (2 * k) n ltac:(lia)). assert (E := Z.div_mod (2 * k) n ltac:(lia)). set (j := 2 * k mod n) in *. set (q := 2 * k / n) in *.
  replace (2 * PI * IZR k / IZR n)%R with (PI * IZR j / IZR n + PI * IZR q)%R.
  - rewrite sin_shift_abs by (apply Z.div_pos; lia). apply Rle_trans with (2 := Rle_abs _). apply sin_grid. lia.
  - replace (2 * PI * IZR k)%R with (PI * IZR (2 * k))%R by (rewrite mult_IZR; ring). rewrite E, plus_IZR, mult_IZR. field. lra.
Qed.

(** Bright pixels: those that vote. *)
Definition bright (image : list (list R)) (imax : R) (a b : Z) : bool := gtb (Rabs (pix image a b)) (imax / 20).
Definition mass (image : list (list R)) (ymax : Z) (imax : R) : R :=
  rsum (arange 0 (zlen image)) (fun a => rsum (arange 0 ymax) (fun b => if bright image imax a b then pix image a b else 0%R)).
Definition spacing (xmax ymax m : Z) : R := (sqrt (IZR xmax ^ 2 + IZR ymax ^ 2) / 2 / IZR (m - 1))%R.

Lemma rsum_le_eq {A} (l : list A) f g : (forall a, In a l -> (f a <= g a)%R) -> rsum l f = rsum l g -> forall a, In a l -> f a = g a.
Proof.
  induction l as [|b l IH]; intros H E a I; [destruct I|]. rewrite !rsum_cons in E. assert (L := H b (or_introl eq_refl)). assert (L2 : (rsum l f <= rsum l g)%R) by (apply rsum_le; intros; apply H; now right).
  destruct I as [<-|I]; [lra|]. apply IH; auto. intros; apply H; now right. lra.
Qed.

(** No entry exceeds the brightness of the voting pixels, and an entry reaches it
    exactly when they all lie in its strip. *)
Lemma c109_strip : forall image ymax m n imax ht rho theta, rect image ymax -> 1 <= zlen image -> 1 <= ymax -> 2 <= m -> 1 <= n ->
  (forall a b, 0 <= a < zlen image -> 0 <= b < ymax -> (0 <= pix image a b)%R) -> is_max (concat image) imax ->
  hough image ymax (Some m) (Some n) = Ok (ht, rho, theta) -> forall r k, 0 <= r < m -> 0 <= k < n ->
  (0 <= rent ht r k <= mass image ymax imax)%R /\
  (rent ht r k = mass image ymax imax <-> forall a b, 0 <= a < zlen image -> 0 <= b < ymax -> bright image imax a b = true ->
    (0 <= hrho (zlen image) ymax n a b k)%R /\ ZnearestE (hrho (zlen image) ymax n a b k / spacing (zlen image) ymax m) = r).
Proof.
  intros image ymax m n imax ht rho theta HR Hx Hy Hm Hn HP HM H r k Hr Hk.
  destruct (c41_entries image ymax m n imax HR Hx Hy ltac:(lia) Hn HM) as (ht' & rho' & theta' & E & _ & F & _). assert (ht' = ht) by congruence. subst ht'. clear E. cbv zeta in F. rewrite F by auto. fold (spacing (zlen image) ymax m).
  set (u := fun a b => if bright image imax a b then pix image a b else 0%R).
  set (v := fun a b => if bright image imax a b && Rleb 0 (hrho (zlen image) ymax n a b k) && (ZnearestE (hrho (zlen image) ymax n a b k / spacing (zlen image) ymax m) =? r) then pix image a b else 0%R).
  change (mass image ymax imax) with (rsum (arange 0 (zlen image)) (fun a => rsum (arange 0 ymax) (fun b => u a b))).
  match goal with |- (0 <= ?e <= _)%R /\ _ => change e with (rsum (arange 0 (zlen image)) (fun a => rsum (arange 0 ymax) (fun b => v a b))) end.
  assert (UV : forall a b, 0 <= a < zlen image -> 0 <= b < ymax -> (0 <= v a b <= u a b)%R). { intros a b Ha Hb. unfold u, v. specialize (HP a b Ha Hb). destruct (bright _ _ _ _); cbn [andb]; [|lra]. destruct (_ && _); lra. }
  split; [split|split].
  - apply rsum_nonneg. intros a Ia. apply rsum_nonneg. intros b Ib. apply in_arange in Ia, Ib. apply UV; lia.
  - apply rsum_le. intros a Ia. apply rsum_le. intros b Ib. apply in_arange in Ia, Ib. apply UV; lia.
  - intros Q a b Ha Hb BR. assert (Q1 : rsum (arange 0 ymax) (fun b => v a b) = rsum (arange 0 ymax) (fun b => u a b)).
    { apply (rsum_le_eq (arange 0 (zlen image)) (fun a => rsum (arange 0 ymax) (fun b => v a b)) (fun a => rsum (arange 0 ymax) (fun b => u a b))); [|exact Q|apply in_arange; lia]. intros a' Ia. apply rsum_le. intros b' Ib. apply in_arange in Ia, Ib. apply UV; lia. }
    assert (Q2 : v a b = u a b). { apply (rsum_le_eq (arange 0 ymax) (fun b => v a b) (fun b => u a b)); [|exact Q1|apply in_arange; lia]. intros b' Ib. apply in_arange in Ib. apply UV; lia. }
    unfold u, v in Q2. rewrite BR in Q2. cbn [andb] in Q2.
    assert (PP : pix image a b <> 0%R). { intros Z. unfold bright, gtb in BR. rewrite Z, Rabs_R0 in BR. destruct (Rlt_dec _ _) as [L|]; [|discriminate]. destruct HM as [_ HM]. assert (I : In (pix image a b) (concat image)). { apply in_concat. exists (nth (Z.to_nat a) image []). assert (I : In (nth (Z.to_nat a) image []) image) by (apply nth_In; unfold zlen in Ha; lia). split; auto. apply nth_In. apply HR in I. unfold zlen in I. lia. } apply HM in I. lra. }
    unfold Rleb in Q2. destruct (Rle_dec 0 _) as [L|L]; cbn [andb] in Q2; [|congruence]. split; auto. destruct (Z.eqb_spec (ZnearestE (hrho (zlen image) ymax n a b k / spacing (zlen image) ymax m)) r); congruence.
  - intros Q. apply rsum_ext. intros a Ia. apply rsum_ext. intros b Ib. apply in_arange in Ia, Ib. unfold u, v. destruct (bright image imax a b) eqn:BR; [|reflexivity]. destruct (Q a b Ia Ib BR) as [Q1 Q2]. unfold Rleb. destruct (Rle_dec 0 _); [|tauto]. rewrite Q2, Z.eqb_refl. reflexivity.
Qed.

Lemma near_gap (a b d : R) r : (0 < d)%R -> ZnearestE (a / d) = r -> ZnearestE (b / d) = r -> (Rabs (a - b) <= d)%R.
Proof.
  intros Hd A B. assert (QA := Znearest_half (fun x => negb (Z.even x)) (a / d)). assert (QB := Znearest_half (fun x => negb (Z.even x)) (b / d)). change (Znearest (fun x => negb (Z.even x))) with ZnearestE in *. rewrite A in QA. rewrite B in QB.
  apply Rabs_le_inv in QA, QB. replace (a - b)%R with ((a / d - b / d) * d)%R by (field; lra). rewrite Rabs_mult, (Rabs_pos_eq d) by lra. assert (Rabs (a / d - b / d) <= 1)%R by (apply Rabs_le; lra). nra.
Qed.
Lemma spacing_pos X Y m : 1 <= X -> 2 <= m -> (0 < spacing X Y m)%R.
Proof.
  intros HX Hm. unfold spacing. apply Rdiv_lt_0_compat; [|apply IZR_lt; lia]. apply Rdiv_lt_0_compat; [|lra]. apply sqrt_lt_R0. assert (1 <= IZR X)%R by (apply IZR_le; lia). assert (0 <= IZR Y ^ 2)%R by apply pow2_ge_0. nra.
Qed.
(** Lines of constant frequency: all bright pixels in row a.  The accumulator has
    the whole brightness at angle 0 (or pi), at the distance of the row. *)
Lemma c109_row : forall image ymax m n imax ht rho theta a, rect image ymax -> 1 <= ymax -> 2 <= m -> 1 <= n -> 0 <= a < zlen image ->
  (forall a b, 0 <= a < zlen image -> 0 <= b < ymax -> (0 <= pix image a b)%R) -> is_max (concat image) imax ->
  hough image ymax (Some m) (Some n) = Ok (ht, rho, theta) ->
  (forall a' b, 0 <= a' < zlen image -> 0 <= b < ymax -> bright image imax a' b = true -> a' = a) ->
  let x := hcoord (zlen image) a in
  (0 <= x -> rent ht (ZnearestE (IZR x / spacing (zlen image) ymax m)) 0 = mass image ymax imax) /\
  (x <= 0 -> n mod 2 = 0 -> rent ht (ZnearestE (IZR (- x) / spacing (zlen image) ymax m)) (n / 2) = mass image ymax imax).
Proof.
  intros image ymax m n imax ht rho theta a HR Hy Hm Hn Ha HP HM H HB x. assert (SP := spacing_pos (zlen image) ymax m ltac:(lia) Hm).
  assert (H0 : forall b, hrho (zlen image) ymax n a b 0 = IZR x). { intros b. unfold hrho. fold x. replace (2 * PI * IZR 0 / IZR n)%R with 0%R by (unfold Rdiv; ring). rewrite cos_0, sin_0. ring. }
  assert (N0 : (0 < IZR n)%R) by (apply IZR_lt; lia).
  assert (HPI : n mod 2 = 0 -> forall b, hrho (zlen image) ymax n a b (n / 2) = IZR (- x)). { intros E b. unfold hrho. fold x. replace (2 * PI * IZR (n / 2) / IZR n)%R with PI. rewrite cos_PI, sin_PI, opp_IZR. ring. assert (Q := Z.div_mod n 2 ltac:(lia)). rewrite E, Z.add_0_r in Q. rewrite Q at 2. rewrite mult_IZR. field. apply not_0_IZR. lia. }
  assert (RG : forall k p, (0 <= p)%R -> (forall b, hrho (zlen image) ymax n a b k = p) -> 0 <= ZnearestE (p / spacing (zlen image) ymax m) < m).
  { intros k p P0 Q. assert (B := c41_rho_bound (zlen image) ymax n a 0 k Ha ltac:(lia)). rewrite Q in B. apply (hrow_range _ m p ltac:(lia) (conj P0 B)). }
  split.
  - intros X0. assert (P0 : (0 <= IZR x)%R) by (apply IZR_le; lia). apply (c109_strip image ymax m n imax ht rho theta HR ltac:(lia) Hy Hm Hn HP HM H _ 0 (RG 0 _ P0 H0) ltac:(lia)).
    intros a' b Ha' Hb BR. rewrite (HB a' b Ha' Hb BR). rewrite H0. auto.
  - intros X0 E. assert (P0 : (0 <= IZR (- x))%R) by (apply IZR_le; lia). assert (K : 0 <= n / 2 < n) by (Z.to_euclidean_division_equations; lia). apply (c109_strip image ymax m n imax ht rho theta HR ltac:(lia) Hy Hm Hn HP HM H _ (n / 2) (RG _ _ P0 (HPI E)) K).
    intros a' b Ha' Hb BR. rewrite (HB a' b Ha' Hb BR). rewrite HPI by auto. auto.
Qed.
(** Impulses: all bright pixels in column b; angle 3 pi / 2 or pi / 2. *)
Lemma c109_column : forall image ymax m n imax ht rho theta b, rect image ymax -> 1 <= zlen image -> 2 <= m -> 1 <= n -> 0 <= b < ymax -> n mod 4 = 0 ->
  (forall a b, 0 <= a < zlen image -> 0 <= b < ymax -> (0 <= pix image a b)%R) -> is_max (concat image) imax ->
  hough image ymax (Some m) (Some n) = Ok (ht, rho, theta) ->
  (forall a b', 0 <= a < zlen image -> 0 <= b' < ymax -> bright image imax a b' = true -> b' = b) ->
  let y := hcoord ymax b in
  (0 <= y -> rent ht (ZnearestE (IZR y / spacing (zlen image) ymax m)) (3 * (n / 4)) = mass image ymax imax) /\
  (y <= 0 -> rent ht (ZnearestE (IZR (- y) / spacing (zlen image) ymax m)) (n / 4) = mass image ymax imax).
Proof.
  intros image ymax m n imax ht rho theta b HR Hx Hm Hn Hb E4 HP HM H HB y. assert (SP := spacing_pos (zlen image) ymax m ltac:(lia) Hm). assert (N0 : (0 < IZR n)%R) by (apply IZR_lt; lia).
  assert (Q := Z.div_mod n 4 ltac:(lia)). rewrite E4, Z.add_0_r in Q. assert (Q0 : 1 <= n / 4) by lia.
  assert (A1 : (2 * PI * IZR (n / 4) / IZR n = PI / 2)%R). { rewrite Q at 2. rewrite mult_IZR. field. apply not_0_IZR. lia. }
  assert (A3 : (2 * PI * IZR (3 * (n / 4)) / IZR n = 3 * (PI / 2))%R). { rewrite Q at 2. rewrite !mult_IZR. field. apply not_0_IZR. lia. }
  assert (H3 : forall a, hrho (zlen image) ymax n a b (3 * (n / 4)) = IZR y). { intros a. unfold hrho. fold y. rewrite A3. replace (3 * (PI / 2))%R with (PI / 2 + PI)%R by field. rewrite neg_cos, neg_sin, cos_PI2, sin_PI2. ring. }
  assert (H1 : forall a, hrho (zlen image) ymax n a b (n / 4) = IZR (- y)). { intros a. unfold hrho. fold y. rewrite A1, cos_PI2, sin_PI2, opp_IZR. ring. }
  assert (RG : forall k p, (0 <= p)%R -> (forall a, hrho (zlen image) ymax n a b k = p) -> 0 <= ZnearestE (p / spacing (zlen image) ymax m) < m).
  { intros k p P0 QQ. assert (B := c41_rho_bound (zlen image) ymax n 0 b k ltac:(lia) Hb). rewrite QQ in B. apply (hrow_range _ m p ltac:(lia) (conj P0 B)). }
  split; intros Y0.
  - assert (P0 : (0 <= IZR y)%R) by (apply IZR_le; lia). apply (c109_strip image ymax m n imax ht rho theta HR ltac:(lia) ltac:(lia) Hm Hn HP HM H _ (3 * (n / 4)) (RG _ _ P0 H3) ltac:(lia)). intros a b' Ha Hb' BR. rewrite (HB a b' Ha Hb' BR), H3. auto.
  - assert (P0 : (0 <= IZR (- y))%R) by (apply IZR_le; lia). apply (c109_strip image ymax m n imax ht rho theta HR ltac:(lia) ltac:(lia) Hm Hn HP HM H _ (n / 4) (RG _ _ P0 H1) ltac:(lia)). intros a b' Ha Hb' BR. rewrite (HB a b' Ha Hb' BR), H1. auto.
Qed.
(** A full row above the centre is found at one place only. *)
Lemma c109_unique : forall image ymax m n imax ht rho theta a r k, rect image ymax -> 2 <= ymax -> 2 <= m -> 1 <= n -> 0 <= a < zlen image ->
  (forall a b, 0 <= a < zlen image -> 0 <= b < ymax -> (0 <= pix image a b)%R) -> is_max (concat image) imax ->
  hough image ymax (Some m) (Some n) = Ok (ht, rho, theta) ->
  (forall a' b, 0 <= a' < zlen image -> 0 <= b < ymax -> bright image imax a' b = true -> a' = a) ->
  bright image imax a 0 = true -> bright image imax a (ymax - 1) = true -> let x := hcoord (zlen image) a in 0 < x ->
  (spacing (zlen image) ymax m * IZR n < 2 * IZR (ymax - 1))%R -> 0 <= r < m -> 0 <= k < n ->
  (r = ZnearestE (IZR x / spacing (zlen image) ymax m) /\ k = 0 -> rent ht r k = mass image ymax imax) /\
  (~ (r = ZnearestE (IZR x / spacing (zlen image) ymax m) /\ k = 0) -> (rent ht r k < mass image ymax imax)%R).
Proof.
  intros image ymax m n imax ht rho theta a r k HR Hy Hm Hn Ha HP HM H HB B0 B1 x Hx HS Hr Hk. assert (SP := spacing_pos (zlen image) ymax m ltac:(lia) Hm). set (d := spacing (zlen image) ymax m) in *.
  destruct (c109_row image ymax m n imax ht rho theta a HR ltac:(lia) Hm Hn Ha HP HM H HB) as [F _]. cbv zeta in F. fold x d in F.
  split; [intros [-> ->]; apply F; lia|]. intros N. destruct (c109_strip image ymax m n imax ht rho theta HR ltac:(lia) ltac:(lia) Hm Hn HP HM H r k Hr Hk) as [[_ L] ST].
  destruct (Req_dec (rent ht r k) (mass image ymax imax)) as [E|]; [|lra]. exfalso. apply N. clear N L. assert (ST' := proj1 ST E). clear ST.
  destruct (ST' a 0 Ha ltac:(lia) B0) as [P0 R0]. destruct (ST' a (ymax - 1) Ha ltac:(lia) B1) as [P1 R1]. fold d in R0, R1.
  assert (G := near_gap _ _ d r SP R0 R1). assert (N0 : (0 < IZR n)%R) by (apply IZR_lt; lia). assert (Y0 : (0 < IZR (ymax - 1))%R) by (apply IZR_lt; lia).
  set (t := (2 * PI * IZR k / IZR n)%R). assert (GE : (hrho (zlen image) ymax n a 0 k - hrho (zlen image) ymax n a (ymax - 1) k = IZR (ymax - 1) * sin t)%R).
  { unfold hrho, hcoord. fold t. rewrite !minus_IZR, !plus_IZR, !minus_IZR. ring. }
  rewrite GE, Rabs_mult, (Rabs_pos_eq (IZR (ymax - 1))) in G by lra.
  assert (SM : (Rabs (sin t) < 2 / IZR n)%R). { apply (Rmult_lt_reg_r (IZR n)); [lra|]. replace (2 / IZR n * IZR n)%R with 2%R by (field; lra). apply (Rmult_lt_reg_l (IZR (ymax - 1))); [lra|]. nra. }
  destruct (Z.eq_dec (2 * k mod n) 0) as [M|M]; [|assert (Q := sin_angle n k Hk M); fold t in Q; lra].
  assert (K : k = 0 \/ 2 * k = n). { apply Z.mod_divide in M; [|lia]. destruct M as [q M]. assert (q = 0 \/ q = 1) as [-> | ->] by nia; lia. }
  destruct K as [->|K].
  - split; auto. rewrite <- R0. f_equal. f_equal. unfold hrho. fold x. replace (2 * PI * IZR 0 / IZR n)%R with 0%R by (unfold Rdiv; ring). rewrite cos_0, sin_0. ring.
  - exfalso. unfold hrho in P0. fold x t in P0. assert (T : t = PI). { unfold t. rewrite <- K, mult_IZR. field. apply not_0_IZR. lia. } rewrite T, cos_PI, sin_PI in P0. assert (0 < IZR x)%R by (apply IZR_lt; lia). lra.
Qed.
(** Square images of 3 rows or more, default sizes. *)
Lemma c109_square : forall image imax ht rho theta a r k, let N := zlen image in rect image N -> 3 <= N -> 0 <= a < N ->
  (forall a b, 0 <= a < N -> 0 <= b < N -> (0 <= pix image a b)%R) -> is_max (concat image) imax ->
  hough image N None None = Ok (ht, rho, theta) ->
  (forall a' b, 0 <= a' < N -> 0 <= b < N -> bright image imax a' b = true -> a' = a) ->
  bright image imax a 0 = true -> bright image imax a (N - 1) = true -> let x := hcoord N a in 0 < x -> 0 <= r < N -> 0 <= k < N ->
  ((rent ht r k <= mass image N imax)%R /\ (rent ht r k = mass image N imax <-> r = ZnearestE (IZR x * IZR (N - 1) * sqrt 2 / IZR N) /\ k = 0)).
Proof.
  intros image imax ht rho theta a r k N HR HN Ha HP HM H HB B0 B1 x Hx Hr Hk. change (hough image N None None) with (hough image N (Some N) (Some N)) in H.
  assert (N3 : (3 <= IZR N)%R) by (apply IZR_le; lia). assert (S2 : (7 / 5 < sqrt 2 < 3 / 2)%R) by (split; [rewrite <- (sqrt_square (7 / 5)) by lra|rewrite <- (sqrt_square (3 / 2)) by lra]; apply sqrt_lt_1_alt; lra). assert (SS : (sqrt 2 * sqrt 2 = 2)%R) by (apply sqrt_sqrt; lra).
  assert (SP : spacing N N N = (IZR N / (sqrt 2 * IZR (N - 1)))%R). { unfold spacing. replace (IZR N ^ 2 + IZR N ^ 2)%R with (2 * (IZR N * IZR N))%R by ring. rewrite sqrt_mult, sqrt_square by nra. rewrite minus_IZR. replace 2%R with (sqrt 2 * sqrt 2)%R at 2 by auto. field. lra. }
  assert (C : (spacing N N N * IZR N < 2 * IZR (N - 1))%R). { rewrite SP, minus_IZR. apply (Rmult_lt_reg_r (sqrt 2 * (IZR N - 1))); [nra|]. replace (IZR N / (sqrt 2 * (IZR N - 1)) * IZR N * (sqrt 2 * (IZR N - 1)))%R with (IZR N * IZR N)%R by (field; lra).
    assert (IZR N <= 3 / 2 * (IZR N - 1))%R by lra. assert (IZR N * IZR N <= 9 / 4 * ((IZR N - 1) * (IZR N - 1)))%R by nra. assert (0 < (IZR N - 1) * (IZR N - 1))%R by nra. nra. }
  assert (U := c109_unique image N N N imax ht rho theta a r k HR ltac:(lia) ltac:(lia) ltac:(lia) Ha HP HM H HB B0 B1 Hx C Hr Hk). cbv zeta in U. fold N x in U.
  replace (IZR x / spacing N N N)%R with (IZR x * IZR (N - 1) * sqrt 2 / IZR N)%R in U by (rewrite SP, minus_IZR; field; lra). destruct U as [U1 U2].
  destruct (c109_strip image N N N imax ht rho theta HR ltac:(lia) ltac:(lia) ltac:(lia) ltac:(lia) HP HM H r k Hr Hk) as [[_ L] _].
  split; auto. split; [|exact U1]. intros E. destruct (Z.eq_dec r (ZnearestE (IZR x * IZR (N - 1) * sqrt 2 / IZR N))) as [R1|R1]; [destruct (Z.eq_dec k 0) as [K1|K1]; [auto|]|]; exfalso; assert (rent ht r k < mass image N imax)%R by (apply U2; tauto); lra.
Qed.

(** The last row of a 3 by 3 image: 3 votes at angle 0, distance 1, fewer elsewhere. *)
Example c109_example : exists ht rho theta, hough [[0; 0; 0]; [0; 0; 0]; [1; 1; 1]]%R 3 None None = Ok (ht, rho, theta) /\ rent ht 1 0 = 3%R /\
  forall r k, 0 <= r < 3 -> 0 <= k < 3 -> ~ (r = 1 /\ k = 0) -> (rent ht r k < 3)%R.
Proof.
  set (im := [[0; 0; 0]; [0; 0; 0]; [1; 1; 1]]%R). assert (HR : rect im 3) by (intros r [<-|[<-|[<-|[]]]]; reflexivity).
  assert (HM : is_max (concat im) 1%R). { split; [cbn; tauto|]. intros w Hw. cbn in Hw. repeat (destruct Hw as [<-|Hw]; [lra|]). destruct Hw. }
  assert (PV : forall a b, 0 <= a < 3 -> 0 <= b < 3 -> pix im a b = if a =? 2 then 1%R else 0%R). { intros a b Ha Hb. assert (a = 0 \/ a = 1 \/ a = 2) as [-> | [-> | ->]] by lia; assert (b = 0 \/ b = 1 \/ b = 2) as [-> | [-> | ->]] by lia; reflexivity. }
  assert (BR : forall a b, 0 <= a < 3 -> 0 <= b < 3 -> bright im 1 a b = (a =? 2)). { intros a b Ha Hb. unfold bright, gtb. rewrite PV by auto. destruct (a =? 2); [rewrite Rabs_R1|rewrite Rabs_R0]; destruct (Rlt_dec _ _); try lra; reflexivity. }
  destruct (c41_entries im 3 3 3 1%R HR ltac:(cbn; lia) ltac:(lia) ltac:(lia) ltac:(lia) HM) as (ht & rho & theta & E & _). exists ht, rho, theta. split; [exact E|].
  assert (MS : mass im 3 1 = 3%R). { unfold mass. change (zlen im) with 3. change (arange 0 3) with [0; 1; 2]. rewrite !rsum_cons, !rsum_nil. rewrite !BR, !PV by lia. cbn [Z.eqb Pos.eqb]. ring. }
  assert (RD : ZnearestE (IZR 1 * IZR (3 - 1) * sqrt 2 / IZR 3) = 1). { assert (S2 : (7 / 5 < sqrt 2 < 3 / 2)%R) by (split; [rewrite <- (sqrt_square (7 / 5)) by lra|rewrite <- (sqrt_square (3 / 2)) by lra]; apply sqrt_lt_1_alt; lra). apply Znearest_imp. change (3 - 1) with 2. apply Rabs_lt. lra. }
  assert (SQ : forall r k, 0 <= r < 3 -> 0 <= k < 3 -> (rent ht r k <= 3)%R /\ (rent ht r k = 3%R <-> r = 1 /\ k = 0)).
  { intros r k Hr Hk. assert (Q := c109_square im 1 ht rho theta 2 r k HR ltac:(cbn; lia) ltac:(cbn; lia)). cbv zeta in Q. change (zlen im) with 3 in Q. change (hcoord 3 2) with 1 in Q. rewrite MS, RD in Q. apply Q; auto; try lia.
    - intros a b Ha Hb. rewrite PV by auto. destruct (a =? 2); lra.
    - intros a b Ha Hb B. rewrite BR in B by auto. now apply Z.eqb_eq.
    - now rewrite BR by lia.
    - now rewrite BR by lia. }
  split; [apply SQ; lia|]. intros r k Hr Hk N. destruct (SQ r k Hr Hk) as [L I]. destruct (Req_dec (rent ht r k) 3) as [Q|Q]; [exfalso; tauto|lra].
Qed.
