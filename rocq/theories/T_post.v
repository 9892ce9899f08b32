(** C41: the Hough transform. *)
From Coq Require Import Reals ZArith List Lia Lra Bool.
From Coquelicot Require Import Coquelicot.
From Flocq Require Import Core.
From Verif Require Import Py Scalars CSum DFT Spec M_base M_putils M_reas M_post P_base P_stft T_putils T_reas.
Import ListNotations.
Local Open Scope Z_scope.

Lemma fold_gen {A} (g : A -> Z -> Z -> R) n T (step : list (list R) -> A -> res (list (list R))) l :
  (forall m a, In a l -> shape m n T -> exists m', step m a = Ok m' /\ shape m' n T /\
     forall r c, 0 <= r < n -> 0 <= c < T -> rent m' r c = (rent m r c + g a r c)%R) ->
  forall m, shape m n T -> exists m', foldM step l m = Ok m' /\ shape m' n T /\
   forall r c, 0 <= r < n -> 0 <= c < T -> rent m' r c = (rent m r c + rsum l (fun a => g a r c))%R.
Proof.
  induction l as [|a l IH]; intros Hs m Hm.
  - exists m. split; [reflexivity|]. split; auto. intros. rewrite rsum_nil. ring.
  - cbn [foldM]. destruct (Hs m a (or_introl eq_refl) Hm) as (m1 & E1 & S1 & F1). rewrite E1. cbn [bind].
    destruct (IH (fun m b H => Hs m b (or_intror H)) m1 S1) as (m2 & E2 & S2 & F2).
    exists m2. split; auto. split; auto. intros r c Hr Hc. rewrite F2, F1, rsum_cons by auto. ring.
Qed.

Definition Rleb (a b : R) : bool := if Rle_dec a b then true else false.

(** Centred coordinate of pixel [a] on an axis of [s] pixels. *)
Definition hcoord (s a : Z) : Z := a + 1 - (s + 1) / 2.
(** Distance to the origin of the line of angle number [k] through pixel (a, b). *)
Definition hrho (xmax ymax n a b k : Z) : R :=
  (IZR (hcoord xmax a) * cos (2 * PI * IZR k / IZR n) - IZR (hcoord ymax b) * sin (2 * PI * IZR k / IZR n))%R.

Lemma hough_axis_eq s : 0 <= s -> hough_axis s = ((s + 1) / 2, s - (s + 1) / 2).
Proof.
  intros Hs. unfold hough_axis. destruct (Z.eqb_spec (s mod 2) 0); cbn [negb]; f_equal; Z.to_euclidean_division_equations; lia.
Qed.

Lemma linspace_theta n : 1 <= n -> linspace 0 (2 * PI - 2 * PI / IZR n) n = map (fun k => (2 * PI * IZR k / IZR n)%R) (arange 0 n).
Proof.
  intros Hn. unfold linspace. destruct (Z.eqb_spec n 1) as [->|Hne].
  - change (arange 0 1) with [0]. cbn [map]. f_equal. unfold Rdiv. ring.
  - apply map_ext. intros k. rewrite (minus_IZR n 1).
    assert (IZR n <> 0)%R by (apply not_0_IZR; lia). assert (IZR n - 1 <> 0)%R by (rewrite <- (minus_IZR n 1); apply not_0_IZR; lia). field. auto.
Qed.
Lemma theta_index n k : 1 <= n -> ZnearestE (2 * PI * IZR k / IZR n / (2 * PI / IZR n)) = k.
Proof.
  intros Hn. replace (2 * PI * IZR k / IZR n / (2 * PI / IZR n))%R with (IZR k).
  - apply (Zrnd_IZR ZnearestE).
  - field. split; [apply not_0_IZR; lia|]. generalize PI_RGT_0. lra.
Qed.

Lemma hcoord_bound s a : 0 <= a < s -> (Rabs (IZR (hcoord s a)) <= IZR s / 2)%R.
Proof.
  intros H. unfold hcoord. assert (B : - s <= 2 * (a + 1 - (s + 1) / 2) <= s) by (Z.to_euclidean_division_equations; lia).
  destruct B as [B1 B2]. apply IZR_le in B1, B2. rewrite opp_IZR in B1. rewrite mult_IZR in B1, B2. apply Rabs_le. lra.
Qed.

(** No line through a pixel is farther from the origin than the last row of the
    accumulator: the test [rho <= rhomax] never fails. *)
Lemma c41_rho_bound : forall xmax ymax n a b k, 0 <= a < xmax -> 0 <= b < ymax ->
  (hrho xmax ymax n a b k <= sqrt (IZR xmax ^ 2 + IZR ymax ^ 2) / 2)%R.
Proof.
  intros xmax ymax n a b k Ha Hb. unfold hrho. set (t := (2 * PI * IZR k / IZR n)%R).
  assert (A := hcoord_bound _ _ Ha). assert (B := hcoord_bound _ _ Hb). set (x := IZR (hcoord xmax a)) in *. set (y := IZR (hcoord ymax b)) in *.
  assert (CS : ((x * cos t - y * sin t) ^ 2 <= x ^ 2 + y ^ 2)%R).
  { assert (T := sin2_cos2 t). unfold Rsqr in T. assert (P := pow2_ge_0 (x * sin t + y * cos t)).
    replace (x ^ 2 + y ^ 2)%R with ((x * cos t - y * sin t) ^ 2 + (x * sin t + y * cos t) ^ 2)%R; [lra|].
    transitivity ((x ^ 2 + y ^ 2) * (sin t * sin t + cos t * cos t))%R; [ring|]. rewrite T. ring. }
  assert (X2 : (x ^ 2 <= (IZR xmax / 2) ^ 2)%R). { rewrite <- (pow2_abs x). apply pow_incr. split; [apply Rabs_pos|auto]. }
  assert (Y2 : (y ^ 2 <= (IZR ymax / 2) ^ 2)%R). { rewrite <- (pow2_abs y). apply pow_incr. split; [apply Rabs_pos|auto]. }
  apply Rle_trans with (Rabs (x * cos t - y * sin t)); [apply Rle_abs|].
  rewrite <- sqrt_Rsqr_abs. replace (sqrt (IZR xmax ^ 2 + IZR ymax ^ 2) / 2)%R with (sqrt ((IZR xmax ^ 2 + IZR ymax ^ 2) / 4)).
  - apply sqrt_le_1_alt. unfold Rsqr. nra.
  - assert (P1 := pow2_ge_0 (IZR xmax)). assert (P2 := pow2_ge_0 (IZR ymax)).
    rewrite sqrt_div_alt by lra. f_equal. replace 4%R with (2 * 2)%R by ring. apply sqrt_square. lra.
Qed.

Definition hrow (rhomax : R) (m : Z) (rho : R) : Z := ZnearestE (rho / (rhomax / IZR (m - 1))).
Lemma hrow_range rhomax m rho : 1 <= m -> (0 <= rho <= rhomax)%R -> 0 <= hrow rhomax m rho < m.
Proof.
  intros Hm Hr. unfold hrow. assert (Q : (0 <= rho / (rhomax / IZR (m - 1)) <= IZR (m - 1))%R).
  { destruct (Z.eq_dec m 1) as [->|Hne].
    - change (1 - 1) with 0. unfold Rdiv. rewrite Rinv_0, Rmult_0_r, Rinv_0, Rmult_0_r. lra.
    - assert (P : (0 < IZR (m - 1))%R) by (apply IZR_lt; lia).
      destruct (Req_dec rhomax 0) as [E|E].
      + assert (rho = 0)%R by lra. subst rho. rewrite E. unfold Rdiv. rewrite !Rmult_0_l. lra.
      + assert (0 < rhomax)%R by lra. replace (rho / (rhomax / IZR (m - 1)))%R with (rho / rhomax * IZR (m - 1))%R by (field; lra).
        assert (0 <= rho / rhomax <= 1)%R.
        { split; [apply Rmult_le_pos; [lra|left; now apply Rinv_0_lt_compat]|]. apply (Rmult_le_reg_r rhomax); auto. unfold Rdiv. rewrite Rmult_assoc, Rinv_l by lra. lra. }
        split; [apply Rmult_le_pos; lra|]. rewrite <- (Rmult_1_l (IZR (m - 1))) at 2. apply Rmult_le_compat_r; lra. }
  set (v := (rho / (rhomax / IZR (m - 1)))%R) in *.
  assert (A : ZnearestE 0 <= ZnearestE v) by (apply Zrnd_le; [apply valid_rnd_N|tauto]).
  assert (B : ZnearestE v <= ZnearestE (IZR (m - 1))) by (apply Zrnd_le; [apply valid_rnd_N|tauto]).
  rewrite (Zrnd_IZR ZnearestE) in B. rewrite (Zrnd_IZR ZnearestE 0) in A. lia.
Qed.

(** One vote. *)
Lemma vote_ok rhomax m n v x y ht k : 1 <= m -> 1 <= n -> 0 <= k < n -> shape ht m n ->
  let theta := (2 * PI * IZR k / IZR n)%R in
  let rho := (IZR x * cos theta - IZR y * sin theta)%R in
  exists ht', hough_vote rhomax (rhomax / IZR (m - 1)) (2 * PI / IZR n) v x y ht theta = Ok ht' /\ shape ht' m n /\
  forall r c, 0 <= r < m -> 0 <= c < n -> rent ht' r c = (rent ht r c +
    if Rleb 0 rho && Rleb rho rhomax && (hrow rhomax m rho =? r) && (k =? c) then v else 0)%R.
Proof.
  intros Hm Hn Hk Sh theta rho. unfold hough_vote. cbv zeta. fold rho. unfold Rleb. unfold theta. rewrite theta_index by auto. fold (hrow rhomax m rho).
  destruct (Rle_dec 0 rho); cbn [andb].
  - destruct (Rle_dec rho rhomax); cbn [andb].
    + apply (add2_ok ht m n (hrow rhomax m rho) k v Sh); auto. apply hrow_range; auto.
    + exists ht. split; auto. split; auto. intros. ring.
  - exists ht. split; auto. split; auto. intros. ring.
Qed.

Lemma foldM_map {A B S} (f : S -> B -> res S) (g : A -> B) l s : foldM f (map g l) s = foldM (fun s a => f s (g a)) l s.
Proof. revert s. induction l as [|a l IH]; intros s; cbn; auto. destruct (f s (g a)); cbn; auto. Qed.

(** The image is a rectangle of [ymax] columns. *)
Definition rect (image : list (list R)) (ymax : Z) : Prop := forall r, In r image -> zlen r = ymax.
Definition pix (image : list (list R)) (a b : Z) : R := rnth (nth (Z.to_nat a) image []) b.
Definition is_max (l : list R) (v : R) : Prop := In v l /\ forall w, In w l -> (w <= v)%R.
Lemma rmax_ok l : l <> [] -> exists v, rmax_list l = Ok v /\ is_max l v.
Proof.
  destruct l as [|a l]; [congruence|]. intros _. exists (fold_left Rmax l a). split; [reflexivity|].
  revert a. induction l as [|b l IH]; intros a; cbn.
  - split; [left; auto|]. intros w [<-|[]]. lra.
  - destruct (IH (Rmax a b)) as [H1 H2]. split.
    + destruct H1 as [H1|H1]; [|right; right; auto]. rewrite <- H1. unfold Rmax. destruct (Rle_dec a b); cbn; auto.
    + intros w Hw. assert (M := H2 (Rmax a b) (or_introl eq_refl)). generalize (Rmax_l a b) (Rmax_r a b). intros.
      destruct Hw as [<-|[<-|Hw]]; [lra|lra|]. apply H2. right. auto.
Qed.
Lemma is_max_unique l v w : is_max l v -> is_max l w -> v = w.
Proof. intros [A B] [A' B']. apply Rle_antisym; auto. Qed.

Lemma c41_entries : forall image ymax m n imax, rect image ymax -> 1 <= zlen image -> 1 <= ymax -> 1 <= m -> 1 <= n ->
  is_max (concat image) imax ->
  let rhomax := (sqrt (IZR (zlen image) ^ 2 + IZR ymax ^ 2) / 2)%R in
  exists ht rho theta, hough image ymax (Some m) (Some n) = Ok (ht, rho, theta) /\ shape ht m n /\
  (forall r k, 0 <= r < m -> 0 <= k < n -> rent ht r k =
     rsum (arange 0 (zlen image)) (fun a => rsum (arange 0 ymax) (fun b =>
       let p := hrho (zlen image) ymax n a b k in
       if gtb (Rabs (pix image a b)) (imax / 20) && Rleb 0 p && (ZnearestE (p / (rhomax / IZR (m - 1))) =? r) then pix image a b else 0%R))) /\
  zlen theta = n /\ (forall k, 0 <= k < n -> rnth theta k = (2 * PI * IZR k / IZR n)%R) /\
  zlen rho = n /\ (forall k, 0 <= k < n -> 2 <= n -> rnth rho k = (IZR k * rhomax / IZR (n - 1))%R).
Proof.
  intros image ymax m n imax Hrect Hx Hy Hm Hn Hmax rhomax. unfold hough.
  rewrite (proj2 (Z.eqb_neq n 0)), (proj2 (Z.ltb_ge m 0)), (proj2 (Z.ltb_ge n 0)) by lia. cbn [orb].
  destruct (rmax_ok (concat image)) as (v & Ev & Mv). { intros E. destruct Hmax as [H _]. rewrite E in H. destruct H. }
  assert (v = imax) by (eapply is_max_unique; eauto). subst v. rewrite Ev. cbn [bind].
  rewrite !hough_axis_eq by lia. change (hough_rhomax (zlen image) ymax) with rhomax.
  set (X := zlen image) in *. set (xc := (X + 1) / 2). set (yc := (ymax + 1) / 2).
  assert (Hlx : arange (1 - xc) (X - xc + 1) = map (hcoord X) (arange 0 X)).
  { replace (1 - xc) with (0 + (1 - xc)) by lia. replace (X - xc + 1) with (X + (1 - xc)) by lia. rewrite arange_shift. apply map_ext. intros a. unfold hcoord. fold xc. lia. }
  assert (Hly : arange (1 - yc) (ymax - yc + 1) = map (hcoord ymax) (arange 0 ymax)).
  { replace (1 - yc) with (0 + (1 - yc)) by lia. replace (ymax - yc + 1) with (ymax + (1 - yc)) by lia. rewrite arange_shift. apply map_ext. intros a. unfold hcoord. fold yc. lia. }
  set (step := hough_pixel image imax rhomax (rhomax / IZR (m - 1)) (2 * PI / IZR n) n xc yc).
  assert (Hmp : list_prod (arange (1 - xc) (X - xc + 1)) (arange (1 - yc) (ymax - yc + 1)) = map (fun ab => (hcoord X (fst ab), hcoord ymax (snd ab))) (list_prod (arange 0 X) (arange 0 ymax))).
  { rewrite Hlx, Hly. generalize (arange 0 X). intros l. induction l as [|a l IH]; [reflexivity|]. cbn [map list_prod]. rewrite map_app, IH. f_equal.
    rewrite !map_map. reflexivity. }
  rewrite Hmp, foldM_map.
  set (g := fun (ab : Z * Z) (r c : Z) => let p := hrho X ymax n (fst ab) (snd ab) c in
     if gtb (Rabs (pix image (fst ab) (snd ab))) (imax / 20) && Rleb 0 p && (hrow rhomax m p =? r) then pix image (fst ab) (snd ab) else 0%R).
  destruct (fold_gen g m n (fun ht a => step ht (hcoord X (fst a), hcoord ymax (snd a))) (list_prod (arange 0 X) (arange 0 ymax))) with (m := repeat (repeat 0%R (Z.to_nat m)) (Z.to_nat n)) as (ht & Eh & Sh & Fh).
  - intros h [a b] Hab Hs. apply in_prod_iff in Hab. rewrite !in_arange in Hab. cbn [fst snd]. unfold step, hough_pixel.
    replace (hcoord X a + xc - 1) with a by (unfold hcoord; fold xc; lia). replace (hcoord ymax b + yc - 1) with b by (unfold hcoord; fold yc; lia).
    rewrite (get_ok []) by (fold X; lia). cbn [bind].
    rewrite (get_ok 0%R). 2:{ rewrite (Hrect (nth (Z.to_nat a) image [])); [lia|]. apply nth_In. unfold X, zlen in Hab. lia. }
    cbn [bind]. change (nth (Z.to_nat b) (nth (Z.to_nat a) image []) 0%R) with (pix image a b).
    unfold g. cbn [fst snd]. cbv zeta. unfold gtb. destruct (Rlt_dec (imax / 20) (Rabs (pix image a b))).
    + rewrite linspace_theta, foldM_map by auto.
      destruct (fold_gen (fun k r c => if Rleb 0 (hrho X ymax n a b k) && Rleb (hrho X ymax n a b k) rhomax && (hrow rhomax m (hrho X ymax n a b k) =? r) && (k =? c) then pix image a b else 0%R) m n
         (fun s k => hough_vote rhomax (rhomax / IZR (m - 1)) (2 * PI / IZR n) (pix image a b) (hcoord X a) (hcoord ymax b) s (2 * PI * IZR k / IZR n)%R) (arange 0 n)) with (m := h) as (h' & E' & S' & F'); auto.
      * intros h0 k Hk S0. apply in_arange in Hk. apply vote_ok; auto; lia.
      * exists h'. split; auto. split; auto. intros rr c Hr Hc. rewrite F' by auto. f_equal.
        rewrite (rsum_single _ c); [|apply NoDup_arange|apply in_arange; lia|].
        -- rewrite Z.eqb_refl, andb_true_r. cbn [andb]. unfold Rleb at 2. destruct (Rle_dec (hrho X ymax n a b c) rhomax) as [|N]; [now rewrite andb_true_r|].
           exfalso. apply N. apply c41_rho_bound; lia.
        -- intros k _ Hne. rewrite (proj2 (Z.eqb_neq k c)) by auto. now rewrite andb_false_r.
    + exists h. split; auto. split; auto. intros. cbn [andb]. ring.
  - apply zero_shape; lia.
  - rewrite Eh. cbn [bind]. exists ht, (linspace 0 rhomax n), (linspace 0 (2 * PI - 2 * PI / IZR n) n). split; [reflexivity|]. split; auto. split.
    + intros r k Hr Hk. rewrite Fh by auto. rewrite rent_zero, Rplus_0_l. 
      exact (rsum_list_prod (arange 0 X) (arange 0 ymax) (fun a b => g (a, b) r k)) || (rewrite <- (rsum_list_prod (arange 0 X) (arange 0 ymax) (fun a b => g (a, b) r k)); apply rsum_ext; intros [a b] _; reflexivity).
    + rewrite linspace_theta by auto. split; [rewrite zlen_map, arange_zlen; lia|]. split.
      * intros k Hk. unfold rnth. now rewrite (nth_map_arange _ 0 n) by lia.
      * unfold linspace. destruct (Z.eqb_spec n 1) as [->|Hne].
        -- split; [reflexivity|]. intros; lia.
        -- split; [rewrite zlen_map, arange_zlen; lia|]. intros k Hk _. unfold rnth. rewrite (nth_map_arange _ 0 n) by lia. rewrite Z.add_0_l. unfold Rdiv. ring.
Qed.

Definition votes (image : list (list R)) (ymax n a b : Z) : Z := count (fun k => Rleb 0 (hrho (zlen image) ymax n a b k)) (arange 0 n).

Lemma rsum_count (p : Z -> bool) (v : R) l : rsum l (fun k => if p k then v else 0%R) = (IZR (count p l) * v)%R.
Proof.
  unfold count. induction l as [|a l IH]; [cbn; unfold zlen; cbn; ring|]. rewrite rsum_cons, IH. cbn [filter]. destruct (p a); [|ring].
  unfold zlen. cbn [length]. rewrite Nat2Z.inj_succ, succ_IZR. ring.
Qed.

(** The accumulator's total: every pixel above the threshold votes once for each
    angle at which its line has a non-negative distance. *)
Lemma c41_total : forall image ymax m n imax, rect image ymax -> 1 <= zlen image -> 1 <= ymax -> 1 <= m -> 1 <= n ->
  is_max (concat image) imax ->
  exists ht rho theta, hough image ymax (Some m) (Some n) = Ok (ht, rho, theta) /\
  rsum (arange 0 n) (fun k => rsum (arange 0 m) (fun r => rent ht r k)) =
  rsum (arange 0 (zlen image)) (fun a => rsum (arange 0 ymax) (fun b =>
    if gtb (Rabs (pix image a b)) (imax / 20) then (IZR (votes image ymax n a b) * pix image a b)%R else 0%R)).
Proof.
  intros image ymax m n imax Hrect Hx Hy Hm Hn Hmax.
  destruct (c41_entries image ymax m n imax Hrect Hx Hy Hm Hn Hmax) as (ht & rho & theta & E & Sh & F & _). exists ht, rho, theta. split; auto.
  cbv zeta in F. set (rhomax := (sqrt (IZR (zlen image) ^ 2 + IZR ymax ^ 2) / 2)%R) in *. set (X := zlen image) in *.
  set (u := fun a b k => if gtb (Rabs (pix image a b)) (imax / 20) && Rleb 0 (hrho X ymax n a b k) then pix image a b else 0%R).
  transitivity (rsum (arange 0 n) (fun k => rsum (arange 0 X) (fun a => rsum (arange 0 ymax) (fun b => u a b k)))).
  - apply rsum_ext. intros k Hk. apply in_arange in Hk.
    transitivity (rsum (arange 0 m) (fun r => rsum (arange 0 X) (fun a => rsum (arange 0 ymax) (fun b => if hrow rhomax m (hrho X ymax n a b k) =? r then u a b k else 0%R)))).
    + apply rsum_ext. intros r Hr. apply in_arange in Hr. rewrite F by auto. apply rsum_ext. intros a _. apply rsum_ext. intros b _. unfold u. fold (hrow rhomax m (hrho X ymax n a b k)).
      destruct (gtb _ _), (Rleb _ _), (_ =? _); reflexivity.
    + rewrite rsum_swap. apply rsum_ext. intros a Ha. apply in_arange in Ha. rewrite rsum_swap. apply rsum_ext. intros b Hb. apply in_arange in Hb.
      unfold u. unfold Rleb. destruct (Rle_dec 0 (hrho X ymax n a b k)).
      * apply rsum_pick. apply hrow_range; auto. split; auto. apply c41_rho_bound; lia.
      * rewrite andb_false_r. apply rsum_0. intros. now destruct (_ =? _).
  - rewrite rsum_swap. apply rsum_ext. intros a Ha. rewrite rsum_swap. apply rsum_ext. intros b Hb. unfold u. destruct (gtb _ _); cbn [andb].
    + apply rsum_count.
    + apply rsum_0. reflexivity.
Qed.

(** The rho axis has one entry per angle, not per row. *)
Lemma c41_rho_axis_refuted : exists image ymax m n ht rho theta, hough image ymax (Some m) (Some n) = Ok (ht, rho, theta) /\
  shape ht m n /\ zlen rho <> m.
Proof.
  destruct (c41_entries [[1%R]] 1 2 1 1%R) as (ht & rho & theta & E & Sh & _ & _ & _ & L & _); try (cbn; lia).
  - intros r [<-|[]]. reflexivity.
  - split; [left; auto|]. intros w [<-|[]]. lra.
  - exists [[1%R]], 1, 2, 1, ht, rho, theta. split; auto. split; auto. lia.
Qed.

(** Empty images raise. *)
Lemma c41_empty : forall m n, 0 <= m -> 0 < n -> hough [] 0 (Some m) (Some n) = Raise ValueError.
Proof. intros m n Hm Hn. unfold hough. rewrite (proj2 (Z.eqb_neq n 0)), (proj2 (Z.ltb_ge m 0)), (proj2 (Z.ltb_ge n 0)) by lia. reflexivity. Qed.

(** Image [[0], [1]], two rows, one angle: the bright pixel votes once, in row 1. *)
Example c41_example : exists ht rho theta, hough [[0]; [1]]%R 1 (Some 2) (Some 1) = Ok (ht, rho, theta) /\ rent ht 1 0 = 1%R /\ rent ht 0 0 = 0%R.
Proof.
  destruct (c41_entries [[0]; [1]]%R 1 2 1 1%R) as (ht & rho & theta & E & Sh & F & _); try (cbn; lia).
  - intros r [<-|[<-|[]]]; reflexivity.
  - split; [right; left; auto|]. intros w [<-|[<-|[]]]; lra.
  - exists ht, rho, theta. split; auto. cbv zeta in F. change (zlen [[0]; [1]]%R) with 2 in *.
    set (rm := (sqrt (IZR 2 ^ 2 + IZR 1 ^ 2) / 2)%R) in *.
    assert (P : hrho 2 1 1 1 0 0 = 1%R).
    { unfold hrho. change (hcoord 2 1) with 1. change (hcoord 1 0) with 0. replace (2 * PI * IZR 0 / IZR 1)%R with 0%R by (cbn; field). rewrite cos_0, sin_0. ring. }
    assert (Rm : (1 < rm < 2)%R).
    { unfold rm. replace (IZR 2 ^ 2 + IZR 1 ^ 2)%R with 5%R by ring. assert (2 < sqrt 5)%R by (rewrite <- (sqrt_square 2) by lra; apply sqrt_lt_1_alt; lra).
      assert (sqrt 5 < 4)%R by (rewrite <- (sqrt_square 4) by lra; apply sqrt_lt_1_alt; lra). lra. }
    assert (Row : ZnearestE (1 / (rm / IZR (2 - 1))) = 1).
    { apply Znearest_imp. change (IZR (2 - 1)) with 1%R. replace (1 / (rm / 1))%R with (/ rm)%R by (field; lra).
      apply Rabs_lt. assert (/ 2 < / rm)%R by (apply Rinv_lt_contravar; nra). assert (/ rm < / 1)%R by (apply Rinv_lt_contravar; lra). lra. }
    split; rewrite F by lia; change (arange 0 2) with [0; 1]; change (arange 0 1) with [0]; rewrite !rsum_cons, !rsum_nil; rewrite P, Row;
      change (pix [[0]; [1]]%R 0 0) with 0%R; change (pix [[0]; [1]]%R 1 0) with 1%R; unfold gtb; rewrite Rabs_R0, Rabs_R1;
      destruct (Rlt_dec (1 / 20) 0); [lra| |lra|]; (destruct (Rlt_dec (1 / 20) 1); [|lra]); cbn [andb].
    + unfold Rleb. destruct (Rle_dec 0 1); [|lra]. cbn [andb Z.eqb Pos.eqb]. ring.
    + rewrite andb_false_r. ring.
Qed.
