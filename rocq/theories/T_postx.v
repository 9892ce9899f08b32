(** C137: the post-processing functions follow their input: a louder image, a
    turned image, a transposed image, an ideal representation. *)
From Coq Require Import Reals ZArith List Lia Lra Bool.
From Coquelicot Require Import Coquelicot.
From Flocq Require Import Core.
From Verif Require Import Py Scalars CSum DFT Spec M_base M_putils M_reas M_post P_base P_stft T_putils T_reas T_post T_post2 T_post3 T_hline T_hrows.
Import ListNotations.
Local Open Scope Z_scope.

(** *** Louder: every entry times c > 0. *)
Lemma foldM_hom {A S S'} (f : S -> A -> res S) (f' : S' -> A -> res S') (g : S -> S') l s :
  (forall s a, f' (g s) a = (t <- f s a ;; Ok (g t))) -> foldM f' l (g s) = (t <- foldM f l s ;; Ok (g t)).
Proof.
  intros H. revert s. induction l as [|a l IH]; intros s; cbn [foldM]; [reflexivity|]. rewrite H. destruct (f s a); cbn [bind]; [apply IH|reflexivity].
Qed.
Lemma set_map {A B} (g : A -> B) l i v : set (map g l) i (g v) = (r <- set l i v ;; Ok (map g r)).
Proof.
  unfold set. rewrite zlen_map. destruct (pyidx (zlen l) i) as [k|]; [|reflexivity]. cbn [bind]. f_equal.
  generalize (Z.to_nat k). induction l as [|a l IH]; intros [|j]; cbn; auto. now rewrite IH.
Qed.
Lemma add2_scale c m r k v : add2 (scale_mat c m) r k (c * v)%R = (t <- add2 m r k v ;; Ok (scale_mat c t)).
Proof.
  unfold add2, scale_mat. rewrite get_map. destruct (get m k) as [col|]; [|reflexivity]. cbn [bind]. rewrite get_map.
  destruct (get col r) as [a|]; [|reflexivity]. cbn [bind]. rewrite <- Rmult_plus_distr_l, set_map. destruct (set col r (a + v)%R); [|reflexivity]. cbn [bind]. apply set_map.
Qed.
Lemma rmax_scale c l : (0 < c)%R -> rmax_list (map (Rmult c) l) = (v <- rmax_list l ;; Ok (c * v)%R).
Proof.
  intros H. destruct l as [|a l]; [reflexivity|]. cbn [map rmax_list bind]. f_equal. revert a. induction l as [|b l IH]; intros a; cbn [map fold_left]; [reflexivity|].
  rewrite <- IH. f_equal. rewrite <- RmaxRmult by lra. reflexivity.
Qed.
Lemma gt_scale c a b : (0 < c)%R -> (c * b < c * a <-> b < a)%R.
Proof. intros H. split; [apply Rmult_lt_reg_l|apply Rmult_lt_compat_l]; assumption. Qed.
Lemma concat_scale c m : concat (scale_mat c m) = map (Rmult c) (concat m).
Proof. unfold scale_mat. symmetry. apply concat_map. Qed.
Lemma c137_hough_scale : forall c image ymax m n, (0 < c)%R ->
  hough (scale_mat c image) ymax m n = (o <- hough image ymax m n ;; let '(ht, rho, theta) := o in Ok (scale_mat c ht, rho, theta)).
Proof.
  intros c image ymax m n H. unfold hough. cbv zeta. assert (EL : zlen (scale_mat c image) = zlen image) by (unfold scale_mat; apply zlen_map). rewrite !EL.
  set (mm := match m with Some m => m | None => _ end). set (nn := match n with Some n => n | None => _ end).
  destruct (nn =? 0); [reflexivity|]. destruct ((mm <? 0) || (nn <? 0)); [reflexivity|].
  rewrite concat_scale, rmax_scale by exact H. destruct (rmax_list (concat image)) as [imax|]; [|reflexivity]. cbn [bind].
  destruct (hough_axis (zlen image)) as (xc, xf). destruct (hough_axis ymax) as (yc, yf).
  set (rm := hough_rhomax (zlen image) ymax). set (dr := (rm / IZR (mm - 1))%R). set (dt := (2 * PI / IZR nn)%R).
  assert (EZ : repeat (repeat 0%R (Z.to_nat mm)) (Z.to_nat nn) = scale_mat c (repeat (repeat 0%R (Z.to_nat mm)) (Z.to_nat nn))).
  { unfold scale_mat. rewrite !map_repeat. now rewrite Rmult_0_r. }
  rewrite EZ at 1. rewrite (foldM_hom (hough_pixel image imax rm dr dt nn xc yc) _ (scale_mat c)); [destruct (foldM _ _ _); reflexivity|].
  intros s (x, y). unfold hough_pixel. unfold scale_mat at 1. rewrite get_map. destruct (get image (x + xc - 1)) as [row|]; [|reflexivity]. cbn [bind].
  rewrite get_map. destruct (get row (y + yc - 1)) as [v|]; [|reflexivity]. cbn [bind]. rewrite Rabs_mult, (Rabs_right c) by lra.
  replace (c * imax / 20)%R with (c * (imax / 20))%R by field.
  destruct (Rlt_dec (c * (imax / 20)) (c * Rabs v)) as [Q|Q]; destruct (Rlt_dec (imax / 20) (Rabs v)) as [Q'|Q']; try (exfalso; apply Rmult_lt_reg_l in Q; lra); try (exfalso; apply Q; apply Rmult_lt_compat_l; lra); [|reflexivity].
  apply foldM_hom. clear. intros s th. unfold hough_vote. cbv zeta. destruct (Rle_dec 0 _); [|reflexivity]. destruct (Rle_dec _ rm); [|reflexivity]. apply add2_scale.
Qed.

Lemma in_concat_pix image ymax v : rect image ymax -> (In v (concat image) <-> exists a b, 0 <= a < zlen image /\ 0 <= b < ymax /\ pix image a b = v).
Proof.
  intros HR. rewrite in_concat. split.
  - intros (r & Hr & Hv). assert (L := HR r Hr). destruct (In_nth _ _ [] Hr) as (i & Hi & Ei). destruct (In_nth _ _ 0%R Hv) as (j & Hj & Ej).
    exists (Z.of_nat i), (Z.of_nat j). unfold zlen in *. split; [lia|]. split; [lia|]. unfold pix, rnth. now rewrite !Nat2Z.id, Ei.
  - intros (a & b & Ha & Hb & <-). unfold zlen in Ha. assert (I : In (nth (Z.to_nat a) image []) image) by (apply nth_In; lia). exists (nth (Z.to_nat a) image []). split; [exact I|].
    assert (L := HR _ I). unfold zlen in L. unfold pix, rnth. apply nth_In. lia.
Qed.
Lemma hough_max image ymax : rect image ymax -> 1 <= zlen image -> 1 <= ymax -> exists v, is_max (concat image) v.
Proof.
  intros HR H1 H2. destruct (rmax_ok (concat image)) as (v & _ & Hv); [|eauto]. intros E.
  assert (I : In (pix image 0 0) (concat image)) by (apply (in_concat_pix image ymax); [exact HR|exists 0, 0; repeat split; lia]). rewrite E in I. destruct I.
Qed.

(** A negative factor moves the threshold. *)
Lemma c137_hough_neg_refuted : exists image ht rho theta ht' rho' theta', hough image 1 (Some 1) (Some 1) = Ok (ht, rho, theta) /\
  hough (scale_mat (-1) image) 1 (Some 1) (Some 1) = Ok (ht', rho', theta') /\ rent ht 0 0 = (- (99 / 100))%R /\ rent ht' 0 0 = 1%R.
Proof.
  set (im := [[-1]; [1 / 100]]%R). exists im.
  assert (R1 : rect im 1) by (intros r [<-|[<-|[]]]; reflexivity). assert (R2 : rect (scale_mat (-1) im) 1) by (intros r [<-|[<-|[]]]; reflexivity).
  assert (M1 : is_max (concat im) (1 / 100)%R) by (split; [cbn; tauto|intros w [<-|[<-|[]]]; lra]).
  assert (M2 : is_max (concat (scale_mat (-1) im)) 1%R) by (split; [cbn; left; ring|intros w [<-|[<-|[]]]; lra]).
  destruct (c41_one_row im 1 1 _ R1 ltac:(cbn; lia) ltac:(lia) ltac:(lia) M1) as (ht & rho & theta & E & _ & F).
  destruct (c41_one_row (scale_mat (-1) im) 1 1 _ R2 ltac:(cbn; lia) ltac:(lia) ltac:(lia) M2) as (ht' & rho' & theta' & E' & _ & F').
  exists ht, rho, theta, ht', rho', theta'. split; [exact E|]. split; [exact E'|].
  assert (P0 : forall a, 0 <= a < 2 -> hrho 2 1 1 a 0 0 = IZR a).
  { intros a Ha. unfold hrho. change (hcoord 2 a) with (a + 1 - 1). change (hcoord 1 0) with 0. replace (2 * PI * IZR 0 / IZR 1)%R with 0%R by field. rewrite cos_0, sin_0. replace (a + 1 - 1) with a by ring. ring. }
  rewrite (F 0 ltac:(lia)), (F' 0 ltac:(lia)). change (zlen im) with 2. change (zlen (scale_mat (-1) im)) with 2. change (arange 0 2) with [0; 1]. change (arange 0 1) with [0].
  rewrite !rsum_cons, !rsum_nil. rewrite !P0 by lia.
  change (pix im 0 0) with (-1)%R. change (pix im 1 0) with (1 / 100)%R. change (pix (scale_mat (-1) im) 0 0) with (-1 * -1)%R. change (pix (scale_mat (-1) im) 1 0) with (-1 * (1 / 100))%R.
  assert (G : forall a b, gtb a b = true <-> (b < a)%R) by (intros a b; unfold gtb; destruct (Rlt_dec b a); split; intros; try lra; try reflexivity; discriminate).
  assert (GF : forall a b, (a <= b)%R -> gtb a b = false) by (intros a b Q; unfold gtb; destruct (Rlt_dec b a); [lra|reflexivity]).
  rewrite !(proj2 (G _ _)) by (unfold Rabs; destruct (Rcase_abs _); lra). rewrite (GF _ _) by (unfold Rabs; destruct (Rcase_abs _); lra).
  unfold Rleb. destruct (Rle_dec 0 0); [|lra]. destruct (Rle_dec 0 1); [|lra]. cbn [andb]. split; lra.
Qed.

Lemma mean_half_scale c tfr : mean_half (scale_mat c tfr) = (c * mean_half tfr)%R.
Proof. unfold mean_half. rewrite concat_scale, rsum_map_scal, zlen_map. unfold Rdiv. ring. Qed.
Lemma gtb_scale c a b : (0 < c)%R -> gtb (c * a) (c * b) = gtb a b.
Proof. intros H. unfold gtb. destruct (Rlt_dec (c * b) (c * a)) as [Q|Q]; destruct (Rlt_dec b a) as [Q'|Q']; try reflexivity; exfalso; [apply Rmult_lt_reg_l in Q; lra|apply Q; apply Rmult_lt_compat_l; lra]. Qed.
Lemma count_map {A B D} (g : A -> B) (p : B * D -> bool) (q : A * D -> bool) l r : (forall a d, p (g a, d) = q (a, d)) -> count p (combine (map g l) r) = count q (combine l r).
Proof.
  intros H. unfold count, zlen. f_equal. revert r. induction l as [|a l IH]; intros [|d r]; cbn [map combine filter]; try reflexivity. rewrite H. destruct (q (a, d)); cbn [length]; now rewrite IH.
Qed.
Lemma c137_friedman_scale : forall c tfr re n, (0 < c)%R -> friedman (scale_mat c tfr) re n = friedman tfr re n.
Proof.
  intros c tfr re n H. unfold friedman. cbv zeta. rewrite mean_half_scale. set (thr := mean_half tfr). clearbody thr.
  match goal with |- (if Req_EM_T (rsum (concat ?A) _) 0 then _ else _) = (if Req_EM_T (rsum (concat ?B) _) 0 then _ else _) => assert (E : A = B) end; [|now rewrite E].
  revert re. unfold scale_mat. induction tfr as [|col tfr IH]; intros [|rc re]; cbn [map zipw]; try reflexivity. rewrite IH. f_equal.
  apply map_ext. intros b. f_equal. apply count_map. intros a d. cbn [fst snd]. now rewrite gtb_scale.
Qed.
Lemma rnth_scale c l j : rnth (map (Rmult c) l) j = (c * rnth l j)%R.
Proof. unfold rnth. rewrite <- (Rmult_0_r c) at 1. apply (map_nth (Rmult c)). Qed.
Lemma foldM_ext2 {A S} (f g : S -> A -> res S) l s : (forall s a, f s a = g s a) -> foldM f l s = foldM g l s.
Proof. intros H. revert s. induction l as [|a l IH]; intros s; cbn [foldM]; [reflexivity|]. rewrite H. destruct (g s a); cbn [bind]; auto. Qed.
Lemma c137_ridges_scale : forall c tfr re n ts meth, (0 < c)%R -> ridges (scale_mat c tfr) re n ts meth = ridges tfr re n ts meth.
Proof.
  intros c tfr re n ts meth H. unfold ridges. cbv zeta. assert (EL : zlen (scale_mat c tfr) = zlen tfr) by (unfold scale_mat; apply zlen_map). rewrite !EL, mean_half_scale. set (thr := mean_half tfr).
  assert (K : forall icol col rc, ridge_idx meth (c * thr) icol (map (Rmult c) col) rc = ridge_idx meth thr icol col rc).
  { intros icol col rc. unfold ridge_idx. rewrite zlen_map. apply filter_ext. intros j. destruct (nth (Z.to_nat j) rc None); [|reflexivity]. destruct meth; try reflexivity. now rewrite rnth_scale, gtb_scale. }
  destruct meth; [| | |reflexivity].
  all: match goal with |- bind (foldM _ ?l ?s) _ = bind (foldM ?g _ _) _ => erewrite (foldM_ext2 _ g l s); [reflexivity|] end;
    intros s icol; destruct (get _ icol); [|reflexivity]; cbn [bind]; unfold scale_mat; rewrite get_map; destruct (get tfr icol); [|reflexivity]; cbn [bind]; destruct (get re icol); [|reflexivity]; cbn [bind]; rewrite K; reflexivity.
Qed.

(** *** Turned by half a turn, and transposed. *)
Lemma is_max_same image image' ymax ymax' v : rect image ymax -> rect image' ymax' ->
  (forall a b, 0 <= a < zlen image' -> 0 <= b < ymax' -> exists a0 b0, 0 <= a0 < zlen image /\ 0 <= b0 < ymax /\ pix image' a b = pix image a0 b0) ->
  (forall a b, 0 <= a < zlen image -> 0 <= b < ymax -> exists a0 b0, 0 <= a0 < zlen image' /\ 0 <= b0 < ymax' /\ pix image a b = pix image' a0 b0) ->
  is_max (concat image) v -> is_max (concat image') v.
Proof.
  intros HR HR' F G [I U]. split.
  - apply (in_concat_pix image' ymax' v HR'). apply (in_concat_pix image ymax v HR) in I. destruct I as (a & b & Ha & Hb & <-). destruct (G a b Ha Hb) as (a0 & b0 & H1 & H2 & E). exists a0, b0. auto.
  - intros w Hw. apply (in_concat_pix image' ymax' w HR') in Hw. destruct Hw as (a & b & Ha & Hb & <-). destruct (F a b Ha Hb) as (a0 & b0 & H1 & H2 & ->). apply U. apply (in_concat_pix image ymax _ HR). exists a0, b0. auto.
Qed.
Lemma ang_period n j q : n <> 0 -> (cos (2 * PI * IZR (j - n * q) / IZR n) = cos (2 * PI * IZR j / IZR n) /\ sin (2 * PI * IZR (j - n * q) / IZR n) = sin (2 * PI * IZR j / IZR n))%R.
Proof.
  intros Hn. apply (IZR_neq n 0) in Hn. assert (E : (2 * PI * IZR (j - n * q) / IZR n = 2 * PI * IZR j / IZR n + 2 * IZR (- q) * PI)%R).
  { rewrite minus_IZR, mult_IZR, opp_IZR. field. exact Hn. }
  rewrite E. assert (P := cis_2PI_k (- q)). unfold cis in P. replace (2 * PI * IZR (- q))%R with (2 * IZR (- q) * PI)%R in P by ring. injection P as P1 P2.
  rewrite cos_plus, sin_plus, P1, P2. split; ring.
Qed.
Lemma hrho_mod xmax ymax n a b j : n <> 0 -> hrho xmax ymax n a b (j mod n) = hrho xmax ymax n a b j.
Proof.
  intros Hn. unfold hrho. rewrite Z.mod_eq by exact Hn. destruct (ang_period n j (j / n) Hn) as [-> ->]. reflexivity.
Qed.
Lemma c137_half_turn : forall image image' ymax m n ht rho theta ht' rho' theta', let xmax := zlen image in
  rect image ymax -> rect image' ymax -> zlen image' = xmax -> xmax mod 2 = 1 -> ymax mod 2 = 1 -> 1 <= ymax -> 1 <= m -> 1 <= n -> n mod 2 = 0 ->
  (forall a b, 0 <= a < xmax -> 0 <= b < ymax -> pix image' a b = pix image (xmax - 1 - a) (ymax - 1 - b)) ->
  hough image ymax (Some m) (Some n) = Ok (ht, rho, theta) -> hough image' ymax (Some m) (Some n) = Ok (ht', rho', theta') ->
  rho' = rho /\ theta' = theta /\ forall r k, 0 <= r < m -> 0 <= k < n -> rent ht' r k = rent ht r ((k + n / 2) mod n).
Proof.
  intros image image' ymax m n ht rho theta ht' rho' theta' xmax HR HR' HL HX HY Y1 M1 N1 N2 HP H H'. assert (X1 : 1 <= xmax) by (assert (0 <= xmax) by apply zlen_nonneg; destruct (Z.eq_dec xmax 0) as [Q|Q]; [rewrite Q in HX; discriminate|lia]).
  destruct (hough_max image ymax HR X1 Y1) as (v & Mv).
  assert (Mv' : is_max (concat image') v).
  { apply (is_max_same image image' ymax ymax v HR HR'); [| |exact Mv]; fold xmax; rewrite ?HL; intros a b Ha Hb.
    - exists (xmax - 1 - a), (ymax - 1 - b). split; [lia|]. split; [lia|]. now apply HP.
    - exists (xmax - 1 - a), (ymax - 1 - b). split; [lia|]. split; [lia|]. rewrite HP by lia. f_equal; lia. }
  assert (AX : rho' = rho /\ theta' = theta).
  { clear - H H' HL. unfold hough in H, H'. cbv zeta in H, H'. rewrite HL in H'. fold xmax in H.
    destruct (n =? 0); [discriminate|]. destruct ((m <? 0) || (n <? 0)); [discriminate|]. destruct (hough_axis xmax), (hough_axis ymax).
    destruct (rmax_list _); cbn [bind] in H; [|discriminate]. destruct (foldM _ _ _); cbn [bind] in H; [|discriminate].
    destruct (rmax_list _); cbn [bind] in H'; [|discriminate]. destruct (foldM _ _ _); cbn [bind] in H'; [|discriminate]. injection H as _ <- <-. injection H' as _ <- <-. auto. }
  destruct AX as [-> ->]. split; [reflexivity|]. split; [reflexivity|].
  destruct (c41_entries image ymax m n v HR X1 Y1 M1 N1 Mv) as (h1 & r1 & t1 & E1 & _ & F1 & _). rewrite H in E1. injection E1 as -> _ _.
  destruct (c41_entries image' ymax m n v HR' ltac:(lia) Y1 M1 N1 Mv') as (h2 & r2 & t2 & E2 & _ & F2 & _). rewrite H' in E2. injection E2 as -> _ _.
  intros r k Hr Hk. rewrite F2, F1 by (auto; apply Z.mod_pos_bound; lia). rewrite HL. fold xmax. cbv zeta.
  rewrite (rsum_arange_rev 0 xmax). apply rsum_ext. intros a Ha. apply in_arange in Ha. rewrite (rsum_arange_rev 0 ymax). apply rsum_ext. intros b Hb. apply in_arange in Hb.
  rewrite HP by lia. replace (xmax - 1 - (0 + xmax - 1 - a)) with a by ring. replace (ymax - 1 - (0 + ymax - 1 - b)) with b by ring.
  assert (E : hrho xmax ymax n (0 + xmax - 1 - a) (0 + ymax - 1 - b) k = hrho xmax ymax n a b ((k + n / 2) mod n)).
  { rewrite hrho_mod by lia. unfold hrho. assert (C1 : hcoord xmax (0 + xmax - 1 - a) = - hcoord xmax a) by (unfold hcoord; assert (Q := Z.div_mod (xmax + 1) 2 ltac:(lia)); assert (Q' := Z.div_mod xmax 2 ltac:(lia)); Z.div_mod_to_equations; lia).
    assert (C2 : hcoord ymax (0 + ymax - 1 - b) = - hcoord ymax b) by (unfold hcoord; Z.div_mod_to_equations; lia). rewrite C1, C2, !opp_IZR, plus_IZR.
    assert (EN : IZR n = (2 * IZR (n / 2))%R) by (rewrite <- mult_IZR; f_equal; Z.div_mod_to_equations; lia). assert (NN : IZR (n / 2) <> 0%R) by (apply (IZR_neq _ 0); Z.div_mod_to_equations; lia).
    replace (2 * PI * (IZR k + IZR (n / 2)) / IZR n)%R with (2 * PI * IZR k / IZR n + PI)%R by (rewrite EN; field; exact NN). rewrite neg_cos, neg_sin. ring. }
  rewrite E. reflexivity.
Qed.
Lemma c137_transpose : forall image image' ymax m n ht rho theta ht' rho' theta', let xmax := zlen image in
  rect image ymax -> rect image' xmax -> zlen image' = ymax -> 1 <= xmax -> 1 <= ymax -> 1 <= m -> 1 <= n -> n mod 4 = 0 ->
  (forall a b, 0 <= a < xmax -> 0 <= b < ymax -> pix image' b a = pix image a b) ->
  hough image ymax (Some m) (Some n) = Ok (ht, rho, theta) -> hough image' xmax (Some m) (Some n) = Ok (ht', rho', theta') ->
  forall r k, 0 <= r < m -> 0 <= k < n -> rent ht' r k = rent ht r ((3 * (n / 4) - k) mod n).
Proof.
  intros image image' ymax m n ht rho theta ht' rho' theta' xmax HR HR' HL X1 Y1 M1 N1 N4 HP H H'.
  destruct (hough_max image ymax HR X1 Y1) as (v & Mv).
  assert (Mv' : is_max (concat image') v).
  { apply (is_max_same image image' ymax xmax v HR HR'); [| |exact Mv]; fold xmax; rewrite ?HL; intros a b Ha Hb.
    - exists b, a. split; [lia|]. split; [lia|]. now apply HP.
    - exists b, a. split; [lia|]. split; [lia|]. now rewrite HP by lia. }
  destruct (c41_entries image ymax m n v HR X1 Y1 M1 N1 Mv) as (h1 & r1 & t1 & E1 & _ & F1 & _). rewrite H in E1. injection E1 as -> _ _.
  destruct (c41_entries image' xmax m n v HR' ltac:(lia) X1 M1 N1 Mv') as (h2 & r2 & t2 & E2 & _ & F2 & _). rewrite H' in E2. injection E2 as -> _ _.
  intros r k Hr Hk. rewrite F2, F1 by (auto; apply Z.mod_pos_bound; lia). rewrite HL. fold xmax. cbv zeta.
  rewrite rsum_swap. apply rsum_ext. intros a Ha. apply in_arange in Ha. apply rsum_ext. intros b Hb. apply in_arange in Hb.
  rewrite HP by lia. rewrite (Rplus_comm (IZR ymax ^ 2)).
  assert (E : hrho ymax xmax n b a k = hrho xmax ymax n a b ((3 * (n / 4) - k) mod n)).
  { rewrite hrho_mod by lia. unfold hrho. rewrite minus_IZR, mult_IZR.
    assert (EN : IZR n = (4 * IZR (n / 4))%R) by (rewrite <- mult_IZR; f_equal; Z.div_mod_to_equations; lia). assert (NN : IZR (n / 4) <> 0%R) by (apply (IZR_neq _ 0); Z.div_mod_to_equations; lia).
    replace (2 * PI * (3 * IZR (n / 4) - IZR k) / IZR n)%R with (- (2 * PI * IZR k / IZR n) + 3 * (PI / 2))%R by (rewrite EN; field; exact NN).
    rewrite cos_plus, sin_plus, cos_neg, sin_neg. replace (3 * (PI / 2))%R with (PI / 2 + PI)%R by field. rewrite neg_cos, neg_sin, cos_PI2, sin_PI2. ring. }
  rewrite E. reflexivity.
Qed.

(** *** The ideal representation of a constant frequency is a line, and the Hough transform finds it. *)
Definition image_of (m : list (list (option R))) (N : Z) : list (list R) :=
  map (fun a => map (fun b => match cell None m a b with Some v => v | None => 0%R end) (arange 0 N)) (arange 0 N).
Lemma pix_image m N a b : 0 <= a < N -> 0 <= b < N -> pix (image_of m N) a b = match cell None m a b with Some v => v | None => 0%R end.
Proof.
  intros Ha Hb. unfold pix, image_of, rnth.
  assert (NM : forall {A} (f : Z -> A) d i, 0 <= i < N -> nth (Z.to_nat i) (map f (arange 0 N)) d = f i).
  { intros A f d i Hi. rewrite (nth_indep _ d (f 0)) by (rewrite map_length; assert (L := arange_zlen 0 N); unfold zlen in L; lia). rewrite map_nth. f_equal.
    unfold arange. rewrite (nth_indep _ 0 (0 + Z.of_nat 0)) by (rewrite map_length, seq_length; lia). rewrite (map_nth (fun k => 0 + Z.of_nat k)). rewrite seq_nth by lia. lia. }
  rewrite NM by lia. now rewrite NM by lia.
Qed.
Lemma c137_line : forall f N, 3 <= N -> (0 <= f <= 1 / 2)%R -> let a := ZnearestE (2 * f * IZR (N - 1)) in 0 < hcoord N a ->
  exists m ts fr ht rho theta, ideal_tfr [repeat (Some f) (Z.to_nat N)] None None = Ok (m, ts, fr) /\
  (forall r c, 0 <= r < N -> 0 <= c < N -> cell None m r c = Some (if r =? a then 1 else 0)%R) /\
  hough (image_of m N) N None None = Ok (ht, rho, theta) /\
  forall r k, 0 <= r < N -> 0 <= k < N ->
    (rent ht r k <= IZR N)%R /\ (rent ht r k = IZR N <-> r = ZnearestE (IZR (hcoord N a) * IZR (N - 1) * sqrt 2 / IZR N) /\ k = 0).
Proof.
  intros f N N3 Hf a Hx. set (law := repeat (Some f) (Z.to_nat N)). assert (LL : zlen law = N) by (unfold zlen, law; rewrite repeat_length; lia).
  destruct (c44_marks [law] (arange 0 N) N N ltac:(lia) ltac:(lia)) as (m & fr & E & G & _ & MK & LB).
  { intros l [<-|[]]. split; [exact LL|]. intros v Hv. apply repeat_spec in Hv. subst v. exists f. auto. }
  { intros t Ht. apply in_arange in Ht. lia. }
  assert (ZT : zlen (arange 0 N) = N) by (rewrite arange_zlen; lia). rewrite ZT in *.
  assert (HA : 0 <= a < N) by (apply (LB f Hf)).
  assert (GL : forall t, 0 <= t < N -> get law (nth (Z.to_nat t) (arange 0 N) 0) = Ok (Some f)).
  { intros t Ht. assert (ET : nth (Z.to_nat t) (arange 0 N) 0 = t). { unfold arange. rewrite (nth_indep _ 0 (0 + Z.of_nat 0)) by (rewrite map_length, seq_length; lia). rewrite (map_nth (fun k => 0 + Z.of_nat k)). rewrite seq_nth by lia. lia. }
    rewrite ET. rewrite (get_ok None) by lia. f_equal. unfold law. apply nth_repeat_lt. lia. }
  assert (CE : forall r c, 0 <= r < N -> 0 <= c < N -> cell None m r c = Some (if r =? a then 1 else 0)%R).
  { intros r c Hr Hc. destruct (MK r c Hr Hc) as [[-> (l & f' & [<-|[]] & Q & ->)]|[-> Q]].
    - rewrite GL in Q by auto. injection Q as <-. fold a. now rewrite Z.eqb_refl.
    - destruct (Z.eqb_spec r a) as [Ea|]; [|reflexivity]. exfalso. apply Q. exists law, f. split; [left; reflexivity|]. split; [apply GL; auto|exact Ea]. }
  assert (PX : forall r c, 0 <= r < N -> 0 <= c < N -> pix (image_of m N) r c = (if r =? a then 1 else 0)%R) by (intros; rewrite pix_image, CE by auto; reflexivity).
  assert (ZI : zlen (image_of m N) = N) by (unfold image_of; rewrite zlen_map; exact ZT).
  assert (RI : rect (image_of m N) N) by (intros r Hr; unfold image_of in Hr; apply in_map_iff in Hr; destruct Hr as (q & <- & _); rewrite zlen_map; exact ZT).
  assert (MX : is_max (concat (image_of m N)) 1%R).
  { split; [apply (in_concat_pix _ N _ RI); exists a, 0; rewrite ZI; split; [lia|]; split; [lia|]; rewrite PX by lia; now rewrite Z.eqb_refl|].
    intros w Hw. apply (in_concat_pix _ N _ RI) in Hw. rewrite ZI in Hw. destruct Hw as (r & c & Hr & Hc & <-). rewrite PX by auto. destruct (r =? a); lra. }
  assert (BR : forall r c, 0 <= r < N -> 0 <= c < N -> bright (image_of m N) 1 r c = (r =? a)).
  { intros r c Hr Hc. unfold bright, gtb. rewrite PX by auto. destruct (r =? a); [rewrite Rabs_R1|rewrite Rabs_R0]; destruct (Rlt_dec _ _); try lra; reflexivity. }
  destruct (c41_entries (image_of m N) N N N 1%R RI ltac:(lia) ltac:(lia) ltac:(lia) ltac:(lia) MX) as (ht & rho & theta & EH & _).
  exists m, (arange 0 N), fr, ht, rho, theta. split; [|split; [exact CE|split]].
  - change ([repeat (Some f) (Z.to_nat N)]) with [law]. rewrite (c44_default [law] law eq_refl), LL. exact E.
  - unfold hough in EH |- *. rewrite ZI in *. exact EH.
  - intros r k Hr Hk. assert (MS : mass (image_of m N) N 1 = IZR N).
    { unfold mass. rewrite ZI. rewrite (rsum_single (arange 0 N) a).
      - rewrite (rsum_ext _ _ (fun _ => 1%R)); [rewrite rsum_const, Rmult_1_r, arange_length, INR_IZR_INZ; f_equal; lia|].
        intros c Hc. apply in_arange in Hc. rewrite BR, PX, Z.eqb_refl by lia. reflexivity.
      - apply NoDup_arange.
      - apply in_arange. lia.
      - intros r' Hr' Q. apply in_arange in Hr'. rewrite (rsum_ext _ _ (fun _ => 0%R)); [rewrite rsum_const; ring|]. intros c Hc. apply in_arange in Hc. rewrite BR by lia. destruct (Z.eqb_spec r' a); [contradiction|reflexivity]. }
    assert (Q := c109_square (image_of m N) 1 ht rho theta a r k). cbv zeta in Q. rewrite ZI, MS in Q. apply Q; auto.
    + intros a' b Ha' Hb. rewrite PX by auto. destruct (a' =? a); lra.
    + unfold hough in EH |- *. rewrite ZI in *. exact EH.
    + intros a' b Ha' Hb B. rewrite BR in B by auto. now apply Z.eqb_eq.
    + rewrite BR by lia. apply Z.eqb_refl.
    + rewrite BR by lia. apply Z.eqb_refl.
Qed.

Lemma rl_map (l : list R) : l = map (rnth l) (arange 0 (zlen l)).
Proof.
  unfold arange, rnth, zlen. rewrite Z.sub_0_r, Nat2Z.id, map_map. induction l as [|a l IH]; [reflexivity|]. cbn [length seq map]. f_equal. rewrite <- seq_shift, map_map.
  rewrite IH at 1. apply map_ext. intros k. replace (Z.to_nat (0 + Z.of_nat (S k))) with (S (Z.to_nat (0 + Z.of_nat k))) by lia. reflexivity.
Qed.
(** *** The density of a field that moves nothing: the cells above the threshold, equally. *)
Definition own_rows (tfr : list (list R)) : list (list ext) := map (fun col => map (fun j => Fin (IZR j)) (arange 0 (zlen col))) tfr.
Lemma own_bin n b j : 0 <= b < n -> 0 <= j < n -> in_bin n b (Fin (IZR j)) = (b =? j).
Proof.
  intros Hb Hj. unfold in_bin. destruct (Z.eqb_spec b 0) as [E0|E0]; destruct (Z.eqb_spec b (n - 1)) as [E1|E1]; destruct (Z.eqb_spec b j) as [E|E]; try (exfalso; lia);
    repeat match goal with |- context [Rle_dec (IZR ?x) (IZR ?y)] => destruct (Rle_dec (IZR x) (IZR y)) as [Q|Q]; [apply le_IZR in Q|assert (~ x <= y) by (intros W; apply Q, IZR_le, W)]
     | |- context [Rlt_dec (IZR ?x) (IZR ?y)] => destruct (Rlt_dec (IZR x) (IZR y)) as [W|W]; [apply lt_IZR in W|assert (~ x < y) by (intros V; apply W, IZR_lt, V)] end; try reflexivity; exfalso; lia.
Qed.
Lemma own_count n thr b col : zlen col = n -> 0 <= b < n ->
  count (fun vr => gtb (fst vr) thr && in_bin n b (snd vr)) (combine col (map (fun j => Fin (IZR j)) (arange 0 n))) = if gtb (rnth col b) thr then 1 else 0.
Proof.
  intros HL Hb. rewrite <- HL.
  assert (K : forall l s, 0 <= s -> s + zlen l <= n -> count (fun vr => gtb (fst vr) thr && in_bin n b (snd vr)) (combine l (map (fun j => Fin (IZR j)) (arange s (s + zlen l)))) =
    if (s <=? b) && (b <? s + zlen l) then (if gtb (rnth l (b - s)) thr then 1 else 0) else 0).
  { clear col HL. induction l as [|v l IH]; intros s Hs Hl.
    - rewrite arange_empty by (cbn; lia). cbn [map combine]. destruct ((s <=? b) && (b <? s + zlen [])) eqn:Q; [|reflexivity]. apply andb_prop in Q. destruct Q as [Q1 Q2]. apply Z.leb_le in Q1. apply Z.ltb_lt in Q2. change (@zlen R []) with 0 in Q2. lia.
    - assert (EZ : zlen (v :: l) = zlen l + 1) by (unfold zlen; cbn [length]; lia). assert (L0 : 0 <= zlen l) by (unfold zlen; lia). rewrite EZ in *. rewrite arange_cons by lia. cbn [map combine]. unfold count in *. cbn [filter fst snd].
      specialize (IH (s + 1) ltac:(lia) ltac:(lia)). replace (s + 1 + zlen l) with (s + (zlen l + 1)) in IH by ring.
      rewrite own_bin by lia. destruct (Z.eqb_spec b s) as [->|NE].
      + rewrite Z.sub_diag. change (rnth (v :: l) 0) with v. rewrite (proj2 (Z.leb_gt (s + 1) s)) in IH by lia. cbn [andb] in IH. rewrite (proj2 (Z.leb_le s s)), (proj2 (Z.ltb_lt s _)) by lia. cbn [andb]. rewrite andb_true_r.
        destruct (gtb v thr); [|exact IH]. assert (Z1 : forall {A} (x : A) t, zlen (x :: t) = zlen t + 1) by (intros; unfold zlen; cbn [length]; lia). rewrite Z1, IH. reflexivity.
      + rewrite andb_false_r, IH. destruct (Z.leb_spec (s + 1) b); destruct (Z.leb_spec s b); destruct (Z.ltb_spec b (s + (zlen l + 1))); cbn [andb]; try lia; try reflexivity.
        replace (b - s) with (Z.succ (b - (s + 1))) by lia. unfold rnth. rewrite Z2Nat.inj_succ by lia. reflexivity. }
  rewrite <- HL in K. assert (W := K col 0 ltac:(lia) ltac:(lia)). rewrite Z.add_0_l in W. rewrite W. rewrite (proj2 (Z.leb_le 0 b)), (proj2 (Z.ltb_lt b _)) by lia. now rewrite Z.sub_0_r.
Qed.
Lemma c137_friedman_own : forall tfr n, (forall col, In col tfr -> zlen col = n) -> let thr := mean_half tfr in
  let K := count (fun v => gtb v thr) (concat tfr) in
  (K = 0 -> friedman tfr (own_rows tfr) n = None) /\
  (K <> 0 -> friedman tfr (own_rows tfr) n = Some (map (map (fun v => if gtb v thr then (/ IZR K)%R else 0%R)) tfr)).
Proof.
  intros tfr n HL thr K. unfold friedman. cbv zeta. fold thr.
  match goal with |- context [Req_EM_T (rsum (concat ?A) _) 0] => assert (E : A = map (map (fun v => if gtb v thr then 1%R else 0%R)) tfr) end.
  { clearbody thr. clear K. unfold own_rows. induction tfr as [|col tfr IH]; cbn [map zipw]; [reflexivity|]. rewrite IH by (intros; apply HL; right; assumption). f_equal.
    assert (Hc : zlen col = n) by (apply HL; left; reflexivity). rewrite Hc. transitivity (map (fun v => if gtb v thr then 1%R else 0%R) (map (rnth col) (arange 0 (zlen col)))); [|now rewrite <- rl_map]. rewrite map_map, Hc. apply map_ext_in. intros b Hb. apply in_arange in Hb.
    rewrite own_count by lia. destruct (gtb _ thr); reflexivity. }
  rewrite E.
  assert (S : rsum (concat (map (map (fun v => if gtb v thr then 1%R else 0%R)) tfr)) (fun v => v) = IZR K).
  { rewrite <- concat_map. unfold K, count. generalize (concat tfr). induction l as [|v l IH]; [reflexivity|]. cbn [map filter]. rewrite rsum_cons, IH. destruct (gtb v thr); [|ring].
    unfold zlen. cbn [length]. rewrite Nat2Z.inj_succ, succ_IZR. ring. }
  rewrite S. destruct (Req_EM_T (IZR K) 0) as [Q|Q].
  - split; [reflexivity|]. intros N. exfalso. apply N. now apply eq_IZR.
  - split; [intros Z0; exfalso; apply Q; now rewrite Z0|]. intros _. f_equal. rewrite map_map. apply map_ext. intros col. rewrite map_map. apply map_ext. intros v. destruct (gtb v thr); unfold Rdiv; ring.
Qed.
(** One column of three cells: the two above half the mean share the density; twice as loud, the same. *)
Example c137_example : let m := [[4; 0; 5]]%R in friedman m (own_rows m) 3 = Some [[/ 2; 0; / 2]]%R /\ friedman (scale_mat 2 m) (own_rows m) 3 = Some [[/ 2; 0; / 2]]%R.
Proof.
  intros m. assert (TH : mean_half m = (3 / 2)%R). { unfold mean_half. change (concat m) with [4; 0; 5]%R. rewrite !rsum_cons, rsum_nil. change (zlen [4; 0; 5]%R) with 3. field. }
  assert (G : forall v, gtb v (3 / 2) = if Rlt_dec (3 / 2) v then true else false) by reflexivity.
  assert (G4 : gtb 4 (3 / 2) = true) by (rewrite G; destruct (Rlt_dec _ _); [reflexivity|lra]). assert (G0 : gtb 0 (3 / 2) = false) by (rewrite G; destruct (Rlt_dec _ _); [lra|reflexivity]). assert (G5 : gtb 5 (3 / 2) = true) by (rewrite G; destruct (Rlt_dec _ _); [reflexivity|lra]).
  assert (E : friedman m (own_rows m) 3 = Some [[/ 2; 0; / 2]]%R).
  { assert (Q := c137_friedman_own m 3). cbv zeta in Q. rewrite TH in Q. unfold count in Q. change (concat m) with [4; 0; 5]%R in Q. cbn [filter] in Q. rewrite G4, G0, G5 in Q. change (zlen [4; 5]%R) with 2 in Q.
    destruct Q as [_ Q]; [intros col [<-|[]]; reflexivity|]. rewrite Q by lia. unfold m. cbn [map]. rewrite G4, G0, G5. reflexivity. }
  split; [exact E|]. rewrite c137_friedman_scale by lra. exact E.
Qed.
