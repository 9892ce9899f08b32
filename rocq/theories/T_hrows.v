(** C41: accumulators with a single row, with none, and sizes that are refused. *)
From Coq Require Import Reals ZArith List Lia Lra Bool.
From Coquelicot Require Import Coquelicot.
From Flocq Require Import Core.
From Verif Require Import Py Scalars CSum DFT Spec M_base M_putils M_reas M_post P_base P_stft T_putils T_reas T_post.
Import ListNotations.
Local Open Scope Z_scope.

(** One row: the bin width is infinite (a division by 0.0) and every vote lands in row 0. *)
Lemma c41_one_row : forall image ymax n imax, rect image ymax -> 1 <= zlen image -> 1 <= ymax -> 1 <= n -> is_max (concat image) imax ->
  exists ht rho theta, hough image ymax (Some 1) (Some n) = Ok (ht, rho, theta) /\ shape ht 1 n /\
  forall k, 0 <= k < n -> rent ht 0 k =
     rsum (arange 0 (zlen image)) (fun a => rsum (arange 0 ymax) (fun b =>
       if gtb (Rabs (pix image a b)) (imax / 20) && Rleb 0 (hrho (zlen image) ymax n a b k) then pix image a b else 0%R)).
Proof.
  intros image ymax n imax HR Hx Hy Hn HM. destruct (c41_entries image ymax 1 n imax HR Hx Hy ltac:(lia) Hn HM) as (ht & rho & theta & E & Sh & F & _).
  exists ht, rho, theta. split; [exact E|]. split; [exact Sh|]. intros k Hk. rewrite F by lia. apply rsum_ext. intros a _. apply rsum_ext. intros b _. cbv zeta.
  set (p := hrho _ _ _ _ _ _). change (1 - 1) with 0. unfold Rdiv. rewrite Rinv_0, Rmult_0_r, Rinv_0, Rmult_0_r.
  rewrite (Zrnd_IZR ZnearestE 0). rewrite andb_true_r. reflexivity.
Qed.

Lemma foldM_stuck {A S} (f : S -> A -> res S) e l s : (forall a, In a l -> f s a = Ok s \/ f s a = Raise e) ->
  ((forall a, In a l -> f s a = Ok s) -> foldM f l s = Ok s) /\ ((exists a, In a l /\ f s a = Raise e) -> foldM f l s = Raise e).
Proof.
  induction l as [|a l IH]; intros H; [split; [reflexivity|intros (b & [] & _)]|].
  destruct IH as [I1 I2]; [intros b Hb; apply H; right; auto|]. cbn [foldM]. destruct (H a (or_introl eq_refl)) as [E|E]; rewrite E; cbn [bind].
  - split.
    + intros HA. apply I1. intros b Hb. apply HA. right. auto.
    + intros (b & [<-|Hb] & R'); [congruence|]. apply I2. exists b. auto.
  - split; [|reflexivity]. intros HA. specialize (HA a (or_introl eq_refl)). congruence.
Qed.
Lemma get_nil {A} i : get (@nil A) i = Raise IndexError.
Proof. unfold get. destruct (pyidx _ _); [|reflexivity]. now destruct (Z.to_nat _). Qed.

(** No row: the first vote raises; an image without one returns an empty accumulator. *)
Lemma c41_no_row : forall image ymax n imax, rect image ymax -> 1 <= zlen image -> 1 <= ymax -> 1 <= n -> is_max (concat image) imax ->
  ((exists a b k, 0 <= a < zlen image /\ 0 <= b < ymax /\ 0 <= k < n /\ (imax / 20 < Rabs (pix image a b))%R /\ (0 <= hrho (zlen image) ymax n a b k)%R) ->
    hough image ymax (Some 0) (Some n) = Raise IndexError) /\
  ((forall a b k, 0 <= a < zlen image -> 0 <= b < ymax -> 0 <= k < n -> (imax / 20 < Rabs (pix image a b))%R -> (hrho (zlen image) ymax n a b k < 0)%R) ->
    exists rho theta, hough image ymax (Some 0) (Some n) = Ok (repeat [] (Z.to_nat n), rho, theta)).
Proof.
  intros image ymax n imax HR Hx Hy Hn HM. unfold hough. rewrite (proj2 (Z.eqb_neq n 0)), (proj2 (Z.ltb_ge 0 0)), (proj2 (Z.ltb_ge n 0)) by lia. cbn [orb].
  destruct (rmax_ok (concat image)) as (v & Ev & Mv). { intros E. destruct HM as [H _]. rewrite E in H. destruct H. }
  assert (v = imax) by (eapply is_max_unique; eauto). subst v. rewrite Ev. cbn [bind]. rewrite !hough_axis_eq by lia.
  set (rm := hough_rhomax (zlen image) ymax). change (repeat 0%R (Z.to_nat 0)) with (@nil R). set (h := repeat (@nil R) (Z.to_nat n)).
  set (xc := (zlen image + 1) / 2). set (yc := (ymax + 1) / 2).
  assert (LH : zlen h = n) by (unfold h, zlen; rewrite repeat_length; lia).
  assert (V : forall v x y k, 0 <= k < n -> let theta := (2 * PI * IZR k / IZR n)%R in let rho := (IZR x * cos theta - IZR y * sin theta)%R in
    ((0 <= rho <= rm)%R -> hough_vote rm (rm / IZR (0 - 1)) (2 * PI / IZR n) v x y h theta = Raise IndexError) /\
    (~ (0 <= rho <= rm)%R -> hough_vote rm (rm / IZR (0 - 1)) (2 * PI / IZR n) v x y h theta = Ok h)).
  { intros v x y k Hk theta rho. unfold hough_vote. cbv zeta. fold rho. unfold theta. rewrite theta_index by auto.
    destruct (Rle_dec 0 rho); [|split; [intros [? _]; contradiction|reflexivity]]. destruct (Rle_dec rho rm); [|split; [intros [_ ?]; contradiction|reflexivity]].
    split; [|tauto]. intros _. unfold add2. rewrite (get_ok []) by lia. cbn [bind]. unfold h. rewrite nth_repeat, get_nil. reflexivity. }
  set (step := hough_pixel image imax rm (rm / IZR (0 - 1)) (2 * PI / IZR n) n xc yc).
  assert (P : forall a b, 0 <= a < zlen image -> 0 <= b < ymax ->
    let G := exists k, 0 <= k < n /\ (imax / 20 < Rabs (pix image a b))%R /\ (0 <= hrho (zlen image) ymax n a b k)%R in
    (G -> step h (hcoord (zlen image) a, hcoord ymax b) = Raise IndexError) /\ (~ G -> step h (hcoord (zlen image) a, hcoord ymax b) = Ok h)).
  { intros a b Ha Hb G. unfold step, hough_pixel.
    replace (hcoord (zlen image) a + xc - 1) with a by (unfold hcoord; fold xc; lia). replace (hcoord ymax b + yc - 1) with b by (unfold hcoord; fold yc; lia).
    rewrite (get_ok []) by lia. cbn [bind].
    rewrite (get_ok 0%R). 2:{ rewrite (HR (nth (Z.to_nat a) image [])); [lia|]. apply nth_In. unfold zlen in Ha. lia. }
    cbn [bind]. change (nth (Z.to_nat b) (nth (Z.to_nat a) image []) 0%R) with (pix image a b).
    destruct (Rlt_dec (imax / 20) (Rabs (pix image a b))) as [B|B].
    2:{ split; [intros (k & _ & ? & _); contradiction|reflexivity]. }
    rewrite linspace_theta, foldM_map by auto.
    assert (BD : forall k, (0 <= hrho (zlen image) ymax n a b k)%R -> (0 <= hrho (zlen image) ymax n a b k <= rm)%R).
    { intros k Hk. split; [exact Hk|]. unfold rm, hough_rhomax. apply c41_rho_bound; lia. }
    destruct (foldM_stuck (fun s k => hough_vote rm (rm / IZR (0 - 1)) (2 * PI / IZR n) (pix image a b) (hcoord (zlen image) a) (hcoord ymax b) s (2 * PI * IZR k / IZR n)%R) IndexError (arange 0 n) h) as [S1 S2].
    { intros k Hk. apply in_arange in Hk. destruct (V (pix image a b) (hcoord (zlen image) a) (hcoord ymax b) k Hk) as [V1 V2].
      destruct (Rle_dec 0 (hrho (zlen image) ymax n a b k)) as [Q|Q]; [right; apply V1; apply BD; auto|left; apply V2; intros [? _]; contradiction]. }
    split.
    - intros (k & Hk & _ & Q). apply S2. exists k. split; [apply in_arange; lia|]. destruct (V (pix image a b) (hcoord (zlen image) a) (hcoord ymax b) k Hk) as [V1 _]. apply V1. apply BD. exact Q.
    - intros NG. apply S1. intros k Hk. apply in_arange in Hk. destruct (V (pix image a b) (hcoord (zlen image) a) (hcoord ymax b) k Hk) as [_ V2]. apply V2. intros [Q _]. apply NG. exists k. auto. }
  set (L := list_prod _ _).
  assert (IL : forall xy, In xy L <-> exists a b, 0 <= a < zlen image /\ 0 <= b < ymax /\ xy = (hcoord (zlen image) a, hcoord ymax b)).
  { intros [x y]. unfold L. rewrite in_prod_iff, !in_arange. unfold hcoord. fold xc yc. split.
    - intros [H1 H2]. exists (x + xc - 1), (y + yc - 1). split; [lia|]. split; [lia|]. f_equal; lia.
    - intros (a & b & Ha & Hb & E). injection E as -> ->. lia. }
  assert (DEC : forall a b, 0 <= a < zlen image -> 0 <= b < ymax -> step h (hcoord (zlen image) a, hcoord ymax b) = Ok h \/ step h (hcoord (zlen image) a, hcoord ymax b) = Raise IndexError).
  { intros a b Ha Hb. destruct (P a b Ha Hb) as [P1 P2].
    destruct (Rlt_dec (imax / 20) (Rabs (pix image a b))) as [B|B]; [|left; apply P2; intros (k & _ & ? & _); contradiction].
    destruct (existsb (fun k => Rleb 0 (hrho (zlen image) ymax n a b k)) (arange 0 n)) eqn:EX.
    - apply existsb_exists in EX. destruct EX as (k & Hk & Q). apply in_arange in Hk. unfold Rleb in Q. destruct (Rle_dec 0 (hrho (zlen image) ymax n a b k)); [|discriminate].
      right. apply P1. exists k. auto.
    - left. apply P2. intros (k & Hk & _ & Q). assert (existsb (fun k => Rleb 0 (hrho (zlen image) ymax n a b k)) (arange 0 n) = true); [|congruence].
      apply existsb_exists. exists k. split; [apply in_arange; lia|]. unfold Rleb. destruct (Rle_dec 0 (hrho (zlen image) ymax n a b k)); [reflexivity|contradiction]. }
  destruct (foldM_stuck step IndexError L h) as [S1 S2].
  { intros xy Hxy. apply IL in Hxy. destruct Hxy as (a & b & Ha & Hb & ->). apply DEC; auto. }
  split.
  - intros (a & b & k & Ha & Hb & Hk & B & Q). rewrite S2; [reflexivity|]. exists (hcoord (zlen image) a, hcoord ymax b). split; [apply IL; eauto|].
    destruct (P a b Ha Hb) as [P1 _]. apply P1. exists k. auto.
  - intros HN. exists (linspace 0 rm n), (linspace 0 (2 * PI - 2 * PI / IZR n) n). rewrite S1; [reflexivity|].
    intros xy Hxy. apply IL in Hxy. destruct Hxy as (a & b & Ha & Hb & ->). destruct (P a b Ha Hb) as [_ P2]. apply P2. intros (k & Hk & B & Q). specialize (HN a b k Ha Hb Hk B). lra.
Qed.

(** No angle divides by zero, whatever the rest; negative sizes are refused. *)
Lemma c41_bad_sizes : forall image ymax m n, (n = 0 -> hough image ymax m (Some n) = Raise ZeroDivisionError) /\
  (n <> 0 -> (n < 0 \/ exists k, m = Some k /\ k < 0) -> hough image ymax m (Some n) = Raise ValueError).
Proof.
  intros image ymax m n. split.
  - intros ->. reflexivity.
  - intros Hn H. unfold hough. rewrite (proj2 (Z.eqb_neq n 0)) by lia. destruct H as [H|(k & -> & H)].
    + rewrite (proj2 (Z.ltb_lt n 0)) by lia. now rewrite orb_true_r.
    + rewrite (proj2 (Z.ltb_lt k 0)) by lia. reflexivity.
Qed.

Example c41_rows_example : hough [[1%R]] 1 (Some 0) (Some 1) = Raise IndexError /\
  exists ht rho theta, hough [[1%R]] 1 (Some 1) (Some 1) = Ok (ht, rho, theta) /\ rent ht 0 0 = 1%R.
Proof.
  assert (HR : rect [[1%R]] 1) by (intros r [<-|[]]; reflexivity). assert (HM : is_max (concat [[1%R]]) 1%R) by (split; [left; auto|intros w [<-|[]]; lra]).
  assert (P : hrho 1 1 1 0 0 0 = 0%R) by (unfold hrho; change (hcoord 1 0) with 0; ring).
  split.
  - apply (proj1 (c41_no_row [[1%R]] 1 1 1%R HR ltac:(cbn; lia) ltac:(lia) ltac:(lia) HM)). exists 0, 0, 0. change (zlen [[1%R]]) with 1. change (pix [[1%R]] 0 0) with 1%R.
    rewrite P, Rabs_right by lra. repeat split; try lia; lra.
  - destruct (c41_one_row [[1%R]] 1 1 1%R HR ltac:(cbn; lia) ltac:(lia) ltac:(lia) HM) as (ht & rho & theta & E & _ & F). exists ht, rho, theta. split; [exact E|].
    rewrite F by lia. change (zlen [[1%R]]) with 1. change (arange 0 1) with [0]. rewrite rsum_cons, rsum_nil, rsum_cons, rsum_nil, P. change (pix [[1%R]] 0 0) with 1%R.
    unfold gtb, Rleb. rewrite Rabs_right by lra. destruct (Rlt_dec (1 / 20) 1); [|lra]. destruct (Rle_dec 0 0); [|lra]. cbn [andb]. ring.
Qed.
