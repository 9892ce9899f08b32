(** C44-C46: ideal representation, Friedman density, ridges. *)
From Coq Require Import Reals ZArith List Lia Lra Bool.
From Coquelicot Require Import Coquelicot.
From Flocq Require Import Core.
From Verif Require Import Py Scalars CSum DFT Spec M_base M_putils M_reas M_post P_base T_putils T_reas T_post.
Import ListNotations.
Local Open Scope Z_scope.

(** *** C44 *)
Lemma nth_repeat_lt {A} (a d : A) n k : (k < n)%nat -> nth k (repeat a n) d = a.
Proof. revert k. induction n as [|n IH]; intros [|k] H; cbn; auto; try lia. apply IH. lia. Qed.
Definition cell {A} (d : A) (m : list (list A)) (r c : Z) : A := nth (Z.to_nat r) (nth (Z.to_nat c) m []) d.
Definition grid {A} (m : list (list A)) (n t : Z) : Prop := zlen m = t /\ forall c, 0 <= c < t -> zlen (nth (Z.to_nat c) m []) = n.

Lemma set2_ok {A} (d : A) m n t r c v : grid m n t -> 0 <= r < n -> 0 <= c < t ->
  exists m', set2 m r c v = Ok m' /\ grid m' n t /\
    forall r' c', 0 <= r' < n -> 0 <= c' < t -> cell d m' r' c' = if (r' =? r) && (c' =? c) then v else cell d m r' c'.
Proof.
  intros [Hm Hc] Hr Ht. unfold set2. rewrite (get_ok []) by lia. cbn [bind]. rewrite set_ok by (rewrite Hc; lia). cbn [bind].
  rewrite set_ok by lia. eexists. split; [reflexivity|].
  assert (N : forall c', 0 <= c' < t -> nth (Z.to_nat c') (upd m (Z.to_nat c) (upd (nth (Z.to_nat c) m []) (Z.to_nat r) v)) [] =
     if c' =? c then upd (nth (Z.to_nat c) m []) (Z.to_nat r) v else nth (Z.to_nat c') m []).
  { intros c' Hc'. destruct (Z.eqb_spec c' c) as [->|D]; [apply nth_upd_eq; unfold zlen in Hm; lia|apply nth_upd_neq; lia]. }
  split; [split|].
  - now rewrite upd_zlen.
  - intros c' Hc'. rewrite N by auto. destruct (c' =? c); [rewrite upd_zlen|]; apply Hc; auto.
  - intros r' c' Hr' Hc'. unfold cell. rewrite N by auto. destruct (Z.eqb_spec c' c) as [->|D]; [|now rewrite andb_false_r].
    rewrite andb_true_r. destruct (Z.eqb_spec r' r) as [->|D]; [apply nth_upd_eq; specialize (Hc c Ht); unfold zlen in Hc; lia|apply nth_upd_neq; lia].
Qed.

Lemma fold_marks {P} (step : list (list (option R)) -> P -> res (list (list (option R)))) (row col : P -> Z) n t v l m :
  (forall m p, In p l -> step m p = set2 m (row p) (col p) v) ->
  (forall p, In p l -> 0 <= row p < n /\ 0 <= col p < t) -> grid m n t ->
  exists m', foldM step l m = Ok m' /\ grid m' n t /\
    forall r c, 0 <= r < n -> 0 <= c < t ->
      cell None m' r c = if existsb (fun p => (r =? row p) && (c =? col p)) l then v else cell None m r c.
Proof.
  revert m. induction l as [|p l IH]; intros m Hs Hp Hg; cbn [foldM].
  - exists m. split; auto. 
  - rewrite Hs by (left; auto). destruct (Hp p (or_introl eq_refl)) as [H1 H2].
    destruct (set2_ok None m n t (row p) (col p) v Hg H1 H2) as (m1 & -> & G1 & E1). cbn [bind].
    destruct (IH m1) as (m2 & -> & G2 & E2); auto; [intros; apply Hs; now right|intros; apply Hp; now right|].
    exists m2. split; [reflexivity|split; [auto|]]. intros r c Hr Hc. cbn [existsb]. rewrite E2, E1 by auto.
    destruct (existsb _ l); [now rewrite orb_true_r|]. now rewrite orb_false_r.
Qed.

(** Laws without NaN and with values in [0, 1/2], [n >= 1] frequency bins,
    timestamps that index the laws (from either end): the function returns;
    column c holds 1 exactly in the rows round(2 f (n-1)) of the laws at the
    c-th timestamp and 0 elsewhere; and the label of a marked row is within
    3/(4n) of the frequency. *)
Lemma c44_marks : forall iflaws ts n len, 1 <= n -> 0 <= len ->
  (forall law, In law iflaws -> zlen law = len /\ forall v, In v law -> exists f, v = Some f /\ (0 <= f <= 1 / 2)%R) ->
  (forall t, In t ts -> - len <= t < len) ->
  exists m freqs, ideal_tfr iflaws (Some ts) (Some n) = Ok (m, ts, freqs) /\ grid m n (zlen ts) /\ zlen freqs = n /\
  (forall r c, 0 <= r < n -> 0 <= c < zlen ts ->
     cell None m r c = Some 1%R /\ (exists law f, In law iflaws /\ get law (nth (Z.to_nat c) ts 0) = Ok (Some f) /\ r = ZnearestE (2 * f * IZR (n - 1)))
     \/ cell None m r c = Some 0%R /\ ~ (exists law f, In law iflaws /\ get law (nth (Z.to_nat c) ts 0) = Ok (Some f) /\ r = ZnearestE (2 * f * IZR (n - 1)))) /\
  (forall f, (0 <= f <= 1 / 2)%R -> let r := ZnearestE (2 * f * IZR (n - 1)) in 0 <= r < n /\ (Rabs (rnth freqs r - f) <= 3 / (4 * IZR n))%R).
Proof.
  intros iflaws ts n len Hn Hlen HL HT.
  assert (HR : forall f, (0 <= f <= 1 / 2)%R -> 0 <= ZnearestE (2 * f * IZR (n - 1)) < n).
  { intros f Hf. assert (H0 : (0 <= IZR (n - 1))%R) by (apply IZR_le; lia).
    assert (A : ZnearestE (IZR 0) <= ZnearestE (2 * f * IZR (n - 1))) by (apply Zrnd_le; [apply valid_rnd_N|nra]).
    assert (B : ZnearestE (2 * f * IZR (n - 1)) <= ZnearestE (IZR (n - 1))) by (apply Zrnd_le; [apply valid_rnd_N|nra]).
    rewrite Zrnd_IZR in A by apply valid_rnd_N. rewrite Zrnd_IZR in B by apply valid_rnd_N. lia. }
  assert (GV : forall law t, In law iflaws -> In t ts -> exists f, get law t = Ok (Some f) /\ (0 <= f <= 1 / 2)%R).
  { intros law t Hl Ht. destruct (HL law Hl) as [Hz Hv]. specialize (HT t Ht).
    destruct (Z_lt_ge_dec t 0).
    - rewrite (get_neg None) by lia. destruct (Hv (nth (Z.to_nat (t + zlen law)) law None)) as (f & -> & Hf); [apply nth_In; unfold zlen in *; lia|]. eauto.
    - rewrite (get_ok None) by lia. destruct (Hv (nth (Z.to_nat t) law None)) as (f & -> & Hf); [apply nth_In; unfold zlen in *; lia|]. eauto. }
  set (val := fun p : Z * Z => match get (nth (Z.to_nat (snd p)) iflaws []) (nth (Z.to_nat (fst p)) ts 0) with Ok (Some f) => f | _ => 0%R end).
  set (row := fun p => ZnearestE (2 * val p * IZR (n - 1))).
  set (l := list_prod (arange 0 (zlen ts)) (arange 0 (zlen iflaws))).
  assert (Hin : forall p, In p l -> 0 <= fst p < zlen ts /\ 0 <= snd p < zlen iflaws /\
     get (nth (Z.to_nat (snd p)) iflaws []) (nth (Z.to_nat (fst p)) ts 0) = Ok (Some (val p)) /\ (0 <= val p <= 1 / 2)%R).
  { intros [c fi] Hp. apply in_prod_iff in Hp. rewrite !in_arange in Hp. cbn [fst snd]. split; [lia|split; [lia|]].
    destruct (GV (nth (Z.to_nat fi) iflaws []) (nth (Z.to_nat c) ts 0)) as (f & E & Hf); [apply nth_In; unfold zlen in *; lia|apply nth_In; unfold zlen in *; lia|].
    unfold val. cbn [fst snd]. rewrite E. auto. }
  destruct (fold_marks (ideal_step iflaws ts n) row fst n (zlen ts) (Some 1%R) l
     (repeat (repeat (Some 0%R) (Z.to_nat n)) (Z.to_nat (zlen ts)))) as (m & Em & Gm & Cm).
  - intros m p Hp. destruct (Hin p Hp) as (H1 & H2 & E & Hf). destruct p as [c fi]. cbn [fst snd] in *. unfold ideal_step.
    rewrite (get_ok 0) by lia. cbn [bind]. rewrite (get_ok []) by lia. cbn [bind]. rewrite E. cbn [bind]. unfold row. do 3 f_equal. ring.
  - intros p Hp. destruct (Hin p Hp) as (H1 & H2 & E & Hf). split; auto. now apply HR.
  - split.
    + unfold zlen. rewrite repeat_length. lia.
    + intros c Hc. rewrite nth_repeat_lt by lia. unfold zlen. rewrite repeat_length. lia.
  - exists m, (map (fun k => IZR k / IZR n * (1 / 2))%R (arange 0 n)). split; [|split; [auto|split; [rewrite zlen_map, arange_zlen; lia|split]]].
    + unfold ideal_tfr. cbn [bind]. rewrite (proj2 (Z.ltb_ge n 0)) by lia. fold l. rewrite Em. reflexivity.
    + intros r c Hr Hc. rewrite Cm by auto. destruct (existsb _ l) eqn:EX.
      * left. split; auto. apply existsb_exists in EX. destruct EX as (p & Hp & Q). apply andb_true_iff in Q. destruct Q as [Q1 Q2]. apply Z.eqb_eq in Q1, Q2. subst r c.
        destruct (Hin p Hp) as (H1 & H2 & E & Hf). exists (nth (Z.to_nat (snd p)) iflaws []), (val p). split; [apply nth_In; unfold zlen in *; lia|]. split; [exact E|reflexivity].
      * right. split. { unfold cell. rewrite nth_repeat_lt by lia. now rewrite nth_repeat_lt by lia. }
        intros (law & f & Hl & E & ->). apply (In_nth _ _ []) in Hl. destruct Hl as (k & Hk & <-).
        assert (HF : existsb (fun p => (ZnearestE (2 * f * IZR (n - 1)) =? row p) && (c =? fst p)) l = true); [|congruence].
        apply existsb_exists. exists (c, Z.of_nat k). split.
        -- apply in_prod; apply in_arange; unfold zlen in *; lia.
        -- cbn [fst]. rewrite Z.eqb_refl, andb_true_r. apply Z.eqb_eq. unfold row, val. cbn [fst snd]. rewrite Nat2Z.id, E. reflexivity.
    + intros f Hf r. assert (Hr := HR f Hf). fold r in Hr. split; auto. unfold rnth. rewrite nth_map_arange by lia. rewrite Z.add_0_l.
      assert (B := Znearest_half (fun x => negb (Z.even x)) (2 * f * IZR (n - 1))). fold ZnearestE in B. fold r in B.
      assert (HN : (1 <= IZR n)%R) by (apply IZR_le; lia). rewrite minus_IZR in B.
      replace (IZR r / IZR n * (1 / 2) - f)%R with ((IZR r - 2 * f * (IZR n - 1) - 2 * f) / (2 * IZR n))%R by (field; lra).
      unfold Rdiv at 1. rewrite Rabs_mult, (Rabs_right (/ (2 * IZR n))) by (apply Rle_ge, Rlt_le, Rinv_0_lt_compat; lra).
      replace (3 / (4 * IZR n))%R with (3 / 2 * / (2 * IZR n))%R by (field; lra).
      apply Rmult_le_compat_r; [apply Rlt_le, Rinv_0_lt_compat; lra|].
      rewrite Rabs_minus_sym in B. apply Rabs_le_inv in B. apply Rabs_le. lra.
Qed.

Lemma c44_default : forall iflaws law, get iflaws 0 = Ok law ->
  ideal_tfr iflaws None None = ideal_tfr iflaws (Some (arange 0 (zlen law))) (Some (zlen law)).
Proof. intros iflaws law H. unfold ideal_tfr. rewrite H. reflexivity. Qed.

(** Two laws over three instants, five bins. *)
Lemma near_half_even k f : (2 * f = IZR k)%R -> ZnearestE f = if Z.even k then k / 2 else if Z.even (k / 2) then k / 2 else k / 2 + 1.
Proof.
  intros H. destruct (Z.even k) eqn:Ek.
  - apply Z.even_spec in Ek. destruct Ek as [q ->]. replace (2 * q / 2) with q by (Z.to_euclidean_division_equations; lia).
    replace f with (IZR q) by (rewrite mult_IZR in H; lra). apply (Zrnd_IZR ZnearestE).
  - assert (Ok : Z.odd k = true) by (rewrite <- Z.negb_even, Ek; reflexivity). apply Z.odd_spec in Ok. destruct Ok as [q ->].
    replace ((2 * q + 1) / 2) with q by (Z.to_euclidean_division_equations; lia).
    rewrite plus_IZR, mult_IZR in H. assert (F : Zfloor f = q) by (apply Zfloor_imp; rewrite plus_IZR; lra).
    assert (Hc : Zceil f = q + 1) by (apply Zceil_imp; replace (q + 1 - 1) with q by lia; rewrite plus_IZR; lra).
    unfold Znearest. rewrite F, Hc. rewrite Rcompare_Eq by lra. destruct (Z.even q); reflexivity.
Qed.
Lemma ideal_step_some iflaws ts n m c fi ti law f k : get ts c = Ok ti -> get iflaws fi = Ok law -> get law ti = Ok (Some f) ->
  ZnearestE (f * 2 * IZR (n - 1)) = k -> ideal_step iflaws ts n m (c, fi) = set2 m k c (Some 1%R).
Proof. intros H1 H2 H3 <-. unfold ideal_step. rewrite H1. cbn [bind]. rewrite H2. cbn [bind]. rewrite H3. reflexivity. Qed.
Local Ltac cv := cbv -[IZR Rdiv Rmult ideal_step].
Local Arguments ideal_step : simpl never.
Example c44_example : forall a b c d : R, a = 0%R -> b = (1 / 4)%R -> c = (1 / 2)%R -> d = (3 / 16)%R ->
  exists fr, ideal_tfr [[Some a; Some b; Some c]; [Some c; Some b; Some d]] None (Some 5) =
  Ok ([[Some 1; Some 0; Some 0; Some 0; Some 1]; [Some 0; Some 0; Some 1; Some 0; Some 0]; [Some 0; Some 0; Some 1; Some 0; Some 1]]%R, [0; 1; 2], fr).
Proof.
  intros a b c d -> -> -> ->. eexists.
  assert (E0 : ZnearestE (0 * 2 * IZR (5 - 1)) = 0) by (rewrite (near_half_even 0) by (cbn; lra); reflexivity).
  assert (E1 : ZnearestE (1 / 4 * 2 * IZR (5 - 1)) = 2) by (rewrite (near_half_even 4) by (cbn; lra); reflexivity).
  assert (E2 : ZnearestE (1 / 2 * 2 * IZR (5 - 1)) = 4) by (rewrite (near_half_even 8) by (cbn; lra); reflexivity).
  assert (E3 : ZnearestE (3 / 16 * 2 * IZR (5 - 1)) = 2) by (rewrite (near_half_even 3) by (cbn; lra); reflexivity).
  unfold ideal_tfr.
  change (get [[Some 0%R; Some (1 / 4)%R; Some (1 / 2)%R]; [Some (1 / 2)%R; Some (1 / 4)%R; Some (3 / 16)%R]] 0) with (Ok [Some 0%R; Some (1 / 4)%R; Some (1 / 2)%R]).
  cbn [bind]. change (5 <? 0) with false. cbv iota.
  change (list_prod _ _) with [(0, 0); (0, 1); (1, 0); (1, 1); (2, 0); (2, 1)].
  change (repeat _ _) with (repeat (repeat (Some 0%R) 5) 3).
  cbn [foldM].
  rewrite (ideal_step_some _ _ _ _ _ _ 0 [Some 0; Some (1 / 4); Some (1 / 2)]%R 0 0) by (reflexivity || exact E0). cv.
  rewrite (ideal_step_some _ _ _ _ _ _ 0 [Some (1 / 2); Some (1 / 4); Some (3 / 16)]%R (1 / 2) 4) by (reflexivity || exact E2). cv.
  rewrite (ideal_step_some _ _ _ _ _ _ 1 [Some 0; Some (1 / 4); Some (1 / 2)]%R (1 / 4) 2) by (reflexivity || exact E1). cv.
  rewrite (ideal_step_some _ _ _ _ _ _ 1 [Some (1 / 2); Some (1 / 4); Some (3 / 16)]%R (1 / 4) 2) by (reflexivity || exact E1). cv.
  rewrite (ideal_step_some _ _ _ _ _ _ 2 [Some 0; Some (1 / 4); Some (1 / 2)]%R (1 / 2) 4) by (reflexivity || exact E2). cv.
  rewrite (ideal_step_some _ _ _ _ _ _ 2 [Some (1 / 2); Some (1 / 4); Some (3 / 16)]%R (3 / 16) 2) by (reflexivity || exact E3). cv.
  reflexivity.
Qed.

(** A NaN in the law of index fi at time t is written at row t, column fi, not
    in the column of that time: here time 1 has no frequency, its column is left
    at zero and the NaN lands in the column of time 0. *)
Lemma c44_nan_refuted : exists iflaws m ts fr, ideal_tfr iflaws None None = Ok (m, ts, fr) /\
  iflaws = [[Some (1 / 4)%R; None]] /\ cell None m 1 0 = None /\ cell None m 0 1 = Some 0%R /\ cell None m 1 1 = Some 0%R.
Proof.
  assert (E : ZnearestE (1 / 4 * 2 * IZR (2 - 1)) = 0) by (rewrite (near_half_even 1) by (cbn; lra); reflexivity).
  exists [[Some (1 / 4)%R; None]]. eexists _, _, _. split; [|split; [reflexivity|]].
  - cv.
    rewrite (ideal_step_some _ _ _ _ _ _ 0 [Some (1 / 4)%R; None] (1 / 4) 0) by (reflexivity || exact E). cv. reflexivity.
  - cbn. auto.
Qed.
(** ... and the write raises IndexError when the time is not a row number. *)
Lemma c44_nan_raises : exists iflaws n, ideal_tfr iflaws None (Some n) = Raise IndexError /\ iflaws = [[Some (1 / 4)%R; Some (1 / 4)%R; None]] /\ n = 2.
Proof.
  assert (E : ZnearestE (1 / 4 * 2 * IZR (2 - 1)) = 0) by (rewrite (near_half_even 1) by (cbn; lra); reflexivity).
  exists [[Some (1 / 4)%R; Some (1 / 4)%R; None]], 2. split; [|split; reflexivity]. cv.
  rewrite (ideal_step_some _ _ _ _ _ _ 0 [Some (1 / 4)%R; Some (1 / 4)%R; None] (1 / 4) 0) by (reflexivity || exact E). cv.
  rewrite (ideal_step_some _ _ _ _ _ _ 1 [Some (1 / 4)%R; Some (1 / 4)%R; None] (1 / 4) 0) by (reflexivity || exact E). cv. reflexivity.
Qed.

(** *** C45 *)
(** The bin of a relocated frequency: its integer part, clamped to the rows. *)
Definition bin_of (n : Z) (v : ext) : option Z :=
  match v with NaN => None | PInf => Some (n - 1) | MInf => Some 0 | Fin r => Some (Z.max 0 (Z.min (n - 1) (Zfloor r))) end.
Lemma c45_bins : forall n b v, 0 <= b < n -> in_bin n b v = match bin_of n v with Some k => b =? k | None => false end.
Proof.
  intros n b v Hb. destruct v as [r| | |]; try reflexivity. cbn [in_bin bin_of].
  assert (F1 := Zfloor_lb r). assert (F2 := Zfloor_ub r). set (q := Zfloor r) in *.
  assert (A : (if Rle_dec (IZR b) r then true else false) = (b <=? q)).
  { destruct (Rle_dec (IZR b) r) as [L|L]; symmetry; [apply Z.leb_le|apply Z.leb_gt].
    - assert (IZR b < IZR (q + 1))%R by (rewrite plus_IZR; lra). apply lt_IZR in H. lia.
    - assert (IZR q < IZR b)%R by lra. now apply lt_IZR. }
  assert (B : (if Rlt_dec r (IZR (b + 1)) then true else false) = (q <=? b)).
  { destruct (Rlt_dec r (IZR (b + 1))) as [L|L]; symmetry; [apply Z.leb_le|apply Z.leb_gt].
    - assert (IZR q < IZR (b + 1))%R by lra. apply lt_IZR in H. lia.
    - assert (IZR (b + 1) < IZR (q + 1))%R by (rewrite (plus_IZR q); lra). apply lt_IZR in H. lia. }
  rewrite A, B. destruct (Z.eqb_spec b 0), (Z.eqb_spec b (n - 1)); cbn [andb];
    repeat match goal with |- context [?a <=? ?b] => destruct (Z.leb_spec a b) end; cbn [andb]; symmetry; try (apply Z.eqb_eq; lia); apply Z.eqb_neq; lia.
Qed.

Lemma count_cons {A} (p : A -> bool) a l : count p (a :: l) = (if p a then 1 else 0) + count p l.
Proof. unfold count. cbn [filter]. destruct (p a); unfold zlen; cbn [length]; lia. Qed.
Lemma count_app {A} (p : A -> bool) l l' : count p (l ++ l') = count p l + count p l'.
Proof. unfold count, zlen. rewrite filter_app, app_length. lia. Qed.
Lemma count_nonneg {A} (p : A -> bool) l : 0 <= count p l.
Proof. unfold count. apply zlen_nonneg. Qed.
Lemma count_ext {A} (p q : A -> bool) l : (forall a, p a = q a) -> count p l = count q l.
Proof. intros H. unfold count. now rewrite (filter_ext p q H). Qed.
Definition above (thr : R) (vr : R * ext) : bool := gtb (fst vr) thr && match snd vr with NaN => false | _ => true end.
Lemma bin_total n thr l : 1 <= n ->
  rsum (map (fun b => IZR (count (fun vr => gtb (fst vr) thr && in_bin n b (snd vr)) l)) (arange 0 n)) (fun v => v) = IZR (count (above thr) l).
Proof.
  intros Hn. induction l as [|[v r] l IH].
  - unfold count. cbn [filter]. rewrite rsum_map. apply rsum_0. intros. reflexivity.
  - rewrite count_cons. rewrite (map_ext _ (fun b => ((if gtb v thr && in_bin n b r then 1 else 0) + IZR (count (fun vr => gtb (fst vr) thr && in_bin n b (snd vr)) l))%R))
      by (intros b; rewrite count_cons, plus_IZR; cbn [fst snd]; destruct (gtb v thr && in_bin n b r); reflexivity).
    rewrite rsum_map, rsum_plus. rewrite rsum_map in IH. rewrite IH, plus_IZR. f_equal. unfold above. cbn [fst snd].
    destruct (gtb v thr); cbn [andb]; [|apply rsum_0; reflexivity].
    destruct (bin_of n r) as [k|] eqn:E.
    + rewrite (rsum_ext _ _ (fun b => if k =? b then 1 else 0)%R) by (intros b Hb; apply in_arange in Hb; rewrite c45_bins, E by lia; rewrite Z.eqb_sym; destruct (k =? b); reflexivity).
      assert (Hk : 0 <= k < n) by (destruct r; cbn in E; try discriminate; injection E as <-; lia).
      rewrite rsum_pick by auto. destruct r; try discriminate; reflexivity.
    + rewrite rsum_0. 2:{ intros b Hb. apply in_arange in Hb. rewrite c45_bins, E by lia. reflexivity. }
      destruct r; try discriminate. reflexivity.
Qed.

(** The (value, relocated frequency) pairs, column by column. *)
Definition fpairs (tfr : list (list R)) (re : list (list ext)) : list (list (R * ext)) := zipw (@combine R ext) tfr re.
(** K: how many cells exceed half the mean and have a defined relocation. *)
Definition fcount (tfr : list (list R)) (re : list (list ext)) : Z := count (above (mean_half tfr)) (concat (fpairs tfr re)).
Lemma zipw_combine {A B D E} (g : D -> E) (f : A -> B -> D) a b : zipw (fun x y => g (f x y)) a b = map g (zipw f a b).
Proof. revert b. induction a as [|x a IH]; intros [|y b]; cbn; auto. now rewrite IH. Qed.

Lemma c45_density : forall tfr re n, 1 <= n ->
  let thr := mean_half tfr in let K := fcount tfr re in
  (K = 0 -> friedman tfr re n = None) /\
  (K <> 0 -> exists m, friedman tfr re n = Some m /\
     (forall v, In v (concat m) -> (0 <= v)%R) /\ rsum (concat m) (fun v => v) = 1%R /\
     grid m n (zlen (fpairs tfr re)) /\
     forall b c, 0 <= b < n -> 0 <= c < zlen (fpairs tfr re) ->
       cell 0%R m b c = (IZR (count (fun vr => gtb (fst vr) thr && match bin_of n (snd vr) with Some k => b =? k | None => false end)
                               (nth (Z.to_nat c) (fpairs tfr re) [])) / IZR K)%R).
Proof.
  intros tfr re n Hn thr K. unfold friedman. fold thr.
  rewrite (zipw_combine (fun l => map (fun b => IZR (count (fun vr => gtb (fst vr) thr && in_bin n b (snd vr)) l)) (arange 0 n)) (@combine R ext)).
  fold (fpairs tfr re). set (P := fpairs tfr re) in *. cbv zeta.
  set (g := fun l => map (fun b => IZR (count (fun vr => gtb (fst vr) thr && in_bin n b (snd vr)) l)) (arange 0 n)).
  assert (ES : rsum (concat (map g P)) (fun v => v) = IZR K).
  { unfold K, fcount. fold thr. fold P. clear K. induction P as [|p P IH]; [reflexivity|]. cbn [map concat]. rewrite rsum_app, IH, count_app, plus_IZR. f_equal. now apply bin_total. }
  rewrite ES. split.
  - intros ->. destruct (Req_EM_T (IZR 0) 0); [reflexivity|tauto].
  - intros HK. assert (HK0 : IZR K <> 0%R) by (intros Q; apply eq_IZR in Q; tauto). destruct (Req_EM_T (IZR K) 0); [tauto|].
    assert (HKp : (0 < IZR K)%R) by (apply IZR_lt; assert (Q := count_nonneg (above thr) (concat P)); unfold K, fcount in *; fold P thr in HK |- *; lia).
    eexists. split; [reflexivity|]. rewrite <- concat_map. split; [|split; [|split; [split|]]].
    + intros v Hv. apply in_map_iff in Hv. destruct Hv as (w & <- & Hw). apply in_concat in Hw. destruct Hw as (row & Hr & Hw).
      apply in_map_iff in Hr. destruct Hr as (l & <- & _). apply in_map_iff in Hw. destruct Hw as (b & <- & _).
      apply Rmult_le_pos; [apply IZR_le, count_nonneg|apply Rlt_le, Rinv_0_lt_compat; auto].
    + rewrite rsum_map. unfold Rdiv. rewrite (rsum_scal_r (concat (map g P)) (/ IZR K) (fun v => v)), ES. now apply Rinv_r.
    + rewrite !zlen_map. reflexivity.
    + intros c Hc. rewrite map_map. rewrite (nth_indep _ [] (map (fun v => (v / IZR K)%R) (g []))) by (rewrite map_length; unfold zlen in Hc; lia).
      rewrite (map_nth (fun l => map (fun v => (v / IZR K)%R) (g l))). unfold g. rewrite !zlen_map, arange_zlen; lia.
    + intros b c Hb Hc. unfold cell. rewrite map_map. rewrite (nth_indep _ [] (map (fun v => (v / IZR K)%R) (g []))) by (rewrite map_length; unfold zlen in Hc; lia).
      rewrite (map_nth (fun l => map (fun v => (v / IZR K)%R) (g l))). unfold g. rewrite map_map. rewrite nth_map_arange by lia. rewrite Z.add_0_l. do 2 f_equal.
      apply count_ext. intros vr. now rewrite c45_bins.
Qed.

(** A distribution with a positive total and a relocation defined everywhere
    always has a cell above the threshold. *)
Lemma c45_positive : forall tfr re n, 1 <= n -> zlen re = zlen tfr ->
  (forall k, (k < length tfr)%nat -> length (nth k re []) = length (nth k tfr [])) ->
  (forall c v, In c re -> In v c -> v <> NaN) -> (0 < rsum (concat tfr) (fun v => v))%R ->
  friedman tfr re n <> None.
Proof.
  intros tfr re n Hn Hz Hl Hnan Hpos.
  assert (HF : map fst (concat (fpairs tfr re)) = concat tfr).
  { clear Hnan Hpos. revert re Hz Hl. induction tfr as [|c tfr IH]; intros [|rc re] Hz Hl; try (unfold zlen in Hz; cbn in Hz; lia); [reflexivity|].
    unfold fpairs. cbn [zipw concat]. rewrite map_app. f_equal.
    - specialize (Hl 0%nat ltac:(cbn; lia)). cbn in Hl. clear -Hl. revert rc Hl. induction c as [|v c IH]; intros [|r rc] Hl; cbn in *; try lia; auto. f_equal. apply IH. lia.
    - apply IH; [unfold zlen in *; cbn in Hz; lia|]. intros k Hk. exact (Hl (S k) ltac:(cbn; lia)). }
  assert (HN : forall p, In p (concat (fpairs tfr re)) -> snd p <> NaN).
  { intros p Hp. apply in_concat in Hp. destruct Hp as (l & Hll & Hp). unfold fpairs in Hll. clear -Hll Hp Hnan.
    revert re Hnan Hll. induction tfr as [|c tfr IH]; intros [|rc re] Hnan Hll; cbn in Hll; try tauto. destruct Hll as [<-|Hll].
    - apply (Hnan rc); [left; auto|]. destruct p. now apply in_combine_r in Hp.
    - apply (IH re); auto. intros. apply (Hnan c0); auto. right; auto. }
  destruct (c45_density tfr re n Hn) as [_ D]. destruct D as (m & -> & _); [|discriminate].
  intros H0. set (thr := mean_half tfr) in *.
  assert (HA : forall v, In v (concat tfr) -> (v <= thr)%R).
  { intros v Hv. rewrite <- HF in Hv. apply in_map_iff in Hv. destruct Hv as (p & <- & Hp).
    destruct (Rle_dec (fst p) thr) as [|NL]; auto. exfalso. unfold fcount in H0. fold thr in H0.
    assert (In p (filter (above thr) (concat (fpairs tfr re)))).
    { apply filter_In. split; auto. unfold above, gtb. destruct (Rlt_dec thr (fst p)); [|lra]. specialize (HN p Hp). destruct (snd p); tauto || reflexivity. }
    unfold count in H0. destruct (filter _ _); [contradiction|unfold zlen in H0; cbn in H0; lia]. }
  assert (S := rsum_le (concat tfr) (fun v => v) (fun _ => thr) HA). rewrite rsum_const in S.
  unfold thr, mean_half in S. rewrite zlen_INR in S || idtac. 
  assert (HL : (0 < INR (length (concat tfr)))%R). { destruct (concat tfr); [unfold rsum in Hpos; cbn in Hpos; lra|]. apply lt_0_INR. cbn. lia. }
  assert (EQ : IZR (zlen (concat tfr)) = INR (length (concat tfr))) by (unfold zlen; now rewrite <- INR_IZR_INZ). rewrite EQ in S.
  replace (INR (length (concat tfr)) * (rsum (concat tfr) (fun v => v) * (1 / 2) / INR (length (concat tfr))))%R with (rsum (concat tfr) (fun v => v) * (1 / 2))%R in S by (field; lra).
  lra.
Qed.

Lemma filter_none {A} (p : A -> bool) l : (forall a, In a l -> p a = false) -> filter p l = [].
Proof. induction l as [|a l IH]; intros H; cbn; auto. rewrite H by (left; auto). apply IH. intros. apply H. now right. Qed.
(** An all-zero distribution yields NaN everywhere. *)
Lemma c45_zero : forall t re n, 1 <= n -> friedman (repeat (repeat 0%R (Z.to_nat n)) t) re n = None.
Proof.
  intros t re n Hn. destruct (c45_density (repeat (repeat 0%R (Z.to_nat n)) t) re n Hn) as [D _]. apply D.
  set (tfr := repeat _ t).
  assert (HM : mean_half tfr = 0%R).
  { unfold mean_half. rewrite rsum_0; [unfold Rdiv; ring|]. intros v Hv. apply in_concat in Hv. destruct Hv as (l & Hl & Hv). apply repeat_spec in Hl. subst l. now apply repeat_spec in Hv. }
  unfold fcount. rewrite HM.
  assert (HA : forall p, In p (concat (fpairs tfr re)) -> above 0 p = false).
  { intros p Hp. apply in_concat in Hp. destruct Hp as (l & Hl & Hp). assert (E : fst p = 0%R).
    { unfold fpairs in Hl. assert (HT : forall c, In c tfr -> c = repeat 0%R (Z.to_nat n)) by (intros c Hc; now apply repeat_spec in Hc). clearbody tfr. clear -Hl Hp HT.
      revert re Hl. induction tfr as [|c tfr IH]; intros [|rc re] Hl; cbn in Hl; try tauto. destruct Hl as [<-|Hl].
      - destruct p. apply in_combine_l in Hp. rewrite (HT c) in Hp by (left; auto). now apply repeat_spec in Hp.
      - apply (IH (fun c H => HT c (or_intror H)) re Hl). }
    unfold above, gtb. rewrite E. destruct (Rlt_dec 0 0); [lra|reflexivity]. }
  unfold count. rewrite (filter_none _ _ HA). reflexivity.
Qed.

Lemma zfloor_65 : Zfloor (6 / 5) = 1.
Proof. apply Zfloor_imp. cbn. lra. Qed.
Example c45_example : friedman [[4; 0]; [0; 0]]%R [[Fin (6 / 5); Fin 0]; [PInf; NaN]]%R 2 = Some [[0; 1]; [0; 0]]%R.
Proof.
  assert (EM : mean_half [[4; 0]; [0; 0]]%R = (1 / 2)%R). { unfold mean_half, rsum, zlen. cbn [concat app length fold_right]. change (IZR (Z.of_nat 4)) with 4%R. lra. }
  destruct (c45_density [[4; 0]; [0; 0]]%R [[Fin (6 / 5); Fin 0]; [PInf; NaN]]%R 2 ltac:(lia)) as [_ D].
  unfold fcount in D. rewrite EM in D.
  assert (G4 : gtb 4 (1 / 2) = true) by (unfold gtb; destruct (Rlt_dec (1 / 2) 4); auto; lra).
  assert (G0 : gtb 0 (1 / 2) = false) by (unfold gtb; destruct (Rlt_dec (1 / 2) 0); auto; lra).
  change (concat (fpairs _ _)) with [(4%R, Fin (6 / 5)); (0%R, Fin 0); (0%R, PInf); (0%R, NaN)] in D.
  rewrite !count_cons in D. unfold above in D. cbn [fst snd] in D. rewrite G4, G0 in D. cbn [andb] in D. change (count _ []) with 0 in D.
  destruct D as (m & -> & _ & _ & [G1 G2] & D); [lia|]. change (zlen (fpairs _ _)) with 2 in *.
  change (fpairs _ _) with [[(4%R, Fin (6 / 5)); (0%R, Fin 0)]; [(0%R, PInf); (0%R, NaN)]] in D.
  destruct m as [|a [|b [|]]]; try (exfalso; unfold zlen in G1; cbn in G1; lia).
  assert (A1 := G2 0 ltac:(lia)). assert (A2 := G2 1 ltac:(lia)). change (Z.to_nat 1) with 1%nat in A2. change (Z.to_nat 0) with 0%nat in A1. cbn in A1, A2.
  destruct a as [|a0 [|a1 [|]]]; try (exfalso; unfold zlen in A1; cbn in A1; lia).
  destruct b as [|b0 [|b1 [|]]]; try (exfalso; unfold zlen in A2; cbn in A2; lia).
  assert (D00 := D 0 0 ltac:(lia) ltac:(lia)). assert (D01 := D 0 1 ltac:(lia) ltac:(lia)). assert (D10 := D 1 0 ltac:(lia) ltac:(lia)). assert (D11 := D 1 1 ltac:(lia) ltac:(lia)).
  unfold cell in *. change (Z.to_nat 1) with 1%nat in *. change (Z.to_nat 0) with 0%nat in *. cbn [nth] in *. rewrite !count_cons in *. cbn [fst snd bin_of] in *. rewrite G4, G0, zfloor_65 in *. cbn [andb] in *.
  change (count _ []) with 0 in *. change (0 =? Z.max 0 (Z.min (2 - 1) 1)) with false in *. change (1 =? Z.max 0 (Z.min (2 - 1) 1)) with true in *. cbn [andb Z.add Pos.add] in *.
  cbn in D00, D01, D10, D11. do 2 f_equal; [|f_equal]; repeat f_equal; lra.
Qed.

(** *** C46 *)
(** A ridge point of column [icol]: for 'rpwv'/'rpmh' a row above the threshold
    whose relocated frequency is the row itself; for the other methods a row
    whose relocated (frequency, time) is the cell itself, whatever its energy. *)
Lemma c46_points : forall meth thr icol c rc j, In j (ridge_idx meth thr icol c rc) <->
  0 <= j < zlen c /\ exists z, nth (Z.to_nat j) rc None = Some z /\
    match meth with
    | Rpwv => (thr < rnth c j)%R /\ z = RtoC (IZR j)
    | _ => z = (IZR j, IZR icol)
    end.
Proof.
  intros meth thr icol c rc j. unfold ridge_idx. rewrite filter_In, in_arange.
  split; intros [Hj H]; (split; [lia|]); destruct (nth (Z.to_nat j) rc None) as [z|]; try discriminate.
  - exists z. split; auto. destruct meth.
    + apply andb_true_iff in H. destruct H as [H1 H2]. unfold gtb in H1. destruct (Rlt_dec thr (rnth c j)); [|discriminate]. destruct (Ceq_dec z (RtoC (IZR j))); [auto|discriminate].
    + apply andb_true_iff in H. destruct H as [H1 H2]. destruct (Req_EM_T (Re z) (IZR j)); [|discriminate]. destruct (Req_EM_T (Im z) (IZR icol)); [|discriminate]. apply injective_projections; auto.
    + apply andb_true_iff in H. destruct H as [H1 H2]. destruct (Req_EM_T (Re z) (IZR j)); [|discriminate]. destruct (Req_EM_T (Im z) (IZR icol)); [|discriminate]. apply injective_projections; auto.
    + apply andb_true_iff in H. destruct H as [H1 H2]. destruct (Req_EM_T (Re z) (IZR j)); [|discriminate]. destruct (Req_EM_T (Im z) (IZR icol)); [|discriminate]. apply injective_projections; auto.
  - destruct H as (z' & E & H). injection E as <-. destruct meth.
    + destruct H as [H1 H2]. unfold gtb. destruct (Rlt_dec thr (rnth c j)); [|tauto]. destruct (Ceq_dec z (RtoC (IZR j))); [auto|tauto].
    + subst z. cbn. destruct (Req_EM_T (IZR j) (IZR j)); [|tauto]. destruct (Req_EM_T (IZR icol) (IZR icol)); [auto|tauto].
    + subst z. cbn. destruct (Req_EM_T (IZR j) (IZR j)); [|tauto]. destruct (Req_EM_T (IZR icol) (IZR icol)); [auto|tauto].
    + subst z. cbn. destruct (Req_EM_T (IZR j) (IZR j)); [|tauto]. destruct (Req_EM_T (IZR icol) (IZR icol)); [auto|tauto].
  - destruct H as (z' & E & _). discriminate.
Qed.

Definition ridge_div (meth : rmethod) (n : Z) : R := match meth with Rsp => IZR n | _ => (2 * IZR n)%R end.
(** What is returned: the points of the last column that has any; with none in
    any column, UnboundLocalError; an unknown method, ValueError. *)
Lemma c46_last : forall tfr re n ts meth, meth <> Rother -> zlen re = zlen tfr -> zlen tfr <= zlen ts ->
  let idx c := ridge_idx meth (mean_half tfr) c (nth (Z.to_nat c) tfr []) (nth (Z.to_nat c) re []) in
  (forall c, 0 <= c < zlen tfr -> idx c <> [] -> (forall c', c < c' < zlen tfr -> idx c' = []) ->
     ridges tfr re n (Some ts) meth = Ok (map (fun _ => rnth ts c) (idx c), map (fun j => IZR j / ridge_div meth n)%R (idx c))) /\
  ((forall c, 0 <= c < zlen tfr -> idx c = []) -> ridges tfr re n (Some ts) meth = Raise UnboundLocalError).
Proof.
  intros tfr re n ts meth Hm Hz Ht idx.
  set (T := zlen tfr) in *.
  set (res := fun c => (map (fun _ => rnth ts c) (idx c), map (fun j => IZR j / ridge_div meth n)%R (idx c))).
  set (step := fun (o : option (list R * list R)) icol => match idx icol with [] => o | _ => Some (res icol) end).
  assert (ER : ridges tfr re n (Some ts) meth = match fold_left step (arange 0 T) None with Some p => Ok p | None => Raise UnboundLocalError end).
  { unfold ridges. fold T.
    set (body := fun o icol => _).
    assert (EB : foldM body (arange 0 T) None = Ok (fold_left step (arange 0 T) None)).
    { assert (G : forall l o, (forall c, In c l -> 0 <= c < T) -> foldM body l o = Ok (fold_left step l o)).
      { induction l as [|c l IH]; intros o Hl; [reflexivity|]. cbn [foldM fold_left].
        assert (Hc := Hl c (or_introl eq_refl)). 
        assert (E : body o c = Ok (step o c)).
        { unfold body. rewrite (get_ok 0%R) by lia. cbn [bind]. rewrite (get_ok []) by (fold T; lia). cbn [bind]. rewrite (get_ok []) by lia. cbn [bind].
          fold (idx c). fold (rnth ts c). unfold step, res, ridge_div. destruct (idx c); reflexivity. }
        rewrite E. cbn [bind]. apply IH. intros; apply Hl; now right. }
      apply G. intros c Hc. now apply in_arange in Hc. }
    rewrite EB. destruct meth; try tauto; reflexivity. }
  rewrite ER.
  assert (EE : forall l o, (forall c, In c l -> idx c = []) -> fold_left step l o = o).
  { induction l as [|c l IH]; intros o Hl; [reflexivity|]. cbn [fold_left]. rewrite IH by (intros; apply Hl; now right). unfold step. now rewrite Hl by (left; auto). }
  split.
  - intros c Hc Hne Hl. rewrite (arange_app 0 c T) by lia. rewrite (arange_cons c) by lia. rewrite fold_left_app. cbn [fold_left].
    rewrite EE by (intros c' Hc'; apply in_arange in Hc'; apply Hl; lia). unfold step. destruct (idx c) eqn:E; [tauto|]. unfold res. rewrite E. reflexivity.
  - intros Hl. rewrite EE by (intros c' Hc'; apply in_arange in Hc'; apply Hl; lia). reflexivity.
Qed.
Lemma c46_unknown : forall tfr re n ts, ridges tfr re n ts Rother = Raise ValueError.
Proof. reflexivity. Qed.
Lemma c46_default_ts : forall tfr re n meth, ridges tfr re n None meth = ridges tfr re n (Some (map IZR (arange 0 (zlen tfr)))) meth.
Proof. reflexivity. Qed.

(** Two columns, one bin: both cells are fixed points above the threshold, only
    the second is returned. *)
Lemma c46_refuted : exists tfr re n, (forall c, 0 <= c < 2 -> In 0 (ridge_idx Rpwv (mean_half tfr) c (nth (Z.to_nat c) tfr []) (nth (Z.to_nat c) re []))) /\ zlen tfr = 2 /\
  ridges tfr re n None Rpwv = Ok ([1%R], [0%R]).
Proof.
  exists [[1]; [1]]%R, [[Some (RtoC 0)]; [Some (RtoC 0)]], 1.
  assert (EM : mean_half [[1]; [1]]%R = (1 / 2)%R). { unfold mean_half, rsum, zlen. cbn [concat app length fold_right]. change (IZR (Z.of_nat 2)) with 2%R. lra. }
  assert (EI : forall c, ridge_idx Rpwv (1 / 2) c [1%R] [Some (RtoC 0)] = [0]).
  { intros c. unfold ridge_idx. change (arange 0 (zlen [1%R])) with [0]. cbn [filter nth Z.to_nat]. unfold gtb. change (rnth [1%R] 0) with 1%R.
    destruct (Rlt_dec (1 / 2) 1); [|lra]. destruct (Ceq_dec (RtoC 0) (RtoC (IZR 0))); [reflexivity|tauto]. }
  rewrite EM. split; [|split; [reflexivity|]].
  - intros c Hc. assert (Q : c = 0 \/ c = 1) by lia. destruct Q as [->| ->]; (change (Z.to_nat 0) with 0%nat || change (Z.to_nat 1) with 1%nat); cbn [nth]; rewrite EI; left; reflexivity.
  - rewrite c46_default_ts. change (zlen [[1%R]; [1%R]]) with 2.
    destruct (c46_last [[1]; [1]]%R [[Some (RtoC 0)]; [Some (RtoC 0)]] 1 (map IZR (arange 0 2)) Rpwv) as [H _]; [discriminate|reflexivity|vm_compute; discriminate|].
    specialize (H 1). change (nth (Z.to_nat 1) [[1]; [1]]%R []) with [1%R] in H. change (nth (Z.to_nat 1) [[Some (RtoC 0)]; [Some (RtoC 0)]] []) with [Some (RtoC 0)] in H.
    rewrite EM in H. rewrite (EI 1) in H. rewrite H; [|change (zlen [[1%R]; [1%R]]) with 2; lia|discriminate|change (zlen [[1%R]; [1%R]]) with 2; intros; lia].
    cbn [map]. replace (IZR 0 / ridge_div Rpwv 1)%R with 0%R by (unfold Rdiv; ring). reflexivity.
Qed.
(** 'rsp': a cell of zero energy, below the threshold, is returned. *)
Lemma c46_threshold_refuted : exists tfr re n, ridges tfr re n None Rsp = Ok ([0%R], [0%R]) /\ (rnth (nth 0 tfr []) 0 < mean_half tfr)%R.
Proof.
  exists [[0; 2]]%R, [[Some (RtoC 0); None]], 2.
  assert (EM : mean_half [[0; 2]]%R = (1 / 2)%R). { unfold mean_half, rsum, zlen. cbn [concat app length fold_right]. change (IZR (Z.of_nat 2)) with 2%R. lra. }
  split; [|rewrite EM; change (rnth (nth 0 [[0%R; 2%R]] []) 0) with 0%R; lra].
  rewrite c46_default_ts. change (zlen [[0%R; 2%R]]) with 1.
  destruct (c46_last [[0; 2]]%R [[Some (RtoC 0); None]] 2 (map IZR (arange 0 1)) Rsp) as [H _]; [discriminate|reflexivity|vm_compute; discriminate|].
  specialize (H 0). change (nth (Z.to_nat 0) [[0; 2]]%R []) with [0%R; 2%R] in H. change (nth (Z.to_nat 0) [[Some (RtoC 0); None]] []) with [Some (RtoC 0); None] in H.
  assert (EI : ridge_idx Rsp (mean_half [[0; 2]]%R) 0 [0%R; 2%R] [Some (RtoC 0); None] = [0]).
  { unfold ridge_idx. change (arange 0 (zlen [0%R; 2%R])) with [0; 1]. cbn [filter]. change (Z.to_nat 1) with 1%nat. change (Z.to_nat 0) with 0%nat. cbn [nth].
    change (Re (RtoC 0)) with 0%R. change (Im (RtoC 0)) with 0%R. destruct (Req_EM_T 0 (IZR 0)); [reflexivity|tauto]. }
  rewrite EI in H. rewrite H; [|change (zlen [[0%R; 2%R]]) with 1; lia|discriminate|change (zlen [[0%R; 2%R]]) with 1; intros; lia].
  cbn [map]. do 2 f_equal. f_equal. unfold Rdiv. ring.
Qed.
