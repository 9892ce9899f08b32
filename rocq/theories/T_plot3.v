(** C95: [plot] of the affine distributions.  C96: Scalogram.plot.
    C98: plotifl. *)
From Coq Require Import Reals ZArith List Lia Lra Bool.
From Coquelicot Require Import Coquelicot.
From Verif Require Import Py Scalars CSum DFT Spec M_base P_base M_utils M_putils M_post M_stft M_cohen M_state M_gen1 M_gen2 M_aff M_plot T_gen1 T_putils T_state T_aff T_plot T_plot2.
Import ListNotations.
Local Open Scope Z_scope.

(** A matrix of [rows] rows and [cols] columns. *)
Definition matrix_of (m : list (list R)) (rows cols : Z) : Prop := zlen m = rows /\ forall r, In r m -> zlen r = cols.
Definition entry (m : list (list R)) (v : R) : Prop := exists r, In r m /\ In v r.
(** Some entry is positive, and some other entry is smaller. *)
Definition contrast (m : list (list R)) : Prop := exists u v, entry m u /\ entry m v /\ (0 < u)%R /\ (v < u)%R.
Lemma entry_concat m v : entry m v <-> In v (concat m).
Proof. unfold entry. rewrite in_concat. split; intros (r & A & B); exists r; auto. Qed.
Lemma matrix_ne m rows cols : matrix_of m rows cols -> 1 <= rows -> 1 <= cols -> concat m <> [].
Proof.
  intros [L S] HR HC. destruct m as [|r m]; [unfold zlen in L; cbn in L; lia|]. specialize (S r (or_introl eq_refl)). destruct r; [unfold zlen in S; cbn in S; lia|discriminate].
Qed.
Lemma cut_matrix x m rows cols : matrix_of m rows cols -> matrix_of (cut_rows x m) rows cols.
Proof.
  intros [L S]. unfold cut_rows. split; [now rewrite zlen_map|]. intros r Hr. apply in_map_iff in Hr. destruct Hr as (r' & <- & H). rewrite zlen_map. now apply S.
Qed.
Lemma cut_concat x m : concat (cut_rows x m) = map (fun v => if Rle_dec v x then 0%R else v) (concat m).
Proof. unfold cut_rows. now rewrite concat_map. Qed.
Lemma matrix_cols m rows cols : matrix_of m rows cols -> 1 <= rows -> mat_cols m = cols.
Proof. intros [L S] H. destruct m as [|r m]; [unfold zlen in L; cbn in L; lia|]. apply S. now left. Qed.

(** The levels: 65 values from the larger of the minimum and 5% of the maximum
    up to the maximum. *)
Lemma increasing_map (f : Z -> R) a b : (forall k, a <= k -> k + 1 < b -> (f k < f (k + 1)%Z)%R) -> increasing (map f (arange a b)) = true.
Proof.
  intros H. remember (Z.to_nat (b - a)) as n eqn:E. revert a E H. induction n as [|n IH]; intros a E H.
  - rewrite arange_empty by lia. reflexivity.
  - rewrite arange_cons by lia. destruct (Z_lt_dec (a + 1) b) as [L|L].
    + specialize (IH (a + 1) ltac:(lia) ltac:(intros k K1 K2; apply H; lia)). rewrite (arange_cons (a + 1) b) in * by lia. cbn [map increasing] in *. destruct (Rlt_dec (f a) (f (a + 1))) as [|Q]; [exact IH|]. exfalso. apply Q, H; lia.
    + rewrite (arange_empty (a + 1)) by lia. reflexivity.
Qed.
Lemma axis_increasing a b : increasing (axis a b 65) = if Rlt_dec a b then true else false.
Proof.
  unfold axis, M_post.linspace. change (65 =? 1) with false. cbv iota. change (65 - 1) with 64. destruct (Rlt_dec a b) as [L|L].
  - apply increasing_map. intros k _ _. rewrite plus_IZR. nra.
  - rewrite (arange_cons 0 65) by lia. rewrite (arange_cons (0 + 1) 65) by lia. cbn [map increasing]. destruct (Rlt_dec _ _) as [Q|Q]; [|reflexivity]. exfalso. change (0 + 1) with 1 in Q. lra.
Qed.

(** The cut keeps the maximum when it is positive; otherwise nothing is left. *)
Lemma cut_max th m rows cols mx : matrix_of m rows cols -> (0 <= th < 1)%R -> greatest (concat m) mx ->
  greatest (concat (cut_rows (mx * th) m)) (Rmax 0 mx) /\
  exists lo, least (concat (cut_rows (mx * th) m)) lo /\ ((Rmax lo (Rmax 0 mx * (5 / 100)) < Rmax 0 mx)%R <-> contrast m).
Proof.
  intros M Ht [I G]. rewrite cut_concat. set (cutv := fun v => if Rle_dec v (mx * th) then 0%R else v).
  assert (C1 : (0 < mx)%R -> cutv mx = mx) by (intros P; unfold cutv; destruct (Rle_dec mx (mx * th)); [exfalso; nra|reflexivity]).
  assert (C2 : (mx <= 0)%R -> forall v, In v (concat m) -> cutv v = 0%R) by (intros P v Hv; unfold cutv; destruct (Rle_dec v (mx * th)) as [|Q]; [reflexivity|]; exfalso; apply Q; specialize (G _ Hv); nra).
  assert (C3 : (0 < mx)%R -> forall v, In v (concat m) -> (cutv v <= mx)%R) by (intros P v Hv; unfold cutv; destruct (Rle_dec v (mx * th)); [lra|auto]).
  assert (RM : (0 < mx /\ Rmax 0 mx = mx \/ mx <= 0 /\ Rmax 0 mx = 0)%R) by (destruct (Rlt_dec 0 mx); [left; split; [auto|apply Rmax_right; lra]|right; split; [lra|apply Rmax_left; lra]]).
  split.
  - destruct RM as [[P ->]|[P ->]].
    + split; [apply in_map_iff; exists mx; auto|]. intros w Hw. apply in_map_iff in Hw. destruct Hw as (v & <- & Hv). auto.
    + split; [apply in_map_iff; exists mx; auto|]. intros w Hw. apply in_map_iff in Hw. destruct Hw as (v & <- & Hv). rewrite C2; auto. lra.
  - destruct (rmin_ok (map cutv (concat m))) as [lo E]; [destruct (concat m); [destruct I|discriminate]|]. exists lo. apply rmin_list_spec in E. split; [exact E|]. destruct E as [IL GL].
    destruct RM as [[P ->]|[P ->]].
    + split.
      * intros H. apply in_map_iff in IL. destruct IL as (v & EV & Hv). exists mx, v. rewrite !entry_concat. repeat split; auto. assert (LM : (lo < mx)%R) by (apply Rle_lt_trans with (2 := H), Rmax_l). rewrite <- EV in LM. specialize (G _ Hv). destruct (Req_dec v mx) as [->|]; [rewrite C1 in LM by auto; lra|lra].
      * intros (u & v & Hu & Hv & Pu & Lu). rewrite entry_concat in Hu, Hv. apply Rmax_lub_lt; [|lra]. assert (Q := GL (cutv v) (in_map _ _ _ Hv)). apply Rle_lt_trans with (1 := Q). specialize (G _ Hu). unfold cutv. destruct (Rle_dec v (mx * th)); lra.
    + split.
      * intros H. exfalso. apply in_map_iff in IL. destruct IL as (v & EV & Hv). rewrite C2 in EV by auto. subst lo. assert (Q := Rmax_l 0 (0 * (5 / 100))). lra.
      * intros (u & v & Hu & _ & Pu & _). exfalso. rewrite entry_concat in Hu. specialize (G _ Hu). lra.
Qed.

(** matplotlib's verdict on an affine picture; [flat]: the matrix has no contrast. *)
Definition aff_refusal (k : pkind) (tf : bool) (rows cols N : Z) (flat : bool) : option exn :=
  if tf then
    if match k with Kcontour => (rows <? 2) || (cols <? 2) | _ => false end then Some TypeError
    else if match k with Kcontour => flat | _ => false end then Some ValueError
    else if N / 2 <=? rows then None else Some ValueError
  else refusal k false rows cols N.
Lemma aff_side k tf fmin fmax nv v : v_affine v = Some (fmin, fmax, nv) -> 2 <= zlen (v_sig v) ->
  plot_spectrum (affine_opts k tf fmin fmax (zlen (v_sig v))) v =
  if zlen (v_sig v) / 2 <=? zlen (v_tfr v) then Ok (Line (prefix (rev (spectrum_of v)) (zlen (v_sig v) / 2)) (axis fmin fmax (zlen (v_sig v) / 2))) else Raise ValueError.
Proof.
  intros A HN. unfold plot_spectrum, line. cbn [affine_opts o_freq_x o_freq_y]. rewrite A. set (N := zlen (v_sig v)) in *. assert (H1 : 1 <= N / 2) by (Z.to_euclidean_division_equations; lia). rewrite axis_len by lia.
  assert (LS : zlen (spectrum_of v) = zlen (v_tfr v)). { unfold spectrum_of. rewrite A. cbv zeta. set (a := pyslice _ _ _). unfold prefix, zlen at 1. rewrite firstn_length, map_length. assert (Q : zlen (fft_n a (2 * zlen (v_tfr v))) = 2 * zlen (v_tfr v)) by (unfold fft_n; rewrite fft_zlen, zlen_map_arange; unfold zlen; lia). unfold zlen in *. lia. }
  assert (LP : zlen (prefix (rev (spectrum_of v)) (N / 2)) = Z.min (N / 2) (zlen (v_tfr v))) by (rewrite <- LS; unfold prefix, zlen; rewrite firstn_length, rev_length; lia). rewrite LP.
  destruct (Z.leb_spec (N / 2) (zlen (v_tfr v))).
  - rewrite Z.min_l by lia. rewrite Z.eqb_refl. cbn [bind]. destruct (axis fmin fmax (N / 2)) eqn:E; [|reflexivity]. assert (Q := axis_len fmin fmax (N / 2) ltac:(lia)). rewrite E in Q. unfold zlen in Q at 1. cbn in Q. lia.
  - rewrite Z.min_r by lia. destruct (Z.eqb_spec (zlen (v_tfr v)) (N / 2)); [lia|]. reflexivity.
Qed.
Lemma c95_outcome : forall k tf th o freqs m rows cols flat, matrix_of m rows cols -> a_nv o = rows -> zlen (a_ts o) = cols -> 1 <= rows -> 1 <= cols -> 2 <= zlen (a_sig o) -> freqs <> [] -> (0 <= th < 1)%R ->
  (flat = false <-> contrast m) ->
  match aff_refusal k tf rows cols (zlen (a_sig o)) flat with
  | Some e => affine_picture k tf th o freqs m = Raise e
  | None => exists m' p, affine_picture k tf th o freqs m = Ok (m', p)
  end.
Proof.
  intros k tf th o freqs m rows cols flat M EN LT HR HC HN HF Ht FL. unfold affine_picture, affine_cut. destruct (rmax_ok _ (matrix_ne _ _ _ M HR HC)) as [mx EM]. rewrite EM. cbn [bind]. apply rmax_list_spec' in EM.
  destruct (cut_max th m rows cols mx M Ht EM) as (MX & lo & ML & CT). assert (M' := cut_matrix (mx * th) _ _ _ M). set (m' := cut_rows (mx * th) m) in *. set (v := mkview _ _ _ _ _ _).
  set (N := zlen (a_sig o)) in *. set (op := affine_opts k tf (a_fmin o) (a_fmax o) N).
  assert (LM : zlen m' = rows) by (destruct M'; auto). assert (LC : mat_cols m' = cols) by (apply (matrix_cols _ rows); auto).
  assert (LTS : zlen (map IZR (a_ts o)) = cols) by now rewrite zlen_map.
  unfold base_plot. change (o_extent op) with (@None (R * R * R * R)). cbv iota. change (v_ts v) with (map IZR (a_ts o)). change (v_freqs v) with freqs.
  assert (TN : map IZR (a_ts o) <> []) by (apply ne_zlen; lia).
  destruct (rmin_ok _ TN) as [t0 ->]. destruct (rmax_ok _ TN) as [t1 ->]. destruct (rmin_ok _ HF) as [f0 ->]. destruct (rmax_ok _ HF) as [f1 ->]. cbn [bind]. cbv zeta.
  change (o_tf op) with tf. change (o_kind op) with k. change (v_tfr v) with m'. change (v_sig v) with (a_sig o). fold N. destruct tf.
  - assert (SD := aff_side k true (a_fmin o) (a_fmax o) (a_nv o) v eq_refl HN). change (zlen (v_sig v)) with N in SD. change (v_tfr v) with m' in SD. fold op in SD. rewrite SD, LM.
    assert (NK : k <> Kcontour -> forall q, plot_tfr op (t0, t1, f0, f1) v = Ok q ->
       match (if N / 2 <=? rows then None else Some ValueError) with
       | Some e => (p <- (main <- Ok q ;; spec <- (if N / 2 <=? rows then Ok (Line (prefix (rev (spectrum_of v)) (N / 2)) (axis (a_fmin o) (a_fmax o) (N / 2))) else Raise ValueError) ;; Ok (main ++ [Line (map IZR (arange 0 N)) (map Re (a_sig o)); spec])) ;; Ok (m', p)) = Raise e
       | None => exists m'' p, (p <- (main <- Ok q ;; spec <- (if N / 2 <=? rows then Ok (Line (prefix (rev (spectrum_of v)) (N / 2)) (axis (a_fmin o) (a_fmax o) (N / 2))) else Raise ValueError) ;; Ok (main ++ [Line (map IZR (arange 0 N)) (map Re (a_sig o)); spec])) ;; Ok (m', p)) = Ok (m'', p)
       end). { intros _ q _. destruct (N / 2 <=? rows); cbn [bind]; eauto. }
    destruct k; cbn [aff_refusal].
    + apply NK; [discriminate|reflexivity].
    + unfold plot_tfr. cbn [op affine_opts o_kind o_contour_x o_contour_y o_levels o_threshold]. change (o_kind op) with Kcontour. cbv iota. change (o_contour_x op) with (@None (list R)). change (o_contour_y op) with (@None (list R)). change (o_levels op) with (@None (list R)). change (v_affine v) with (Some (a_fmin o, a_fmax o, a_nv o)). cbv iota. change (v_tfr v) with m'. change (v_ts v) with (map IZR (a_ts o)). change (o_threshold op) with (5 / 100)%R.
      rewrite (rmax_is _ _ MX), (rmin_is _ _ ML). cbn [bind]. rewrite EN. unfold contour. rewrite axis_len, LM, LC, LTS, !Z.eqb_refl by lia. cbn [negb orb].
      destruct ((rows <? 2) || (cols <? 2)); [reflexivity|]. rewrite axis_increasing. destruct (Rlt_dec _ _) as [L|L].
      * apply CT, FL in L. rewrite L. cbn [bind]. destruct (N / 2 <=? rows); cbn [bind]; eauto.
      * destruct flat; [reflexivity|]. exfalso. apply L, CT, FL. reflexivity.
    + apply NK; [discriminate|reflexivity].
    + apply NK; [discriminate|reflexivity].
    + apply NK; [discriminate|reflexivity].
  - assert (CTC : match (if (2 <=? rows) && (2 <=? cols) then None else Some TypeError) with
      | Some e => (p <- (a <- contour (map IZR (a_ts o)) (axis 0 (1 / 2) (zlen m')) m' None ;; Ok [a]) ;; Ok (m', p)) = Raise e
      | None => exists m'' p, (p <- (a <- contour (map IZR (a_ts o)) (axis 0 (1 / 2) (zlen m')) m' None ;; Ok [a]) ;; Ok (m', p)) = Ok (m'', p) end).
    { rewrite contour_none, axis_len, LM, LC, LTS, !Z.eqb_refl by lia. cbn [andb]. destruct ((2 <=? rows) && (2 <=? cols)); cbn [bind]; eauto. }
    assert (MT : match (if ((rows =? N) || (rows =? 1) || (N =? 1)) && ((cols =? N) || (cols =? 1) || (N =? 1)) then None else Some ValueError) with
      | Some e => (p <- (a <- mesh (map IZR (arange 0 N)) (axis 0 (1 / 2) N) (map (map Rabs) m') ;; Ok [a]) ;; Ok (m', p)) = Raise e
      | None => exists m'' p, (p <- (a <- mesh (map IZR (arange 0 N)) (axis 0 (1 / 2) N) (map (map Rabs) m') ;; Ok [a]) ;; Ok (m', p)) = Ok (m'', p) end).
    { unfold mesh, fits. rewrite axis_len, zlen_map, zlen_map_arange, LM, Z.sub_0_r by lia. replace (mat_cols (map (map Rabs) m')) with cols by (rewrite <- LC; destruct m'; cbn; [reflexivity|now rewrite zlen_map]).
      match goal with |- context [if ?b then Ok _ else _] => destruct b end; cbn [bind]; eauto. }
    cbn [aff_refusal]. destruct k; cbn [refusal]; auto. cbn [bind]. eauto.
Qed.
(** The matrix that [run] returned is changed: what is not above the threshold
    is put to zero, the rest kept, and a second plot changes nothing more. *)
Lemma cut_again th m rows cols mx : matrix_of m rows cols -> (0 <= th < 1)%R -> greatest (concat m) mx -> affine_cut th (cut_rows (mx * th) m) = Ok (cut_rows (mx * th) m).
Proof.
  intros M Ht G. destruct (cut_max th m rows cols mx M Ht G) as (MX & _). unfold affine_cut. rewrite (rmax_is _ _ MX). cbn [bind]. f_equal. unfold cut_rows. rewrite map_map. apply map_ext_in. intros r Hr. rewrite map_map. apply map_ext_in. intros v Hv.
  destruct G as [_ G]. assert (LV : (v <= mx)%R) by (apply G, entry_concat; exists r; auto). unfold Rmax. destruct (Rle_dec 0 mx); destruct (Rle_dec v (mx * th)) as [A|A].
  - destruct (Rle_dec 0 (mx * th)); reflexivity.
  - destruct (Rle_dec v (mx * th)); [contradiction|reflexivity].
  - destruct (Rle_dec 0 (0 * th)); reflexivity.
  - exfalso. apply A. nra.
Qed.
Lemma c95_inplace : forall k tf th o freqs m m' p rows cols, matrix_of m rows cols -> affine_picture k tf th o freqs m = Ok (m', p) ->
  matrix_of m' rows cols /\
  (exists mx, entry m mx /\ (forall v, entry m v -> (v <= mx)%R) /\
     forall i j, 0 <= i < rows -> 0 <= j < cols -> ent m' i j = if Rle_dec (ent m i j) (th * mx) then 0%R else ent m i j) /\
  ((0 <= th < 1)%R -> affine_picture k tf th o freqs m' = Ok (m', p)).
Proof.
  intros k tf th o freqs m m' p rows cols M H. unfold affine_picture in H. destruct (affine_cut th m) as [m1|] eqn:E; [|discriminate]. cbn [bind] in H. destruct (base_plot _ _) as [q|] eqn:B; [|discriminate]. cbn [bind] in H. assert (m1 = m' /\ q = p) as [-> ->] by (split; congruence). clear H.
  pose proof E as E'. unfold affine_cut in E. destruct (rmax_list (concat m)) as [mx|] eqn:EM; [|discriminate]. cbn [bind] in E. okeq E. apply rmax_list_spec' in EM. split; [now apply cut_matrix|]. split.
  - exists mx. destruct EM as [I G]. split; [now apply entry_concat|]. split; [intros v Hv; now apply G, entry_concat|]. intros i j Hi Hj. destruct M as [L S]. unfold ent, cut_rows. rewrite (Rmult_comm th).
    assert (LI : zlen (nth (Z.to_nat i) m []) = cols) by (apply S, nth_In; unfold zlen in L; lia). rewrite (nth_indep _ [] (map (fun v => if Rle_dec v (mx * th) then 0%R else v) [])) by (rewrite map_length; unfold zlen in L; lia). rewrite map_nth.
    unfold rnth. rewrite (nth_indep _ 0%R ((fun v => if Rle_dec v (mx * th) then 0%R else v) 0%R)) by (rewrite map_length; unfold zlen in LI; lia). exact (map_nth (fun v => if Rle_dec v (mx * th) then 0%R else v) _ 0%R _).
  - intros Ht. unfold affine_picture. rewrite (cut_again _ _ _ _ _ M Ht EM). cbn [bind]. rewrite B. reflexivity.
Qed.

(** Where the rows are drawn.  Row k holds frequency fmin (fmax/fmin)^(k/(nv-1)). *)
Lemma geo_below fmin fmax s : (0 < fmin < fmax)%R -> (0 < s < 1)%R -> (fmin * Rpower (fmax / fmin) s < fmin + s * (fmax - fmin))%R.
Proof.
  intros Hf Hs. set (r := (fmax / fmin)%R). assert (Hr : (1 < r)%R) by (apply ratio_gt1; exact Hf). assert (E : fmax = (fmin * r)%R) by (unfold r; field; lra). rewrite E.
  enough (Q : (Rpower r s < 1 + s * (r - 1))%R) by nra. unfold Rpower. assert (L0 : (0 < ln r)%R) by (rewrite <- ln_1; apply ln_increasing; lra). set (l := ln r) in *. assert (R1 : r = exp l) by (unfold l; rewrite exp_ln; lra). rewrite R1.
  (* e^{sl} = 1 + sl e^{c1} and e^l = e^{sl} + (1 - s) l e^{c2}, c1 < sl < c2 *)
  destruct (MVT_cor2 exp exp 0 (s * l)) as (c1 & D1 & C1); [nra|intros; apply derivable_pt_lim_exp|]. destruct (MVT_cor2 exp exp (s * l) l) as (c2 & D2 & C2); [nra|intros; apply derivable_pt_lim_exp|]. rewrite exp_0 in D1.
  assert (CC : (exp c1 < exp c2)%R) by (apply exp_increasing; lra). assert (P1 := exp_pos c1). assert (0 < (1 - s) * s * l)%R by (apply Rmult_lt_0_compat; nra). nra.
Qed.
Lemma c95_labels_refuted : forall th o m m' p rows cols, matrix_of m rows cols -> a_nv o = rows -> (0 < a_fmin o < a_fmax o)%R ->
  let freqs := geo_grid (a_fmin o) (a_fmax o) rows in
  affine_picture Kcontour true th o freqs m = Ok (m', p) ->
  exists a rest, p = a :: rest /\
    (forall k y, placed a k y <-> 0 <= k < rows /\ y = (a_fmin o + IZR k / IZR (rows - 1) * (a_fmax o - a_fmin o))%R) /\
    (forall k y, placed a k y -> 0 < k < rows - 1 -> (rnth freqs k < y)%R) /\
    placed a 0 (rnth freqs 0) /\ placed a (rows - 1) (rnth freqs (rows - 1)).
Proof.
  intros th o m m' p rows cols M EN Hf freqs H. unfold affine_picture in H. destruct (affine_cut th m) as [m1|] eqn:E; [|discriminate]. cbn [bind] in H. destruct (base_plot _ _) as [q|] eqn:B; [|discriminate]. cbn [bind] in H. assert (m1 = m' /\ q = p) as [-> ->] by (split; congruence). clear H.
  assert (M' : matrix_of m' rows cols) by (unfold affine_cut in E; destruct (rmax_list _); [|discriminate]; cbn [bind] in E; okeq E; now apply cut_matrix).
  unfold base_plot in B. destruct (match o_extent _ with Some _ => _ | None => _ end) as [e|]; [|discriminate]. cbn [bind] in B. cbv zeta in B. cbn [affine_opts o_tf] in B. cbv iota in B.
  destruct (plot_tfr _ _ _) as [main|] eqn:PT; [|discriminate]. cbn [bind] in B. destruct (plot_spectrum _ _) as [sp|]; [|discriminate]. cbn [bind] in B. okeq B.
  unfold plot_tfr in PT. cbn [affine_opts o_kind o_contour_x o_contour_y o_levels v_affine v_tfr v_ts] in PT. destruct (rmax_list _); [|discriminate]. cbn [bind] in PT. destruct (rmin_list _); [|discriminate]. cbn [bind] in PT.
  destruct (contour _ _ _ _) as [ar|] eqn:C; [|discriminate]. cbn [bind] in PT. okeq PT. exists ar. cbn [app]. eexists. split; [reflexivity|].
  unfold contour in C. destruct (negb _ || negb _); [discriminate|]. destruct ((zlen (axis _ _ _) <? 2) || _) eqn:C2; [discriminate|]. destruct (increasing _); [|discriminate]. okeq C.
  apply orb_false_elim in C2. destruct C2 as [C2 _]. apply Z.ltb_ge in C2. assert (R0 : 0 <= a_nv o) by (destruct M as [L _]; rewrite EN, <- L; unfold zlen; lia). rewrite axis_len in C2 by exact R0. rewrite EN in *.
  assert (NZ : IZR (rows - 1) <> 0%R) by (apply not_0_IZR; lia). cbn [placed].
  assert (W : forall k, 0 <= k < rows -> rnth (axis (a_fmin o) (a_fmax o) rows) k = (a_fmin o + IZR k / IZR (rows - 1) * (a_fmax o - a_fmin o))%R) by (intros k Hk; rewrite axis_nth by lia; field; auto).
  rewrite axis_len by lia. split; [|split; [|split]].
  - intros k y. split; intros [Hk ->]; (split; [exact Hk|]); rewrite W by lia; reflexivity.
  - intros k y [Hk ->] Hi. rewrite W by lia. unfold freqs. rewrite geo_at by (auto; lia). apply geo_below; [exact Hf|]. assert (0 < IZR (rows - 1))%R by (apply IZR_lt; lia). split; [apply Rdiv_lt_0_compat; [apply IZR_lt; lia|auto]|]. apply (Rmult_lt_reg_r (IZR (rows - 1))); [auto|]. unfold Rdiv. rewrite Rmult_assoc, Rinv_l, Rmult_1_r, Rmult_1_l by auto. apply IZR_lt. lia.
  - split; [lia|]. rewrite W by lia. unfold freqs. destruct (c69_grid _ _ rows Hf ltac:(lia)) as (_ & -> & _). unfold Rdiv. ring.
  - split; [lia|]. rewrite W by lia. unfold freqs. destruct (c69_grid _ _ rows Hf ltac:(lia)) as (_ & _ & -> & _). field. auto.
Qed.
(** The part of the signal whose spectrum is drawn: from the first to the last
    timestamp. *)
Lemma c97_span : forall ts a b, In a ts -> In b ts -> (forall t, In t ts -> a <= t <= b) -> span ts = (a, b).
Proof.
  intros ts a b Ha Hb H. unfold span.
  assert (MN : zmin_list ts = Ok a).
  { destruct ts as [|c l]; [destruct Ha|]. cbn [zmin_list]. f_equal. assert (G : forall l c, (In (fold_left Z.min l c) (c :: l)) /\ forall t, In t (c :: l) -> fold_left Z.min l c <= t).
    { clear. induction l as [|d l IH]; intros c; cbn [fold_left]; [split; [left; auto|intros t [<-|[]]; lia]|]. destruct (IH (Z.min c d)) as [A B]. split.
      - destruct A as [A|A]; [rewrite <- A; destruct (Z.min_spec c d) as [[_ ->]|[_ ->]]; cbn; auto|cbn; auto].
      - intros t Ht. assert (M := B _ (or_introl eq_refl)). destruct Ht as [<-|[<-|Ht]]; [lia|lia|]. apply B. now right. }
    destruct (G l c) as [A B]. specialize (B a Ha). specialize (H _ A). lia. }
  assert (MX : zmax_list ts = Ok b).
  { destruct ts as [|c l]; [destruct Ha|]. cbn [zmax_list]. f_equal. assert (G : forall l c, (In (fold_left Z.max l c) (c :: l)) /\ forall t, In t (c :: l) -> t <= fold_left Z.max l c).
    { clear. induction l as [|d l IH]; intros c; cbn [fold_left]; [split; [left; auto|intros t [<-|[]]; lia]|]. destruct (IH (Z.max c d)) as [A B]. split.
      - destruct A as [A|A]; [rewrite <- A; destruct (Z.max_spec c d) as [[_ ->]|[_ ->]]; cbn; auto|cbn; auto].
      - intros t Ht. assert (M := B _ (or_introl eq_refl)). destruct Ht as [<-|[<-|Ht]]; [lia|lia|]. apply B. now right. }
    destruct (G l c) as [A B]. specialize (B b Hb). specialize (H _ A). lia. }
  now rewrite MN, MX.
Qed.
(** C97, affine: the line beside an affine picture is upside down.  Sample i is
    the power at bin nv - 1 - i of 2 nv (the highest first) and its height grows
    with i. *)
Lemma c97_affine_refuted : forall k th o freqs m m' p rows cols, matrix_of m rows cols -> 4 <= zlen (a_sig o) -> (a_fmin o < a_fmax o)%R ->
  affine_picture k true th o freqs m = Ok (m', p) -> let N := zlen (a_sig o) in
  exists main xs ys, p = main ++ [Line (map IZR (arange 0 N)) (map Re (a_sig o)); Line xs ys] /\ zlen xs = N / 2 /\ zlen ys = N / 2 /\
    forall i, 0 <= i < N / 2 -> rnth xs i = power (pyslice (a_sig o) (fst (span (a_ts o))) (snd (span (a_ts o)) + 1)) (2 * rows) (rows - 1 - i) /\
      side_height true ys (rnth ys i) = (IZR i / IZR (N / 2 - 1))%R.
Proof.
  intros k th o freqs m m' p rows cols M HN Hf H N. unfold affine_picture in H. destruct (affine_cut th m) as [m1|] eqn:E; [|discriminate]. cbn [bind] in H. set (v := mkview _ _ _ _ _ _) in H. destruct (base_plot _ _) as [q|] eqn:B; [|discriminate]. cbn [bind] in H. assert (m1 = m' /\ q = p) as [-> ->] by (split; congruence). clear H.
  assert (M' : matrix_of m' rows cols) by (unfold affine_cut in E; destruct (rmax_list _); [|discriminate]; cbn [bind] in E; okeq E; now apply cut_matrix). destruct M' as [L' _].
  unfold base_plot in B. destruct (match o_extent _ with Some _ => _ | None => _ end) as [e|]; [|discriminate]. cbn [bind] in B. cbv zeta in B. change (o_tf (affine_opts k true (a_fmin o) (a_fmax o) (zlen (a_sig o)))) with true in B. cbv iota in B.
  destruct (plot_tfr _ _ _) as [main|]; [|discriminate]. cbn [bind] in B. assert (SD := aff_side k true (a_fmin o) (a_fmax o) (a_nv o) v eq_refl ltac:(change (v_sig v) with (a_sig o); lia)). change (v_sig v) with (a_sig o) in SD. rewrite SD in B. change (v_tfr v) with m' in B. rewrite L' in B. fold N in B, HN.
  destruct (Z.leb_spec (N / 2) rows) as [LE|]; [|discriminate]. cbn [bind] in B. change (v_sig v) with (a_sig o) in B. fold N in B. okeq B. assert (N2 : 2 <= N / 2) by (Z.to_euclidean_division_equations; lia).
  exists main. eexists _, _. split; [reflexivity|].
  set (a := pyslice _ _ _). assert (SP : spectrum_of v = prefix (map (fun z => (Cmod z ^ 2)%R) (fft_n a (2 * rows))) rows) by (unfold spectrum_of; change (v_affine v) with (Some (a_fmin o, a_fmax o, a_nv o)); cbv iota zeta; change (v_tfr v) with m'; rewrite L'; reflexivity).
  set (pad := map (fun i => cnth a i) (arange 0 (2 * rows))). assert (LP : zlen pad = 2 * rows) by (unfold pad; rewrite zlen_map_arange; lia). assert (LS : zlen (spectrum_of v) = rows) by (rewrite SP; unfold fft_n; fold pad; unfold prefix, zlen; rewrite firstn_length, map_length; assert (Q := fft_zlen pad); unfold zlen in *; lia).
  split; [unfold prefix, zlen in *; rewrite firstn_length, rev_length; lia|]. split; [apply axis_len; lia|]. intros i Hi. split.
  - rewrite rnth_prefix by lia. rewrite rnth_rev, LS by lia. rewrite SP. rewrite rnth_prefix by lia. unfold fft_n. fold pad. rewrite power_fft by lia. rewrite LP. unfold power. do 2 f_equal. apply csum_ext. intros j Hj. apply in_arange in Hj. unfold pad. rewrite cnth_map_arange by lia. now rewrite Z.add_0_l.
  - unfold side_height. rewrite axis_len by lia. rewrite !axis_nth by lia. assert (NZ : IZR (N / 2 - 1) <> 0%R) by (apply not_0_IZR; lia). field. split; [exact NZ|]. replace ((a_fmin o + (a_fmax o - a_fmin o)) * IZR (N / 2 - 1) - a_fmin o * IZR (N / 2 - 1))%R with ((a_fmax o - a_fmin o) * IZR (N / 2 - 1))%R by ring. apply Rmult_integral_contrapositive. split; [lra|exact NZ].
Qed.

Lemma rlist_map (l : list R) : l = map (rnth l) (arange 0 (zlen l)).
Proof.
  apply (nth_ext _ _ 0%R 0%R); [assert (Q := arange_zlen 0 (zlen l)); rewrite map_length; unfold zlen in *; lia|]. intros n Hn. replace n with (Z.to_nat (Z.of_nat n)) by lia. fold (rnth l (Z.of_nat n)). rewrite nth_map_arange by (unfold zlen; lia). now rewrite Z.add_0_l.
Qed.
(** ** C96: Scalogram.plot; [run] leaves N rows and N columns *)
Lemma scal_view k tf th x fmin fmax m mx : let N := zlen x in 2 <= N -> matrix_of m N N -> greatest (concat m) mx ->
  scal_picture k tf th x fmin fmax m =
  (p <- base_plot (affine_opts k tf fmin fmax N) (mkview None x (map IZR (arange 0 N)) (0, N - 1) (base_freqs N) (cut_rows (mx * th) m)) ;; Ok (cut_rows (mx * th) m, p)).
Proof. intros N HN M G. unfold scal_picture, affine_cut. rewrite (rmax_is _ _ G). reflexivity. Qed.
Definition scal_image (x : list C) (m : list (list R)) : artist :=
  let N := zlen x in Image 0 (IZR (N - 1)) (- IZR (N / 2) / IZR N) (IZR (N / 2 - 1) / IZR N) m.
Definition scal_main (k : pkind) (tf : bool) (x : list C) (m : list (list R)) : list artist :=
  let N := zlen x in
  match k, tf with
  | Kcmap, _ => [scal_image x m]
  | Kcontour, _ | Kother, false => [Contour (map IZR (arange 0 N)) (axis 0 (1 / 2) N) m None]
  | (Ksurf | Kwire), false => [Mesh (map IZR (arange 0 N)) (axis 0 (1 / 2) N) (map (map Rabs) m)]
  | _, true => []
  end.
Lemma c96_draws : forall k tf th x fmin fmax m, 2 <= zlen x -> matrix_of m (zlen x) (zlen x) -> let N := zlen x in
  exists mx m', greatest (concat m) mx /\ m' = cut_rows (mx * th) m /\
  scal_picture k tf th x fmin fmax m = Ok (m', scal_main k tf x m' ++ (if tf then
      [Line (map IZR (arange 0 N)) (map Re x); Line (map (fun i => power x N ((N - 1) / 2 - i)) (arange 0 (N / 2))) (axis fmin fmax (N / 2))] else [])).
Proof.
  intros k tf th x fmin fmax m HN M N. fold N in HN, M. destruct (rmax_ok _ (matrix_ne _ _ _ M ltac:(lia) ltac:(lia))) as [mx EM]. apply rmax_list_spec' in EM. exists mx, (cut_rows (mx * th) m). split; [exact EM|]. split; [reflexivity|].
  rewrite (scal_view k tf th x fmin fmax m mx HN M EM). fold N. assert (M' := cut_matrix (mx * th) _ _ _ M). set (m' := cut_rows (mx * th) m) in *. set (v := mkview _ _ _ _ _ _).
  assert (LM : zlen m' = N) by (destruct M'; auto). assert (LC : mat_cols m' = N) by (apply (matrix_cols _ N); auto; lia). assert (LT : zlen (map IZR (arange 0 N)) = N) by (rewrite zlen_map_arange; lia).
  destruct (base_freqs_ends N HN) as [F0 F1].
  assert (T0 : least (map IZR (arange 0 N)) 0). { replace 0%R with (rnth (map IZR (arange 0 N)) 0) by (rewrite rnth_map_arange by lia; reflexivity). apply least_nth; rewrite LT; [lia|]. intros j Hj. rewrite !rnth_map_arange by lia. apply IZR_le. lia. }
  assert (T1 : greatest (map IZR (arange 0 N)) (IZR (N - 1))). { replace (IZR (N - 1)) with (rnth (map IZR (arange 0 N)) (N - 1)) by (rewrite rnth_map_arange by lia; f_equal; lia). apply greatest_nth; rewrite LT; [lia|]. intros j Hj. rewrite !rnth_map_arange by lia. apply IZR_le. lia. }
  assert (N2 : 1 <= N / 2) by (Z.to_euclidean_division_equations; lia).
  assert (SP : plot_spectrum (affine_opts k tf fmin fmax N) v = Ok (Line (map (fun i => power x N ((N - 1) / 2 - i)) (arange 0 (N / 2))) (axis fmin fmax (N / 2)))).
  { unfold plot_spectrum, line. cbn [affine_opts o_freq_x o_freq_y]. change (v_affine v) with (@None (R * R * Z)). change (v_sig v) with x. fold N. destruct (side_ok v eq_refl ltac:(change (v_sig v) with x; fold N; lia)) as (L1 & _ & V). change (v_sig v) with x in L1, V. fold N in L1, V. rewrite L1, axis_len, Z.eqb_refl by lia. cbn [bind].
    f_equal. f_equal. rewrite (rlist_map (prefix (rev (spectrum_of v)) (N / 2))), L1. apply map_ext_in. intros i Hi. apply in_arange in Hi. apply V. exact Hi. }
  unfold base_plot. change (o_extent (affine_opts k tf fmin fmax N)) with (@None (R * R * R * R)). cbv iota. change (v_ts v) with (map IZR (arange 0 N)). change (v_freqs v) with (base_freqs N). rewrite (rmin_is _ _ T0), (rmax_is _ _ T1), (rmin_is _ _ F0), (rmax_is _ _ F1). cbn [bind]. cbv zeta.
  change (o_tf (affine_opts k tf fmin fmax N)) with tf. change (o_kind (affine_opts k tf fmin fmax N)) with k. change (v_sig v) with x. change (v_tfr v) with m'. fold N.
  assert (CT : contour (map IZR (arange 0 N)) (axis 0 (1 / 2) N) m' None = Ok (Contour (map IZR (arange 0 N)) (axis 0 (1 / 2) N) m' None)).
  { rewrite contour_none, axis_len, LM, LC, LT, !Z.eqb_refl by lia. assert (2 <=? N = true) as -> by (apply Z.leb_le; lia). reflexivity. }
  assert (MT : mesh (map IZR (arange 0 N)) (axis 0 (1 / 2) N) (map (map Rabs) m') = Ok (Mesh (map IZR (arange 0 N)) (axis 0 (1 / 2) N) (map (map Rabs) m'))).
  { unfold mesh, fits. rewrite axis_len, zlen_map, LT, LM by lia. replace (mat_cols (map (map Rabs) m')) with N by (rewrite <- LC; destruct m'; cbn; [reflexivity|now rewrite zlen_map]). rewrite Z.eqb_refl. reflexivity. }
  destruct tf.
  - rewrite SP. unfold plot_tfr. destruct k; cbn [affine_opts o_kind o_contour_x o_contour_y o_levels]; change (v_affine v) with (@None (R * R * Z)); cbv iota; change (v_ts v) with (map IZR (arange 0 N)); change (v_sig v) with x; change (v_tfr v) with m'; fold N; rewrite ?CT; cbn [bind scal_main app]; reflexivity.
  - rewrite LM, CT, MT. destruct k; cbn [bind scal_main app]; reflexivity.
Qed.
(** Row k holds fmin (fmax/fmin)^(k/(N-1)); the contours put it at k/(2(N-1)), the
    image lower than k/(2N). *)
Lemma c96_labels_refuted : forall tf th x fmin fmax m, 2 <= zlen x -> matrix_of m (zlen x) (zlen x) -> (0 < fmin < fmax)%R -> let N := zlen x in
  (exists m' a rest, scal_picture Kcontour tf th x fmin fmax m = Ok (m', a :: rest) /\
     (forall k y, placed a k y <-> 0 <= k < N /\ y = (IZR k / (2 * IZR (N - 1)))%R) /\ placed a 0 0 /\ (0 < rnth (geo_grid fmin fmax N) 0)%R /\
     (fmax <> 1 / 2 -> placed a (N - 1) (1 / 2) /\ rnth (geo_grid fmin fmax N) (N - 1) <> (1 / 2))%R) /\
  (exists m' a rest, scal_picture Kcmap tf th x fmin fmax m = Ok (m', a :: rest) /\
     (forall k y, placed a k y <-> 0 <= k < N /\ y = (- IZR (N / 2) / IZR N + (IZR k + 1 / 2) * IZR (2 * (N / 2) - 1) / (IZR N * IZR N))%R) /\
     exists y, placed a 0 y /\ (y < 0 < rnth (geo_grid fmin fmax N) 0)%R).
Proof.
  intros tf th x fmin fmax m HN M Hf N. fold N in HN, M. destruct (c69_grid fmin fmax N Hf HN) as (_ & G0 & G1 & _). split.
  - destruct (c96_draws Kcontour tf th x fmin fmax m HN M) as (mx & m' & _ & EM & P). fold N in P. exists m'. cbn [scal_main app] in P. eexists _, _. split; [exact P|]. fold N. assert (NZ : IZR (N - 1) <> 0%R) by (apply not_0_IZR; lia).
    assert (W : forall k y, placed (Contour (map IZR (arange 0 N)) (axis 0 (1 / 2) N) m' None) k y <-> 0 <= k < N /\ y = (IZR k / (2 * IZR (N - 1)))%R).
    { intros k y. cbn [placed]. rewrite axis_len by lia. split; intros [Hk ->]; (split; [exact Hk|]); rewrite axis_nth by lia; field; auto. }
    split; [exact W|]. split; [apply W; split; [lia|unfold Rdiv; ring]|]. rewrite G0, G1. split; [lra|]. intros NH. split; [apply W; split; [lia|field; auto]|exact NH].
  - destruct (c96_draws Kcmap tf th x fmin fmax m HN M) as (mx & m' & _ & EM & P). fold N in P. exists m'. cbn [scal_main app] in P. eexists _, _. split; [exact P|]. unfold scal_image. fold N. assert (NZ : IZR N <> 0%R) by (apply not_0_IZR; lia).
    assert (LM : zlen m' = N) by (rewrite EM; destruct (cut_matrix (mx * th) _ _ _ M); auto).
    assert (W : forall k y, placed (Image 0 (IZR (N - 1)) (- IZR (N / 2) / IZR N) (IZR (N / 2 - 1) / IZR N) m') k y <-> 0 <= k < N /\ y = (- IZR (N / 2) / IZR N + (IZR k + 1 / 2) * IZR (2 * (N / 2) - 1) / (IZR N * IZR N))%R).
    { intros k y. cbn [placed]. rewrite LM. assert (Q : (- IZR (N / 2) / IZR N + (IZR k + 1 / 2) * ((IZR (N / 2 - 1) / IZR N - - IZR (N / 2) / IZR N) / IZR N) = - IZR (N / 2) / IZR N + (IZR k + 1 / 2) * IZR (2 * (N / 2) - 1) / (IZR N * IZR N))%R) by (rewrite !minus_IZR, mult_IZR; field; auto). rewrite Q. reflexivity. }
    split; [exact W|]. eexists. split; [apply W; split; [lia|reflexivity]|]. rewrite G0. split; [|lra].
    assert (Hp : 2 * (N / 2) <= N <= 2 * (N / 2) + 1) by (Z.to_euclidean_division_equations; lia). set (q := N / 2) in *. clearbody q. assert (PN : (0 < IZR N)%R) by (apply IZR_lt; lia). assert (Pi : (0 < / (IZR N * IZR N))%R) by (apply Rinv_0_lt_compat, Rmult_lt_0_compat; lra).
    apply Rminus_gt_0_lt. replace (0 - (- IZR q / IZR N + (0 + 1 / 2) * IZR (2 * q - 1) / (IZR N * IZR N)))%R with ((IZR (2 * q * N - (2 * q - 1)) / 2) * / (IZR N * IZR N))%R by (rewrite !minus_IZR, !mult_IZR; field; auto).
    apply Rmult_lt_0_compat; [|exact Pi]. assert (Z1 : 0 < 2 * q * N - (2 * q - 1)) by nia. apply IZR_lt in Z1. lra.
Qed.
(** C97, scalogram: the ordinates lie in [fmin, fmax] but the axis runs from 0 to
    N//2 - 1: the line is squeezed into the top of the drawing. *)
Lemma c97_scalogram_refuted : forall (x : list C) fmin fmax i, 4 <= zlen x -> (0 < fmin < fmax)%R -> let N := zlen x in let ys := axis fmin fmax (N / 2) in
  0 <= i < N / 2 -> (1 - fmax / IZR (N / 2 - 1) <= side_height false ys (rnth ys i) <= 1)%R.
Proof.
  intros x fmin fmax i HN Hf N ys Hi. fold N in HN. assert (N2 : 2 <= N / 2) by (Z.to_euclidean_division_equations; lia). unfold side_height, ys. rewrite axis_len, axis_nth by lia. assert (P : (0 < IZR (N / 2 - 1))%R) by (apply IZR_lt; lia). set (d := IZR (N / 2 - 1)) in *.
  assert (S : (0 <= IZR i / d <= 1)%R). { split; [apply Rmult_le_pos; [apply IZR_le; lia|apply Rlt_le, Rinv_0_lt_compat; exact P]|]. apply (Rmult_le_reg_r d); [exact P|]. unfold Rdiv. rewrite Rmult_assoc, Rinv_l, Rmult_1_r, Rmult_1_l by lra. unfold d. apply IZR_le. lia. }
  assert (I : (0 < / d)%R) by (apply Rinv_0_lt_compat; exact P). replace ((d - (fmin + IZR i * ((fmax - fmin) / d))) / d)%R with (1 - (fmin + (IZR i / d) * (fmax - fmin)) * / d)%R by (field; lra). unfold Rdiv at 1. set (s := (IZR i / d)%R) in *. assert (0 <= s * (fmax - fmin) <= fmax - fmin)%R by nra. nra.
Qed.

(** ** C98: plotifl *)
Lemma c98_outcome : forall (t : list R) (law : list (option R)) (sig : option (list C)),
  let ok := known law <> [] /\ zlen t = zlen law /\ (forall s, sig = Some s -> zlen s = zlen t) in
  (ok -> exists lim, plotifl t law sig = Ok lim) /\ (~ ok -> plotifl t law sig = Raise ValueError).
Proof.
  intros t law sig ok. unfold plotifl. assert (D : known law = [] \/ known law <> []) by (destruct (known law); [now left|now right]). destruct D as [K|K].
  - split; [intros [H _]; contradiction|]. intros _. rewrite K. reflexivity.
  - destruct (rmin_ok (known law) K) as [mn E]. rewrite E. cbn [bind]. split.
    + intros (_ & L & S). destruct sig as [s|].
      * rewrite (S s eq_refl), Z.eqb_refl, L, Z.eqb_refl. cbn [bind negb]. eauto.
      * rewrite L, Z.eqb_refl. cbn [bind negb]. eauto.
    + intros NO. destruct sig as [s|].
      * destruct (Z.eqb_spec (zlen t) (zlen s)) as [E1|E1]; [|reflexivity]. cbn [bind]. destruct (Z.eqb_spec (zlen t) (zlen law)) as [E2|E2]; [|reflexivity]. exfalso. apply NO. split; [exact K|]. split; [exact E2|]. intros s' Q. injection Q as <-. auto.
      * cbn [bind]. destruct (Z.eqb_spec (zlen t) (zlen law)) as [E2|E2]; [|reflexivity]. exfalso. apply NO. split; [exact K|]. split; [exact E2|]. discriminate.
Qed.
Lemma c98_limits : forall t law sig lo hi, plotifl t law sig = Ok (lo, hi) ->
  hi = (1 / 2)%R /\ (lo = 0 /\ (forall v, In (Some v) law -> 0 <= v) \/ lo = - (1 / 2) /\ exists v, In (Some v) law /\ v < 0)%R /\
  ((forall v, In (Some v) law -> (lo <= v <= hi)%R) <-> forall v, In (Some v) law -> (Rabs v <= 1 / 2)%R).
Proof.
  intros t law sig lo hi H. assert (KN : forall v, In v (known law) <-> In (Some v) law).
  { intros v. unfold known. rewrite in_flat_map. split; [intros ([r|] & A & B); [destruct B as [->|[]]; exact A|destruct B]|]. intros A. exists (Some v). split; [exact A|now left]. }
  unfold plotifl in H. destruct (rmin_list (known law)) as [mn|] eqn:E; [|discriminate]. cbn [bind] in H. destruct (match sig with Some _ => _ | None => _ end); [|discriminate]. cbn [bind] in H. destruct (negb _); [discriminate|]. apply rmin_list_spec in E. destruct E as [I L].
  destruct (Rle_dec 0 mn) as [P|P].
  - assert (lo = 0%R /\ hi = (1 / 2)%R) as [-> ->] by (split; congruence). split; [reflexivity|]. assert (Q : forall v, In (Some v) law -> (0 <= v)%R) by (intros v Hv; apply KN, L in Hv; lra). split; [left; auto|]. split; intros A v Hv; specialize (A v Hv); specialize (Q v Hv); rewrite ?Rabs_right in * by lra; lra.
  - assert (lo = (- (1 / 2))%R /\ hi = (1 / 2)%R) as [-> ->] by (split; congruence). split; [reflexivity|]. split; [right; split; [reflexivity|]; exists mn; split; [now apply KN|lra]|]. split; intros A v Hv; specialize (A v Hv); [apply Rabs_le_between; lra|apply Rabs_le_between in A; lra].
Qed.
Example c98_example : plotifl [0; 1; 2]%R [Some (1 / 10); None; Some (3 / 10)]%R None = Ok (0, 1 / 2)%R /\ plotifl [0; 1]%R [None; None] None = Raise ValueError /\ plotifl [0]%R [Some (- (1 / 4))]%R None = Ok (- (1 / 2), 1 / 2)%R.
Proof.
  unfold plotifl. cbn [known flat_map app rmin_list fold_left bind]. change (zlen [0%R; 1%R; 2%R] =? zlen [Some (1 / 10)%R; None; Some (3 / 10)%R]) with true. change (zlen [0%R] =? zlen [Some (- (1 / 4))%R]) with true. cbn [negb]. split; [|split; [reflexivity|]].
  - rewrite Rmin_left by lra. destruct (Rle_dec 0 (1 / 10)); [reflexivity|lra].
  - destruct (Rle_dec 0 (- (1 / 4))); [lra|reflexivity].
Qed.
Example c95_example : forall o freqs, a_nv o = 2 -> a_ts o = [0; 1] -> zlen (a_sig o) = 4 -> freqs <> [] ->
  (exists p, affine_picture Kcontour true (1 / 20) o freqs [[10; 1]; [0; 2 / 10]]%R = Ok ([[10; 1]; [0; 0]]%R, p)) /\
  affine_picture Kcontour true (1 / 20) o freqs [[1; 1]; [1; 1]]%R = Raise ValueError.
Proof.
  intros o freqs NV TS HS HF. assert (Ht : (0 <= 1 / 20 < 1)%R) by lra. split.
  - set (m := [[10; 1]; [0; 2 / 10]]%R). assert (M : matrix_of m 2 2) by (split; [reflexivity|]; intros r [<-|[<-|[]]]; reflexivity).
    assert (CT : contrast m) by (exists 10%R, 1%R; repeat split; [exists [10; 1]%R; cbn; auto|exists [10; 1]%R; cbn; auto|lra|lra]).
    assert (W := c95_outcome Kcontour true (1 / 20) o freqs m 2 2 false M NV ltac:(rewrite TS; reflexivity) ltac:(lia) ltac:(lia) ltac:(lia) HF Ht (conj (fun _ => CT) (fun _ => eq_refl))). rewrite HS in W. change (aff_refusal Kcontour true 2 2 4 false) with (@None exn) in W. cbv iota in W. destruct W as (m' & p & W). exists p. rewrite W. f_equal. f_equal.
    unfold affine_picture in W. destruct (affine_cut (1 / 20) m) as [m1|] eqn:E; [|discriminate]. cbn [bind] in W. destruct (base_plot _ _); [|discriminate]. cbn [bind] in W. assert (m1 = m') as -> by congruence. unfold affine_cut in E. rewrite (rmax_is _ 10%R) in E by (split; [cbn; auto|]; intros v Hv; cbn in Hv; intuition; subst; lra). cbn [bind] in E. okeq E.
    unfold cut_rows, m. cbn [map]. repeat (match goal with |- context [Rle_dec ?a ?b] => destruct (Rle_dec a b); try lra end). reflexivity.
  - set (m := [[1; 1]; [1; 1]]%R). assert (M : matrix_of m 2 2) by (split; [reflexivity|]; intros r [<-|[<-|[]]]; reflexivity).
    assert (NC : true = false <-> contrast m). { split; [discriminate|]. intros (u & v & (r & A & B) & (r' & A' & B') & _ & L). exfalso. cbn in A, A'. assert (u = 1%R) by (destruct A as [<-|[<-|[]]]; cbn in B; intuition). assert (v = 1%R) by (destruct A' as [<-|[<-|[]]]; cbn in B'; intuition). lra. }
    assert (W := c95_outcome Kcontour true (1 / 20) o freqs m 2 2 true M NV ltac:(rewrite TS; reflexivity) ltac:(lia) ltac:(lia) ltac:(lia) HF Ht NC). rewrite HS in W. exact W.
Qed.
Example c96_example : forall fmin fmax, exists m', scal_picture Kcontour true (1 / 20) [RtoC 1; RtoC 2] fmin fmax [[10; 1]; [0; 2 / 10]]%R =
  Ok (m', [Contour [0; 1]%R (axis 0 (1 / 2) 2) m' None; Line [0; 1]%R [1; 2]%R; Line [9]%R [fmin]]).
Proof.
  intros fmin fmax. assert (M : matrix_of [[10; 1]; [0; 2 / 10]]%R 2 2) by (split; [reflexivity|]; intros r [<-|[<-|[]]]; reflexivity).
  destruct (c96_draws Kcontour true (1 / 20) [RtoC 1; RtoC 2] fmin fmax _ ltac:(discriminate) M) as (mx & m' & _ & _ & P). exists m'. rewrite P. cbn [scal_main app]. change (zlen [RtoC 1; RtoC 2]) with 2. change (arange 0 2) with [0; 1]. change (2 / 2) with 1. change (arange 0 1) with [0]. cbn [map Re fst RtoC]. change ((2 - 1) / 2 - 0) with 0.
  assert (SL : side_line [RtoC 1; RtoC 2] [power [RtoC 1; RtoC 2] 2 0] [0%R]) by (split; [reflexivity|]; split; [reflexivity|]; intros i Hi; change (zlen [RtoC 1; RtoC 2] / 2) with 1 in Hi; assert (i = 0) by lia; subst i; split; reflexivity).
  destruct (proj1 (c97_example 1 2 0) _ _ SL) as [E _]. rewrite E. replace ((1 + 2) ^ 2)%R with 9%R by ring. reflexivity.
Qed.
(** What [run] leaves: as many rows as voices, one column per instant; [spl] is
    SciPy's spline evaluation, of which only the length of the result is used. *)
Lemma c95_run : forall spl form o m ts f, (forall u v w, zlen (spl u v w) = zlen w) -> aff_run spl form o = Ok (Some m, ts, f) ->
  matrix_of m (a_nv o) (zlen (a_ts o)) /\ ts = a_ts o /\ f = geo_grid (a_fmin o) (a_fmax o) (a_nv o) /\ 2 <= a_nv o.
Proof.
  intros spl form o m ts f SL H. unfold aff_run in H. cbv zeta in H. destruct (Z.eqb_spec (a_nv o) 1); [discriminate|]. destruct (Z.leb_spec (a_nv o) 0); [discriminate|]. destruct (match a_kind o with Unt => negb form | _ => false end); [discriminate|].
  destruct (aff_interp _ _ _ _ _ _ _ _) as [rows|] eqn:EI; [|discriminate]. cbn [bind] in H. destruct (aff_mult _ _ _ _) as [E|]; [|discriminate]. cbn [bind] in H.
  destruct (aff_normal E rows _ _ _) as [r|] eqn:EN; [|discriminate]. cbn [bind] in H. assert (r = Some m /\ ts = a_ts o /\ f = geo_grid (a_fmin o) (a_fmax o) (a_nv o)) as (-> & -> & ->) by (repeat split; congruence). clear H.
  unfold aff_normal in EN. destruct (integrate_2d _ _ _ _) as [I|]; [|discriminate]. cbn [bind] in EN. destruct (Req_EM_T I 0) as [|NI]; [discriminate|]. assert (m = map (map (fun v => v * E / I / IZR (a_nv o))%R) rows) as -> by congruence. clear EN.
  unfold aff_interp in EI. destruct (get _ _); [|discriminate]. cbn [bind] in EI. cbv zeta in EI. destruct (mapM_ok_inv _ _ _ EI) as [L P].
  split; [|split; [reflexivity|split; [reflexivity|lia]]]. split.
  - rewrite zlen_map. assert (Q := arange_zlen 0 (a_nv o)). unfold zlen in *. lia.
  - intros r' Hr. apply in_map_iff in Hr. destruct Hr as (r & <- & Hr). rewrite zlen_map. apply In_nth_error in Hr. destruct Hr as [k Hk]. assert (KL : (k < length (arange 0 (a_nv o)))%nat) by (rewrite <- L; apply nth_error_Some; congruence).
    destruct (nth_error (arange 0 (a_nv o)) k) as [i|] eqn:NI'; [|apply nth_error_None in NI'; lia]. destruct (P _ _ NI') as (b & Hb & FB). cbv beta in FB. match type of FB with (if ?c then _ else _) = _ => destruct c end; [discriminate|]. assert (b = r) by congruence. subst b. okeq FB. rewrite SL. apply zlen_map.
Qed.
