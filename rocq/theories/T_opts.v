(** C135: the keyword arguments of plot (extent, contour_x, contour_y, levels, freq_x,
    freq_y). *)
From Coq Require Import Reals ZArith List Lia Lra Bool.
From Coquelicot Require Import Coquelicot.
From Verif Require Import Py Scalars CSum DFT Spec M_base M_putils P_base M_post M_plot.
Import ListNotations.
Local Open Scope Z_scope.

(** Without show_tf only the kind and the extent count: the other arguments are taken out
    of kwargs and dropped. *)
Lemma c135_ignored : forall k th th' e cx cy lv fx fy cx' cy' lv' fx' fy' v,
  base_plot (mkopts k false th e cx cy lv fx fy) v = base_plot (mkopts k false th' e cx' cy' lv' fx' fy') v.
Proof. intros. destruct k; reflexivity. Qed.
(** The extent counts for images only; computing it needs instants and frequencies. *)
Definition extent_of (e : option (R * R * R * R)) (v : view) : option (R * R * R * R) :=
  match e with
  | Some e => Some e
  | None => match v_ts v, v_freqs v with
            | t :: ts, f :: fs => Some (fold_left Rmin ts t, fold_left Rmax ts t, fold_left Rmin fs f, fold_left Rmax fs f)
            | _, _ => None
            end
  end.
Lemma extent_eq e v : (match e with Some e => Ok e | None => a <- rmin_list (v_ts v) ;; b <- rmax_list (v_ts v) ;; c <- rmin_list (v_freqs v) ;; d <- rmax_list (v_freqs v) ;; Ok (a, b, c, d) end) =
  match extent_of e v with Some e => Ok e | None => Raise ValueError end.
Proof. destruct e as [e|]; [reflexivity|]. unfold extent_of, rmin_list, rmax_list. destruct (v_ts v) as [|t ts]; [reflexivity|]. destruct (v_freqs v); reflexivity. Qed.
Lemma c135_no_extent : forall o v, extent_of (o_extent o) v = None -> base_plot o v = Raise ValueError.
Proof. intros o v H. unfold base_plot. rewrite extent_eq, H. reflexivity. Qed.
Lemma c135_image : forall o v t0 t1 f0 f1, o_kind o = Kcmap -> o_tf o = false -> extent_of (o_extent o) v = Some (t0, t1, f0, f1) ->
  base_plot o v = Ok [Image t0 t1 f0 f1 (v_tfr v)].
Proof. intros o v t0 t1 f0 f1 K T H. unfold base_plot. rewrite extent_eq, H, T, K. reflexivity. Qed.
(** With show_tf: the spectrum line is drawn from the given freq_x and freq_y. *)
Definition side_x (o : popts) (v : view) : list R := match o_freq_x o with Some x => x | None => firstn (Z.to_nat (zlen (v_sig v) / 2)) (rev (spectrum_of v)) end.
Definition side_y (o : popts) (v : view) : list R :=
  match o_freq_y o with Some y => y | None => match v_affine v with Some _ => v_freqs v | None => map IZR (arange 0 (zlen (v_sig v) / 2)) end end.
Definition sig_line (v : view) : artist := Line (map IZR (arange 0 (zlen (v_sig v)))) (map Re (v_sig v)).
Lemma side_eq o v : plot_spectrum o v =
  if negb (zlen (side_x o v) =? zlen (side_y o v)) then Raise ValueError
  else match v_affine v, side_y o v with Some _, [] => Raise IndexError | _, _ => Ok (Line (side_x o v) (side_y o v)) end.
Proof.
  unfold plot_spectrum. cbv zeta. unfold line, prefix. fold (side_x o v). fold (side_y o v). destruct (zlen (side_x o v) =? zlen (side_y o v)); cbn [negb bind]; reflexivity.
Qed.
Lemma nil_zlen {A} (l : list A) : zlen l = 0 -> l = [].
Proof. destruct l; [reflexivity|]. unfold zlen. cbn [length]. lia. Qed.
Lemma c135_side : forall o v t0 t1 f0 f1, o_tf o = true -> o_kind o <> Kcontour -> extent_of (o_extent o) v = Some (t0, t1, f0, f1) ->
  (zlen (side_x o v) <> zlen (side_y o v) -> base_plot o v = Raise ValueError) /\
  (side_x o v = [] -> side_y o v = [] -> v_affine v <> None -> base_plot o v = Raise IndexError) /\
  (zlen (side_x o v) = zlen (side_y o v) -> side_y o v <> [] \/ v_affine v = None ->
    base_plot o v = Ok ((match o_kind o with Kcmap => [Image t0 t1 f0 f1 (v_tfr v)] | _ => [] end) ++ [sig_line v; Line (side_x o v) (side_y o v)])).
Proof.
  intros o v t0 t1 f0 f1 T K H. unfold base_plot. rewrite extent_eq, H, T. cbn [bind].
  assert (M : plot_tfr o (t0, t1, f0, f1) v = Ok (match o_kind o with Kcmap => [Image t0 t1 f0 f1 (v_tfr v)] | _ => [] end)) by (unfold plot_tfr; destruct (o_kind o); (reflexivity || congruence)).
  rewrite M, side_eq. cbn [bind]. repeat split.
  - intros N. apply Z.eqb_neq in N. rewrite N. reflexivity.
  - intros E1 E2 A. rewrite E1, E2. cbn [zlen length Z.eqb negb Z.of_nat]. destruct (v_affine v); [reflexivity|congruence].
  - intros E D. rewrite E, Z.eqb_refl. cbn [negb]. destruct (v_affine v); destruct (side_y o v); cbn [bind]; try reflexivity. destruct D; congruence.
Qed.
(** Contours: the given grids must be those of the matrix (at least 2x2) and the given
    levels must increase. *)
Definition rising (l : list R) : Prop := forall i, 0 <= i < zlen l - 1 -> (rnth l i < rnth l (i + 1))%R.
Lemma increasing_rising l : increasing l = true <-> rising l.
Proof.
  induction l as [|a l IH]; [split; [intros _ i Hi; unfold zlen in Hi; cbn in Hi; lia|reflexivity]|].
  destruct l as [|b l]; [split; [intros _ i Hi; unfold zlen in Hi; cbn in Hi; lia|reflexivity]|].
  cbn [increasing]. rewrite andb_true_iff. rewrite IH. clear IH. unfold rising, zlen, rnth. cbn [length]. destruct (Rlt_dec a b) as [L|L].
  - split.
    + intros [_ H] i Hi. destruct (Z.eq_dec i 0) as [->|N]; [exact L|]. specialize (H (i - 1) ltac:(lia)). replace (Z.to_nat i) with (S (Z.to_nat (i - 1))) by lia. replace (Z.to_nat (i + 1)) with (S (Z.to_nat (i - 1 + 1))) by lia. exact H.
    + intros H. split; [reflexivity|]. intros i Hi. specialize (H (i + 1) ltac:(lia)). replace (Z.to_nat (i + 1 + 1)) with (S (Z.to_nat (i + 1))) in H by lia. replace (Z.to_nat (i + 1)) with (S (Z.to_nat i)) in H at 1 by lia. exact H.
  - split; [intros [Q _]; discriminate|]. intros H. exfalso. apply L. exact (H 0 ltac:(lia)).
Qed.
Definition grid_ok (x y : list R) (m : list (list R)) : Prop := zlen m = zlen y /\ mat_cols m = zlen x /\ 2 <= zlen x /\ 2 <= zlen y.
Lemma contour_eq x y m l : (~ grid_ok x y m -> contour x y m l = Raise TypeError) /\
  (grid_ok x y m -> contour x y m l = match l with Some lv => if increasing lv then Ok (Contour x y m l) else Raise ValueError | None => Ok (Contour x y m l) end).
Proof.
  unfold contour, grid_ok. destruct (Z.eqb_spec (zlen m) (zlen y)); cbn [negb orb]; [|split; [reflexivity|intros (Q & _); contradiction]].
  destruct (Z.eqb_spec (mat_cols m) (zlen x)); cbn [negb orb]; [|split; [reflexivity|intros (_ & Q & _); contradiction]].
  destruct (Z.ltb_spec (zlen y) 2); cbn [orb]; [split; [reflexivity|lia]|]. destruct (Z.ltb_spec (zlen x) 2); [split; [reflexivity|lia]|]. split; [lia|]. intros _. destruct l; reflexivity.
Qed.
Lemma c135_contour : forall o v e x y lv, o_tf o = true -> o_kind o = Kcontour -> extent_of (o_extent o) v = Some e ->
  o_contour_x o = Some x -> o_contour_y o = Some y -> o_levels o = Some lv ->
  (~ grid_ok x y (v_tfr v) -> base_plot o v = Raise TypeError) /\
  (grid_ok x y (v_tfr v) -> ~ rising lv -> base_plot o v = Raise ValueError) /\
  (grid_ok x y (v_tfr v) -> rising lv ->
    (zlen (side_x o v) <> zlen (side_y o v) -> base_plot o v = Raise ValueError) /\
    (side_x o v = [] -> side_y o v = [] -> v_affine v <> None -> base_plot o v = Raise IndexError) /\
    (zlen (side_x o v) = zlen (side_y o v) -> side_y o v <> [] \/ v_affine v = None ->
      base_plot o v = Ok [Contour x y (v_tfr v) (Some lv); sig_line v; Line (side_x o v) (side_y o v)])).
Proof.
  intros o v e x y lv T K H HX HY HL. unfold base_plot. rewrite extent_eq, H, T. cbn [bind].
  assert (M : plot_tfr o e v = (a <- contour x y (v_tfr v) (Some lv) ;; Ok [a])) by (unfold plot_tfr; rewrite K, HX, HY, HL; reflexivity). rewrite M.
  destruct (contour_eq x y (v_tfr v) (Some lv)) as [C1 C2]. assert (IR := increasing_rising lv). split; [|split].
  - intros N. rewrite C1 by auto. reflexivity.
  - intros G N. rewrite C2 by auto. destruct (increasing lv); [exfalso; apply N, IR; reflexivity|reflexivity].
  - intros G I. rewrite C2 by auto. apply IR in I. rewrite I. cbn [bind]. rewrite side_eq. repeat split.
    + intros N. apply Z.eqb_neq in N. rewrite N. reflexivity.
    + intros E1 E2 A. rewrite E1, E2. cbn [zlen length Z.eqb negb Z.of_nat]. destruct (v_affine v); [reflexivity|congruence].
    + intros E D. rewrite E, Z.eqb_refl. cbn [negb]. destruct (v_affine v); destruct (side_y o v); cbn [bind]; try reflexivity. destruct D; congruence.
Qed.
(** Without show_tf every kind but the image and the two meshes draws contours over the
    instants and [0, 1/2], with matplotlib's own levels. *)
Lemma c135_plain_contour : forall o v e, o_tf o = false -> (o_kind o = Kcontour \/ o_kind o = Kother) -> extent_of (o_extent o) v = Some e ->
  let y := axis 0 (1 / 2) (zlen (v_tfr v)) in
  (~ grid_ok (v_ts v) y (v_tfr v) -> base_plot o v = Raise TypeError) /\
  (grid_ok (v_ts v) y (v_tfr v) -> base_plot o v = Ok [Contour (v_ts v) y (v_tfr v) None]).
Proof.
  intros o v e T K H y. unfold base_plot. rewrite extent_eq, H, T. cbn [bind].
  assert (M : (match o_kind o with
    | Kcmap => let '(t0, t1, f0, f1) := e in Ok [Image t0 t1 f0 f1 (v_tfr v)]
    | Ksurf | Kwire => a <- mesh (map IZR (arange 0 (zlen (v_sig v)))) (axis 0 (1 / 2) (zlen (v_sig v))) (map (map Rabs) (v_tfr v)) ;; Ok [a]
    | _ => a <- contour (v_ts v) (axis 0 (1 / 2) (zlen (v_tfr v))) (v_tfr v) None ;; Ok [a]
    end) = (a <- contour (v_ts v) y (v_tfr v) None ;; Ok [a])) by (destruct K as [-> | ->]; reflexivity). rewrite M.
  destruct (contour_eq (v_ts v) y (v_tfr v) None) as [C1 C2]. split; intros G; [rewrite C1 by auto|rewrite C2 by auto]; reflexivity.
Qed.
(** levels given without show_tf: accepted, even when they do not increase, and unused. *)
Definition small : view := mkview None [RtoC 1; RtoC 2] [0%R; 1%R] (0, 1) [0%R; (1 / 2)%R] [[1%R; 2%R]; [3%R; 4%R]].
Lemma c135_levels_refuted : exists o v lv, o_tf o = false /\ o_kind o = Kcontour /\ o_levels o = Some lv /\ ~ rising lv /\
  exists x y m, base_plot o v = Ok [Contour x y m None].
Proof.
  exists (mkopts Kcontour false (5 / 100) None None None (Some [2%R; 1%R]) None None), small, [2%R; 1%R]. repeat split.
  - intros H. specialize (H 0 ltac:(unfold zlen; cbn; lia)). change (2 < 1)%R in H. lra.
  - do 3 eexists. destruct (c135_plain_contour (mkopts Kcontour false (5 / 100) None None None (Some [2%R; 1%R]) None None) small _ eq_refl (or_introl eq_refl) eq_refl) as [_ H]. apply H. unfold grid_ok. repeat split; try reflexivity; vm_compute; discriminate.
Qed.
(** An affine representation with empty freq_x and freq_y; a longer freq_y. *)
Example c135_example :
  base_plot (mkopts Kcmap true (5 / 100) (Some (0, 1, 0, 1)%R) None None None (Some []) (Some [])) (mkview (Some (0%R, 1%R, 2)) [RtoC 1] [0%R] (0, 1) [] []) = Raise IndexError /\
  base_plot (mkopts Kcmap true (5 / 100) None None None None (Some [5%R]) (Some [6%R])) small = Ok [Image (Rmin 0 1) (Rmax 0 1) (Rmin 0 (1 / 2)) (Rmax 0 (1 / 2)) (v_tfr small); Line [0%R; 1%R] [Re (RtoC 1); Re (RtoC 2)]; Line [5%R] [6%R]] /\
  base_plot (mkopts Kcmap true (5 / 100) None None None None (Some [5%R]) (Some [6%R; 7%R])) small = Raise ValueError.
Proof. repeat split; reflexivity. Qed.
