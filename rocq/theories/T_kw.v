(** C136: which keyword arguments of the plot methods reach the drawing, and on which figure
    it is made. *)
From Coq Require Import Reals ZArith List Lia Lra Bool String.
From Coquelicot Require Import Coquelicot.
From Verif Require Import Py M_base M_putils M_post M_plot M_kw T_opts.
Import ListNotations.
Local Open Scope Z_scope.
Local Open Scope string_scope.
Local Open Scope list_scope.

Lemma find_drop k j d : find k (drop j d) = if String.eqb k j then None else find k d.
Proof.
  induction d as [|[i v] d IH]; cbn [drop filter find fst]; [destruct (String.eqb k j); reflexivity|]. fold (drop j d).
  destruct (String.eqb_spec j i) as [->|N]; cbn [negb].
  - rewrite IH. destruct (String.eqb_spec k i); reflexivity.
  - cbn [find]. rewrite IH. destruct (String.eqb_spec k i) as [->|]; [|reflexivity]. destruct (String.eqb_spec i j); [congruence|reflexivity].
Qed.
Lemma find_drops k ks d : find k (drops ks d) = if existsb (String.eqb k) ks then None else find k d.
Proof.
  induction ks as [|j ks IH]; [reflexivity|]. cbn [drops fold_right existsb]. fold (drops ks d). rewrite find_drop, IH. destruct (String.eqb k j); reflexivity.
Qed.
Lemma find_app k d e : find k (d ++ e) = match find k d with Some v => Some v | None => find k e end.
Proof. induction d as [|[i v] d IH]; [reflexivity|]. cbn [app find]. destruct (String.eqb k i); auto. Qed.
Lemma find_or_some k v d w : find k d = Some w -> find_or k v d = w.
Proof. unfold find_or. now intros ->. Qed.
(** Keywords other than the listed ones. *)
Definition other (ks : list string) (k : string) : Prop := ~ In k ks.
Lemma other_false ks k : other ks k -> existsb (String.eqb k) ks = false.
Proof.
  intros H. destruct (existsb _ _) eqn:E; [|reflexivity]. apply existsb_exists in E. destruct E as (j & Hj & E). apply String.eqb_eq in E. subst j. contradiction.
Qed.
Lemma other_eqb ks k j : other ks k -> In j ks -> String.eqb k j = false.
Proof. intros H Hj. apply String.eqb_neq. intros ->. contradiction. Qed.

(** *** The keywords that reach BaseTFRepresentation.plot *)
(** STFT: ax, kind and threshold (with defaults) and everything else but sqmod. *)
Lemma c136_stft : forall d, exists e, stft_kw d = Ok e /\
  find "ax" e = Some (find_or "ax" KNone d) /\ find "kind" e = Some (find_or "kind" (KStr "cmap") d) /\
  find "threshold" e = Some (find_or "threshold" (KNum (5 / 100)) d) /\ find "sqmod" e = None /\
  forall k, other ["ax"; "kind"; "threshold"; "sqmod"] k -> find k e = find k d.
Proof.
  intros d. unfold stft_kw, call_with. cbn [existsb fst]. rewrite !find_drops. cbn [existsb String.eqb Ascii.eqb Bool.eqb orb]. eexists. split; [reflexivity|].
  rewrite !find_app. cbn [find String.eqb Ascii.eqb Bool.eqb]. rewrite !find_drops. cbn [existsb String.eqb Ascii.eqb Bool.eqb orb]. repeat split. intros k Hk. rewrite find_app. cbn [find]. rewrite !(other_eqb _ k _ Hk) by (cbn; tauto). rewrite find_drops. rewrite other_false by (intros Q; apply Hk; cbn in *; tauto). reflexivity.
Qed.
(** Spectrogram: sqmod raises TypeError. *)
Lemma c136_spectrogram : forall d,
  (find "sqmod" d <> None -> spec_kw d = Raise TypeError) /\
  (find "sqmod" d = None -> exists e, spec_kw d = Ok e /\
    find "ax" e = Some (find_or "ax" KNone d) /\ find "kind" e = Some (find_or "kind" (KStr "cmap") d) /\
    find "threshold" e = Some (find_or "threshold" (KNum 0) d) /\ find "sqmod" e = None /\
    forall k, other ["ax"; "kind"; "threshold"; "sqmod"] k -> find k e = find k d).
Proof.
  intros d. unfold spec_kw, call_with. cbn [existsb fst]. rewrite !find_drops. cbn [existsb String.eqb Ascii.eqb Bool.eqb orb]. split.
  - intros H. destruct (find "sqmod" d); [reflexivity|congruence].
  - intros H. rewrite H. cbn [orb bind]. set (d1 := _ ++ _). destruct (c136_stft d1) as (e & E & A & K & T & S & O). exists e. split; [exact E|].
    assert (F1 : find "ax" d1 = find "ax" d) by (unfold d1; rewrite find_app; cbn [find]; rewrite find_drops; reflexivity).
    assert (F2 : find "kind" d1 = Some (find_or "kind" (KStr "cmap") d)) by reflexivity.
    assert (F3 : find "threshold" d1 = Some (find_or "threshold" (KNum 0) d)) by reflexivity.
    split; [rewrite A; unfold find_or; now rewrite F1|]. split; [rewrite K; f_equal; now apply find_or_some|]. split; [rewrite T; f_equal; now apply find_or_some|]. split; [exact S|].
    intros k Hk. rewrite O by exact Hk. unfold d1. rewrite find_app. cbn [find]. rewrite !(other_eqb _ k _ Hk) by (cbn; tauto). rewrite find_drops, other_false; [reflexivity|]. intros Q. apply Hk. cbn in *. tauto.
Qed.
(** Margenau-Hill: extent raises TypeError, the threshold is not passed on. *)
Lemma c136_margenau : forall hi d,
  (find "extent" d <> None -> mh_kw hi d = Raise TypeError) /\
  (find "extent" d = None -> exists e, mh_kw hi d = Ok e /\
    find "kind" e = Some (find_or "kind" (KStr "cmap") d) /\ find "extent" e = Some (KArr [0; hi; 0; 1 / 2]%R) /\
    find "threshold" e = None /\ find "sqmod" e = None /\
    forall k, other ["kind"; "extent"; "threshold"; "sqmod"] k -> find k e = find k d).
Proof.
  intros hi d. unfold mh_kw, call_with. cbn [existsb fst]. rewrite !find_drops. cbn [existsb String.eqb Ascii.eqb Bool.eqb orb]. split.
  - intros H. destruct (find "extent" d); [reflexivity|congruence].
  - intros H. rewrite H. cbn [orb]. eexists. split; [reflexivity|]. rewrite !find_app. cbn [find String.eqb Ascii.eqb Bool.eqb]. rewrite !find_drops. cbn [existsb String.eqb Ascii.eqb Bool.eqb orb]. repeat split.
    intros k Hk. rewrite find_app. cbn [find]. rewrite !(other_eqb _ k _ Hk) by (cbn; tauto). rewrite find_drops, other_false; [reflexivity|]. intros Q. apply Hk. cbn in *. tauto.
Qed.
(** Wigner-Ville: scale='log' replaces the levels that were given; scale and sqmod stay. *)
Lemma c136_wigner : forall levels d, exists e, wvd_kw levels d = Ok e /\
  find "kind" e = Some (find_or "kind" (KStr "cmap") d) /\ find "threshold" e = Some (find_or "threshold" (KNum (5 / 100)) d) /\
  find "scale" e = None /\ find "sqmod" e = None /\
  (find "scale" d = Some (KStr "log") -> find "levels" e = Some (KArr levels)) /\
  (find "scale" d <> Some (KStr "log") -> find "levels" e = find "levels" d) /\
  forall k, other ["kind"; "threshold"; "sqmod"; "scale"; "levels"] k -> find k e = find k d.
Proof.
  intros levels d. unfold wvd_kw. cbv zeta. set (kw0 := drop "scale" _).
  assert (F0 : forall k, find k kw0 = if existsb (String.eqb k) ["scale"; "kind"; "threshold"; "sqmod"] then None else find k d).
  { intros k. unfold kw0. rewrite find_drop, find_drops. cbn [existsb]. destruct (String.eqb k "scale"); reflexivity. }
  set (lg := is_log _). set (kw := if lg then _ else _).
  assert (F : forall k, k <> "levels" -> find k kw = find k kw0).
  { intros k Hk. unfold kw. destruct lg; [|reflexivity]. unfold setk. cbn [find]. apply String.eqb_neq in Hk. rewrite Hk, find_drop, Hk. reflexivity. }
  unfold call_with. cbn [existsb fst]. rewrite !F, !F0 by discriminate. cbn [existsb String.eqb Ascii.eqb Bool.eqb orb]. eexists. split; [reflexivity|].
  split; [reflexivity|]. split; [reflexivity|]. rewrite !find_app. cbn [find String.eqb Ascii.eqb Bool.eqb]. rewrite !F, !F0 by discriminate. cbn [existsb String.eqb Ascii.eqb Bool.eqb orb]. repeat split.
  - intros H. assert (L : lg = true) by (unfold lg; rewrite (find_or_some _ _ _ _ H); reflexivity). unfold kw. rewrite L. reflexivity.
  - intros H. assert (L : lg = false).
    { unfold lg, find_or. destruct (find "scale" d) as [[|s| | | |]|]; try reflexivity. cbn [is_log]. destruct (String.eqb_spec s "log"); [congruence|reflexivity]. }
    unfold kw. rewrite L, F0. reflexivity.
  - intros k Hk. rewrite find_app. cbn [find]. rewrite !(other_eqb _ k _ Hk) by (cbn; tauto). rewrite F by (intros ->; apply Hk; cbn; tauto). rewrite F0, other_false; [reflexivity|]. intros Q. apply Hk. cbn in *. tauto.
Qed.
(** Pseudo Wigner-Ville: the same with contours by default. *)
Lemma c136_pseudo : forall levels d, exists e, pwvd_kw levels d = Ok e /\
  find "kind" e = Some (find_or "kind" (KStr "contour") d) /\ find "threshold" e = Some (find_or "threshold" (KNum (5 / 100)) d) /\
  find "scale" e = None /\ find "sqmod" e = None /\
  (find "scale" d = Some (KStr "log") -> find "levels" e = Some (KArr levels)) /\
  (find "scale" d <> Some (KStr "log") -> find "levels" e = find "levels" d) /\
  forall k, other ["kind"; "threshold"; "sqmod"; "scale"; "levels"] k -> find k e = find k d.
Proof.
  intros levels d. unfold pwvd_kw. set (d1 := match find "kind" d with Some _ => d | None => _ end).
  assert (F : forall k, k <> "kind" -> find k d1 = find k d).
  { intros k Hk. unfold d1. destruct (find "kind" d); [reflexivity|]. unfold setk. cbn [find]. apply String.eqb_neq in Hk. rewrite Hk, find_drop, Hk. reflexivity. }
  assert (FK : find_or "kind" (KStr "cmap") d1 = find_or "kind" (KStr "contour") d).
  { unfold d1, find_or at 2. destruct (find "kind" d) as [w|] eqn:Q; [now apply find_or_some|reflexivity]. }
  destruct (c136_wigner levels d1) as (e & E & K & T & S & Q & L1 & L2 & O). exists e. rewrite FK in K. rewrite F in L1, L2 by discriminate. rewrite F in L2 by discriminate.
  split; [exact E|]. split; [exact K|]. split; [rewrite T; unfold find_or; now rewrite F by discriminate|]. repeat split; auto.
  intros k Hk. rewrite O by exact Hk. apply F. intros ->. apply Hk. cbn. tauto.
Qed.
(** Affine classes: the threshold is not passed on. *)
Lemma c136_affine : forall fy d, exists e, affine_kw fy d = Ok e /\
  find "kind" e = Some (find_or "kind" (KStr "contour") d) /\ find "show_tf" e = Some (find_or "show_tf" (KBool true) d) /\
  find "freq_y" e = Some (find_or "freq_y" (KArr fy) d) /\ find "threshold" e = None /\
  forall k, other ["kind"; "show_tf"; "freq_y"; "threshold"] k -> find k e = find k d.
Proof.
  intros fy d. unfold affine_kw, call_with. cbn [existsb fst]. rewrite !find_drops. cbn [existsb String.eqb Ascii.eqb Bool.eqb orb]. eexists. split; [reflexivity|].
  rewrite !find_app. cbn [find String.eqb Ascii.eqb Bool.eqb]. rewrite !find_drops. cbn [existsb String.eqb Ascii.eqb Bool.eqb orb]. repeat split.
  intros k Hk. rewrite find_app. cbn [find]. rewrite !(other_eqb _ k _ Hk) by (cbn; tauto). rewrite find_drops, other_false; [reflexivity|]. intros Q. apply Hk. cbn in *. tauto.
Qed.
(** Without show_tf an image receives the keywords that plot does not know; aspect and
    origin raise TypeError. *)
Lemma c136_imshow : forall ext cmap d,
  (find "aspect" d <> None \/ find "origin" d <> None -> imshow_kw ext cmap d = Raise TypeError) /\
  (find "aspect" d = None -> find "origin" d = None -> exists e, imshow_kw ext cmap d = Ok e /\ find "extent" e = Some ext /\ find "cmap" e = Some cmap /\
    find "aspect" e = Some (KStr "auto") /\ find "origin" e = Some (KStr "lower") /\
    (forall k, In k ["ax"; "kind"; "show"; "default_annotation"; "show_tf"; "scale"; "threshold"; "contour_x"; "contour_y"; "levels"; "freq_x"; "freq_y"] -> find k e = None) /\
    (forall k, other ["ax"; "kind"; "show"; "default_annotation"; "show_tf"; "scale"; "threshold"; "contour_x"; "contour_y"; "levels"; "freq_x"; "freq_y"; "extent"; "cmap"; "aspect"; "origin"] k -> find k e = find k d)).
Proof.
  intros ext cmap d. unfold imshow_kw, call_with, base_rest. cbn [existsb fst]. rewrite !find_drops. cbn [existsb String.eqb Ascii.eqb Bool.eqb orb]. split.
  - intros H. destruct (find "aspect" d); [reflexivity|]. destruct (find "origin" d); [reflexivity|]. destruct H; congruence.
  - intros H1 H2. rewrite H1, H2. cbn [orb]. eexists. split; [reflexivity|]. repeat split.
    + intros k Hk. rewrite find_app. cbn in Hk. repeat (destruct Hk as [<-|Hk]; [cbn [find String.eqb Ascii.eqb Bool.eqb]; rewrite find_drops; reflexivity|]). contradiction.
    + intros k Hk. rewrite find_app. cbn [find]. rewrite !(other_eqb _ k _ Hk) by (cbn; tauto). rewrite find_drops, other_false; [reflexivity|]. intros Q. apply Hk. cbn in *. tauto.
Qed.

(** *** The figures *)
(** Whatever ax is, plot draws on figures of its own: one (two, the first of them empty,
    for kind='surf' without show_tf), or none when it raises for want of an extent.  Its
    outcome and its artists are those of [base_plot]. *)
Lemma c136_figures : forall ax o v figs, exists new r, plot_on ax o v figs = (figs ++ new, r) /\
  (forall ax', plot_on ax' o v figs = plot_on ax o v figs) /\
  match base_plot o v with
  | Ok l => r = Ok tt /\ List.concat (List.concat new) = l /\ zlen new = (match o_kind o, o_tf o with Ksurf, false => 2 | _, _ => 1 end)
  | Raise e => r = Raise e /\ (new = [] <-> extent_of (o_extent o) v = None)
  end.
Proof.
  intros ax o v figs. unfold plot_on, base_plot. rewrite !extent_eq. destruct (extent_of (o_extent o) v) as [[[[t0 t1] f0] f1]|]; cbn [bind].
  2:{ exists [], (Raise ValueError). rewrite app_nil_r. repeat split; reflexivity. }
  destruct (o_tf o).
  - destruct (plot_tfr o _ v) as [main|e]; cbn [bind].
    2:{ exists [[[]]], (Raise e). repeat split; discriminate. }
    destruct (plot_spectrum o v) as [sp|e]; cbn [bind].
    + eexists _, _. split; [reflexivity|]. split; [reflexivity|]. split; [reflexivity|]. split; [|destruct (o_kind o); reflexivity]. cbn [List.concat app]. rewrite ?app_nil_r. reflexivity.
    + eexists _, _. split; [reflexivity|]. repeat split; discriminate.
  - destruct (o_kind o).
    + eexists _, _. split; [reflexivity|]. repeat split; reflexivity.
    + destruct (contour _ _ _ _) as [a|e]; cbn [bind arts]; eexists _, _; (split; [reflexivity|]); repeat split; discriminate.
    + destruct (mesh _ _ _) as [a|e]; cbn [bind arts]; eexists _, _; (split; [reflexivity|]); repeat split; discriminate.
    + destruct (mesh _ _ _) as [a|e]; cbn [bind arts]; eexists _, _; (split; [reflexivity|]); repeat split; discriminate.
    + destruct (contour _ _ _ _) as [a|e]; cbn [bind arts]; eexists _, _; (split; [reflexivity|]); repeat split; discriminate.
Qed.
(** Where the spectrum has no ordinate to read, its axes holds an empty line beside the
    picture and the signal. *)
Lemma c136_index : forall ax o v figs main ext, o_tf o = true -> extent_of (o_extent o) v = Some ext -> plot_tfr o ext v = Ok main ->
  plot_spectrum o v = Raise IndexError ->
  plot_on ax o v figs = (figs ++ [[main; [Line (map IZR (arange 0 (zlen (v_sig v)))) (map Re (v_sig v))]; [Line [] []]]], Raise IndexError).
Proof.
  intros ax o v figs main ext Ht He Hm Hs. unfold plot_on. rewrite extent_eq, He. cbn [bind]. rewrite Ht, Hm, Hs.
  assert (E : match o_freq_x o with Some x => x | None => prefix (rev (spectrum_of v)) (zlen (v_sig v) / 2) end = []).
  { unfold plot_spectrum in Hs. set (fx := match o_freq_x o with Some x => x | None => _ end) in *. set (fy := match o_freq_y o with Some y => y | None => _ end) in *.
    unfold line in Hs. destruct (Z.eqb_spec (zlen fx) (zlen fy)) as [Q|Q]; [|discriminate]. cbn [bind] in Hs. destruct (v_affine v); [|discriminate]. destruct fy; [|discriminate].
    destruct fx; [reflexivity|]. unfold zlen in Q. cbn in Q. lia. }
  rewrite E. reflexivity.
Qed.
Lemma c136_no_line : forall ax o v figs main ext e, o_tf o = true -> extent_of (o_extent o) v = Some ext -> plot_tfr o ext v = Ok main ->
  plot_spectrum o v = Raise e -> e <> IndexError ->
  plot_on ax o v figs = (figs ++ [[main; [Line (map IZR (arange 0 (zlen (v_sig v)))) (map Re (v_sig v))]; []]], Raise e).
Proof.
  intros ax o v figs main ext e Ht He Hm Hs Ne. unfold plot_on. rewrite extent_eq, He. cbn [bind]. rewrite Ht, Hm, Hs. destruct e; try reflexivity. contradiction.
Qed.
(** plot does not draw on the axes passed as ax. *)
Lemma c136_ax_refuted : exists o v m, plot_on (Some (0, 0)) o v [[[]]] = ([[[]]; [[Image 0 1 0 1 m]]], Ok tt).
Proof. exists (mkopts Kcmap false (5 / 100) (Some (0, 1, 0, 1)%R) None None None None None), small, (v_tfr small). reflexivity. Qed.
(** doc/misc_plots/uncertainty_stft.py 17-29: panels of one figure are passed as ax, one
    per window; they stay empty and every image gets a figure of its own. *)
Definition panels (tmax fmax : R) (vs : list view) : list figure :=
  fst (fold_left (fun s v => (fst (plot_on (Some (0, snd s)) (mkopts Kcmap false (5 / 100) (Some (0, tmax, 0, fmax)%R) None None None None None) v (fst s)), snd s + 1))
    vs ([repeat [] (List.length vs)], 0)).
Lemma panels_from tmax fmax vs i figs :
  fst (fold_left (fun s v => (fst (plot_on (Some (0, snd s)) (mkopts Kcmap false (5 / 100) (Some (0, tmax, 0, fmax)%R) None None None None None) v (fst s)), snd s + 1)) vs (figs, i)) =
  figs ++ map (fun v => [[Image 0 tmax 0 fmax (v_tfr v)]]) vs.
Proof.
  revert i figs. induction vs as [|v vs IH]; intros i figs; cbn [fold_left map]; [now rewrite app_nil_r|].
  rewrite IH. cbn [fst snd plot_on o_extent o_tf o_kind]. rewrite <- app_assoc. reflexivity.
Qed.
Lemma c136_panels : forall tmax fmax vs, panels tmax fmax vs = repeat [] (List.length vs) :: map (fun v => [[Image 0 tmax 0 fmax (v_tfr v)]]) vs.
Proof. intros tmax fmax vs. unfold panels. rewrite panels_from. reflexivity. Qed.
Example c136_example :
  spec_kw [("sqmod", KBool true)] = Raise TypeError /\ mh_kw 7 [("extent", KObj 1)] = Raise TypeError /\
  stft_kw [("sqmod", KBool false); ("show", KBool false)] = Ok [("ax", KNone); ("kind", KStr "cmap"); ("threshold", KNum (5 / 100)); ("show", KBool false)] /\
  panels 1 2 [small; small] = [[[]; []]; [[Image 0 1 0 2 (v_tfr small)]]; [[Image 0 1 0 2 (v_tfr small)]]].
Proof. repeat split; reflexivity. Qed.
