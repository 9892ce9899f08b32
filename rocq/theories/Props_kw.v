(** Property theorems, restated from T_kw.v (generated by tools/genprops.py).
    C136: which keyword arguments of the plot methods reach the drawing, and on which figure
    it is made. *)

From Coq Require Import Reals ZArith List Lia Lra Bool String.
From Coquelicot Require Import Coquelicot.
From Verif Require Import Py M_base M_putils M_post M_plot M_kw T_opts T_kw.
Import ListNotations.
Local Open Scope Z_scope.
Local Open Scope string_scope.
Local Open Scope list_scope.

(** *** The keywords that reach BaseTFRepresentation.plot *)
(** STFT: ax, kind and threshold (with defaults) and everything else but sqmod. *)
Theorem C136_stft : forall d, exists e, stft_kw d = Ok e /\
  find "ax" e = Some (find_or "ax" KNone d) /\ find "kind" e = Some (find_or "kind" (KStr "cmap") d) /\
  find "threshold" e = Some (find_or "threshold" (KNum (5 / 100)) d) /\ find "sqmod" e = None /\
  forall k, other ["ax"; "kind"; "threshold"; "sqmod"] k -> find k e = find k d.
Proof. exact c136_stft. Qed.
Print Assumptions C136_stft.

(** Spectrogram: sqmod raises TypeError. *)
Theorem C136_spectrogram : forall d,
  (find "sqmod" d <> None -> spec_kw d = Raise TypeError) /\
  (find "sqmod" d = None -> exists e, spec_kw d = Ok e /\
    find "ax" e = Some (find_or "ax" KNone d) /\ find "kind" e = Some (find_or "kind" (KStr "cmap") d) /\
    find "threshold" e = Some (find_or "threshold" (KNum 0) d) /\ find "sqmod" e = None /\
    forall k, other ["ax"; "kind"; "threshold"; "sqmod"] k -> find k e = find k d).
Proof. exact c136_spectrogram. Qed.
Print Assumptions C136_spectrogram.

(** Margenau-Hill: extent raises TypeError, the threshold is not passed on. *)
Theorem C136_margenau : forall hi d,
  (find "extent" d <> None -> mh_kw hi d = Raise TypeError) /\
  (find "extent" d = None -> exists e, mh_kw hi d = Ok e /\
    find "kind" e = Some (find_or "kind" (KStr "cmap") d) /\ find "extent" e = Some (KArr [0; hi; 0; 1 / 2]%R) /\
    find "threshold" e = None /\ find "sqmod" e = None /\
    forall k, other ["kind"; "extent"; "threshold"; "sqmod"] k -> find k e = find k d).
Proof. exact c136_margenau. Qed.
Print Assumptions C136_margenau.

(** Wigner-Ville: scale='log' replaces the levels that were given; scale and sqmod stay. *)
Theorem C136_wigner : forall levels d, exists e, wvd_kw levels d = Ok e /\
  find "kind" e = Some (find_or "kind" (KStr "cmap") d) /\ find "threshold" e = Some (find_or "threshold" (KNum (5 / 100)) d) /\
  find "scale" e = None /\ find "sqmod" e = None /\
  (find "scale" d = Some (KStr "log") -> find "levels" e = Some (KArr levels)) /\
  (find "scale" d <> Some (KStr "log") -> find "levels" e = find "levels" d) /\
  forall k, other ["kind"; "threshold"; "sqmod"; "scale"; "levels"] k -> find k e = find k d.
Proof. exact c136_wigner. Qed.
Print Assumptions C136_wigner.

(** Pseudo Wigner-Ville: the same with contours by default. *)
Theorem C136_pseudo : forall levels d, exists e, pwvd_kw levels d = Ok e /\
  find "kind" e = Some (find_or "kind" (KStr "contour") d) /\ find "threshold" e = Some (find_or "threshold" (KNum (5 / 100)) d) /\
  find "scale" e = None /\ find "sqmod" e = None /\
  (find "scale" d = Some (KStr "log") -> find "levels" e = Some (KArr levels)) /\
  (find "scale" d <> Some (KStr "log") -> find "levels" e = find "levels" d) /\
  forall k, other ["kind"; "threshold"; "sqmod"; "scale"; "levels"] k -> find k e = find k d.
Proof. exact c136_pseudo. Qed.
Print Assumptions C136_pseudo.

(** Affine classes: the threshold is not passed on. *)
Theorem C136_affine : forall fy d, exists e, affine_kw fy d = Ok e /\
  find "kind" e = Some (find_or "kind" (KStr "contour") d) /\ find "show_tf" e = Some (find_or "show_tf" (KBool true) d) /\
  find "freq_y" e = Some (find_or "freq_y" (KArr fy) d) /\ find "threshold" e = None /\
  forall k, other ["kind"; "show_tf"; "freq_y"; "threshold"] k -> find k e = find k d.
Proof. exact c136_affine. Qed.
Print Assumptions C136_affine.

(** Without show_tf an image receives the keywords that plot does not know; aspect and
    origin raise TypeError. *)
Theorem C136_imshow : forall ext cmap d,
  (find "aspect" d <> None \/ find "origin" d <> None -> imshow_kw ext cmap d = Raise TypeError) /\
  (find "aspect" d = None -> find "origin" d = None -> exists e, imshow_kw ext cmap d = Ok e /\ find "extent" e = Some ext /\ find "cmap" e = Some cmap /\
    find "aspect" e = Some (KStr "auto") /\ find "origin" e = Some (KStr "lower") /\
    (forall k, In k ["ax"; "kind"; "show"; "default_annotation"; "show_tf"; "scale"; "threshold"; "contour_x"; "contour_y"; "levels"; "freq_x"; "freq_y"] -> find k e = None) /\
    (forall k, other ["ax"; "kind"; "show"; "default_annotation"; "show_tf"; "scale"; "threshold"; "contour_x"; "contour_y"; "levels"; "freq_x"; "freq_y"; "extent"; "cmap"; "aspect"; "origin"] k -> find k e = find k d)).
Proof. exact c136_imshow. Qed.
Print Assumptions C136_imshow.

(** *** The figures *)
(** Whatever ax is, plot draws on figures of its own: one (two, the first of them empty,
    for kind='surf' without show_tf), or none when it raises for want of an extent.  Its
    outcome and its artists are those of [base_plot]. *)
Theorem C136_figures : forall ax o v figs, exists new r, plot_on ax o v figs = (figs ++ new, r) /\
  (forall ax', plot_on ax' o v figs = plot_on ax o v figs) /\
  match base_plot o v with
  | Ok l => r = Ok tt /\ List.concat (List.concat new) = l /\ zlen new = (match o_kind o, o_tf o with Ksurf, false => 2 | _, _ => 1 end)
  | Raise e => r = Raise e /\ (new = [] <-> extent_of (o_extent o) v = None)
  end.
Proof. exact c136_figures. Qed.
Print Assumptions C136_figures.

(** Where the spectrum has no ordinate to read, its axes holds an empty line beside the
    picture and the signal. *)
Theorem C136_index : forall ax o v figs main ext, o_tf o = true -> extent_of (o_extent o) v = Some ext -> plot_tfr o ext v = Ok main ->
  plot_spectrum o v = Raise IndexError ->
  plot_on ax o v figs = (figs ++ [[main; [Line (map IZR (arange 0 (zlen (v_sig v)))) (map Re (v_sig v))]; [Line [] []]]], Raise IndexError).
Proof. exact c136_index. Qed.
Print Assumptions C136_index.

Theorem C136_no_line : forall ax o v figs main ext e, o_tf o = true -> extent_of (o_extent o) v = Some ext -> plot_tfr o ext v = Ok main ->
  plot_spectrum o v = Raise e -> e <> IndexError ->
  plot_on ax o v figs = (figs ++ [[main; [Line (map IZR (arange 0 (zlen (v_sig v)))) (map Re (v_sig v))]; []]], Raise e).
Proof. exact c136_no_line. Qed.
Print Assumptions C136_no_line.

(** plot does not draw on the axes passed as ax. *)
Theorem C136_ax_refuted : exists o v m, plot_on (Some (0, 0)) o v [[[]]] = ([[[]]; [[Image 0 1 0 1 m]]], Ok tt).
Proof. exact c136_ax_refuted. Qed.
Print Assumptions C136_ax_refuted.

Theorem C136_panels : forall tmax fmax vs, panels tmax fmax vs = repeat [] (List.length vs) :: map (fun v => [[Image 0 tmax 0 fmax (v_tfr v)]]) vs.
Proof. exact c136_panels. Qed.
Print Assumptions C136_panels.

Example C136_example :
  spec_kw [("sqmod", KBool true)] = Raise TypeError /\ mh_kw 7 [("extent", KObj 1)] = Raise TypeError /\
  stft_kw [("sqmod", KBool false); ("show", KBool false)] = Ok [("ax", KNone); ("kind", KStr "cmap"); ("threshold", KNum (5 / 100)); ("show", KBool false)] /\
  panels 1 2 [small; small] = [[[]; []]; [[Image 0 1 0 2 (v_tfr small)]]; [[Image 0 1 0 2 (v_tfr small)]]].
Proof. exact c136_example. Qed.
