(** Property theorems, restated from T_opts.v (generated by tools/genprops.py).
    C135: the keyword arguments of plot (extent, contour_x, contour_y, levels, freq_x,
    freq_y). *)

From Coq Require Import Reals ZArith List Lia Lra Bool.
From Coquelicot Require Import Coquelicot.
From Verif Require Import Py Scalars CSum DFT Spec M_base M_putils P_base M_post M_plot T_opts.
Import ListNotations.
Local Open Scope Z_scope.

(** Without show_tf only the kind and the extent count: the other arguments are taken out
    of kwargs and dropped. *)
Theorem C135_ignored : forall k th th' e cx cy lv fx fy cx' cy' lv' fx' fy' v,
  base_plot (mkopts k false th e cx cy lv fx fy) v = base_plot (mkopts k false th' e cx' cy' lv' fx' fy') v.
Proof. exact c135_ignored. Qed.
Print Assumptions C135_ignored.

Theorem C135_no_extent : forall o v, extent_of (o_extent o) v = None -> base_plot o v = Raise ValueError.
Proof. exact c135_no_extent. Qed.
Print Assumptions C135_no_extent.

Theorem C135_image : forall o v t0 t1 f0 f1, o_kind o = Kcmap -> o_tf o = false -> extent_of (o_extent o) v = Some (t0, t1, f0, f1) ->
  base_plot o v = Ok [Image t0 t1 f0 f1 (v_tfr v)].
Proof. exact c135_image. Qed.
Print Assumptions C135_image.

Theorem C135_side : forall o v t0 t1 f0 f1, o_tf o = true -> o_kind o <> Kcontour -> extent_of (o_extent o) v = Some (t0, t1, f0, f1) ->
  (zlen (side_x o v) <> zlen (side_y o v) -> base_plot o v = Raise ValueError) /\
  (side_x o v = [] -> side_y o v = [] -> v_affine v <> None -> base_plot o v = Raise IndexError) /\
  (zlen (side_x o v) = zlen (side_y o v) -> side_y o v <> [] \/ v_affine v = None ->
    base_plot o v = Ok ((match o_kind o with Kcmap => [Image t0 t1 f0 f1 (v_tfr v)] | _ => [] end) ++ [sig_line v; Line (side_x o v) (side_y o v)])).
Proof. exact c135_side. Qed.
Print Assumptions C135_side.

Theorem C135_contour : forall o v e x y lv, o_tf o = true -> o_kind o = Kcontour -> extent_of (o_extent o) v = Some e ->
  o_contour_x o = Some x -> o_contour_y o = Some y -> o_levels o = Some lv ->
  (~ grid_ok x y (v_tfr v) -> base_plot o v = Raise TypeError) /\
  (grid_ok x y (v_tfr v) -> ~ rising lv -> base_plot o v = Raise ValueError) /\
  (grid_ok x y (v_tfr v) -> rising lv ->
    (zlen (side_x o v) <> zlen (side_y o v) -> base_plot o v = Raise ValueError) /\
    (side_x o v = [] -> side_y o v = [] -> v_affine v <> None -> base_plot o v = Raise IndexError) /\
    (zlen (side_x o v) = zlen (side_y o v) -> side_y o v <> [] \/ v_affine v = None ->
      base_plot o v = Ok [Contour x y (v_tfr v) (Some lv); sig_line v; Line (side_x o v) (side_y o v)])).
Proof. exact c135_contour. Qed.
Print Assumptions C135_contour.

(** Without show_tf every kind but the image and the two meshes draws contours over the
    instants and [0, 1/2], with matplotlib's own levels. *)
Theorem C135_plain_contour : forall o v e, o_tf o = false -> (o_kind o = Kcontour \/ o_kind o = Kother) -> extent_of (o_extent o) v = Some e ->
  let y := axis 0 (1 / 2) (zlen (v_tfr v)) in
  (~ grid_ok (v_ts v) y (v_tfr v) -> base_plot o v = Raise TypeError) /\
  (grid_ok (v_ts v) y (v_tfr v) -> base_plot o v = Ok [Contour (v_ts v) y (v_tfr v) None]).
Proof. exact c135_plain_contour. Qed.
Print Assumptions C135_plain_contour.

Theorem C135_levels_refuted : exists o v lv, o_tf o = false /\ o_kind o = Kcontour /\ o_levels o = Some lv /\ ~ rising lv /\
  exists x y m, base_plot o v = Ok [Contour x y m None].
Proof. exact c135_levels_refuted. Qed.
Print Assumptions C135_levels_refuted.

(** An affine representation with empty freq_x and freq_y; a longer freq_y. *)
Example C135_example :
  base_plot (mkopts Kcmap true (5 / 100) (Some (0, 1, 0, 1)%R) None None None (Some []) (Some [])) (mkview (Some (0%R, 1%R, 2)) [RtoC 1] [0%R] (0, 1) [] []) = Raise IndexError /\
  base_plot (mkopts Kcmap true (5 / 100) None None None None (Some [5%R]) (Some [6%R])) small = Ok [Image (Rmin 0 1) (Rmax 0 1) (Rmin 0 (1 / 2)) (Rmax 0 (1 / 2)) (v_tfr small); Line [0%R; 1%R] [Re (RtoC 1); Re (RtoC 2)]; Line [5%R] [6%R]] /\
  base_plot (mkopts Kcmap true (5 / 100) None None None None (Some [5%R]) (Some [6%R; 7%R])) small = Raise ValueError.
Proof. exact c135_example. Qed.
