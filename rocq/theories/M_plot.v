(** Pictures: [BaseTFRepresentation.plot] (tftb/processing/base.py 52-58,
    74-240) with the [plot] methods of its subclasses, and [plotifl]
    (tftb/processing/plotifl.py 19-54).

    A picture is the list of artists handed to matplotlib, in order; axis
    labels, colour maps and annotations are left out.  What matplotlib refuses:
    - contour: coordinates that do not match the matrix, or fewer than two rows
      or columns (TypeError), levels that do not increase (ValueError);
    - plot: abscissae and ordinates of different lengths (ValueError);
    - plot_surface, plot_wireframe: shapes that do not broadcast (ValueError).
    Real matrices, held as lists of rows; non-empty signals.  The object has a
    [name] (every class of the package with a [run] has one). *)
From Coq Require Import Reals ZArith List Lia Lra Bool.
From Coquelicot Require Import Coquelicot.
From Verif Require Import Py Scalars CSum DFT M_base P_base M_putils M_post M_stft M_cohen M_state M_gen1 M_gen2 M_aff.
Import ListNotations.
Local Open Scope Z_scope.

Inductive artist :=
| Image (t0 t1 f0 f1 : R) (m : list (list R))     (* imshow, origin below *)
| Contour (x y : list R) (m : list (list R)) (levels : option (list R))
| Mesh (x y : list R) (m : list (list R))         (* surface or wireframe *)
| Line (x y : list R).
Definition mat_cols (m : list (list R)) : Z := match m with r :: _ => zlen r | [] => 0 end.
Fixpoint increasing (l : list R) : bool :=
  match l with
  | a :: (b :: _) as l' => (if Rlt_dec a b then true else false) && increasing l'
  | _ => true
  end.
Definition contour (x y : list R) (m : list (list R)) (levels : option (list R)) : res artist :=
  if negb (zlen m =? zlen y) || negb (mat_cols m =? zlen x) then Raise TypeError
  else if (zlen y <? 2) || (zlen x <? 2) then Raise TypeError
  else match levels with
       | Some l => if increasing l then Ok (Contour x y m levels) else Raise ValueError
       | None => Ok (Contour x y m None)
       end.
Definition fits (a b : Z) : bool := (a =? b) || (a =? 1) || (b =? 1).
Definition mesh (x y : list R) (m : list (list R)) : res artist :=
  if fits (zlen m) (zlen y) && fits (mat_cols m) (zlen x) then Ok (Mesh x y m) else Raise ValueError.
Definition line (x y : list R) : res artist := if zlen x =? zlen y then Ok (Line x y) else Raise ValueError.

Inductive pkind := Kcmap | Kcontour | Ksurf | Kwire | Kother.
(** Keyword arguments of [plot]; [o_extent] etc. are [None] when absent. *)
Record popts := mkopts {
  o_kind : pkind; o_tf : bool; o_threshold : R; o_extent : option (R * R * R * R);
  o_contour_x : option (list R); o_contour_y : option (list R); o_levels : option (list R);
  o_freq_x : option (list R); o_freq_y : option (list R) }.
(** What [plot] reads of the object; [v_affine] is (fmin, fmax, n_voices) for a
    class with isaffine = True. *)
Record view := mkview {
  v_affine : option (R * R * Z); v_sig : list C; v_ts : list R; v_span : Z * Z; v_freqs : list R; v_tfr : list (list R) }.

Definition rmin_list (l : list R) : res R := match l with [] => Raise ValueError | a :: l => Ok (fold_left Rmin l a) end.
(** np.linspace of no points is empty (and of one point its start). *)
Definition axis (a b : R) (n : Z) : list R := M_post.linspace a b n.

(** base.py 52-58; [v_span] = (ts.min(), ts.max()) of integer timestamps.
    np.fft.fft(a, n) cuts or pads with zeros. *)
Definition fft_n (a : list C) (n : Z) : list C := fft (map (fun i => cnth a i) (arange 0 n)).
Definition spectrum_of (v : view) : list R :=
  match v_affine v with
  | None => fftshift (map (fun z => Cmod z ^ 2)%R (fft (v_sig v)))
  | Some _ =>
    let nf2 := zlen (v_tfr v) in
    prefix (map (fun z => Cmod z ^ 2)%R (fft_n (pyslice (v_sig v) (fst (v_span v)) (snd (v_span v) + 1)) (2 * nf2))) nf2
  end.

(** base.py 74-101, [show_tf] = True: the main picture.  Other kinds draw
    nothing. *)
Definition plot_tfr (o : popts) (ext : R * R * R * R) (v : view) : res (list artist) :=
  match o_kind o with
  | Kcmap => let '(t0, t1, f0, f1) := ext in Ok [Image t0 t1 f0 f1 (v_tfr v)]
  | Kcontour =>
    let x := match o_contour_x o with Some x => x | None => v_ts v end in
    let y := match o_contour_y o with
             | Some y => y
             | None => match v_affine v with Some (a, b, nv) => axis a b nv | None => axis 0 (1 / 2) (zlen (v_sig v)) end
             end in
    match o_levels o, v_affine v with
    | Some l, _ => a <- contour x y (v_tfr v) (Some l) ;; Ok [a]
    | None, Some _ =>
      maxi <- rmax_list (concat (v_tfr v)) ;;
      lo <- rmin_list (concat (v_tfr v)) ;;
      a <- contour x y (v_tfr v) (Some (axis (Rmax lo (maxi * o_threshold o)) maxi 65)) ;;
      Ok [a]
    | None, None => a <- contour x y (v_tfr v) None ;; Ok [a]
    end
  | _ => Ok []
  end.
(** base.py 117-131. *)
Definition plot_spectrum (o : popts) (v : view) : res artist :=
  let k := zlen (v_sig v) / 2 in
  let fx := match o_freq_x o with Some x => x | None => prefix (rev (spectrum_of v)) k end in
  let fy := match o_freq_y o with
            | Some y => y
            | None => match v_affine v with Some _ => v_freqs v | None => map IZR (arange 0 k) end
            end in
  a <- line fx fy ;;
  match v_affine v, fy with Some _, [] => Raise IndexError | _, _ => Ok a end.
(** base.py 142-240.  The minima are taken when no extent is given. *)
Definition base_plot (o : popts) (v : view) : res (list artist) :=
  ext <- match o_extent o with
         | Some e => Ok e
         | None => a <- rmin_list (v_ts v) ;; b <- rmax_list (v_ts v) ;; c <- rmin_list (v_freqs v) ;; d <- rmax_list (v_freqs v) ;; Ok (a, b, c, d)
         end ;;
  let N := zlen (v_sig v) in
  if o_tf o then
    main <- plot_tfr o ext v ;;
    let sig := Line (map IZR (arange 0 N)) (map Re (v_sig v)) in
    spec <- plot_spectrum o v ;;
    Ok (main ++ [sig; spec])
  else
    match o_kind o with
    | Kcmap => let '(t0, t1, f0, f1) := ext in Ok [Image t0 t1 f0 f1 (v_tfr v)]
    | Ksurf | Kwire => a <- mesh (map IZR (arange 0 N)) (axis 0 (1 / 2) N) (map (map Rabs) (v_tfr v)) ;; Ok [a]
    | _ => a <- contour (v_ts v) (axis 0 (1 / 2) (zlen (v_tfr v))) (v_tfr v) None ;; Ok [a]
    end.

(** ** The Cohen class and the STFT *)
Definition ts_vals (t : tsarr) : list R := match t with TsI l => map IZR l | TsF l => l end.
Definition rep_rows (o : rep C) : Z := match r_tfr o with c :: _ => zlen c | [] => 0 end.
Definition rep_view (o : rep C) : view :=
  mkview None (r_sig o) (ts_vals (r_ts o)) (0, 0) (r_freqs o)
    (map (fun f => map (fun c => Re (at2 (r_tfr o) f c)) (arange 0 (zlen (r_tfr o)))) (arange 0 (rep_rows o))).
Definition defaults (k : pkind) (tf : bool) (th : R) (ext : option (R * R * R * R)) : popts :=
  mkopts k tf th ext None None None None None.
(** linear.py 95-103 (default [sqmod]); cohen.py 41-44. *)
Definition stft_picture (k : pkind) (tf : bool) (th : R) (o : rep C) : res (list artist) :=
  o1 <- stft_plot th o ;; base_plot (defaults k tf th None) (rep_view o1).
Definition spec_picture (k : pkind) (tf : bool) (th : R) (o : rep C) : res (list artist) :=
  r <- spec_plot th o ;; base_plot (defaults k tf th None) (rep_view (fst r)).
(** cohen.py 110-117: the threshold is not passed on. *)
Definition mh_picture (k : pkind) (tf : bool) (th : R) (o : rep C) : res (list artist) :=
  o1 <- mh_plot th o ;; hi <- rmax_list (ts_vals (r_ts o)) ;;
  base_plot (defaults k tf (5 / 100) (Some (0, hi, 0, 1 / 2)%R)) (rep_view o1).
(** cohen.py 173-187, 215-218 (the pseudo Wigner-Ville class only changes the
    default kind), scale = "linear". *)
Definition wvd_picture (k : pkind) (tf sqmod : bool) (th : R) (o : rep C) : res (list artist) :=
  o1 <- wvd_plot sqmod th o ;; base_plot (defaults k tf th None) (rep_view o1).

(** cohen.py 174-180: scale = "log".  Faithful when the largest entry and the
    threshold are positive (else the levels are not numbers). *)
Definition log_levels (th : R) (m : list (list R)) : res (list R) :=
  maxi <- rmax_list (concat m) ;; lo <- rmin_list (concat m) ;;
  Ok (logspace (log10 (Rmax lo (maxi * th))) (log10 maxi) 65).
Definition wvd_picture_log (k : pkind) (tf sqmod : bool) (th : R) (o : rep C) : res (list artist) :=
  ls <- log_levels th (v_tfr (rep_view o)) ;;
  o1 <- wvd_plot sqmod th o ;;
  base_plot (mkopts k tf th None None None (Some ls) None None) (rep_view o1).

(** ** The affine class, affine.py 109-118.  The matrix is changed in place: the
    first component is the array that [run] returned, afterwards.  The
    threshold is not passed on to base.py. *)
Definition cut_rows (t : R) (m : list (list R)) : list (list R) := map (map (fun v => if Rle_dec v t then 0%R else v)) m.
Definition affine_cut (th : R) (m : list (list R)) : res (list (list R)) :=
  mx <- rmax_list (concat m) ;; Ok (cut_rows (mx * th) m).
Definition affine_opts (k : pkind) (tf : bool) (fmin fmax : R) (N : Z) : popts :=
  mkopts k tf (5 / 100) None None None None None (Some (axis fmin fmax (N / 2))).
Definition span (ts : list Z) : Z * Z := (match zmin_list ts with Ok a => a | _ => 0 end, match zmax_list ts with Ok a => a | _ => 0 end).
(** An object of the three distributions after [run] (isaffine = True). *)
Definition affine_picture (k : pkind) (tf : bool) (th : R) (o : aff) (freqs : list R) (m : list (list R)) : res (list (list R) * list artist) :=
  m' <- affine_cut th m ;;
  p <- base_plot (affine_opts k tf (a_fmin o) (a_fmax o) (zlen (a_sig o)))
         (mkview (Some (a_fmin o, a_fmax o, a_nv o)) (a_sig o) (map IZR (a_ts o)) (span (a_ts o)) freqs m') ;;
  Ok (m', p).
(** A Scalogram object after [run]: isaffine = False, and [run] does not set
    [freqs]. *)
Definition scal_picture (k : pkind) (tf : bool) (th : R) (x : list C) (fmin fmax : R) (m : list (list R)) : res (list (list R) * list artist) :=
  let N := zlen x in
  m' <- affine_cut th m ;;
  p <- base_plot (affine_opts k tf fmin fmax N)
         (mkview None x (map IZR (arange 0 N)) (0, N - 1) (base_freqs N) m') ;;
  Ok (m', p).

(** ** plotifl: the lines, and the limits of the ordinates.  [None] is NaN. *)
Definition known (l : list (option R)) : list R := flat_map (fun v => match v with Some r => [r] | None => [] end) l.
Definition plotifl (t : list R) (law : list (option R)) (sig : option (list C)) : res (R * R) :=
  minif <- rmin_list (known law) ;;
  _ <- match sig with Some s => if zlen t =? zlen s then Ok tt else Raise ValueError | None => Ok tt end ;;
  if negb (zlen t =? zlen law) then Raise ValueError else
  Ok (if Rle_dec 0 minif then (0, 1 / 2) else (- (1 / 2), 1 / 2))%R.
