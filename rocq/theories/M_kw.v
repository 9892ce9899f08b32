(** The keyword arguments of the plot methods and the figures they draw on:
    processing/base.py 142-243, linear.py 77-103, cohen.py 41-44, 110-117, 173-187, 215-218,
    affine.py 109-118.  A dictionary of keywords is an association list.  Positional
    arguments and the pixels are not modelled. *)
From Coq Require Import Reals ZArith List Bool String.
From Coquelicot Require Import Coquelicot.
From Verif Require Import Py M_base M_putils M_post M_plot.
Import ListNotations.
Local Open Scope Z_scope.
Local Open Scope string_scope.
Local Open Scope list_scope.

(** A value given to a keyword; [KObj] stands for any other object. *)
Inductive kval := KNone | KStr (s : string) | KNum (r : R) | KBool (b : bool) | KArr (l : list R) | KObj (i : Z).
Definition dict := list (string * kval).
Fixpoint find (k : string) (d : dict) : option kval :=
  match d with [] => None | (j, v) :: d => if String.eqb k j then Some v else find k d end.
Definition drop (k : string) (d : dict) : dict := filter (fun e => negb (String.eqb k (fst e))) d.
Definition drops (ks : list string) (d : dict) : dict := fold_right drop d ks.
Definition find_or (k : string) (v : kval) (d : dict) : kval := match find k d with Some w => w | None => v end.
(** d[k] = v *)
Definition setk (k : string) (v : kval) (d : dict) : dict := (k, v) :: drop k d.
(** f(k1=v1, ..., **d): a key of d that is also written out raises. *)
Definition call_with (named : dict) (d : dict) : res dict :=
  if existsb (fun e => match find (fst e) d with Some _ => true | None => false end) named then Raise TypeError
  else Ok (named ++ d).

(** The keywords that reach BaseTFRepresentation.plot. *)
(** linear.py 77, 101-103. *)
Definition stft_kw (d : dict) : res dict :=
  call_with [("ax", find_or "ax" KNone d); ("kind", find_or "kind" (KStr "cmap") d); ("threshold", find_or "threshold" (KNum (5 / 100)) d)]
    (drops ["ax"; "kind"; "sqmod"; "threshold"] d).
(** cohen.py 41-44. *)
Definition spec_kw (d : dict) : res dict :=
  d <- call_with [("kind", find_or "kind" (KStr "cmap") d); ("sqmod", KBool false); ("threshold", find_or "threshold" (KNum 0) d)]
         (drops ["kind"; "threshold"] d) ;;
  stft_kw d.
(** cohen.py 110-117; [hi] is ts.max(). *)
Definition mh_kw (hi : R) (d : dict) : res dict :=
  call_with [("kind", find_or "kind" (KStr "cmap") d); ("extent", KArr [0; hi; 0; 1 / 2]%R)] (drops ["kind"; "threshold"; "sqmod"] d).
(** cohen.py 173-187; [levels] are the logarithmic levels. *)
Definition is_log (v : kval) : bool := match v with KStr s => String.eqb s "log" | _ => false end.
Definition wvd_kw (levels : list R) (d : dict) : res dict :=
  let kw := drop "scale" (drops ["kind"; "threshold"; "sqmod"] d) in
  let kw := if is_log (find_or "scale" (KStr "linear") d) then setk "levels" (KArr levels) kw else kw in
  call_with [("kind", find_or "kind" (KStr "cmap") d); ("threshold", find_or "threshold" (KNum (5 / 100)) d)] kw.
(** cohen.py 215-218. *)
Definition pwvd_kw (levels : list R) (d : dict) : res dict :=
  wvd_kw levels (match find "kind" d with Some _ => d | None => setk "kind" (KStr "contour") d end).
(** affine.py 109-118; [fy] is the default freq_y. *)
Definition affine_kw (fy : list R) (d : dict) : res dict :=
  call_with [("kind", find_or "kind" (KStr "contour") d); ("show_tf", find_or "show_tf" (KBool true) d); ("freq_y", find_or "freq_y" (KArr fy) d)]
    (drops ["kind"; "show_tf"; "threshold"; "freq_y"] d).
(** base.py 142-143, 166-177: what is left in kwargs after the named and popped arguments. *)
Definition base_rest (d : dict) : dict :=
  drops ["ax"; "kind"; "show"; "default_annotation"; "show_tf"; "scale"; "threshold"; "extent"; "contour_x"; "contour_y"; "levels"; "freq_x"; "freq_y"; "cmap"] d.
(** base.py 202-206, 232: the keywords of imshow and contour without show_tf. *)
Definition imshow_kw (ext cmap : kval) (d : dict) : res dict :=
  call_with [("aspect", KStr "auto"); ("cmap", cmap); ("origin", KStr "lower"); ("extent", ext)] (base_rest d).

(** Figures in the order of creation, each a list of axes, each a list of artists. *)
Definition figure := list (list artist).
Definition arts {A} (r : res A) (f : A -> list artist) : list artist := match r with Ok a => f a | Raise _ => [] end.
(** base.py 166-243, with the figures that exist before and after; [ax] is the argument
    ax, a figure and one of its axes. *)
Definition plot_on (ax : option (Z * Z)) (o : popts) (v : view) (figs : list figure) : list figure * res unit :=
  match (match o_extent o with
         | Some e => Ok e
         | None => a <- rmin_list (v_ts v) ;; b <- rmax_list (v_ts v) ;; c <- rmin_list (v_freqs v) ;; d <- rmax_list (v_freqs v) ;; Ok (a, b, c, d)
         end) with
  | Raise e => (figs, Raise e)
  | Ok ext =>
    let N := zlen (v_sig v) in
    if o_tf o then
      match plot_tfr o ext v with
      | Raise e => (figs ++ [[[]]], Raise e)
      | Ok main =>
        let sig := Line (map IZR (arange 0 N)) (map Re (v_sig v)) in
        match plot_spectrum o v with
        | Raise e =>
          (* the line is drawn before its first ordinate is read *)
          (figs ++ [[main; [sig]; match e with IndexError => [Line (match o_freq_x o with Some x => x | None => prefix (rev (spectrum_of v)) (N / 2) end) []] | _ => [] end]], Raise e)
        | Ok spec => (figs ++ [[main; [sig]; [spec]]], Ok tt)
        end
      end
    else
      match o_kind o with
      | Kcmap => let '(t0, t1, f0, f1) := ext in (figs ++ [[[Image t0 t1 f0 f1 (v_tfr v)]]], Ok tt)
      | Ksurf =>
        let a := mesh (map IZR (arange 0 N)) (axis 0 (1 / 2) N) (map (map Rabs) (v_tfr v)) in
        (figs ++ [[]; [arts a (fun m => [m])]], a <- a ;; Ok tt)
      | Kwire =>
        let a := mesh (map IZR (arange 0 N)) (axis 0 (1 / 2) N) (map (map Rabs) (v_tfr v)) in
        (figs ++ [[arts a (fun m => [m])]], a <- a ;; Ok tt)
      | _ =>
        let a := contour (v_ts v) (axis 0 (1 / 2) (zlen (v_tfr v))) (v_tfr v) None in
        (figs ++ [[arts a (fun m => [m])]], a <- a ;; Ok tt)
      end
  end.
