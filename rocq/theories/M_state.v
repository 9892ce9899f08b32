(** Effects of [plot] on a representation object (linear.py 95-103, cohen.py
    41-44, 62-67, 110-117, 173-187).  matplotlib drawing is not modelled: a
    [plot] here is what happens to the object before the picture is drawn, and
    the matrix that is drawn is the resulting [tfr].  Default keyword arguments
    except where a parameter is given. *)
From Coq Require Import Reals ZArith List Lia Lra Bool.
From Coquelicot Require Import Coquelicot.
From Verif Require Import Py Scalars CSum DFT M_base M_stft M_cohen.
Import ListNotations.
Local Open Scope Z_scope.

(** [tfr[:k, :]]. *)
Definition first_rows (k : Z) (tfr : list (list C)) : list (list C) := map (fun c => prefix c k) tfr.
(** [np.abs(tfr) ** 2], [np.abs(tfr)]. *)
Definition sqmod_tfr (tfr : list (list C)) : list (list C) := map (map (fun z => RtoC (Cmod z ^ 2))) tfr.
Definition abs_tfr (tfr : list (list C)) : list (list C) := map (map (fun z => RtoC (Cmod z))) tfr.
(** [np.amax] of a real matrix: ValueError when it is empty. *)
Definition amax (tfr : list (list C)) : res R :=
  match concat tfr with
  | [] => Raise ValueError
  | z :: l => Ok (fold_left (fun m v => Rmax m (Re v)) l (Re z))
  end.
(** [tfr[tfr <= t] = 0.0] on a real matrix. *)
Definition cut (t : R) (tfr : list (list C)) : list (list C) :=
  map (map (fun z => if Rle_dec (Re z) t then RtoC 0 else z)) tfr.
Definition threshold (th : R) (tfr : list (list C)) : res (list (list C)) :=
  m <- amax tfr ;; Ok (cut (m * th) tfr).

Definition with_tfr (o : rep C) (freqs : list R) (tfr : list (list C)) (real : bool) : rep C :=
  mkrep (r_sig o) (r_ts o) (r_n o) (r_win o) freqs tfr real.

(** linear.py 95-103 with [sqmod = True] (the default); [int(n / 2.0)] for n >= 0. *)
Definition stft_plot (th : R) (o : rep C) : res (rep C) :=
  let h := r_n o / 2 in
  t <- threshold th (sqmod_tfr (first_rows h (r_tfr o))) ;;
  Ok (with_tfr o (prefix (r_freqs o) h) t true).

(** cohen.py 41-44 -> linear.py 95-103 with [sqmod = False] on the real matrix
    of a Spectrogram.  [self.tfr[:h, :]] is a view of the array that [run]
    returned, and line 100 writes through it: the second component is the
    content of that array afterwards. *)
Definition cut_first (h : Z) (t : R) (tfr : list (list C)) : list (list C) :=
  map (fun c => map (fun z => if Rle_dec (Re z) t then RtoC 0 else z) (firstn (Z.to_nat h) c)
                ++ skipn (Z.to_nat h) c) tfr.
Definition spec_plot (th : R) (o : rep C) : res (rep C * list (list C)) :=
  let h := r_n o / 2 in
  m <- amax (first_rows h (r_tfr o)) ;;
  let arr := cut_first h (m * th) (r_tfr o) in
  Ok (with_tfr o (prefix (r_freqs o) h) (first_rows h arr) true, arr).

(** cohen.py 62-67: a slice bound that is a float raises TypeError. *)
Definition page_plot (o : rep C) : res (rep C) := Raise TypeError.

(** cohen.py 110-117 with [sqmod = True]. *)
Definition mh_plot (th : R) (o : rep C) : res (rep C) :=
  let rows := match r_tfr o with c :: _ => zlen c | [] => r_n o end in
  t <- threshold th (sqmod_tfr (first_rows (rows / 2) (r_tfr o))) ;;
  Ok (with_tfr o (r_freqs o) t true).

(** cohen.py 173-187 with [scale = "linear"]. *)
Definition wvd_plot (sqmod : bool) (th : R) (o : rep C) : res (rep C) :=
  t <- threshold th (if sqmod then sqmod_tfr (r_tfr o) else abs_tfr (r_tfr o)) ;;
  Ok (with_tfr o (r_freqs o) t true).
