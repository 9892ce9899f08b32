(** The [sqmod] keyword of [plot] (linear.py 78-103; cohen.py 41-44, 62-67, 110-117, 173-187), over
    the arrays of M_heap.  numpy facts used beyond those of M_heap: complex numbers are ordered by
    real part, then by imaginary part, by [np.amax] and by [<=] alike; matplotlib's [imshow] refuses
    an array of complex numbers with TypeError; [plot_surface] and [plot_wireframe] are given
    [np.abs(tfr)] (base.py 207, 217).  What [contour] does with complex numbers is left open. *)
From Coq Require Import Reals ZArith List Lia Lra Bool.
From Coquelicot Require Import Coquelicot.
From Verif Require Import Py Scalars CSum DFT M_base M_stft M_cohen M_state M_heap.
Import ListNotations.
Local Open Scope Z_scope.

(** numpy's [a <= b] on complex numbers. *)
Definition lexb (a b : C) : bool :=
  if Rlt_dec (Re a) (Re b) then true else if Req_EM_T (Re a) (Re b) then (if Rle_dec (Im a) (Im b) then true else false) else false.
Definition camax (m : list (list C)) : res C :=
  match concat m with
  | [] => Raise ValueError
  | z :: l => Ok (fold_left (fun a v => if lexb a v then v else a) l z)
  end.
(** [tfr[tfr <= t] = 0.0] on the first h rows. *)
Definition ccut_first (h : Z) (t : C) (m : list (list C)) : list (list C) :=
  map (fun c => map (fun z => if lexb z t then RtoC 0 else z) (firstn (Z.to_nat h) c) ++ skipn (Z.to_nat h) c) m.
(** linear.py 95-100, cohen.py 111-115 without the square: [self.tfr] becomes the view of its first
    h rows and is thresholded in place. *)
Definition plot_raw (h : Z) (freqs : list R) (th : R) (s : st) : st * res nat :=
  let s' mem := mkst (s_sig s) (s_ts s) (s_n s) (s_win s) freqs (s_at s) (Some h) (s_real s) mem in
  match camax (first_rows h (view s)) with
  | Ok m => (s' (upd (s_mem s) (s_at s) (ccut_first h (m * RtoC th)%C (cell s (s_at s)))), Ok 0%nat)
  | Raise e => (s' (s_mem s), Raise e)
  end.
(** [plot(sqmod=sq, threshold=th)] up to the drawing.  Spectrogram.plot passes [sqmod] on a second
    time (cohen.py 43): TypeError before anything is done.  Page fails at its slice. *)
Definition plot_sq (k : cls) (sq : bool) (th : R) (s : st) : st * res nat :=
  match k with
  | KStft => if sq then plot_step KStft th s else plot_raw (s_n s / 2) (prefix (s_freqs s) (s_n s / 2)) th s
  | KMh | KPmh =>
    if sq then plot_step k th s
    else plot_raw ((match view s with c :: _ => zlen c | [] => s_n s end) / 2) (s_freqs s) th s
  | KSpec | KPage => (s, Raise TypeError)
  | KWvd | KPwvd => plot_fresh s (s_freqs s) th (if sq then sqmod_tfr (view s) else abs_tfr (view s))
  end.

(** base.py 190-217, show_tf = False: the matrix handed to matplotlib, [None] where left open. *)
Inductive drawing := Dcmap | Dmesh | Dcontour.
Definition is_complex (s : st) : bool := negb (s_real s).
Definition draw (d : drawing) (s : st) : option (res (list (list R))) :=
  match d with
  | Dcmap => if is_complex s then Some (Raise TypeError) else Some (Ok (map (map Re) (view s)))
  | Dmesh => Some (Ok (map (map Cmod) (view s)))
  | Dcontour => if is_complex s then None else Some (Ok (map (map Re) (view s)))
  end.
(** The whole call: the state it leaves and what is drawn. *)
Definition plot_call (k : cls) (sq : bool) (th : R) (d : drawing) (s : st) : st * option (res (list (list R))) :=
  match plot_sq k sq th s with
  | (s', Ok _) => (s', draw d s')
  | (s', Raise e) => (s', Some (Raise e))
  end.
