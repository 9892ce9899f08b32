(** The arrays behind a representation object: which array [self.tfr] is, which array [run]
    hands out, and which arrays later calls write into (linear.py 52-75, 95-103; cohen.py 22-44,
    51-67, 98-117, 133-144, 151-187, 194-218).
    An array is an address; a matrix is a list of columns.  numpy facts used: [a[i, c] = v] writes
    in place and leaves the array as it was if an index is out of range; [a[:h, :]] and
    [np.real(a)] are views; [np.fft.fft], [np.abs] make new arrays (the array np.real is a view
    of, cohen.py 59, 107, 169, is reachable only through that view and gets one address).  [plot] with default
    keyword arguments except [threshold]; drawing itself reads the arrays only. *)
From Coq Require Import Reals ZArith List Lia Lra Bool.
From Coquelicot Require Import Coquelicot.
From Verif Require Import Py Scalars CSum DFT M_base M_stft M_cohen M_state.
Import ListNotations.
Local Open Scope Z_scope.

Inductive cls := KStft | KSpec | KWvd | KPwvd | KMh | KPage | KPmh.
Inductive op := Run | Plot (th : R).

(** The object and the memory.  [s_rows = Some h]: [self.tfr] is the view [a[:h, :]] of the array
    at [s_at], otherwise that array. *)
Record st := mkst {
  s_sig : list C; s_ts : tsarr; s_n : Z; s_win : list C; s_freqs : list R;
  s_at : nat; s_rows : option Z; s_real : bool; s_mem : list (list (list C)) }.
Definition cell (s : st) (a : nat) : list (list C) := nth a (s_mem s) [].
Definition view (s : st) : list (list C) :=
  match s_rows s with None => cell s (s_at s) | Some h => first_rows h (cell s (s_at s)) end.
Definition obj (s : st) : rep C := mkrep (s_sig s) (s_ts s) (s_n s) (s_win s) (s_freqs s) (view s) (s_real s).

(** base.py 22-50: the constructor allocates the matrix of zeros. *)
Definition create (x : list C) (ts : option tsarr) (n : option Z) (w : option (list C)) : st :=
  let o := base_init x ts n w in
  mkst (r_sig o) (r_ts o) (r_n o) (r_win o) (r_freqs o) 0%nat None false [r_tfr o].

(** What a pass of the loop over the columns ends with; [Nan]: NaN has been written. *)
Inductive fate := Done | Err (e : exn) | Nan.
Definition pass (r : list C -> res (list C)) (col : list C) : list C * fate :=
  match r col with Ok c => (c, Done) | Raise e => (col, Err e) end.
(** cohen.py 159-167 and 197-210: the assignment comes before the statement that raises. *)
Definition two_pass (first whole : list C -> res (list C)) (col : list C) : list C * fate :=
  match whole col with
  | Ok c => (c, Done)
  | Raise e => (match first col with Ok c => c | Raise _ => col end, Err e)
  end.
Definition wvd_first (real : bool) (x : list C) (n icol : Z) (col : list C) : res (list C) :=
  let taumax := Z.min (Z.min icol (zlen x - icol - 1)) (round_half n - 1) in
  let tau := arange (- taumax) (taumax + 1) in
  xs <- take x (map (fun t => icol + t) tau) ;;
  cs <- take (map Cconj x) (map (fun t => icol - t) tau) ;;
  vs <- bcast Cmult xs cs ;;
  put col (map (remainder n) tau) (map (ncast real) vs).
Definition pwvd_first (real : bool) (x w : list C) (n icol : Z) (col : list C) : res (list C) :=
  let lh := win_lh w in
  let taumax := Z.min (Z.min icol (zlen x - icol - 1)) (Z.min (round_half n) lh) in
  let tau := arange (- taumax) (taumax + 1) in
  ws <- take w (map (fun t => lh + t) tau) ;;
  xs <- take x (map (fun t => icol + t) tau) ;;
  wx <- bcast Cmult ws xs ;;
  ys <- take x (map (fun t => icol - t) tau) ;;
  vs <- bcast Cmult wx (map Cconj ys) ;;
  put col (map (remainder n) tau) (map (ncast real) vs).
Definition spec_pass (real : bool) (x w : list C) (n ti : Z) (col : list C) : list C * fate :=
  match spec_col real x w n ti col with
  | Ok (Some c) => (c, Done)
  | Ok None => (col, Nan)
  | Raise e => (col, Err e)
  end.
(** A loop over timestamps: with float timestamps its first pass raises. *)
Definition per_ts {A} (ts : tsarr) (body : Z -> A) (bad : A) : list A :=
  match ts with TsI l => map body l | TsF l => map (fun _ => bad) l end.
Definition fails (col : list C) : list C * fate := (col, Err IndexError).
Definition passes (k : cls) (s : st) : list (list C -> list C * fate) :=
  let x := s_sig s in let w := s_win s in let n := s_n s in let real := s_real s in
  let cols := arange 0 (ts_len (s_ts s)) in
  match k with
  | KStft => map (fun c => pass (stft_col real x w n c)) cols
  | KWvd => map (fun c => two_pass (wvd_first real x n c) (wvd_col real x n c)) cols
  | KPwvd => map (fun c => two_pass (pwvd_first real x w n c) (pwvd_col real x w n c)) cols
  | KPmh => map (fun c => pass (pmh_col real x w n c)) cols
  | KMh => per_ts (s_ts s) (fun ti => pass (mh_col real x n ti)) fails
  | KPage => per_ts (s_ts s) (fun ti => pass (page_col real x n ti)) fails
  | KSpec => per_ts (s_ts s) (spec_pass real x w n) fails
  end.
Fixpoint loop (ps : list (list C -> list C * fate)) (cols : list (list C)) : list (list C) * fate :=
  match ps, cols with
  | p :: ps', c :: cs =>
    match p c with
    | (c', Done) => let '(cs', f) := loop ps' cs in (c' :: cs', f)
    | (c', f) => (c' :: cs, f)
    end
  | _, _ => (cols, Done)
  end.
(** cohen.py 154-156 raise before the loop. *)
Definition precheck (k : cls) (s : st) : option exn :=
  match k with KWvd => if ts_len (s_ts s) =? zlen (s_sig s) then None else Some ValueError | _ => None end.
(** The array made after the loop, and whether it is real. *)
Definition finish (k : cls) (cols : list (list C)) : list (list C) :=
  match k with
  | KStft | KPwvd | KPmh => map fft cols
  | KWvd | KMh | KPage => map (fun c => map nre (fft c)) cols
  | KSpec => map (fun c => map (fun z => RtoC (Cmod z ^ 2)) (fft c)) cols
  end.
Definition finish_real (k : cls) : bool := match k with KStft | KPwvd | KPmh => false | _ => true end.
(** Writing the columns of [self.tfr] back, through the view if it is one. *)
Definition write (s : st) (cols : list (list C)) : list (list (list C)) :=
  upd (s_mem s) (s_at s)
    (match s_rows s with
     | None => cols
     | Some h => zipw (fun c old => c ++ skipn (Z.to_nat h) old) cols (cell s (s_at s))
     end).
Definition with_mem (s : st) (mem : list (list (list C))) : st :=
  mkst (s_sig s) (s_ts s) (s_n s) (s_win s) (s_freqs s) (s_at s) (s_rows s) (s_real s) mem.
Definition fresh (s : st) (freqs : list R) (real : bool) (mem : list (list (list C))) (m : list (list C)) : st :=
  mkst (s_sig s) (s_ts s) (s_n s) (s_win s) freqs (length mem) None real (mem ++ [m]).
(** [run]: the address of the array handed out (for the pseudo Wigner-Ville class its real view,
    cohen.py 213).  No state is given when a NaN is written. *)
Definition run_step (k : cls) (s : st) : option (st * res nat) :=
  match precheck k s with
  | Some e => Some (s, Raise e)
  | None =>
    let '(cols, f) := loop (passes k s) (view s) in
    let mem := write s cols in
    match f with
    | Done => Some (fresh s (match k with KWvd => wvd_freqs (s_n s) | _ => s_freqs s end) (finish_real k) mem (finish k cols), Ok (length mem))
    | Err e => Some (with_mem s mem, Raise e)
    | Nan => None
    end
  end.
(** What the caller sees in an array handed out. *)
Definition seen (k : cls) (s : st) (a : nat) : list (list C) :=
  match k with KPwvd => map (map nre) (cell s a) | _ => cell s a end.

(** [plot(threshold=th)].  An empty matrix raises ValueError in np.amax, after the assignments. *)
Definition plot_fresh (s : st) (freqs : list R) (th : R) (m : list (list C)) : st * res nat :=
  match threshold th m with
  | Ok t => (fresh s freqs true (s_mem s) t, Ok 0%nat)
  | Raise e => (fresh s freqs true (s_mem s) m, Raise e)
  end.
Definition plot_step (k : cls) (th : R) (s : st) : st * res nat :=
  let h := s_n s / 2 in
  match k with
  | KStft => plot_fresh s (prefix (s_freqs s) h) th (sqmod_tfr (first_rows h (view s)))
  | KSpec =>
    let s' mem := mkst (s_sig s) (s_ts s) (s_n s) (s_win s) (prefix (s_freqs s) h) (s_at s) (Some h) (s_real s) mem in
    match amax (first_rows h (view s)) with
    | Ok m => (s' (upd (s_mem s) (s_at s) (cut_first h (m * th) (cell s (s_at s)))), Ok 0%nat)
    | Raise e => (s' (s_mem s), Raise e)
    end
  | KPage => (s, Raise TypeError)
  | KMh | KPmh =>
    let rows := match view s with c :: _ => zlen c | [] => s_n s end in
    plot_fresh s (s_freqs s) th (sqmod_tfr (first_rows (rows / 2) (view s)))
  | KWvd | KPwvd => plot_fresh s (s_freqs s) th (abs_tfr (view s))
  end.
Definition step (k : cls) (p : op) (s : st) : option (st * res nat) :=
  match p with Run => run_step k s | Plot th => Some (plot_step k th s) end.
(** A history of calls, each made whether or not the previous ones raised. *)
Fixpoint history (k : cls) (ps : list op) (s : st) : option st :=
  match ps with
  | [] => Some s
  | p :: ps' => match step k p s with Some (s', _) => history k ps' s' | None => None end
  end.
