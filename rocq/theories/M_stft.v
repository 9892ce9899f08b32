(** Model of tftb/processing/linear.py, class ShortTimeFourierTransform. *)
From Coq Require Import Reals ZArith List Lia Lra Bool.
From Coquelicot Require Import Coquelicot.
From Verif Require Import Py Scalars CSum DFT M_base.
Import ListNotations.
Local Open Scope Z_scope.

(** linear.py 58: half-length of the window. *)
Definition win_lh {T} (w : list T) : Z := (zlen w - 1) / 2.

(** linear.py 68-73, one pass of the loop over columns: [col] is the current
    content of [self.tfr[:, icol]], an array of real dtype if [real]. *)
Definition stft_col {T} `{Num T} (real : bool) (x w : list T) (n icol : Z) (col : list T) : res (list T) :=
  let lh := win_lh w in
  let rangemin := Z.min (round_half n) lh in
  let start := - Z.min rangemin (icol - 1) in
  let stop := Z.min rangemin (zlen x - icol) in
  let tau := arange start (stop + 1) in
  let index := map (fun t => (n + t) mod n) tau in
  xs <- take x (map (fun t => icol + t - 1) tau) ;;
  ws <- take (map nconj w) (map (fun t => lh + t) tau) ;;
  vs <- bcast nmul xs ws ;;
  put col index (map (ncast real) vs).

(** linear.py 52-75 [run]: new content of [self.tfr]. *)
Definition stft_tfr {T} `{Num T} (real : bool) (x w : list T) (n : Z) (tfr : list (list T)) : res (list (list T)) :=
  cols <- mapM (fun '(icol, col) => stft_col real x w n icol col) (enum tfr) ;;
  Ok (map fft cols).

(** [run] on the object. *)
Definition stft_run (o : rep C) : res (rep C) :=
  tfr <- stft_tfr (r_real o) (r_sig o) (r_win o) (r_n o) (r_tfr o) ;;
  Ok (mkrep (r_sig o) (r_ts o) (r_n o) (r_win o) (r_freqs o) tfr false).

(** A 4-point run computed by the model on Gaussian integers:
    x = [1, i, 2, -1], w = [1, 1, 1], n = 4. *)
Example stft_exec :
  stft_tfr false [(1,0);(0,1);(2,0);(-1,0)] [(1,0);(1,0);(1,0)] 4 (zeros2 4 4)
  = Ok [[(1,0);(0,-1);(-1,0);(0,1)];
        [(1,1);(2,0);(1,-1);(0,0)];
        [(3,1);(0,0);(-3,1);(0,2)];
        [(1,1);(1,1);(3,-1);(3,-1)]].
Proof. reflexivity. Qed.

(** [ShortTimeFourierTransform(x, timestamps=ts, n_fbins=n, fwindow=w).run()];
    linear.py 23-50 only forwards to the base constructor. *)
Definition stft (x : list C) (ts : option tsarr) (n : option Z) (w : option (list C)) : res (rep C) :=
  stft_run (base_init x ts n w).
