(** Model of tftb/processing/ambiguity.py: [narrow_band] (lines 100-139).
    Lags are integers (a float array holding integers is truncated to them on
    line 127). [wide_band] (lines 23-97) is not modelled here. *)
From Coq Require Import Reals ZArith List Lia Lra Bool.
From Coquelicot Require Import Coquelicot.
From Verif Require Import Py Scalars CSum DFT M_base.
Import ListNotations.
Local Open Scope Z_scope.

(** Lines 114-119: default lags. *)
Definition nb_lags (n : Z) : list Z :=
  if n mod 2 =? 0 then arange (- (n / 2) + 1) (n / 2)
  else arange (- ((n - 1) / 2)) ((n + 1) / 2).

(** Lines 127-129: one column before the transform. *)
Definition nb_col {T} `{Num T} (x : list T) (nf taui : Z) : res (list T) :=
  let n := zlen x in
  let t := arange (Z.abs taui) (n - Z.abs taui) in
  a <- take x (map (fun k => k + taui) t) ;;
  b <- take x (map (fun k => k - taui) t) ;;
  vs <- bcast nmul a (map nconj b) ;;
  put (zeros nf) t vs.

(** Lines 132-138: reordering of the rows. *)
Definition nb_rows (nf : Z) : list Z :=
  let h := (nf + nf mod 2) / 2 in arange h nf ++ arange 0 h.

(** Lines 135-137. *)
Definition nb_xi (nf : Z) : list R :=
  let xi1 := - (nf - nf mod 2) / 2 in
  let xi2 := (nf + nf mod 2) / 2 - 1 in
  map (fun k => (IZR k / IZR nf)%R) (arange xi1 (xi2 + 1)).

(** Lines 100-139. The columns of the matrix, the lags and the Doppler axis. *)
Definition narrow_band {T} `{Num T} (x : list T) (lag : option (list Z)) (nf : option Z)
  : res (list (list T) * list Z * list R) :=
  let n := zlen x in
  let lag := match lag with Some l => l | None => nb_lags n end in
  let nf := match nf with Some k => k | None => n end in
  if nf <? 0 then Raise ValueError
  else cols <- mapM (nb_col x nf) lag ;;
       if nf =? 0 then Raise ValueError      (* FFT of 0 points *)
       else naf <- mapM (fun c => take (fft c) (nb_rows nf)) cols ;;
            Ok (naf, lag, nb_xi nf).

(** x = [1, i, 2, 0], default lags, 4 bins, on Gaussian integers. *)
Example narrow_band_exec :
  match narrow_band [(1,0);(0,1);(2,0);(0,0)] None (Some 4) with
  | Ok (m, l, _) => Some (m, l)
  | _ => None
  end = Some ([[(-2,0);(0,2);(2,0);(0,-2)]; [(4,0);(-3,1);(6,0);(-3,-1)]; [(-2,0);(0,2);(2,0);(0,-2)]], [-1; 0; 1]).
Proof. vm_compute. reflexivity. Qed.
