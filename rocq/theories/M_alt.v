(** altes (generators/misc.py 27-38) with the infinities and NaNs of numpy, for all
    Python numbers.  Zeros are +0, finite arithmetic is exact and in range. *)
From Coq Require Import Reals ZArith List Lia Lra Bool.
From Coquelicot Require Import Coquelicot.
From Flocq Require Import Core.
From Verif Require Import Py Scalars CSum DFT M_base M_utils M_putils M_dom M_gen1 M_gen2 M_gen3 M_over M_ext.
Import ListNotations.
Local Open Scope Z_scope.

Definition xlog (a : xnum) : xnum :=
  match a with
  | Fin v => if Rlt_dec v 0 then NaN else if Req_EM_T v 0 then Inf true else Fin (ln v)
  | Inf false => Inf false
  | Inf true | NaN => NaN
  end.
Definition xexp0 (a : xnum) : xnum :=
  match a with Fin v => Fin (exp v) | Inf true => Fin 0 | Inf false => Inf false | NaN => NaN end.
Definition xcos (a : xnum) : xnum := match a with Fin v => Fin (cos v) | _ => NaN end.
Definition xsq (a : xnum) : xnum := xmul a a.
Definition xsum (l : list xnum) : xnum := fold_right xadd (Fin 0) l.
(** np.linspace(a, b, m): k * step + a, the last entry replaced by b. *)
Definition xlinspace (a b : xnum) (m : Z) : list xnum :=
  let step := xquot (xsub b a) (Fin (IZR (m - 1))) in
  map (fun k => if (k =? m - 1) && (1 <? m) then b else xadd (xmul (Fin (IZR k)) step) a) (arange 0 m).

(** Lines 27-38: fmax / fmin is a division of Python numbers, the others are numpy's. *)
Definition altes_x (n : Z) (fmin fmax alpha : R) : res (list xnum) :=
  if Req_EM_T fmin 0 then Raise ZeroDivisionError
  else
    let la := xlog (Fin alpha) in
    let g := xexp0 (xquot (xsq (xlog (Fin (fmax / fmin)))) (xmul (Fin 8) la)) in
    let nu0 := xsqrt (Fin (fmin * fmax)) in
    let lg := xlog g in
    let beta := xsqrt (xmul (xmul (Fin 2) lg) la) in
    let t0 := xquot (Fin (IZR n)) (xsub (xexp0 beta) (xexp0 (xneg beta))) in
    let t1 := xmul t0 (xexp0 (xneg beta)) in
    let t2 := xmul t0 (xexp0 beta) in
    let b := xmul (xmul (xmul (xneg t0) nu0) g) lg in
    if n + 1 <? 0 then Raise ValueError
    else
      let t := prefix (xlinspace t1 t2 (n + 1)) n in
      let x := map (fun t =>
        let u := xlog (xquot t t0) in
        xmul (xexp0 (xquot (xneg (xsq u)) (xmul (Fin 2) lg)))
             (xcos (xquot (xmul (xmul (Fin (2 * PI)) b) u) lg))) t in
      let norm := xsqrt (xsum (map xsq x)) in
      Ok (map (fun v => xquot v norm) x).
