(** doppler (generators/misc.py 98-120) with the infinities and NaNs of numpy:
    s_freq = 0 and v_wave = 0 included.  Zeros are +0, finite arithmetic is exact. *)
From Coq Require Import Reals ZArith List Lia Lra Bool.
From Coquelicot Require Import Coquelicot.
From Flocq Require Import Core.
From Verif Require Import Py Scalars CSum DFT M_base M_utils M_putils M_dom M_gen1 M_gen2 M_gen3 M_over.
Import ListNotations.
Local Open Scope Z_scope.

(** IEEE 754 arithmetic on finite numbers, infinities and NaN. *)
Definition xneg (a : xnum) : xnum := match a with Fin v => Fin (- v) | Inf s => Inf (negb s) | NaN => NaN end.
Definition xadd (a b : xnum) : xnum :=
  match a, b with
  | Fin u, Fin v => Fin (u + v)
  | NaN, _ | _, NaN => NaN
  | Inf s, Inf t => if Bool.eqb s t then Inf s else NaN
  | Inf s, Fin _ | Fin _, Inf s => Inf s
  end.
Definition xsub (a b : xnum) : xnum := xadd a (xneg b).
Definition xmul (a b : xnum) : xnum :=
  match a, b with
  | Fin u, Fin v => Fin (u * v)
  | NaN, _ | _, NaN => NaN
  | Inf s, Inf t => Inf (xorb s t)
  | Inf s, Fin v | Fin v, Inf s => if Req_EM_T v 0 then NaN else Inf (xorb s (negb_of v))
  end.
Definition xquot (a b : xnum) : xnum :=
  match a, b with
  | Fin u, Fin v => xdiv u v
  | NaN, _ | _, NaN => NaN
  | Inf s, Inf t => NaN
  | Inf s, Fin v => Inf (xorb s (negb_of v))
  | Fin _, Inf _ => Fin 0
  end.
Definition xsqrt (a : xnum) : xnum :=
  match a with Fin v => if Rlt_dec v 0 then NaN else Fin (sqrt v) | Inf false => Inf false | Inf true => NaN | NaN => NaN end.

(** Complex numbers: product, and the exponential for a real part that is 0 or NaN
    (C99: a NaN real part or an infinite imaginary part gives NaN). *)
Definition xc := (xnum * xnum)%type.
Definition xcmul (a b : xc) : xc :=
  (xsub (xmul (fst a) (fst b)) (xmul (snd a) (snd b)), xadd (xmul (fst a) (snd b)) (xmul (snd a) (fst b))).
Definition xcexp (a : xc) : xc :=
  match a with
  | (Fin u, Fin v) => (Fin (exp u * cos v), Fin (exp u * sin v))
  | (NaN, Fin v) => if Req_EM_T v 0 then (NaN, Fin 0) else (NaN, NaN)
  | _ => (NaN, NaN)
  end.

(** misc.py 112-119. *)
Definition dop_t (sf t0 : R) (k : Z) : xnum := xquot (Fin (IZR k - t0)) (Fin sf).
Definition dop_dist (dist v : R) (t : xnum) : xnum :=
  xsqrt (xadd (Fin (dist ^ 2)) (xmul (xmul (Fin v) t) (xmul (Fin v) t))).
Definition dop_fm (f0 c : R) (t d : xnum) : xc :=
  xcexp (xcmul (Fin 0, Fin (2 * PI * f0)) (xsub t (xquot d (Fin c)), Fin 0)).
Definition dop_law (sf f0 v c : R) (t d : xnum) : xnum :=
  xquot (xmul (xsub (Fin 1) (xquot (xquot (xmul (Fin (v ^ 2)) t) d) (Fin c))) (Fin f0)) (Fin sf).
Definition doppler_x (n : Z) (sf f0 dist v : R) (t0 : option R) (c : R) : res (list xc * option (list xnum) * list xnum) :=
  let t0 := match t0 with Some t => t | None => (IZR n / 2)%R end in
  if Rle_dec dist 0 then Raise TypeError
  else if Rlt_dec sf 0 then Raise TypeError
  else if Rlt_dec t0 1 then Raise TypeError
  else if Rlt_dec (IZR n) t0 then Raise TypeError
  else if Rlt_dec f0 0 then Raise TypeError
  else if Rlt_dec (sf / 2) f0 then Raise TypeError
  else if Rlt_dec v 0 then Raise TypeError
  else
    let tm := map (dop_t sf t0) (arange 1 (n + 1)) in
    let ds := map (dop_dist dist v) tm in
    Ok (zipw (dop_fm f0 c) tm ds,
        if Rlt_dec (Rabs f0) (bpow radix2 (-52)) then None else Some (map (fun d => xquot (Fin 1) (xsqrt d)) ds),
        zipw (dop_law sf f0 v c) tm ds).
