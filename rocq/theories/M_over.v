(** The range of double precision numbers in tftb/generators: amexpos
    (amplitude_modulated.py 69-81) and klauder (misc.py 141-153) with overflow to
    infinity and underflow to zero.  Inside the range the arithmetic is exact. *)
From Coq Require Import Reals ZArith List Lia Lra Bool.
From Coquelicot Require Import Coquelicot.
From Flocq Require Import Core.
From Verif Require Import Py Scalars CSum DFT M_base M_utils M_putils M_dom M_gen1 M_gen2 M_gen3.
Import ListNotations.
Local Open Scope Z_scope.

Inductive xnum := Fin (v : R) | Inf (negative : bool) | NaN.

(** Magnitudes from [huge] on round to infinity, those up to [tiny] to zero. *)
Definition huge : R := (bpow radix2 1024 - bpow radix2 970)%R.
Definition tiny : R := bpow radix2 (-1075).
Definition negb_of (v : R) : bool := if Rlt_dec v 0 then true else false.
Definition rng (v : R) : xnum :=
  if Rle_dec huge (Rabs v) then Inf (negb_of v) else if Rle_dec (Rabs v) tiny then Fin 0 else Fin v.
(** IEEE division of finite numbers by zero (+0) or by a number for which the quotient
    is in range. *)
Definition xdiv (a b : R) : xnum :=
  if Req_EM_T b 0 then if Req_EM_T a 0 then NaN else Inf (negb_of a) else Fin (a / b).
Definition xexp (a : xnum) : xnum :=
  match a with Fin v => rng (exp v) | Inf true => Fin 0 | Inf false => Inf false | NaN => NaN end.
(** Product with the Boolean [b], read as 0.0 or 1.0. *)
Definition xmulb (a : xnum) (b : bool) : xnum :=
  match a with
  | Fin v => Fin (if b then v else 0)
  | Inf s => if b then Inf s else NaN
  | NaN => NaN
  end.

(** amplitude_modulated.py 75-80 *)
Definition bilateral_x (s d : R) : xnum := xexp (xdiv (- sqrt (2 * PI) * Rabs d) s).
Definition unilateral_x (s d : R) : xnum :=
  xmulb (xexp (xdiv (- sqrt PI * d) s)) (if Rle_dec 0 d then true else false).
Definition amexpos_x (n : Z) (t0 spread : option R) (bilateral : bool) : res (list xnum) :=
  '(t, s) <- am_args n t0 spread ;;
  Ok (map (fun k => (if bilateral then bilateral_x else unilateral_x) s (IZR k - t)%R) (arange 0 n)).

(** misc.py 141-153 with attenuation >= 0, where nothing overflows: the two factors,
    their product and the squares summed by np.linalg.norm may underflow. *)
Definition flush (v : R) : R := if Rle_dec (Rabs v) tiny then 0%R else v.
Definition klauder_mod_x (att f0 f : R) : R :=
  flush (flush (exp (- 2 * PI * att * f)) * flush (Rpower f (2 * PI * att * f0 - 1 / 2))).
Definition klauder_x (n : Z) (att f0 : R) : res (list xnum) :=
  if n <=? 0 then Raise AssertionError
  else if (if Rlt_dec f0 (1 / 2) then if Rlt_dec 0 f0 then true else false else false) then
    let f := linspace1 0 (1 / 2) (n / 2 + 1) in
    let wave := 0%R :: skipn 1 (map (klauder_mod_x att f0) f) in
    let a := prefix wave (n / 2) in
    let b := rev (slice wave 1 (n / 2 + 1)) in
    let wave := a ++ b in
    if zlen wave =? 0 then Raise ValueError
    else
      let w := fftshift (ifft (map RtoC wave)) in
      let norm := sqrt (rsum w (fun z => flush (Re z ^ 2) + flush (Im z ^ 2))%R) in
      Ok (map (fun z => xdiv (Re z) norm) w)
  else Raise AssertionError.
