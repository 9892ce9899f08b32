(** fmpower with an integer degree and points of any sign,
    tftb/generators/frequency_modulated.py 199-216.  The coefficients are Python
    numbers, so a division by zero raises.  Extends [fmpower] of M_gen1. *)
From Coq Require Import Reals ZArith List Bool.
From Coquelicot Require Import Coquelicot.
From Verif Require Import Py Scalars M_gen1.
Import ListNotations.
Local Open Scope Z_scope.

(** Line 204, 1.0 / (p ** k): 0 ** 0 is 1, 0 to a negative power raises, and so does 1.0 / 0. *)
Definition pyinv (a : R) (k : Z) : res R :=
  if Req_EM_T a 0 then if k =? 0 then Ok 1%R else Raise ZeroDivisionError else Ok (1 / powerRZ a k)%R.
(** Lines 199-205. *)
Definition pow_coeffs_z (k : Z) (cs : list R) : res (R * R) :=
  match cs with
  | [] | [_] => Raise UnboundLocalError
  | [f0; c] => Ok (f0, c)
  | [_; _; _] => Raise IndexError
  | a1 :: b1 :: a2 :: b2 :: _ =>
      u2 <- pyinv a2 k ;; u1 <- pyinv a1 k ;;
      if Req_EM_T (u2 - u1) 0 then Raise ZeroDivisionError
      else let c := ((b2 - b1) / (u2 - u1))%R in Ok (b1 - c / powerRZ a1 k, c)%R
  end.
(** Lines 206-216.  Line 207 divides by 1 - k and raises integers to 1 - k, line 208 to - k;
    numpy refuses non-empty integer arrays to negative integer powers. *)
Definition fmpower_z (n k : Z) (cs : list R) : res (list C * list R) :=
  '(f0, c) <- pow_coeffs_z k cs ;;
  if k =? 1 then Raise ZeroDivisionError
  else if (1 <? k) && (0 <? n) then Raise ValueError
  else
    let ts := arange 0 n in
    Ok (map (fun t => cis (2 * PI * (f0 * IZR t + c / (1 - IZR k) * IZR t ^ Z.to_nat (1 - k)))) ts,
        map (fun t => f0 + c * IZR t ^ Z.to_nat (- k))%R ts).
