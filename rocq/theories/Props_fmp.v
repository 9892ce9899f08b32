(** Property theorems, restated from T_fmp.v (generated by tools/genprops.py).
    C162: fmpower with an integer degree. *)

From Coq Require Import Reals ZArith List Lia Lra Bool.
From Coquelicot Require Import Coquelicot.
From Verif Require Import Py Scalars CSum DFT M_base Spec P_base M_putils M_dom M_reas T_reas T_putils T_dom M_gen1 T_gen1 M_fmp T_gen2 T_fmp.
Import ListNotations.
Local Open Scope Z_scope.

(** When it returns. *)
Theorem C162_outcome : forall n k a1 b1 a2 b2 rest, 1 <= n ->
  fmpower_z n k (a1 :: b1 :: a2 :: b2 :: rest) =
  if Req_EM_T (a1 * a2) 0 then Raise ZeroDivisionError else if Req_EM_T (powerRZ a1 k) (powerRZ a2 k) then Raise ZeroDivisionError else if k =? 1 then Raise ZeroDivisionError else if 2 <=? k then Raise ValueError else
  let c := ((b2 - b1) / (a2 ^ Z.to_nat (- k) - a1 ^ Z.to_nat (- k)))%R in let f0 := (b1 - c * a1 ^ Z.to_nat (- k))%R in
  Ok (map (fun t => cis (2 * PI * (f0 * IZR t + c / (1 - IZR k) * IZR t ^ Z.to_nat (1 - k)))) (arange 0 n), map (fun t => f0 + c * IZR t ^ Z.to_nat (- k))%R (arange 0 n)).
Proof. exact c162_outcome. Qed.
Print Assumptions C162_outcome.

(** So a degree of 0 or more with two points always raises. *)
Theorem C162_nonneg : forall n k a1 b1 a2 b2 rest, 1 <= n -> 0 <= k -> exists e, fmpower_z n k (a1 :: b1 :: a2 :: b2 :: rest) = Raise e.
Proof. exact c162_nonneg. Qed.
Print Assumptions C162_nonneg.

(** The law passes through points with positive instants; a negative instant is met, at its absolute value, for even degrees only. *)
Theorem C162_points : forall n k a1 b1 a2 b2 rest x law, 1 <= n -> fmpower_z n k (a1 :: b1 :: a2 :: b2 :: rest) = Ok (x, law) -> k < 0 /\ zlen x = n /\ zlen law = n /\
  exists f0 c, (forall t, 0 <= t < n -> rnth law t = (f0 + c * IZR t ^ Z.to_nat (- k))%R) /\ (f0 + c * a1 ^ Z.to_nat (- k) = b1)%R /\ (f0 + c * a2 ^ Z.to_nat (- k) = b2)%R /\
  (forall m, 0 <= m < n -> a1 = IZR m -> rnth law m = b1) /\ (forall m, 0 <= m < n -> a2 = IZR m -> rnth law m = b2) /\
  (forall m, 0 <= m < n -> a1 = (- IZR m)%R -> rnth law m = if Z.even k then b1 else (b1 + 2 * c * IZR m ^ Z.to_nat (- k))%R).
Proof. exact c162_points. Qed.
Print Assumptions C162_points.

(** The law is the derivative of the phase, whatever the coefficients. *)
Theorem C162_phase : forall n k cs x law, k < 0 -> fmpower_z n k cs = Ok (x, law) -> exists p q : R -> R, (forall t, is_derive p t (q t)) /\ p 0%R = 0%R /\ x = map (fun t => cis (2 * PI * p (IZR t))) (arange 0 n) /\ law = map (fun t => q (IZR t)) (arange 0 n).
Proof. exact c162_phase. Qed.
Print Assumptions C162_phase.

(** With positive points this is [fmpower] of C57. *)
Theorem C162_agrees : forall n k a1 b1 a2 b2 rest x law, 1 <= n -> (0 < a1)%R -> (0 < a2)%R -> fmpower_z n k (a1 :: b1 :: a2 :: b2 :: rest) = Ok (x, law) -> fmpower n (DInt k) (a1 :: b1 :: a2 :: b2 :: rest) = Ok (map Some x, map Some law).
Proof. exact c162_agrees. Qed.
Print Assumptions C162_agrees.

(** Degree -1 is a linear law: (1, 0.1), (3, 0.3) gives t/10; (-1, 0.1) in place of the first, 0.2 at 1. *)
Example C162_example : (exists x law, fmpower_z 4 (-1) [1; 1 / 10; 3; 3 / 10]%R = Ok (x, law) /\ rnth law 2 = (1 / 5)%R) /\ (exists x law, fmpower_z 4 (-1) [-1; 1 / 10; 3; 3 / 10]%R = Ok (x, law) /\ rnth law 1 = (1 / 5)%R) /\
  fmpower_z 4 2 [1; 1 / 10; 3; 3 / 10]%R = Raise ValueError.
Proof. exact c162_example. Qed.
