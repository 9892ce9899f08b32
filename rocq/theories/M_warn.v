(** Model of the UserWarning issued by tftb/generators/frequency_modulated.py:
    fmhyp lines 64-68, fmpar lines 171-175, fmpower lines 209-213.  [true]
    stands for one call of warnings.warn with UserWarning.  A filter that turns
    warnings into exceptions is not modelled. *)
From Coq Require Import Reals ZArith List Lia Lra Bool.
From Coquelicot Require Import Coquelicot.
From Verif Require Import Py Scalars CSum M_base M_gen1.
Import ListNotations.
Local Open Scope Z_scope.

(** a, b = iflaw < 0, iflaw > 0.5; one entry of np.logical_or(a, b). *)
Definition aliased (f : R) : bool := if Rlt_dec f 0 then true else if Rlt_dec (1 / 2) f then true else false.
(** np.any(aliasing). *)
Definition aliasing (law : list R) : bool := existsb aliased law.

(** fmhyp, lines 57-72: what is returned, and whether the warning is issued. *)
Definition fmhyp_w (n : Z) (a1 b1 a2 b2 : R) : res (list C * list R * bool) :=
  '(x, law) <- fmhyp n a1 b1 a2 b2 ;;
  Ok (x, law, aliasing law).

(** fmpar, lines 167-177. *)
Definition fmpar_w (n : Z) (a0 a1 a2 : R) : list C * list R * bool :=
  let '(x, law) := fmpar n a0 a1 a2 in (x, law, aliasing law).

(** fmpower, lines 199-216.  An entry that is not a number in M_gen1 is
    f0 + c * inf: plus or minus infinity when c is not 0, and then aliased; NaN
    when c = 0, and then not (every comparison with NaN is false). *)
Definition fmpower_w (n : Z) (k : degree) (cs : list R) : res (list (option C) * list (option R) * bool) :=
  '(f0, c) <- pow_coeffs (dval k) cs ;;
  '(x, law) <- fmpower n k cs ;;
  Ok (x, law, existsb (fun v => match v with Some f => aliased f | None => if Req_EM_T c 0 then false else true end) law).
