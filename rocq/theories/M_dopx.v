(** dopnoise (generators/noise.py 100-124) with the infinities and NaNs of numpy:
    s_freq, distance and c may be zero.  Zeros are +0, finite arithmetic is exact. *)
From Coq Require Import Reals ZArith List Lia Lra Bool.
From Coquelicot Require Import Coquelicot.
From Flocq Require Import Core.
From Verif Require Import Py Scalars CSum DFT M_base M_utils M_putils M_dom M_gen1 M_gen2 M_gen3 M_over M_ext M_alt.
Import ListNotations.
Local Open Scope Z_scope.

(** Lines 117-118. *)
Fixpoint ar_filter_x (x law : list xnum) (x2 x1 y2 y1 : xnum) : list xnum :=
  match x, law with
  | v :: x', f :: law' =>
      let y := xadd (xsub v (xmul (Fin (81 / 100)) (xadd x2 y2))) (xmul (xmul (Fin (2 * (9 / 10))) (xcos (xmul (Fin (2 * PI)) f))) y1) in
      y :: ar_filter_x x' law' x1 v y1 y
  | _, _ => []
  end.
Definition finite (a : xnum) : option R := match a with Fin v => Some v | _ => None end.
Fixpoint all_finite (l : list xnum) : option (list R) :=
  match l with
  | [] => Some []
  | a :: l' => match finite a, all_finite l' with Some v, Some r => Some (v :: r) | _, _ => None end
  end.
(** scipy.signal.hilbert: a transform with an infinite or NaN sample is NaN throughout
    ([None]). *)
Definition hilbert_x (y : list xnum) : res (option (list C)) :=
  match all_finite y with
  | Some y => z <- hilbert y ;; Ok (Some z)
  | None => Ok None
  end.
(** Lines 107-124.  A signal [None] is NaN throughout.  Where a distance is zero or
    infinite the law is not finite, so hilbert returns NaN and the division (119)
    keeps it. *)
Definition dopnoise_x (rand : Z -> list R) (n : Z) (sf ft dist v : R) (tc : option R) (c : R) : res (option (list C) * list xnum) :=
  let tc := match tc with Some t => t | None => IZR (Zfloor (IZR n / 2)) end in
  x <- draw rand (2 * n) ;;
  let tm := map (fun k => xquot (Fin (IZR k - tc - IZR n)) (Fin sf)) (arange 1 (2 * n + 1)) in
  let ds := map (dop_dist dist v) tm in
  let law := zipw (dop_law sf ft v c) tm ds in
  let y := match map Fin x with
           | x0 :: x1 :: x' => Fin 0 :: Fin 0 :: ar_filter_x x' (skipn 2 law) x0 x1 (Fin 0) (Fin 0)
           | _ => map (fun _ => Fin 0) x
           end in
  z <- hilbert_x (slice y (n + 1) (2 * n + 1)) ;;
  let law := slice law (n + 1) (2 * n + 1) in
  match z, all_finite (slice ds (n + 1) (2 * n + 1)) with
  | Some z, Some d =>
      w <- bcast (fun a d => a / RtoC (sqrt d))%C z d ;;
      let e := sqrt (rsum w (fun a => Cmod a ^ 2)%R) in
      Ok (if Req_EM_T e 0 then None else Some (map (fun a => a / RtoC e)%C w), law)
  | _, _ => Ok (None, law)
  end.
