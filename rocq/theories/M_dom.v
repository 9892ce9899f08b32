(** Model of tftb/processing/time_domain.py (loctime) and freq_domain.py
    (locfreq, inst_freq, group_delay) for one-dimensional arrays.  Arithmetic is
    over the reals; [None] stands for NaN. *)
From Coq Require Import Reals ZArith List Lia Lra Bool.
From Coquelicot Require Import Coquelicot.
From Flocq Require Import Core.
From Verif Require Import Py Scalars CSum DFT M_base M_putils.
Import ListNotations.
Local Open Scope Z_scope.

Definition rmean (l : list R) : R := (rsum l (fun v => v) / IZR (zlen l))%R.

(** Centre and spread of weights [p] (not all zero) at positions [t]:
    time_domain.py 27-31, freq_domain.py 31-35.  [None]: 0/0. *)
Definition moments (t p : list R) : res (option (R * R)) :=
  let m := rmean p in
  let q := map (fun v => v / m)%R p in
  tp <- bcast Rmult t q ;;
  let tm := rmean tp in
  d <- bcast Rmult (map (fun v => (v - tm) ^ 2)%R t) q ;;
  if Req_EM_T m 0 then Ok None
  else if zlen tp =? 0 then Ok None
  else Ok (Some (tm, (2 * sqrt (PI * rmean d))%R)).

(** time_domain.py 22-31.  (For two-dimensional input the test on line 22 lets the
    array through: M_nd.v.)  The mean of an empty array is NaN. *)
Definition loctime (x : list C) : res (option (R * R)) :=
  if zlen x =? 0 then Ok None
  else moments (map IZR (arange 0 (zlen x))) (map (fun z => Cmod (z * z)%C) x).

(** freq_domain.py 22-36.  [np.round] is round-half-even; FFT of an empty array
    raises ValueError. *)
Definition locfreq_freqs (n : Z) : list R :=
  let no2r := ZnearestE (IZR n / 2) in
  let no2f := Zfloor (IZR n / 2) in
  map (fun k => IZR k / IZR n)%R (arange 0 no2f ++ arange (- no2r) 0).
Definition locfreq (x : list C) : res (option (R * R)) :=
  if zlen x =? 0 then Raise ValueError
  else moments (locfreq_freqs (zlen x)) (map (fun z => Cmod z ^ 2)%R (fft x)).

(** np.angle.  It is not a function of the complex number alone: the sign of a
    zero imaginary part selects pi or -pi for a negative real number, and the
    angle of zero is 0, pi or -pi.  [is_angle] allows every possible outcome. *)
Definition is_angle (z : C) (a : R) : Prop :=
  (- PI <= a <= PI)%R /\ z = (RtoC (Cmod z) * cis a)%C /\ (z = RtoC 0 -> a = 0%R \/ a = PI \/ a = (- PI)%R).

(** freq_domain.py 65-77.  [ang k] is np.angle as it acts on entry k. *)
Definition inst_freq (ang : Z -> C -> R) (x : list C) (t : option (list Z)) : res (list R * list Z) :=
  let t := match t with Some t => t | None => arange 2 (zlen x) end in
  a <- take x t ;;
  b <- take x (map (fun k => k - 2) t) ;;
  let p := zipw (fun u v => - u * Cconj v)%C a b in
  Ok (map (fun kz => 1 / 2 * (ang (fst kz) (snd kz) + PI) / (2 * PI))%R (enum p), t).

(** freq_domain.py 102-122.  One entry: the real part of the quotient if it lies
    in [1, len+3], else 0; NaN when the denominator is 0. *)
Definition gd_entry (n : Z) (num den : C) : option R :=
  if Ceq_dec den (RtoC 0) then None
  else
    let r := Re (num / den)%C in
    Some (r * (if Rle_dec 1 r then 1 else 0) * (if Rle_dec r (IZR n + 3) then 1 else 0))%R.
Definition ramped (x : list C) : list C := zipw (fun a k => a * RtoC (IZR k))%C x (arange 1 (zlen x + 1)).
(** np.dot(exp(-2 i pi f k), x) *)
Definition dtft (x : list C) (f : R) : C :=
  csum (arange 0 (zlen x)) (fun k => cis (- (2 * PI * f * IZR k)) * cnth x k)%C.
Definition group_delay (x : list C) (fnorm : option (list R)) : res (list (option R)) :=
  match fnorm with
  | None => if zlen x =? 0 then Raise ValueError
            else Ok (fftshift (zipw (gd_entry (zlen x)) (fft (ramped x)) (fft x)))
  | Some fs => Ok (map (fun f => gd_entry (zlen x) (dtft (ramped x) f) (dtft x f)) fs)
  end.
