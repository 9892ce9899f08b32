(** Property theorems, restated from T_gabor.v (generated by tools/genprops.py).
    C72, C90: the Gabor representation. *)

From Coq Require Import Reals ZArith List Lia Lra Bool.
From Coquelicot Require Import Coquelicot.
From Flocq Require Import Core.
From Verif Require Import Py Scalars CSum DFT Spec M_base M_utils M_putils M_gen1 M_gen2 M_gabor P_base T_dom T_putils T_utils T_gen1 T_misc2 T_wb T_gabor.
Import ListNotations.
Local Open Scope Z_scope.

Theorem C72_outcome : forall x M q w, 1 <= zlen x -> 1 <= M -> 1 <= q ->
  let N := zlen x in let m := q * N / M in
  match gabor_refuses N M q (zlen w) with
  | Some e => gabor x M q w = Raise e
  | None => exists tfr dgr gam, gabor x M q w = Ok (tfr, dgr, gam) /\ zlen dgr = M /\ (forall c, In c dgr -> zlen c = m) /\ tfr = map (map (fun z => Cmod z ^ 2)%R) dgr /\ zlen gam = m * (N / M)
  end.
Proof. exact c72_outcome. Qed.
Print Assumptions C72_outcome.

(** n_coeff dividing the length: the two admissible pairs. *)
Theorem C72_divides : forall x M q w, 1 <= zlen x -> 1 <= M -> 1 <= q -> (M | zlen x) -> Z.odd (zlen w) = true -> window_fits (zlen x) M q (zlen w) ->
  if (M * M =? q * zlen x) || (q =? M) then exists r, gabor x M q w = Ok r else gabor x M q w = Raise ValueError.
Proof. exact c72_divides. Qed.
Print Assumptions C72_divides.

Theorem C72_default : forall x, 1 <= zlen x -> exists M K q p, divider (zlen x) = Ok (M, K) /\ divider M = Ok (q, p) /\
  if (M <=? 2) || ((M * M =? zlen x) && (q =? 1)) then exists r, gabor_args x None None None = Ok r else gabor_args x None None None = Raise ValueError.
Proof. exact c72_default. Qed.
Print Assumptions C72_default.

(** 256 samples: 16 coefficients, oversampling 4. *)
Theorem C72_default_refuted : exists x, zlen x = 256 /\ gabor_args x None None None = Raise ValueError.
Proof. exact c72_default_refuted. Qed.
Print Assumptions C72_default_refuted.

(** 9 samples: 3 coefficients, no oversampling. *)
Example C72_example : exists r, gabor_args (repeat (RtoC 1) 9) None None None = Ok r.
Proof. exact c72_example. Qed.

(** Column n of the coefficients: the signal against the dual window shifted by
    n a, with the origin in the middle. *)
Theorem C90_analysis : forall a q x w, 1 <= a -> 1 <= q -> let M := q * a in let N := a * M in zlen x = N -> Z.odd (zlen w) = true -> window_fits N M q (zlen w) ->
  exists tfr dgr gam, gabor x M q w = Ok (tfr, dgr, gam) /\ zlen gam = N /\ forall n k, 0 <= n < M -> 0 <= k < M ->
    cnth (nth (Z.to_nat n) dgr []) k = csum (arange 0 N) (fun t => cnth x t * RtoC (rnth gam ((t + (N + 1) / 2 - n * a) mod N)) * root M (- (k * t)))%C.
Proof. exact c90_analysis. Qed.
Print Assumptions C90_analysis.

(** The returned window is dual to the given one. *)
Theorem C90_dual : forall a q x w, 1 <= a -> 1 <= q -> let M := q * a in let N := a * M in zlen x = N -> Z.odd (zlen w) = true -> zlen w <= N -> window_fits N M q (zlen w) ->
  let h := laid N (win_first N M q (zlen w)) w in
  (forall i f, 0 <= i < a -> 0 <= f < M -> (/ 2 ^ 52 <= zak_energy a q h i f)%R) ->
  exists tfr dgr gam, gabor x M q w = Ok (tfr, dgr, gam) /\ forall u r, rsum (arange 0 M) (fun n => rnth gam ((u + r * M - n * a) mod N) * h (u - n * a)%Z)%R = if r mod a =? 0 then (/ IZR M)%R else 0%R.
Proof. exact c90_dual. Qed.
Print Assumptions C90_dual.

Theorem C90_reconstruct : forall a q x w, 1 <= a -> 1 <= q -> let M := q * a in let N := a * M in zlen x = N -> Z.odd (zlen w) = true -> zlen w <= N -> window_fits N M q (zlen w) ->
  let h := laid N (win_first N M q (zlen w)) w in
  (forall i f, 0 <= i < a -> 0 <= f < M -> (/ 2 ^ 52 <= zak_energy a q h i f)%R) ->
  exists tfr dgr gam, gabor x M q w = Ok (tfr, dgr, gam) /\ forall t, 0 <= t < N ->
    cnth x t = csum (arange 0 M) (fun n => csum (arange 0 M) (fun k => cnth (nth (Z.to_nat n) dgr []) k * RtoC (h (t + (N + 1) / 2 - n * a)%Z) * root M (k * t)))%C.
Proof. exact c90_reconstruct. Qed.
Print Assumptions C90_reconstruct.

(** Four samples, two coefficients, window (2, 2, 1): the dual window is
    (1/3, 1/4, -1/6, 0) and the signal comes back. *)
Example C90_example : exists tfr dgr, gabor (map RtoC [1; 2; 3; 4]%R) 2 1 [2; 2; 1]%R = Ok (tfr, dgr, [1 / 3; 1 / 4; - (1 / 6); 0]%R) /\
  forall t, 0 <= t < 4 -> cnth (map RtoC [1; 2; 3; 4]%R) t = csum (arange 0 2) (fun n => csum (arange 0 2) (fun k => cnth (nth (Z.to_nat n) dgr []) k * RtoC (rnth [2; 2; 1; 0]%R ((t + 2 - n * 2) mod 4)) * root 2 (k * t)))%C.
Proof. exact c90_example. Qed.

(** A window of energy below 2^-52 is not inverted: for one sample the returned
    dual window is the window itself, and the signal comes back divided by 2^54. *)
Theorem C90_tiny_refuted : exists (e : R) tfr dgr gam, e = (/ 2 ^ 27)%R /\ gabor [RtoC 1] 1 1 [e] = Ok (tfr, dgr, gam) /\ gam = [e] /\ cnth (nth 0 dgr []) 0 = RtoC e /\ (cnth (nth 0 dgr []) 0 * RtoC e <> RtoC 1)%C.
Proof. exact c90_tiny_refuted. Qed.
Print Assumptions C90_tiny_refuted.

(** ** The default window *)
Theorem C90_window : forall M, 1 <= M -> exists w : list R, let n := if Z.even M then M + 1 else M in
  (forall x q, gabor_args x (Some M) (Some q) None = gabor_args x (Some M) (Some q) (Some w)) /\
  zlen w = n /\ rsum w (fun v => v ^ 2)%R = 1%R /\ (forall k, 0 <= k < n -> (0 < rnth w k)%R) /\
  forall k, 2 <= M -> 0 <= k < n -> rnth w k = (rnth w ((n - 1) / 2) * Rpower (5 / 1000) ((2 * IZR k / IZR (n - 1) - 1) ^ 2))%R.
Proof. exact c90_window. Qed.
Print Assumptions C90_window.
