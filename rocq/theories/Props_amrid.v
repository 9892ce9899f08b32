(** Property theorems, restated from T_amrid.v (generated by tools/genprops.py).
    C152: the Wigner-Ville distribution of a chirp with varying amplitude. *)

From Coq Require Import Reals ZArith List Lia Lra Bool.
From Coquelicot Require Import Coquelicot.
From Flocq Require Import Core.
From Verif Require Import Py Scalars CSum DFT Spec M_base M_stft M_cohen M_dom M_gen1 M_gallery P_base P_stft P_wvd T_dom T_gen1 T_wvd Dirichlet T_gallery T_chirp T_amrid.
Import ListNotations.
Local Open Scope Z_scope.

(** Entry (f, t): the cosines of C100, each weighted by the amplitudes at the two samples it comes from. *)
Theorem C152_entry : forall n fi ff t0 y law x A o f t, fmlin n fi ff t0 = Ok (y, law) -> with_amplitude x y A -> wvd x None None = Ok o -> 0 <= f < n -> 0 <= t < n ->
  let m := Z.min t (n - 1 - t) in let d := (2 * rnth law t - IZR f / IZR n)%R in
  at2 (r_tfr o) f t = RtoC (rsum (arange (- m) (m + 1)) (fun u => A (t + u)%Z * A (t - u)%Z * cos (2 * PI * (IZR u * d)))%R).
Proof. exact c152_entry. Qed.
Print Assumptions C152_entry.

(** The largest value an entry of column t can take, and where it is taken: on the frequency law, whatever the amplitude. *)
Theorem C152_peak : forall n fi ff t0 y law x A o f t, fmlin n fi ff t0 = Ok (y, law) -> with_amplitude x y A -> wvd x None None = Ok o -> 0 <= f < n -> 0 <= t < n ->
  (forall k, 0 <= k < n -> (0 <= A k)%R) ->
  let m := Z.min t (n - 1 - t) in let top := rsum (arange (- m) (m + 1)) (fun u => A (t + u)%Z * A (t - u)%Z)%R in
  (Cmod (at2 (r_tfr o) f t) <= top)%R /\
  ((exists q, (2 * rnth law t = IZR f / IZR n + IZR q)%R) -> at2 (r_tfr o) f t = RtoC top) /\
  (1 <= t <= n - 2 -> (0 < A (t - 1)%Z)%R -> (0 < A (t + 1)%Z)%R -> at2 (r_tfr o) f t = RtoC top -> exists q, (2 * rnth law t = IZR f / IZR n + IZR q)%R).
Proof. exact c152_peak. Qed.
Print Assumptions C152_peak.

(** A Gaussian amplitude separates: the square of the amplitude at t times a factor that depends on the distance from the law only. *)
Theorem C152_gauss : forall n fi ff t0 y law x c s o f t, fmlin n fi ff t0 = Ok (y, law) -> s <> 0%R -> with_amplitude x y (fun k => exp (- PI * ((IZR k - c) / s) ^ 2)) -> wvd x None None = Ok o -> 0 <= f < n -> 0 <= t < n ->
  let m := Z.min t (n - 1 - t) in let d := (2 * rnth law t - IZR f / IZR n)%R in
  at2 (r_tfr o) f t = RtoC (exp (- PI * ((IZR t - c) / s) ^ 2) ^ 2 * rsum (arange (- m) (m + 1)) (fun u => exp (- 2 * PI * (IZR u / s) ^ 2) * cos (2 * PI * (IZR u * d))))%R.
Proof. exact c152_gauss. Qed.
Print Assumptions C152_gauss.

(** The signals of the programs: fmlin(n, f1, f2)[0] * amgauss(n, t, s) is one such, it meets its peak amplitude 1 at most at
    one sample, and with the default centre and spread that sample is round(n/2) - 1 and the value there is 1. *)
Theorem C152_programs : forall n f1 f2 c s, 2 <= n -> (Rabs f1 <= 1 / 2)%R -> (Rabs f2 <= 1 / 2)%R -> (forall v, s = Some v -> (0 < v)%R) ->
  exists x y law, gauss_chirp n f1 f2 c s = Ok (Some x) /\ fmlin n f1 f2 None = Ok (y, law) /\
  let c' := match c with Some c => c | None => IZR (half_round n) end in let s' := match s with Some s => s | None => (2 * sqrt (IZR n))%R end in
  with_amplitude x y (fun k => exp (- PI * ((IZR k - (c' - 1)) / s') ^ 2)) /\
  (forall k, 0 <= k < n -> (Cmod (cnth x k) <= 1)%R /\ (Cmod (cnth x k) = 1%R <-> IZR k = (c' - 1)%R)) /\
  (c = None -> cnth x (half_round n - 1) = RtoC 1).
Proof. exact c152_programs. Qed.
Print Assumptions C152_programs.

(** Four samples from frequency 0 to 3/8 with the amplitudes 1, 2, 3, 1: the frequency at sample 1 is 1/8, that of row 1, and the
    entry there is 2*2 + 1*3 + 3*1 = 10. *)
Example C152_example : exists y law x o, fmlin 4 0 (3 / 8) None = Ok (y, law) /\ with_amplitude x y (rnth [1; 2; 3; 1]%R) /\ wvd x None None = Ok o /\ rnth law 1 = (1 / 8)%R /\ at2 (r_tfr o) 1 1 = RtoC 10 /\ (Cmod (at2 (r_tfr o) 2 1) <= 10)%R.
Proof. exact c152_example. Qed.
