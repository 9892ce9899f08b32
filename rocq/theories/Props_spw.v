(** Property theorems, restated from T_spw.v (generated by tools/genprops.py).
    C91: the affine smoothed pseudo Wigner distribution. *)

From Coq Require Import Reals ZArith List Lia Lra Bool.
From Coquelicot Require Import Coquelicot.
From Flocq Require Import Core.
From Verif Require Import Py Scalars CSum DFT Spec M_base P_base M_utils M_putils M_post M_gen1 M_gen2 M_gen3 M_aff M_spw T_utils T_misc2 T_wb T_putils T_gen1 T_hil T_aff T_aff2 T_aff3 T_spw.
Import ListNotations.
Local Open Scope Z_scope.

(** ** Without an explicit band nothing is returned *)
Theorem C91_band : forall x ts K nh0 ng0 fmin fmax nv, fmin = None \/ fmax = None ->
  spw x ts K nh0 ng0 fmin fmax nv = Raise ValueError \/ spw x ts K nh0 ng0 fmin fmax nv = Raise TypeError.
Proof. exact c91_band. Qed.
Print Assumptions C91_band.

(** In particular the plain call. *)
Theorem C91_default_refuted : forall x K nh0 ng0 fmin fmax nv, 2 <= zlen x -> fmin = None \/ fmax = None -> spw x None K nh0 ng0 fmin fmax nv = Raise TypeError.
Proof. exact c91_default_refuted. Qed.
Print Assumptions C91_default_refuted.

Theorem C91_separable : forall x ts K nh0 ng0 fmin fmax nv m t f, spw x ts K nh0 ng0 fmin fmax nv = Ok (Some m, t, f) ->
  zlen m = zlen f /\ (forall r, In r m -> zlen r = zlen t) /\
  forall v w i, 0 <= v < zlen f -> 0 <= w < zlen f -> 0 <= i < zlen t -> (ent m v i * rnth f w = ent m w i * rnth f v)%R.
Proof. exact c91_separable. Qed.
Print Assumptions C91_separable.

(** A window length that is not a Python integer (the default sqrt(N) is not):
    nothing is returned. *)
Theorem C91_float_refuted : forall x ts K nh0 ng0 fmin fmax nv r, (nh0 = None \/ exists h, nh0 = Some (Flt h)) -> spw x ts K nh0 ng0 fmin fmax nv <> Ok r.
Proof. exact c91_float_refuted. Qed.
Print Assumptions C91_float_refuted.

Theorem C91_outcome : forall x ts K h ng0 fmin fmax v, 2 <= zlen x -> (0 < fmin < fmax)%R -> (1 / 2 < num_val h)%R -> 2 <= v -> (v = 2 -> zlen x <> 3) ->
  let t := match ts with Some t => t | None => arange 0 (zlen x) end in
  match spw_refuses (zlen x) (zlen t) v h fmin fmax with
  | Some e => spw x ts K (Some h) ng0 (Some fmin) (Some fmax) (Some v) = Raise e
  | None => exists m, spw x ts K (Some h) ng0 (Some fmin) (Some fmax) (Some v) = Ok (m, t, geo_grid fmin fmax v) /\ (K <> LBert -> m = None)
  end.
Proof. exact c91_outcome. Qed.
Print Assumptions C91_outcome.

Theorem C91_result : forall x ts ng0 fmin fmax, 2 <= zlen x -> (0 < fmin < fmax)%R -> (1 <= 2 * fmax * ln (fmax / fmin))%R ->
  let N := zlen x in let t := match ts with Some t => t | None => arange 0 N end in let f := geo_grid fmin fmax N in zlen t = N ->
  exists zc z, hilbert (map (fun v => Re v - rsum x Re / IZR N)%R x) = Ok zc /\ hilbert (map Re x) = Ok z /\
  exists E, (forall i, E i = spw_energy N (geo_q fmin fmax N) (ln (fmax / fmin)) (spw_win ng0 fmax (ln (fmax / fmin)) N)
               (fun v => voice_wt zc fmin fmax (IZR N) N v i * RtoC (sqrt (rnth f (N - 1 - v)%Z / fmin)))%C) /\ (forall i, 0 <= E i)%R /\
  exists J, integrate_2d (map (fun g => map (fun i => E i * g)%R (arange 0 N)) f) N (Some (map IZR t)) (Some f) = Ok J /\ ((rnth (map IZR t) 0 <= rnth (map IZR t) 1)%R -> (0 <= J)%R) /\
  exists r, spw x ts LBert (Some (Int N)) ng0 (Some fmin) (Some fmax) (Some N) = Ok (r, t, f) /\
    (J = 0%R -> r = None) /\
    (J <> 0%R -> exists m, r = Some m /\ zlen m = N /\ (forall row, In row m -> zlen row = N) /\
       (forall v i, 0 <= v < N -> 0 <= i < N -> ent m v i = (E i * rnth f v * scal_mult z N fmin fmax / J / IZR N)%R) /\
       integrate_2d m N (Some (map IZR t)) (Some f) = Ok (scal_mult z N fmin fmax / IZR N)%R).
Proof. exact c91_result. Qed.
Print Assumptions C91_result.

Example C91_example : let x := [RtoC 1; RtoC 2; RtoC 0; RtoC 1] in
  let go h v := spw x None LBert h 0%R (Some (1 / 8)%R) (Some (1 / 2)%R) (Some v) in
  spw x None LBert None 0%R None None None = Raise TypeError /\
  go (Some (Flt 4%R)) 4 = Raise TypeError /\ go (Some (Int 5)) 4 = Raise ValueError /\ go (Some (Int 4)) 3 = Raise ValueError /\ go (Some (Int 4)) 5 = Raise IndexError /\
  exists m, go (Some (Int 4)) 4 = Ok (m, [0; 1; 2; 3], geo_grid (1 / 8)%R (1 / 2)%R 4).
Proof. exact c91_example. Qed.

(** A signal whose distribution is a genuine array: the columns are the
    frequency axis times nonnegative numbers. *)
Theorem C91_nonneg : forall x ts ng0 fmin fmax m t f, 2 <= zlen x -> (0 < fmin < fmax)%R -> (1 <= 2 * fmax * ln (fmax / fmin))%R ->
  zlen (match ts with Some t => t | None => arange 0 (zlen x) end) = zlen x -> spw x ts LBert (Some (Int (zlen x))) ng0 (Some fmin) (Some fmax) (Some (zlen x)) = Ok (Some m, t, f) ->
  (rnth (map IZR t) 0 <= rnth (map IZR t) 1)%R -> forall v i, 0 <= v < zlen x -> 0 <= i < zlen x -> (0 <= ent m v i)%R.
Proof. exact c91_nonneg. Qed.
Print Assumptions C91_nonneg.

(** ** The default number of voices *)
Theorem C91_default_voices : forall x ts K h ng0 fmin fmax, (0 < fmin < fmax)%R -> 1 <= h -> (1 <= 2 * fmax * ln (fmax / fmin))%R ->
  let q := even_part (Zceil (fmax * IZR (2 * h - 1) * ln (fmax / fmin))) in
  (q = 0 -> spw x ts K (Some (Int h)) ng0 (Some fmin) (Some fmax) None = Raise ValueError) /\
  (q <> 0 -> exists e, 1 <= e /\ q <= 2 ^ e /\ 2 ^ (e - 1) < q /\
    spw x ts K (Some (Int h)) ng0 (Some fmin) (Some fmax) None = spw x ts K (Some (Int h)) ng0 (Some fmin) (Some fmax) (Some (2 ^ e))).
Proof. exact c91_default_voices. Qed.
Print Assumptions C91_default_voices.
