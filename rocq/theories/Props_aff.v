(** Property theorems, restated from T_aff.v (generated by tools/genprops.py).
    C69, C70, C71, C80, C81: affine distributions, construction and grids. *)

From Coq Require Import Reals ZArith List Lia Lra Bool.
From Coquelicot Require Import Coquelicot.
From Flocq Require Import Core.
From Verif Require Import Py Scalars CSum DFT Spec M_base M_utils M_putils M_gen1 M_gen2 M_gen3 M_aff P_base T_utils T_putils T_dom T_gen1 T_gen2 T_hil T_key T_noise T_misc T_misc2 T_aff.
Import ListNotations.
Local Open Scope Z_scope.

Theorem C71_solves : forall r, (1 < r)%R ->
  let u := umaxdfla r in (0 < u < 4)%R /\ (((1 + u / 4) / (1 - u / 4)) ^ 2 = r)%R /\
  (forall v, (0 < v < 4)%R -> (((1 + v / 4) / (1 - v / 4)) ^ 2 = r)%R -> v = u).
Proof. exact c71_solves. Qed.
Print Assumptions C71_solves.

Theorem C71_reciprocal : forall r, (1 < r)%R -> umaxdfla (/ r) = umaxdfla r /\ umaxdfla 1 = 0%R.
Proof. exact c71_reciprocal. Qed.
Print Assumptions C71_reciprocal.

Example C71_example : umaxdfla 9 = 2%R.
Proof. exact c71_example. Qed.

Theorem C69_grid : forall fmin fmax nv, (0 < fmin < fmax)%R -> 2 <= nv ->
  let f := geo_grid fmin fmax nv in
  zlen f = nv /\ rnth f 0 = fmin /\ rnth f (nv - 1) = fmax /\
  exists q, (1 < q)%R /\ (q ^ Z.to_nat (nv - 1) = fmax / fmin)%R /\
    forall k, 0 <= k < nv - 1 -> (rnth f (k + 1) = q * rnth f k)%R.
Proof. exact c69_grid. Qed.
Print Assumptions C69_grid.

Theorem C69_scalogram : forall fmin fmax nv, (0 < fmin < fmax)%R -> 2 <= nv ->
  let f := logspace (log10 fmin) (log10 fmax) nv in
  let a := logspace (log10 (fmax / fmin)) (log10 1) nv in
  f = geo_grid fmin fmax nv /\ zlen a = nv /\ forall k, 0 <= k < nv -> (rnth a k * rnth f k = fmax)%R.
Proof. exact c69_scalogram. Qed.
Print Assumptions C69_scalogram.

(** A single voice divides by zero. *)
Theorem C69_single_refuted : forall spl form o, a_nv o = 1 -> aff_run spl form o = Raise ZeroDivisionError.
Proof. exact c69_single_refuted. Qed.
Print Assumptions C69_single_refuted.

Example C69_example : geo_grid (1 / 10) (4 / 10) 3 = [1 / 10; 2 / 10; 4 / 10]%R.
Proof. exact c69_example. Qed.

Theorem C80_voices : forall fmin fmax T, (0 < fmin < fmax)%R -> 1 <= T ->
  let q := even_part (Zceil (fmax * IZR T * ln (fmax / fmin))) in
  (q = 0 -> get_nvoices fmin fmax (Some T) = Raise ValueError) /\
  (q <> 0 -> exists e, get_nvoices fmin fmax (Some T) = Ok (2 ^ e) /\ 1 <= e /\ q <= 2 ^ e /\ 2 ^ (e - 1) < q).
Proof. exact c80_voices. Qed.
Print Assumptions C80_voices.

Theorem C80_unset : forall fmin fmax, get_nvoices fmin fmax None = Raise AttributeError.
Proof. exact c80_unset. Qed.
Print Assumptions C80_unset.

(** The equations: r = ((1+u/4)/(1-u/4))^2, (a+u/2)/(a-u/2) with
    a = sqrt(1+u^2/4), exp u. *)
Theorem C70_unterberger_root : forall r, (1 < r)%R -> let u := aff_root Unt r in
  let a := sqrt (1 + (u / 2) ^ 2) in ((a + u / 2) / (a - u / 2) = r)%R.
Proof. exact c70_unterberger_root. Qed.
Print Assumptions C70_unterberger_root.

Theorem C70_outcome : forall k x fmin fmax, 1 <= zlen x -> (0 < fmin < fmax)%R ->
  let N := zlen x in let r := (fmax / fmin)%R in let v := (fmax * aff_root k r)%R in
  (* (a) no sign change for brenth *)
  (k = Bert -> (exp 4 < r)%R -> forall nv, aff_new k x None (Some fmin) (Some fmax) nv = Raise ValueError) /\
  (* (b) T is not set *)
  ((k = Bert -> (r <= exp 4)%R) -> (IZR (aff_bound k N) * v <= IZR (half_len N))%R ->
     aff_new k x None (Some fmin) (Some fmax) None = Raise AttributeError) /\
  (* (c) the default succeeds *)
  ((k = Bert -> (r <= exp 4)%R) -> (IZR (half_len N) < IZR (aff_bound k N) * v)%R ->
     (k = Unt -> (1 < fmax * IZR (2 * aff_pad N v - 1) * ln r)%R) ->
     exists o, aff_new k x None (Some fmin) (Some fmax) None = Ok o /\ a_m1 o = aff_pad N v /\ a_umax o = aff_root k r /\
       a_fmin o = fmin /\ a_fmax o = fmax /\ a_ts o = arange 0 N /\ a_sig o = x /\ a_kind o = k /\
       exists e, 1 <= e /\ a_nv o = 2 ^ e /\ let q := even_part (Zceil (fmax * IZR (2 * aff_pad N v - 1) * ln r)) in q <= 2 ^ e /\ 2 ^ (e - 1) < q) /\
  (* (d) the logarithm of 0 *)
  (k = Unt -> (IZR (half_len N) < IZR (aff_bound k N) * v)%R -> (fmax * IZR (2 * aff_pad N v - 1) * ln r <= 1)%R ->
     aff_new k x None (Some fmin) (Some fmax) None = Raise ValueError) /\
  (* (e) with the number of voices given *)
  ((k = Bert -> (r <= exp 4)%R) -> forall nv, exists o, aff_new k x None (Some fmin) (Some fmax) (Some nv) = Ok o /\ a_nv o = nv /\
     a_m1 o = if Rlt_dec (IZR (half_len N)) (IZR (aff_bound k N) * v) then aff_pad N v else half_len N).
Proof. exact c70_outcome. Qed.
Print Assumptions C70_outcome.

(** The band 0.1 .. 0.3: all three fail with the default n_voices. *)
Theorem C70_default_refuted : forall k x, 1 <= zlen x -> aff_new k x None (Some (1 / 10)%R) (Some (3 / 10)%R) None = Raise AttributeError.
Proof. exact c70_default_refuted. Qed.
Print Assumptions C70_default_refuted.

Theorem C70_cross : affine_2d = Raise IndexError.
Proof. exact c70_cross. Qed.
Print Assumptions C70_cross.

Example C70_example : exists o, aff_new Dfl (repeat (RtoC 1) 8) None (Some (1 / 20)%R) (Some (45 / 100)%R) None = Ok o /\ a_umax o = 2%R /\ a_m1 o = 8 /\ a_nv o = 16.
Proof. exact c70_example. Qed.

Example C80_example : get_nvoices (1 / 20) (45 / 100) (Some 15) = Ok 16.
Proof. exact c80_example. Qed.

Theorem C81_value : forall k u, u <> 0%R -> lambdak u k = Some (lam k u) /\ (0 < lam k u)%R.
Proof. exact c81_value. Qed.
Print Assumptions C81_value.

(** The dilations of the affine class: lambda(u) = e^u lambda(-u). *)
Theorem C81_identity : forall k u, (u <> 0)%R -> (lam k u = exp u * lam k (- u))%R.
Proof. exact c81_identity. Qed.
Print Assumptions C81_identity.

(** At u = 0 only the Bertrand case is defined. *)
Theorem C81_zero_refuted : lambdak 0 LBert = Some 1%R /\ forall k, k <> LBert -> lambdak 0 k = None.
Proof. exact c81_zero_refuted. Qed.
Print Assumptions C81_zero_refuted.

Example C81_example : lambdak (2 * ln 3) LUnt = Some 3%R /\ lambdak (2 * ln 3) LDfl = Some (9 / 4)%R /\ lambdak (ln 3) LAspwv = Some (3 / 2)%R.
Proof. exact c81_example. Qed.
