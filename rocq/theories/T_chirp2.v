(** C102: the ambiguity function of a linear chirp. *)
From Coq Require Import Reals ZArith List Lia Lra Bool.
From Coquelicot Require Import Coquelicot.
From Flocq Require Import Core.
From Verif Require Import Py Scalars CSum DFT Spec M_base M_stft M_cohen M_dom M_gen1 M_amb P_base P_stft P_wvd T_dom T_gen1 T_wvd T_amb Dirichlet Kernel T_chirp.
Import ListNotations.
Local Open Scope Z_scope.

(** Frequency increment per sample of fmlin. *)
Definition sweep (n : Z) (fi ff : R) : R := ((ff - fi) / IZR (n - 1))%R.
Lemma AF_chirp n fi ff t0 y law nf k tau : fmlin n fi ff t0 = Ok (y, law) -> 1 <= nf -> 2 * Z.abs tau <= n ->
  exists p, AF y nf k tau = (cis p * tone_sum (n - 2 * Z.abs tau) (2 * sweep n fi ff * IZR tau - IZR k / IZR nf))%C.
Proof.
  intros HF Hnf Ht. destruct (fmlin_sym _ _ _ _ _ _ HF) as (L & _ & EL & _ & SY). destruct (fmlin_inv _ _ _ _ _ _ HF) as (Hn & _). set (a := Z.abs tau) in *. set (s := sweep n fi ff). set (d := (2 * s * IZR tau - IZR k / IZR nf)%R).
  exists (2 * PI * (2 * fi * IZR tau + IZR a * d))%R. unfold AF, tone_sum. rewrite L, <- csum_scal_l. rewrite (csum_incl (arange a (n - a))); [|apply NoDup_arange|apply NoDup_arange| |].
  - replace (arange a (n - a)) with (arange (0 + a) (n - 2 * a + a)) by (f_equal; lia). rewrite arange_shift, csum_map. apply csum_ext. intros j Hj. apply in_arange in Hj. rewrite !sigf_in, SY by lia. rewrite EL by lia. unfold root. rewrite <- !cis_plus. f_equal. unfold d, s, sweep. rewrite opp_IZR, mult_IZR, plus_IZR. field. split; apply not_0_IZR; lia.
  - intros u Hu. apply in_arange in Hu. apply in_arange. lia.
  - intros u Hu NU. rewrite in_arange in NU. apply in_arange in Hu. destruct (Z_lt_dec (u + tau) 0) as [|A1]; [rewrite (sigf_out y (u + tau)) by lia; ring|]. destruct (Z_le_dec n (u + tau)) as [|A2]; [rewrite (sigf_out y (u + tau)) by lia; ring|].
    rewrite (sigf_out y (u - tau)) by lia. rewrite Cconj_R. ring.
Qed.
(** The modulus in the column of lag tau is that of a geometric sum of
    n - 2|tau| terms centred at the Doppler shift 2 tau sweep. *)
Lemma c102_entry : forall n fi ff t0 y law lag nf naf lag' xi r c, fmlin n fi ff t0 = Ok (y, law) -> 1 <= nf -> narrow_band y (Some lag) (Some nf) = Ok (naf, lag', xi) ->
  0 <= r < nf -> 0 <= c < zlen lag -> let tau := nth (Z.to_nat c) lag 0 in 2 * Z.abs tau <= n ->
  Cmod (at2 naf r c) = Cmod (tone_sum (n - 2 * Z.abs tau) (2 * sweep n fi ff * IZR tau - rnth xi r)).
Proof.
  intros n fi ff t0 y law lag nf naf lag' xi r c HF Hnf H Hr Hc tau Ht. destruct (c33_outcome y lag nf Hnf) as [[_ E]|[_ (naf' & xi' & E & _ & _ & _ & EX & V)]]; [congruence|].
  assert (naf' = naf) by congruence. assert (xi' = xi) by congruence. subst naf' xi'. rewrite V, EX by auto. fold tau. destruct (AF_chirp n fi ff t0 y law nf (r - nf / 2) tau HF Hnf Ht) as [p ->]. rewrite Cmod_mult, Cmod_cis. ring.
Qed.
(** With at least two overlapping samples and no more than bins, row r is a maximum
    of the column iff no Doppler value of the axis is nearer (modulo 1) to 2 tau
    sweep. *)
Lemma c102_ridge : forall n fi ff t0 y law lag nf naf lag' xi r c, fmlin n fi ff t0 = Ok (y, law) -> 1 <= nf -> narrow_band y (Some lag) (Some nf) = Ok (naf, lag', xi) ->
  0 <= r < nf -> 0 <= c < zlen lag -> let tau := nth (Z.to_nat c) lag 0 in 2 <= n - 2 * Z.abs tau <= nf ->
  ((forall g, 0 <= g < nf -> (Cmod (at2 naf g c) <= Cmod (at2 naf r c))%R) <->
   (forall g, 0 <= g < nf -> (dist_int (2 * sweep n fi ff * IZR tau - rnth xi r) <= dist_int (2 * sweep n fi ff * IZR tau - rnth xi g))%R)).
Proof.
  intros n fi ff t0 y law lag nf naf lag' xi r c HF Hnf H Hr Hc tau Ht. destruct (c33_outcome y lag nf Hnf) as [[_ E]|[_ (naf' & xi' & E & _ & _ & _ & EX & _)]]; [congruence|]. assert (xi' = xi) by congruence. subst xi'.
  set (d := (2 * sweep n fi ff * IZR tau)%R). set (d' := (d + IZR (nf / 2) / IZR nf)%R). assert (N0 : IZR nf <> 0%R) by (apply not_0_IZR; lia).
  assert (SH : forall g, 0 <= g < nf -> (d - rnth xi g = d' - IZR g / IZR nf)%R) by (intros g Hg; rewrite EX by auto; unfold d'; rewrite minus_IZR; field; auto).
  assert (R := tone_rows (n - 2 * Z.abs tau) nf d' r Ht Hr). split.
  - intros Q g Hg. rewrite !SH by auto. apply (proj1 R); [|auto]. intros k Hk. specialize (Q k Hk). rewrite !(c102_entry n fi ff t0 y law lag nf naf lag' xi _ c HF Hnf H) in Q by (fold tau; lia). fold tau d in Q. rewrite !SH in Q by auto. exact Q.
  - intros Q g Hg. rewrite !(c102_entry n fi ff t0 y law lag nf naf lag' xi _ c HF Hnf H) by (fold tau; lia). fold tau d. rewrite !SH by auto. apply (proj2 R); [|auto]. intros k Hk. specialize (Q k Hk). rewrite !SH in Q by auto. exact Q.
Qed.
(** Such a row is within half a bin of the line of slope 2 sweep through the origin. *)
Lemma c102_line : forall n fi ff t0 y law lag nf naf lag' xi r c, fmlin n fi ff t0 = Ok (y, law) -> 1 <= nf -> narrow_band y (Some lag) (Some nf) = Ok (naf, lag', xi) ->
  0 <= r < nf -> 0 <= c < zlen lag -> let tau := nth (Z.to_nat c) lag 0 in 2 <= n - 2 * Z.abs tau <= nf ->
  (forall g, 0 <= g < nf -> (Cmod (at2 naf g c) <= Cmod (at2 naf r c))%R) ->
  exists q, (Rabs (2 * sweep n fi ff * IZR tau - (rnth xi r + IZR q)) <= 1 / (2 * IZR nf))%R.
Proof.
  intros n fi ff t0 y law lag nf naf lag' xi r c HF Hnf H Hr Hc tau Ht HM. rewrite (c102_ridge n fi ff t0 y law lag nf naf lag' xi r c HF Hnf H Hr Hc Ht) in HM. fold tau in HM. destruct (c33_outcome y lag nf Hnf) as [[_ E]|[_ (naf' & xi' & E & _ & _ & _ & EX & _)]]; [congruence|]. assert (xi' = xi) by congruence. subst xi'.
  set (d := (2 * sweep n fi ff * IZR tau)%R) in *. set (d' := (d + IZR (nf / 2) / IZR nf)%R). assert (N0 : IZR nf <> 0%R) by (apply not_0_IZR; lia).
  assert (SH : forall g, 0 <= g < nf -> (d - rnth xi g = d' - IZR g / IZR nf)%R) by (intros g Hg; rewrite EX by auto; unfold d'; rewrite minus_IZR; field; auto).
  destruct (nearest_half nf d' r Hnf) as [q Q]; [intros g Hg; rewrite <- !SH by auto; now apply HM|]. exists q. replace (d - (rnth xi r + IZR q))%R with ((d - rnth xi r) - IZR q)%R by ring. rewrite SH by auto. replace (d' - IZR r / IZR nf - IZR q)%R with (d' - (IZR r / IZR nf + IZR q))%R by ring. exact Q.
Qed.
(** Value on the line: n - 2|tau|, the largest a column can hold, reached exactly
    where the axis meets the line. *)
Lemma c102_peak : forall n fi ff t0 y law lag nf naf lag' xi r c, fmlin n fi ff t0 = Ok (y, law) -> 1 <= nf -> narrow_band y (Some lag) (Some nf) = Ok (naf, lag', xi) ->
  0 <= r < nf -> 0 <= c < zlen lag -> let tau := nth (Z.to_nat c) lag 0 in 2 <= n - 2 * Z.abs tau ->
  (Cmod (at2 naf r c) <= IZR (n - 2 * Z.abs tau))%R /\
  (Cmod (at2 naf r c) = IZR (n - 2 * Z.abs tau) <-> exists q, (2 * sweep n fi ff * IZR tau = rnth xi r + IZR q)%R).
Proof.
  intros n fi ff t0 y law lag nf naf lag' xi r c HF Hnf H Hr Hc tau Ht. rewrite (c102_entry n fi ff t0 y law lag nf naf lag' xi r c HF Hnf H Hr Hc) by (fold tau; lia). fold tau. set (L := n - 2 * Z.abs tau) in *. set (d := (2 * sweep n fi ff * IZR tau - rnth xi r)%R).
  destruct (dist_int_spec d) as ([P1 P2] & q & EQ). rewrite tone_sum_dist by lia. destruct (kernel_peak L 0 (dist_int d) ltac:(lia)) as [A B]; try lra. rewrite kernel_at_0 in A, B by lia. split; [exact A|]. split.
  - intros E. destruct (Req_dec (dist_int d) 0) as [Z|Z]; [exists q; unfold d in *; destruct EQ; lra|]. exfalso. specialize (B ltac:(lra) Ht). lra.
  - intros [k E]. rewrite <- tone_sum_dist by lia. replace d with (0 + IZR k)%R by (unfold d; lra). rewrite tone_sum_int, tone_sum_Cmod, kernel_at_0, Rabs_pos_eq by lia || (apply IZR_le; lia). reflexivity.
Qed.
(** 16 samples from 0 to 15/32 (sweep 1/32): at lag 2, Doppler 1/8, the value is 12. *)
Example c102_example : exists y law naf lag xi, fmlin 16 0 (15 / 32) None = Ok (y, law) /\ narrow_band y None None = Ok (naf, lag, xi) /\ nth 9 lag 0 = 2 /\ rnth xi 10 = (1 / 8)%R /\ Cmod (at2 naf 10 9) = 12%R.
Proof.
  assert (HR : half_round 16 = 8) by (destruct (half_round_spec 16) as [Q|[Q _]]; lia).
  destruct (c55_chirp 16 0 (15 / 32) None) as (y & law & HF & L & _); [lia|rewrite Rabs_R0; lra|rewrite Rabs_pos_eq; lra|cbn [centre_of]; rewrite HR, trunc_IZR; lia|].
  destruct (c33_default y) as [E _]. rewrite L in E. destruct (c33_outcome y (nb_lags 16) 16 ltac:(lia)) as [[(tau & _ & A) _]|[_ (naf & xi & H & _ & _ & _ & EX & _)]]; [lia|].
  exists y, law, naf, (nb_lags 16), xi. split; [auto|]. split; [congruence|]. split; [reflexivity|]. assert (X : rnth xi 10 = (1 / 8)%R) by (rewrite EX by lia; cbn; field). split; [auto|].
  apply (proj2 (c102_peak 16 0 (15 / 32) None y law (nb_lags 16) 16 naf (nb_lags 16) xi 10 9 HF ltac:(lia) H ltac:(lia) ltac:(vm_compute; split; congruence) ltac:(vm_compute; congruence))).
  exists 0. rewrite X. change (nth (Z.to_nat 9) (nb_lags 16) 0) with 2. unfold sweep. cbn. field.
Qed.
