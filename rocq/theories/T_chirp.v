(** C100: the Wigner-Ville distribution of a linear chirp. *)
From Coq Require Import Reals ZArith List Lia Lra Bool.
From Coquelicot Require Import Coquelicot.
From Flocq Require Import Core.
From Verif Require Import Py Scalars CSum DFT Spec M_base M_stft M_cohen M_dom M_gen1 P_base P_stft P_wvd T_dom T_gen1 T_wvd Dirichlet.
Import ListNotations.
Local Open Scope Z_scope.

Lemma fmlin_inv n fi ff t0 y law : fmlin n fi ff t0 = Ok (y, law) -> 2 <= n /\ (Rabs fi <= 1 / 2)%R /\ (Rabs ff <= 1 / 2)%R /\ 1 - n <= Ztrunc (centre_of n t0) <= n.
Proof.
  intros H. destruct (c55_raises n fi ff t0) as (R1 & R2 & R3). destruct (Z_le_gt_dec n 0); [rewrite R1 in H by auto; discriminate|].
  destruct (Rlt_dec (1 / 2) (Rabs fi)); [rewrite R1 in H by auto; discriminate|]. destruct (Rlt_dec (1 / 2) (Rabs ff)); [rewrite R1 in H by auto; discriminate|].
  destruct (Z.eq_dec n 1) as [->|]; [rewrite R2 in H by lra; discriminate|]. split; [lia|]. split; [lra|]. split; [lra|].
  destruct (Z_lt_dec (Ztrunc (centre_of n t0)) (1 - n)); [rewrite R3 in H by (auto; lia || lra); discriminate|]. destruct (Z_lt_dec n (Ztrunc (centre_of n t0))); [rewrite R3 in H by (auto; lia || lra); discriminate|]. lia.
Qed.
Lemma fmlin_sym n fi ff t0 y law : fmlin n fi ff t0 = Ok (y, law) ->
  zlen y = n /\ zlen law = n /\ (forall k, 0 <= k < n -> rnth law k = (fi + (ff - fi) * IZR k / IZR (n - 1))%R) /\ (forall k, 0 <= k < n -> Cmod (cnth y k) = 1%R) /\
  forall t u, 0 <= t < n -> 0 <= t + u < n -> 0 <= t - u < n -> (cnth y (t + u) * Cconj (cnth y (t - u)))%C = cis (4 * PI * rnth law t * IZR u).
Proof.
  intros H. destruct (fmlin_inv _ _ _ _ _ _ H) as (Hn & Hi & Hf & Ht). destruct (c55_chirp n fi ff t0 Hn Hi Hf Ht) as (y' & law' & E & L1 & L2 & EL & _ & _ & EM & _ & EI & _). rewrite E in H. injection H as <- <-.
  split; [auto|]. split; [auto|]. split; [auto|]. split; [auto|]. assert (HN : IZR (n - 1) <> 0%R) by (apply not_0_IZR; lia).
  assert (P : forall u, 0 <= u -> forall t, 0 <= t - u -> t + u < n -> (cnth y' (t + u) * Cconj (cnth y' (t - u)))%C = cis (4 * PI * rnth law' t * IZR u)).
  { apply (natlike_ind (fun u => forall t, 0 <= t - u -> t + u < n -> (cnth y' (t + u) * Cconj (cnth y' (t - u)))%C = cis (4 * PI * rnth law' t * IZR u))).
    - intros t A B. rewrite Z.add_0_r, Z.sub_0_r, Rmult_0_r, cis_0, <- Cmod2_conj, EM by lia. f_equal. ring.
    - intros u Hu IH t A B. unfold Z.succ in *. replace (t + (u + 1)) with (t + u + 1) by lia. rewrite EI by lia. assert (J := EI (t - (u + 1)) ltac:(lia)). replace (t - (u + 1) + 1) with (t - u) in J by lia.
      assert (K := IH t ltac:(lia) ltac:(lia)). rewrite J, Cconj_mult, <- cis_opp in K. set (z := Cconj (cnth y' (t - (u + 1)))) in *. set (a := cis (- _)) in K.
      assert (A1 : (a * cis (2 * PI * ((rnth law' (t - (u + 1)) + rnth law' (t - u)) / 2)))%C = RtoC 1) by (unfold a; rewrite <- cis_plus, Rplus_opp_l; apply cis_0).
      transitivity ((cnth y' (t + u) * (z * a)) * (cis (2 * PI * ((rnth law' (t + u) + rnth law' (t + u + 1)) / 2)) * cis (2 * PI * ((rnth law' (t - (u + 1)) + rnth law' (t - u)) / 2))))%C.
      { transitivity (cnth y' (t + u) * cis (2 * PI * ((rnth law' (t + u) + rnth law' (t + u + 1)) / 2)) * z * (a * cis (2 * PI * ((rnth law' (t - (u + 1)) + rnth law' (t - u)) / 2))))%C; [rewrite A1; ring|ring]. }
      rewrite K, <- !cis_plus. f_equal. rewrite !EL by lia. rewrite !plus_IZR, !minus_IZR, !plus_IZR. field. rewrite <- minus_IZR. auto. }
  intros t u A B C. destruct (Z_le_gt_dec 0 u); [apply P; lia|]. assert (Q := P (- u) ltac:(lia) t ltac:(lia) ltac:(lia)). apply (f_equal Cconj) in Q. rewrite Cconj_mult, Cconj_invol, <- cis_opp in Q. replace (t + - u) with (t - u) in Q by lia. replace (t - - u) with (t + u) in Q by lia. rewrite Cmult_comm, Q. f_equal. rewrite opp_IZR. ring.
Qed.

(** Largest lag available around sample t of n. *)
Definition reach (n t : Z) : Z := Z.min t (n - 1 - t).
Lemma cis_sum m d : 0 <= m -> csum (arange (- m) (m + 1)) (fun u => cis (2 * PI * (IZR u * d))) = RtoC (dirichlet m d).
Proof.
  intros Hm. unfold dirichlet. apply injective_projections; [|].
  - change (Re (csum (arange (- m) (m + 1)) (fun u => cis (2 * PI * (IZR u * d)))) = rsum (arange (- m) (m + 1)) (fun u => cos (2 * PI * (IZR u * d)))). now rewrite Re_csum.
  - assert (Q : Cconj (csum (arange (- m) (m + 1)) (fun u => cis (2 * PI * (IZR u * d)))) = csum (arange (- m) (m + 1)) (fun u => cis (2 * PI * (IZR u * d)))).
    { rewrite csum_conj. rewrite csum_arange_sym. apply csum_ext. intros u _. rewrite <- cis_opp. f_equal. rewrite opp_IZR. ring. }
    apply (f_equal Im) in Q. cbn [Im Cconj snd] in *. change (snd (RtoC _)) with 0%R. unfold Im in *. lra.
Qed.
(** Entry (f, t) of the distribution of a linear chirp of n samples is the
    Dirichlet kernel of the available lags, centred at twice the instantaneous
    frequency. *)
Lemma c100_entry : forall n fi ff t0 y law o f t, fmlin n fi ff t0 = Ok (y, law) -> wvd y None None = Ok o -> 0 <= f < n -> 0 <= t < n ->
  at2 (r_tfr o) f t = RtoC (dirichlet (reach n t) (2 * rnth law t - IZR f / IZR n)).
Proof.
  intros n fi ff t0 y law o f t HF HW Hf Ht. destruct (fmlin_sym _ _ _ _ _ _ HF) as (L & _ & _ & _ & SY). destruct (fmlin_inv _ _ _ _ _ _ HF) as (Hn & _).
  change (wvd y None None) with (wvd y (Some (TsI (arange 0 (zlen y)))) (Some (zlen y))) in HW. rewrite L in HW. rewrite (wvd_entry y _ n o f t ltac:(lia) HW Hf ltac:(lia)). unfold WV. rewrite L.
  assert (M0 : 0 <= reach n t) by (unfold reach; lia). rewrite <- cis_sum by auto. rewrite (csum_incl (arange (- reach n t) (reach n t + 1))); [|apply NoDup_arange|apply NoDup_arange| |].
  - apply csum_ext. intros u Hu. apply in_arange in Hu. unfold reach in *. rewrite !sigf_in, SY by lia. unfold root. rewrite <- cis_plus. f_equal. rewrite opp_IZR, mult_IZR. field. apply not_0_IZR. lia.
  - intros u Hu. apply in_arange in Hu. apply in_arange. unfold reach in *. lia.
  - intros u Hu NU. rewrite in_arange in NU. unfold reach in NU. apply in_arange in Hu. destruct (Z_lt_dec (t + u) 0) as [|A1]; [rewrite (sigf_out y (t + u)) by lia; ring|]. destruct (Z_le_dec n (t + u)) as [|A2]; [rewrite (sigf_out y (t + u)) by lia; ring|].
    rewrite (sigf_out y (t - u)) by lia. rewrite Cconj_R. ring.
Qed.

(** Row f holds the largest absolute value of column t iff no row is nearer to
    twice the instantaneous frequency (modulo 1). *)
Lemma c100_ridge : forall n fi ff t0 y law o f t, fmlin n fi ff t0 = Ok (y, law) -> wvd y None None = Ok o -> 0 <= f < n -> 1 <= t <= n - 2 ->
  ((forall g, 0 <= g < n -> (Cmod (at2 (r_tfr o) g t) <= Cmod (at2 (r_tfr o) f t))%R) <->
   (forall g, 0 <= g < n -> (dist_int (2 * rnth law t - IZR f / IZR n) <= dist_int (2 * rnth law t - IZR g / IZR n))%R)).
Proof.
  intros n fi ff t0 y law o f t HF HW Hf Ht. rewrite <- (dirichlet_rows (reach n t)) by (unfold reach; lia).
  split; intros H g Hg; specialize (H g Hg); rewrite !(c100_entry n fi ff t0 y law o _ t HF HW), !Cmod_R in * by lia; exact H.
Qed.
(** The label of such a row is within 1/(4n) of the instantaneous frequency,
    modulo 1/2. *)
Lemma c100_label : forall n fi ff t0 y law o f t, fmlin n fi ff t0 = Ok (y, law) -> wvd y None None = Ok o -> 0 <= f < n -> 1 <= t <= n - 2 ->
  (forall g, 0 <= g < n -> (Cmod (at2 (r_tfr o) g t) <= Cmod (at2 (r_tfr o) f t))%R) ->
  exists q, (Rabs (rnth law t - (rnth (r_freqs o) f + IZR q / 2)) <= 1 / (4 * IZR n))%R.
Proof.
  intros n fi ff t0 y law o f t HF HW Hf Ht H. rewrite (c100_ridge n fi ff t0 y law o f t HF HW) in H by lia. assert (N0 : (0 < IZR n)%R) by (apply IZR_lt; lia).
  destruct (near_point n (2 * rnth law t) ltac:(lia)) as (h & Hh & NH). specialize (H h Hh). destruct (dist_int_spec (2 * rnth law t - IZR f / IZR n)) as ([P _] & q & EQ). exists q.
  assert (EF : rnth (r_freqs o) f = (IZR f / (2 * IZR n))%R).
  { destruct (fmlin_sym _ _ _ _ _ _ HF) as (L & _). change (wvd y None None) with (wvd y (Some (TsI (arange 0 (zlen y)))) (Some (zlen y))) in HW. rewrite L, wvd_unfold in HW. destruct (wvd_tfr _ _ _ _ _); [|discriminate]. cbn [bind] in HW. injection HW as <-. cbn [r_freqs]. unfold wvd_freqs. rewrite rnth_map_arange by lia. rewrite Z.add_0_l. replace 0.5%R with (1 / 2)%R by lra. field. lra. }
  rewrite EF. set (D := dist_int (2 * rnth law t - IZR f / IZR n)) in *. assert (B : (D <= 1 / (2 * IZR n))%R) by lra. replace (1 / (4 * IZR n))%R with (1 / (2 * IZR n) / 2)%R by (field; lra).
  replace (rnth law t - (IZR f / (2 * IZR n) + IZR q / 2))%R with (((2 * rnth law t - IZR f / IZR n) - IZR q) / 2)%R by (field; lra). apply Rabs_le. destruct EQ as [EQ|EQ]; lra.
Qed.
(** The value on the ridge: 2 min(t, n-1-t) + 1 is the largest value an entry of
    column t can take, and it is taken exactly where the row is on the law. *)
Lemma c100_peak : forall n fi ff t0 y law o f t, fmlin n fi ff t0 = Ok (y, law) -> wvd y None None = Ok o -> 0 <= f < n -> 0 <= t < n ->
  (Cmod (at2 (r_tfr o) f t) <= IZR (2 * reach n t + 1))%R /\
  (1 <= t <= n - 2 -> (Cmod (at2 (r_tfr o) f t) = IZR (2 * reach n t + 1) <-> exists q, (2 * rnth law t = IZR f / IZR n + IZR q)%R)).
Proof.
  intros n fi ff t0 y law o f t HF HW Hf Ht. rewrite (c100_entry n fi ff t0 y law o f t HF HW Hf Ht), Cmod_R. set (d := (2 * rnth law t - IZR f / IZR n)%R). assert (M0 : 0 <= reach n t) by (unfold reach; lia).
  destruct (dist_int_spec d) as ([P1 P2] & q & EQ). destruct (dirichlet_peak (reach n t) 0 (dist_int d) M0) as [A B]; try lra. rewrite dirichlet_at_0 in A, B by auto. split; [now rewrite dirichlet_dist|]. intros H. split.
  - intros E. destruct (Req_dec (dist_int d) 0) as [Z|Z]; [exists q; unfold d in *; destruct EQ; lra|]. exfalso. rewrite dirichlet_dist in E. specialize (B ltac:(lra) ltac:(unfold reach; lia)). lra.
  - intros [k E]. replace d with (0 + IZR k)%R by (unfold d; lra). rewrite dirichlet_int, dirichlet_at_0, Rabs_pos_eq; auto. apply IZR_le. lia.
Qed.
(** The first and last columns are constant. *)
Lemma c100_ends : forall n fi ff t0 y law o f t, fmlin n fi ff t0 = Ok (y, law) -> wvd y None None = Ok o -> 0 <= f < n -> t = 0 \/ t = n - 1 -> at2 (r_tfr o) f t = RtoC 1.
Proof.
  intros n fi ff t0 y law o f t HF HW Hf Ht. rewrite (c100_entry n fi ff t0 y law o f t HF HW) by lia. replace (reach n t) with 0 by (unfold reach; lia). now rewrite dirichlet_0.
Qed.
(** Four samples from frequency 0 to 1/2: at sample 1 (frequency 1/6) row 1
    (frequency 1/8) is a maximum; all rows below are smaller. *)
Example c100_example : exists y law o, fmlin 4 0 (1 / 2) None = Ok (y, law) /\ wvd y None None = Ok o /\ rnth law 1 = (1 / 6)%R /\
  forall g, 0 <= g < 4 -> (Cmod (at2 (r_tfr o) g 1) <= Cmod (at2 (r_tfr o) 1 1))%R.
Proof.
  destruct (c55_default 4 0 (1 / 2) ltac:(lia)) as [B _]. destruct (c55_chirp 4 0 (1 / 2) None) as (y & law & HF & L & _ & EL & _); [lia|rewrite Rabs_R0; lra|rewrite Rabs_pos_eq; lra|cbn [centre_of]; rewrite trunc_IZR; lia|].
  destruct (c21_wvd_default y) as [_ W]; [intros ->; discriminate L|]. destruct W as [o HW]; [rewrite L; intros [Q _]; vm_compute in Q; discriminate|]. exists y, law, o. split; [auto|]. split; [auto|]. assert (E1 : rnth law 1 = (1 / 6)%R) by (rewrite EL by lia; cbn; field). split; [auto|].
  apply (proj2 (c100_ridge 4 0 (1 / 2) None y law o 1 1 HF HW ltac:(lia) ltac:(lia))). intros g Hg. rewrite E1. apply Rle_trans with (1 / 12)%R.
  - apply Rle_trans with (1 := dist_int_le _ 0). rewrite Rabs_pos_eq; lra.
  - destruct (dist_int_spec (2 * (1 / 6) - IZR g / 4)) as ([P1 P2] & q & EQ). set (D := dist_int (2 * (1 / 6) - IZR g / 4)) in *. apply Rnot_lt_le. intros C.
    assert (G : g = 0 \/ g = 1 \/ g = 2 \/ g = 3) by lia. assert (K : (-1 < IZR q < 1)%R) by (destruct G as [-> | [-> | [-> | ->]]]; destruct EQ; lra). assert (q = 0) by (destruct K as [K1 K2]; apply lt_IZR in K1; apply lt_IZR in K2; lia). subst q. destruct G as [-> | [-> | [-> | ->]]]; destruct EQ; lra.
Qed.

(** C101: interference. *)
Lemma fmlin_taylor n fi ff t0 y law : fmlin n fi ff t0 = Ok (y, law) -> forall t u, 0 <= t < n -> 0 <= t + u < n ->
  cnth y (t + u) = (cnth y t * cis (2 * PI * (rnth law t * IZR u + (ff - fi) / IZR (n - 1) * IZR u ^ 2 / 2)))%C.
Proof.
  intros H. destruct (fmlin_inv _ _ _ _ _ _ H) as (Hn & Hi & Hf & Ht). destruct (c55_chirp n fi ff t0 Hn Hi Hf Ht) as (y' & law' & E & L1 & L2 & EL & _ & _ & EM & _ & EI & _). rewrite E in H. injection H as <- <-.
  assert (HN : IZR (n - 1) <> 0%R) by (apply not_0_IZR; lia). assert (HN' : (IZR n - 1)%R <> 0%R) by now rewrite <- minus_IZR.
  assert (P : forall u, 0 <= u -> forall t, 0 <= t -> t + u < n -> cnth y' (t + u) = (cnth y' t * cis (2 * PI * (rnth law' t * IZR u + (ff - fi) / IZR (n - 1) * IZR u ^ 2 / 2)))%C).
  { apply (natlike_ind (fun u => forall t, 0 <= t -> t + u < n -> cnth y' (t + u) = (cnth y' t * cis (2 * PI * (rnth law' t * IZR u + (ff - fi) / IZR (n - 1) * IZR u ^ 2 / 2)))%C)).
    - intros t A B. rewrite Z.add_0_r. replace (2 * PI * _)%R with 0%R by (field; auto). rewrite cis_0. ring.
    - intros u Hu IH t A B. unfold Z.succ in *. replace (t + (u + 1)) with (t + u + 1) by lia. rewrite EI, IH, <- Cmult_assoc, <- cis_plus by lia. do 2 f_equal. rewrite !EL by lia. rewrite !plus_IZR, !minus_IZR. field. auto. }
  intros t u A B. destruct (Z_le_gt_dec 0 u); [apply P; lia|]. assert (Q := P (- u) ltac:(lia) (t + u) ltac:(lia) ltac:(lia)). replace (t + u + - u) with t in Q by lia. rewrite Q, <- Cmult_assoc, <- cis_plus. rewrite !EL by lia. replace (2 * PI * _ + _)%R with 0%R; [rewrite cis_0; ring|]. rewrite opp_IZR, !plus_IZR, !minus_IZR. field. auto.
Qed.
(** A combination of two chirps with the same sweep: the distribution is the
    weighted sum of the two distributions and of an oscillating term on the mean of the two laws. *)
Lemma c101_interference : forall n ca cb a1 b1 t1 x1 l1 o1 a2 b2 t2 x2 l2 o2 o f t,
  fmlin n a1 b1 t1 = Ok (x1, l1) -> fmlin n a2 b2 t2 = Ok (x2, l2) -> (b1 - a1 = b2 - a2)%R ->
  wvd x1 None None = Ok o1 -> wvd x2 None None = Ok o2 -> wvd (lincomb ca cb x1 x2) None None = Ok o -> 0 <= f < n -> 0 <= t < n ->
  at2 (r_tfr o) f t = (RtoC (Cmod ca ^ 2) * at2 (r_tfr o1) f t + RtoC (Cmod cb ^ 2) * at2 (r_tfr o2) f t +
    RtoC (2 * Re (ca * Cconj cb * (cnth x1 t * Cconj (cnth x2 t))) * dirichlet (reach n t) (rnth l1 t + rnth l2 t - IZR f / IZR n)))%C.
Proof.
  intros n ca cb a1 b1 t1 x1 l1 o1 a2 b2 t2 x2 l2 o2 o f t H1 H2 HS W1 W2 W Hf Ht. destruct (fmlin_sym _ _ _ _ _ _ H1) as (L1 & _). destruct (fmlin_sym _ _ _ _ _ _ H2) as (L2 & _). destruct (fmlin_inv _ _ _ _ _ _ H1) as (Hn & _).
  assert (L : zlen (lincomb ca cb x1 x2) = n) by (rewrite lincomb_zlen, L1; lia).
  change (wvd x1 None None) with (wvd x1 (Some (TsI (arange 0 (zlen x1)))) (Some (zlen x1))) in W1. change (wvd x2 None None) with (wvd x2 (Some (TsI (arange 0 (zlen x2)))) (Some (zlen x2))) in W2.
  change (wvd (lincomb ca cb x1 x2) None None) with (wvd (lincomb ca cb x1 x2) (Some (TsI (arange 0 (zlen (lincomb ca cb x1 x2))))) (Some (zlen (lincomb ca cb x1 x2)))) in W. rewrite L1 in W1. rewrite L2 in W2. rewrite L in W.
  rewrite (wvd_entry x1 _ n o1 f t Hn W1 Hf ltac:(lia)), (wvd_entry x2 _ n o2 f t Hn W2 Hf ltac:(lia)), (wvd_entry _ _ n o f t Hn W Hf ltac:(lia)). unfold WV. rewrite L, L1, L2.
  assert (M0 : 0 <= reach n t) by (unfold reach; lia).
  set (c := (ca * Cconj cb * (cnth x1 t * Cconj (cnth x2 t)))%C). set (d := (rnth l1 t + rnth l2 t - IZR f / IZR n)%R).
  assert (X : csum (arange (- n) (n + 1)) (fun u => (ca * Cconj cb * (sigf x1 (t + u) * Cconj (sigf x2 (t - u))) + cb * Cconj ca * (sigf x2 (t + u) * Cconj (sigf x1 (t - u)))) * root n (- (f * u)))%C = RtoC (2 * Re c * dirichlet (reach n t) d)).
  { rewrite RtoC_mult, <- cis_sum, <- csum_scal_l by auto. rewrite (csum_incl (arange (- reach n t) (reach n t + 1))); [|apply NoDup_arange|apply NoDup_arange| |].
    - apply csum_ext. intros u Hu. apply in_arange in Hu. unfold reach in *. rewrite !sigf_in by lia. unfold Zminus.
      rewrite (fmlin_taylor _ _ _ _ _ _ H1 t u), (fmlin_taylor _ _ _ _ _ _ H1 t (- u)), (fmlin_taylor _ _ _ _ _ _ H2 t u), (fmlin_taylor _ _ _ _ _ _ H2 t (- u)) by lia. rewrite HS.
      set (s := ((b2 - a2) / IZR (n - 1))%R). rewrite !Cconj_mult, <- !cis_opp. rewrite opp_IZR.
      transitivity ((c + Cconj c) * cis (2 * PI * (IZR u * d)))%C.
      + unfold c, d. rewrite !Cconj_mult, !Cconj_invol. unfold root. replace (2 * PI * IZR (- (f * u)) / IZR n)%R with (2 * PI * (- (IZR f / IZR n) * IZR u))%R by (rewrite opp_IZR, mult_IZR; field; apply not_0_IZR; lia).
        set (y1 := cnth x1 t). set (y2 := cnth x2 t). set (z1 := Cconj y1). set (z2 := Cconj y2).
        transitivity (ca * Cconj cb * y1 * z2 * (cis (2 * PI * (rnth l1 t * IZR u + s * IZR u ^ 2 / 2)) * cis (- (2 * PI * (rnth l2 t * - IZR u + s * (- IZR u) ^ 2 / 2))) * cis (2 * PI * (- (IZR f / IZR n) * IZR u))) +
          cb * Cconj ca * y2 * z1 * (cis (2 * PI * (rnth l2 t * IZR u + s * IZR u ^ 2 / 2)) * cis (- (2 * PI * (rnth l1 t * - IZR u + s * (- IZR u) ^ 2 / 2))) * cis (2 * PI * (- (IZR f / IZR n) * IZR u))))%C; [ring|].
        rewrite <- !cis_plus. match goal with |- (_ * cis ?p + _ * cis ?q)%C = (_ * cis ?r)%C => replace p with r by (field; apply not_0_IZR; lia); replace q with r by (field; apply not_0_IZR; lia) end. ring.
      + f_equal. rewrite RtoC_mult. apply injective_projections; cbn; unfold Re; ring.
    - intros u Hu. apply in_arange in Hu. apply in_arange. unfold reach in *. lia.
    - intros u Hu NU. rewrite in_arange in NU. unfold reach in NU. apply in_arange in Hu. destruct (Z_lt_dec (t + u) 0) as [|A1]; [rewrite (sigf_out x1 (t + u)), (sigf_out x2 (t + u)) by lia; ring|]. destruct (Z_le_dec n (t + u)) as [|A2]; [rewrite (sigf_out x1 (t + u)), (sigf_out x2 (t + u)) by lia; ring|].
      rewrite (sigf_out x1 (t - u)), (sigf_out x2 (t - u)) by lia. rewrite !Cconj_R. ring. }
  rewrite <- X, <- !csum_scal_l, <- !csum_plus. apply csum_ext. intros u _. rewrite !sigf_lincomb by lia. rewrite Cconj_plus, !Cconj_mult, !Cmod2_conj. ring.
Qed.
(** The factor of the interference oscillates at the difference of the frequencies. *)
Lemma c101_oscillation : forall n a1 b1 t1 x1 l1 a2 b2 t2 x2 l2 t, fmlin n a1 b1 t1 = Ok (x1, l1) -> fmlin n a2 b2 t2 = Ok (x2, l2) -> (b1 - a1 = b2 - a2)%R -> 0 <= t < n ->
  (cnth x1 t * Cconj (cnth x2 t) = cnth x1 0 * Cconj (cnth x2 0) * cis (2 * PI * ((a1 - a2) * IZR t)))%C /\ Cmod (cnth x1 0 * Cconj (cnth x2 0))%C = 1%R.
Proof.
  intros n a1 b1 t1 x1 l1 a2 b2 t2 x2 l2 t H1 H2 HS Ht. destruct (fmlin_sym _ _ _ _ _ _ H1) as (_ & _ & E1 & M1 & _). destruct (fmlin_sym _ _ _ _ _ _ H2) as (_ & _ & E2 & M2 & _).
  split; [|rewrite Cmod_mult, Cmod_conj, M1, M2 by lia; ring]. assert (T1 := fmlin_taylor _ _ _ _ _ _ H1 0 t ltac:(lia) ltac:(lia)). assert (T2 := fmlin_taylor _ _ _ _ _ _ H2 0 t ltac:(lia) ltac:(lia)). rewrite Z.add_0_l in *. rewrite T1, T2, Cconj_mult, <- cis_opp, HS, E1, E2 by lia.
  set (s := ((b2 - a2) / IZR (n - 1))%R).
  match goal with |- (?a * cis ?p * (?b * cis ?q))%C = (_ * cis ?r)%C => transitivity (a * b * (cis p * cis q))%C; [ring|]; rewrite <- cis_plus; replace (p + q)%R with r; [ring|] end. unfold s. field. apply not_0_IZR. destruct (fmlin_inv _ _ _ _ _ _ H1). lia.
Qed.
(** Equal weights, a row on the mean of the two laws: the interference term is twice
    the largest value of either chirp, times the oscillating factor. *)
Lemma c101_size : forall n a1 b1 t1 x1 l1 a2 b2 t2 x2 l2 o1 o2 o f t q, fmlin n a1 b1 t1 = Ok (x1, l1) -> fmlin n a2 b2 t2 = Ok (x2, l2) -> (b1 - a1 = b2 - a2)%R ->
  wvd x1 None None = Ok o1 -> wvd x2 None None = Ok o2 -> wvd (lincomb (RtoC 1) (RtoC 1) x1 x2) None None = Ok o -> 0 <= f < n -> 0 <= t < n -> (rnth l1 t + rnth l2 t = IZR f / IZR n + IZR q)%R ->
  (at2 (r_tfr o) f t - at2 (r_tfr o1) f t - at2 (r_tfr o2) f t = RtoC (2 * Re (cnth x1 t * Cconj (cnth x2 t)) * IZR (2 * reach n t + 1)))%C.
Proof.
  intros n a1 b1 t1 x1 l1 a2 b2 t2 x2 l2 o1 o2 o f t q H1 H2 HS W1 W2 W Hf Ht E. rewrite (c101_interference n (RtoC 1) (RtoC 1) a1 b1 t1 x1 l1 o1 a2 b2 t2 x2 l2 o2 o f t) by auto.
  rewrite Cconj_R, !Cmult_1_l, Cmod_1, pow1, !Cmult_1_l. replace (rnth l1 t + rnth l2 t - IZR f / IZR n)%R with (0 + IZR q)%R by lra. rewrite dirichlet_int, dirichlet_at_0 by (unfold reach; lia). ring.
Qed.
(** Tones at 0 and 1/4: at frequency 1/8, where neither has energy of its own, the
    distribution reaches 8; each tone alone gives 1 there. *)
Example c101_example : exists x1 l1 x2 l2 o1 o2 o, fmlin 4 0 0 None = Ok (x1, l1) /\ fmlin 4 (1 / 4) (1 / 4) None = Ok (x2, l2) /\
  wvd x1 None None = Ok o1 /\ wvd x2 None None = Ok o2 /\ wvd (lincomb (RtoC 1) (RtoC 1) x1 x2) None None = Ok o /\
  at2 (r_tfr o1) 1 1 = RtoC 1 /\ at2 (r_tfr o2) 1 1 = RtoC 1 /\ at2 (r_tfr o) 1 1 = RtoC 8.
Proof.
  assert (HR : half_round 4 = 2) by (destruct (half_round_spec 4) as [Q|[Q _]]; lia).
  destruct (c55_chirp 4 0 0 None) as (x1 & l1 & H1 & L1 & _ & E1 & _ & _ & _ & V1 & _); [lia|rewrite Rabs_R0; lra|rewrite Rabs_R0; lra|cbn [centre_of]; rewrite HR, trunc_IZR; lia|].
  destruct (c55_chirp 4 (1 / 4) (1 / 4) None) as (x2 & l2 & H2 & L2 & _ & E2 & _ & _ & _ & V2 & _); [lia|rewrite Rabs_pos_eq; lra|rewrite Rabs_pos_eq; lra|cbn [centre_of]; rewrite HR, trunc_IZR; lia|].
  cbn [centre_of] in V1, V2. rewrite HR, trunc_IZR in V1, V2. change ((2 - 1) mod 4) with 1 in V1, V2.
  assert (L : zlen (lincomb (RtoC 1) (RtoC 1) x1 x2) = 4) by (rewrite lincomb_zlen; lia).
  assert (EX : forall y : list C, zlen y = 4 -> exists o, wvd y None None = Ok o). { intros y LY. destruct (c21_wvd_default y) as [_ W]; [intros ->; discriminate LY|]. apply W. rewrite LY. intros [Q _]; vm_compute in Q; discriminate. }
  destruct (EX x1 L1) as [o1 W1]. destruct (EX x2 L2) as [o2 W2]. destruct (EX _ L) as [o W]. exists x1, l1, x2, l2, o1, o2, o. do 5 (split; [assumption|]).
  assert (A1 : at2 (r_tfr o1) 1 1 = RtoC 1). { rewrite (c100_entry 4 0 0 None x1 l1 o1 1 1 H1 W1) by lia. rewrite E1 by lia. change (reach 4 1) with (0 + 1). rewrite dirichlet_S, dirichlet_0 by lia. f_equal. replace (2 * PI * _)%R with (- (PI / 2))%R by (cbn; field). rewrite cos_neg, cos_PI2. ring. }
  assert (A2 : at2 (r_tfr o2) 1 1 = RtoC 1). { rewrite (c100_entry 4 (1 / 4) (1 / 4) None x2 l2 o2 1 1 H2 W2) by lia. rewrite E2 by lia. change (reach 4 1) with (0 + 1). rewrite dirichlet_S, dirichlet_0 by lia. f_equal. replace (2 * PI * _)%R with (PI / 2)%R by (cbn; field). rewrite cos_PI2. ring. }
  split; [exact A1|]. split; [exact A2|].
  assert (S := c101_size 4 0 0 None x1 l1 (1 / 4) (1 / 4) None x2 l2 o1 o2 o 1 1 0 H1 H2 ltac:(lra) W1 W2 W ltac:(lia) ltac:(lia)). rewrite E1, E2, A1, A2, V1, V2, Cconj_R, Cmult_1_l in S by lia. change (Re (RtoC 1)) with 1%R in S. change (IZR (2 * reach 4 1 + 1)) with 3%R in S.
  assert (S' := S ltac:(cbn; field)). replace (at2 (r_tfr o) 1 1) with ((at2 (r_tfr o) 1 1 - RtoC 1 - RtoC 1) + RtoC 2)%C; [rewrite S', <- RtoC_plus; f_equal; ring|]. replace (RtoC 2) with (RtoC 1 + RtoC 1)%C by (rewrite <- RtoC_plus; f_equal; ring). ring.
Qed.
