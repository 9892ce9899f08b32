(** C104: the product of the two spreads (Heisenberg-Gabor). *)
From Coq Require Import Reals ZArith List Lia Lra Bool.
From Coquelicot Require Import Coquelicot.
From Flocq Require Import Core.
From Verif Require Import Py Scalars CSum DFT Spec M_base M_putils M_dom P_base M_utils T_putils T_reas T_utils T_dom.
Import ListNotations.
Local Open Scope Z_scope.

Lemma sum_1 n : 0 <= n -> rsum (arange 0 n) IZR = (IZR n * (IZR n - 1) / 2)%R.
Proof. revert n. apply natlike_ind; [cbn; lra|]. intros n Hn IH. unfold Z.succ. rewrite arange_snoc, rsum_app, rsum_cons, rsum_nil, IH, plus_IZR by lia. lra. Qed.
Lemma sum_2 n : 0 <= n -> rsum (arange 0 n) (fun k => IZR k ^ 2)%R = (IZR n * (IZR n - 1) * (2 * IZR n - 1) / 6)%R.
Proof. revert n. apply natlike_ind; [cbn; lra|]. intros n Hn IH. unfold Z.succ. rewrite arange_snoc, rsum_app, rsum_cons, rsum_nil, IH, plus_IZR by lia. lra. Qed.
Lemma sum_c n (p : R) : 0 <= n -> rsum (arange 0 n) (fun _ => p) = (IZR n * p)%R.
Proof. intros Hn. rewrite rsum_const, arange_length, INR_IZR_INZ. f_equal. f_equal. lia. Qed.
(** Equal weights at equally spaced points. *)
Lemma uniform_var n (t : Z -> R) p a s : 1 <= n -> (0 < p)%R -> (forall k, 0 <= k < n -> t k = ((IZR k + a) * s)%R) -> wvar n t (fun _ => p) = (s ^ 2 * (IZR n ^ 2 - 1) / 12)%R.
Proof.
  intros Hn Hp Ht. assert (N0 : (0 < IZR n)%R) by (apply IZR_lt; lia).
  assert (EM : wmean n t (fun _ => p) = (((IZR n - 1) / 2 + a) * s)%R).
  { unfold wmean. rewrite sum_c by lia. rewrite (rsum_ext _ _ (fun k => (s * p) * IZR k + a * s * p)%R) by (intros k Hk; apply in_arange in Hk; rewrite Ht by lia; ring). rewrite rsum_plus, rsum_scal_l, sum_1, sum_c by lia. field. lra. }
  unfold wvar. rewrite EM, sum_c by lia. set (c := ((IZR n - 1) / 2)%R).
  rewrite (rsum_ext _ _ (fun k => ((s ^ 2 * p) * IZR k ^ 2 + (- 2 * c * s ^ 2 * p) * IZR k) + c ^ 2 * s ^ 2 * p)%R) by (intros k Hk; apply in_arange in Hk; rewrite Ht by lia; ring).
  rewrite !rsum_plus, !rsum_scal_l, sum_1, sum_2, sum_c by lia. unfold c. field. lra.
Qed.
Lemma flab_var n p : 2 <= n -> (0 < p)%R -> wvar n (flab n) (fun _ => p) = ((IZR n ^ 2 - 1) / (12 * IZR n ^ 2))%R.
Proof.
  intros Hn Hp. assert (N0 : (0 < IZR n)%R) by (apply IZR_lt; lia). set (h := n - n / 2). assert (Hh : 0 <= h <= n) by (unfold h; Z.to_euclidean_division_equations; lia).
  assert (SH : forall g : R -> R, rsum (arange 0 n) (fun k => g (flab n k)) = rsum (arange 0 n) (fun j => g ((IZR j + - IZR h) * / IZR n)%R)).
  { intros g. rewrite (arange_app 0 (n / 2) n) at 1 by (Z.to_euclidean_division_equations; lia). rewrite (arange_app 0 h n) by lia. rewrite !rsum_app, Rplus_comm. f_equal.
    - replace (arange (n / 2) n) with (arange (0 + n / 2) (h + n / 2)) by (f_equal; unfold h; lia). rewrite arange_shift, rsum_map. apply rsum_ext. intros j Hj. apply in_arange in Hj. f_equal. unfold flab. rewrite (proj2 (Z.ltb_ge _ _)) by lia. unfold h. replace (j + n / 2 - n) with (j - (n - n / 2)) by lia. rewrite minus_IZR. reflexivity.
    - replace (arange h n) with (arange (0 + h) (n / 2 + h)) by (f_equal; unfold h; lia). rewrite arange_shift, rsum_map. apply rsum_ext. intros j Hj. apply in_arange in Hj. f_equal. unfold flab. rewrite (proj2 (Z.ltb_lt _ _)) by lia. rewrite plus_IZR. unfold Rdiv. ring. }
  transitivity (wvar n (fun j => (IZR j + - IZR h) * / IZR n)%R (fun _ => p)).
  - assert (EM : wmean n (flab n) (fun _ => p) = wmean n (fun j => (IZR j + - IZR h) * / IZR n)%R (fun _ => p)) by (unfold wmean; f_equal; apply (SH (fun v => v * p)%R)).
    unfold wvar. rewrite EM. f_equal. apply (SH (fun v => (v - _) ^ 2 * p)%R).
  - rewrite (uniform_var n _ p (- IZR h) (/ IZR n)) by (auto; lia). field. lra.
Qed.
(** An impulse: no time spread; the frequency spread is that of a flat spectrum. *)
Definition impulse_at (x : list C) (k : Z) : Prop := 0 <= k < zlen x /\ cnth x k <> RtoC 0 /\ forall j, 0 <= j < zlen x -> j <> k -> cnth x j = RtoC 0.
Lemma c104_impulse : forall x k, 2 <= zlen x -> zlen x mod 4 <> 1 -> impulse_at x k ->
  (exists tm, loctime x = Ok (Some (tm, 0%R))) /\ exists fm, locfreq x = Ok (Some (fm, (2 * sqrt (PI * ((IZR (zlen x) ^ 2 - 1) / (12 * IZR (zlen x) ^ 2))))%R)).
Proof.
  intros x k Hn H4 HK. assert (K := HK). destruct HK as (Hk & Hx & Ho). assert (NE : energy x <> 0%R). { intros Q. apply Hx. rewrite energy_pw in Q. assert (Z := rsum_nonneg_0 _ _ (fun j _ => pw_nonneg x j) Q k ltac:(apply in_arange; lia)). cbn beta in Z. unfold pw in Z. rewrite <- Rsqr_pow2 in Z. apply Rsqr_0_uniq in Z. now apply Cmod_eq_0. }
  split.
  - exists (tcentre x). rewrite c49_formula. destruct (Req_EM_T (energy x) 0); [tauto|]. do 4 f_equal. apply c49_zero_spread; auto. now exists k.
  - exists (fcentre x). rewrite c50_formula by (auto; lia). destruct (Req_EM_T (energy x) 0); [tauto|]. do 4 f_equal. rewrite fspread_w. do 3 f_equal. set (p := (Cmod (cnth x k) ^ 2)%R). assert (P0 : (0 < p)%R) by (apply pow_lt; now apply Cmod_gt_0).
    rewrite <- (flab_var (zlen x) p Hn P0).
    assert (EP : forall f, In f (arange 0 (zlen x)) -> pw (fft x) f = p). { intros f Hf. apply in_arange in Hf. unfold pw. rewrite fft_nth by lia. rewrite (csum_single _ k); [|apply NoDup_arange|apply in_arange; lia|intros j Hj NJ; apply in_arange in Hj; rewrite Ho by auto; ring]. unfold root. rewrite Cmod_mult, Cmod_cis. unfold p. ring. }
    assert (S1 : rsum (arange 0 (zlen x)) (pw (fft x)) = rsum (arange 0 (zlen x)) (fun _ => p)) by (apply rsum_ext; auto).
    assert (EM : wmean (zlen x) (flab (zlen x)) (pw (fft x)) = wmean (zlen x) (flab (zlen x)) (fun _ => p)) by (unfold wmean; rewrite S1; f_equal; apply rsum_ext; intros j Hj; now rewrite EP).
    unfold wvar. rewrite EM, S1. f_equal. apply rsum_ext. intros j Hj. now rewrite EP.
Qed.
(** A tone on a bin: no frequency spread; the time spread is that of a constant. *)
Lemma c104_tone : forall n m c, 2 <= n -> n mod 4 <> 1 -> 0 <= m < n -> c <> RtoC 0 ->
  (exists tm, loctime (tone n m c) = Ok (Some (tm, (2 * sqrt (PI * ((IZR n ^ 2 - 1) / 12)))%R))) /\ exists fm, locfreq (tone n m c) = Ok (Some (fm, 0%R)).
Proof.
  intros n m c Hn H4 Hm Hc. split; [|exists (flab n m); now apply c50_tone]. exists (tcentre (tone n m c)). assert (L : zlen (tone n m c) = n) by (apply tone_zlen; lia). set (p := (Cmod c ^ 2)%R). assert (P0 : (0 < p)%R) by (apply pow_lt; now apply Cmod_gt_0). assert (N0 : (0 < IZR n)%R) by (apply IZR_lt; lia).
  assert (EP : forall k, In k (arange 0 n) -> pw (tone n m c) k = p). { intros k Hk. apply in_arange in Hk. unfold pw, tone. rewrite cnth_map_arange by lia. unfold root. rewrite Cmod_mult, Cmod_cis. unfold p. ring. }
  assert (S1 : rsum (arange 0 n) (pw (tone n m c)) = rsum (arange 0 n) (fun _ => p)) by (apply rsum_ext; auto).
  rewrite c49_formula. destruct (Req_EM_T (energy (tone n m c)) 0) as [Q|_]; [exfalso; rewrite energy_pw, L, S1, sum_c in Q by lia; nra|]. do 4 f_equal. rewrite tspread_w, L. do 3 f_equal. replace ((IZR n ^ 2 - 1) / 12)%R with (1 ^ 2 * (IZR n ^ 2 - 1) / 12)%R by field. rewrite <- (uniform_var n IZR p 0 1) by (auto; try lia; intros; ring).
  assert (EM : wmean n IZR (pw (tone n m c)) = wmean n IZR (fun _ => p)) by (unfold wmean; rewrite S1; f_equal; apply rsum_ext; intros j Hj; now rewrite EP).
  unfold wvar. rewrite EM, S1. f_equal. apply rsum_ext. intros j Hj. now rewrite EP.
Qed.
Lemma flab_inj n j k : 2 <= n -> 0 <= j < n -> 0 <= k < n -> flab n j = flab n k -> j = k.
Proof.
  intros Hn Hj Hk E. assert (N0 : (0 < IZR n)%R) by (apply IZR_lt; lia). unfold flab in E.
  assert (Q : forall a b : Z, (IZR a / IZR n = IZR b / IZR n)%R -> a = b). { intros a b F. apply eq_IZR. apply Rmult_eq_reg_r with (/ IZR n)%R; [exact F|apply Rinv_neq_0_compat; lra]. }
  destruct (Z.ltb_spec j (n / 2)), (Z.ltb_spec k (n / 2)); apply Q in E; lia.
Qed.
(** Zero frequency spread exactly for a tone on a bin. *)
Lemma c104_zero_band : forall x, 2 <= zlen x -> energy x <> 0%R -> (fspread x = 0%R <-> exists m c, 0 <= m < zlen x /\ c <> RtoC 0 /\ x = tone (zlen x) m c).
Proof.
  intros x Hn NE. assert (N0 : (0 < IZR (zlen x))%R) by (apply IZR_lt; lia). assert (HE := energy_pos _ NE).
  assert (HS : (0 < rsum (arange 0 (zlen x)) (pw (fft x)))%R) by (rewrite fft_energy; nra).
  assert (HV := wvar_nonneg (zlen x) (flab (zlen x)) (pw (fft x)) (fun k _ => pw_nonneg _ k) HS).
  assert (Z0 : forall k, pw (fft x) k = 0%R -> cnth (fft x) k = RtoC 0) by (intros k Q; unfold pw in Q; rewrite <- Rsqr_pow2 in Q; apply Rsqr_0_uniq in Q; now apply Cmod_eq_0).
  assert (NC : RtoC (IZR (zlen x)) <> RtoC 0) by (intros Q; apply RtoC_inj in Q; lra).
  split.
  - intros F. rewrite fspread_w in F. assert (V : wvar (zlen x) (flab (zlen x)) (pw (fft x)) = 0%R).
    { assert (sqrt (PI * wvar (zlen x) (flab (zlen x)) (pw (fft x))) = 0)%R by lra. assert (P := PI_RGT_0). apply sqrt_eq_0 in H; [|apply Rmult_le_pos; lra]. apply Rmult_integral in H. destruct H; lra. }
    rewrite wvar_zero in V by (auto; intros; apply pw_nonneg).
    destruct (Req_EM_T (rsum (arange 0 (zlen x)) (pw (fft x))) 0) as [Q|_]; [lra|].
    assert (EX : exists m, 0 <= m < zlen x /\ pw (fft x) m <> 0%R).
    { destruct (existsb (fun k => if Req_EM_T (pw (fft x) k) 0 then false else true) (arange 0 (zlen x))) eqn:EB.
      - apply existsb_exists in EB. destruct EB as (m & Hm & B). apply in_arange in Hm. exists m. split; [lia|]. destruct (Req_EM_T _ 0); [discriminate|auto].
      - exfalso. rewrite (rsum_0 _ (pw (fft x))) in HS; [lra|]. intros k Hk. destruct (Req_EM_T (pw (fft x) k) 0) as [E|E]; [exact E|]. exfalso. assert (T : existsb (fun k => if Req_EM_T (pw (fft x) k) 0 then false else true) (arange 0 (zlen x)) = true) by (apply existsb_exists; exists k; split; [exact Hk|destruct (Req_EM_T _ 0); [tauto|reflexivity]]). congruence. }
    destruct EX as (m & Hm & Pm). exists m, (cnth (fft x) m * / RtoC (IZR (zlen x)))%C. split; [exact Hm|]. split.
    + intros Q. apply Pm. unfold pw. destruct (Ceq_dec (cnth (fft x) m) (RtoC 0)) as [->|D]; [rewrite Cmod_0; ring|]. exfalso. revert Q. apply Cmult_neq_0; [exact D|]. intros Q. apply NC. rewrite <- (Cmult_1_l (RtoC (IZR (zlen x)))), <- (Cinv_r (RtoC (IZR (zlen x)))) by exact NC. rewrite Q. ring.
    + assert (OF : forall f, 0 <= f < zlen x -> f <> m -> cnth (fft x) f = RtoC 0).
      { intros f Hf D. destruct (V f Hf) as [E|E]; [now apply Z0|]. destruct (V m Hm) as [E'|E']; [tauto|]. exfalso. apply D. apply (flab_inj (zlen x)); auto. congruence. }
      rewrite <- (ifft_fft x) at 1. rewrite (list_as_map (ifft (fft x))), ifft_zlen, fft_zlen. unfold tone. apply map_ext_in. intros k Hk. apply in_arange in Hk. rewrite ifft_nth by (rewrite fft_zlen; lia). rewrite fft_zlen.
      rewrite (csum_single _ m); [ring|apply NoDup_arange|apply in_arange; lia|]. intros f Hf D. apply in_arange in Hf. rewrite OF by auto. ring.
  - intros (m & c & Hm & Hc & E). rewrite fspread_w.
    assert (V : wvar (zlen x) (flab (zlen x)) (pw (fft x)) = 0%R); [|rewrite V, Rmult_0_r, sqrt_0; ring].
    apply wvar_zero; auto; [intros; apply pw_nonneg|]. intros k Hk.
    assert (FK : forall f, 0 <= f < zlen x -> f <> m -> pw (fft x) f = 0%R). { intros f Hf D. unfold pw. rewrite E at 1. rewrite tone_fft by lia. rewrite (proj2 (Z.eqb_neq _ _) D), Cmod_0. ring. }
    destruct (Z.eq_dec k m) as [->|D]; [right|left; now apply FK].
    unfold wmean. rewrite (rsum_single (arange 0 (zlen x)) m (pw (fft x))), (rsum_single (arange 0 (zlen x)) m (fun k => flab (zlen x) k * pw (fft x) k)%R); try apply NoDup_arange; try (apply in_arange; lia).
    + rewrite (rsum_single (arange 0 (zlen x)) m (pw (fft x))) in HS; [field; lra|apply NoDup_arange|apply in_arange; lia|]. intros f Hf D. apply in_arange in Hf. now apply FK.
    + intros f Hf D. apply in_arange in Hf. rewrite FK by auto. ring.
    + intros f Hf D. apply in_arange in Hf. now apply FK.
Qed.
(** The product of the spreads is zero exactly for one-sample signals and for tones on a bin. *)
Lemma c104_product : forall x tm T fm B, 2 <= zlen x -> zlen x mod 4 <> 1 -> loctime x = Ok (Some (tm, T)) -> locfreq x = Ok (Some (fm, B)) ->
  (0 <= T * B)%R /\ ((T * B = 0)%R <-> (exists k, impulse_at x k) \/ (exists m c, 0 <= m < zlen x /\ c <> RtoC 0 /\ x = tone (zlen x) m c)).
Proof.
  intros x tm T fm B Hn H4 ET EF. rewrite c49_formula in ET. rewrite c50_formula in EF by (auto; lia). destruct (Req_EM_T (energy x) 0) as [|NE]; [discriminate|].
  assert (T = tspread x) by congruence. assert (B = fspread x) by congruence. subst T B. destruct (c49_bounds x NE) as (_ & T0). destruct (c50_bounds x Hn NE) as (_ & F0 & _).
  split; [now apply Rmult_le_pos|]. split.
  - intros Q. apply Rmult_integral in Q. destruct Q as [Q|Q]; [left; now apply c49_zero_spread|right; now apply c104_zero_band].
  - intros [(k & K)|K]; [assert (Q : tspread x = 0%R) by (apply c49_zero_spread; auto; now exists k)|assert (Q : fspread x = 0%R) by (now apply c104_zero_band)]; rewrite Q; ring.
Qed.
(** The two spreads are never zero together. *)
Lemma c104_not_both : forall x tm T fm B, 2 <= zlen x -> zlen x mod 4 <> 1 -> loctime x = Ok (Some (tm, T)) -> locfreq x = Ok (Some (fm, B)) -> (0 < T \/ 0 < B)%R.
Proof.
  intros x tm T fm B Hn H4 ET EF. assert (ET' := ET). rewrite c49_formula in ET'. destruct (Req_EM_T (energy x) 0) as [|NE]; [discriminate|]. assert (T = tspread x) by congruence. subst T. destruct (c49_bounds x NE) as (_ & T0).
  destruct (Req_EM_T (tspread x) 0) as [Q|Q]; [right|left; lra]. apply c49_zero_spread in Q; [|auto]. destruct Q as (k & K). destruct (c104_impulse x k Hn H4 K) as (_ & f' & E). rewrite E in EF. injection EF as <- <-.
  assert (N2 : (2 <= IZR (zlen x))%R) by (apply IZR_le; lia). assert (P := PI_RGT_0). apply Rmult_lt_0_compat; [lra|]. apply sqrt_lt_R0, Rmult_lt_0_compat; [lra|]. apply Rdiv_lt_0_compat; nra.
Qed.
(** "bounded below by unity" is false: a single sample has product 0 at every admissible length. *)
Lemma c104_refuted : forall n, 2 <= n -> n mod 4 <> 1 -> exists x tm T fm B, zlen x = n /\ loctime x = Ok (Some (tm, T)) /\ locfreq x = Ok (Some (fm, B)) /\ (T * B = 0)%R.
Proof.
  intros n Hn H4. set (x := map (fun k => if k =? 0 then RtoC 1 else RtoC 0) (arange 0 n)). assert (L : zlen x = n) by (unfold x; rewrite zlen_map, arange_zlen; lia).
  assert (K : impulse_at x 0). { split; [lia|]. unfold x. rewrite cnth_map_arange by lia. split; [cbn; intros Q; apply RtoC_inj in Q; lra|]. intros j Hj D. rewrite zlen_map, arange_zlen in Hj. rewrite cnth_map_arange by lia. rewrite Z.add_0_l, (proj2 (Z.eqb_neq _ _) D). reflexivity. }
  destruct (c104_impulse x 0 ltac:(lia) ltac:(rewrite L; auto) K) as ((tm & E1) & fm & E2). exists x, tm, 0%R, fm. eexists. split; [exact L|]. split; [exact E1|]. split; [exact E2|]. ring.
Qed.
Example c104_example : exists tm fm, loctime (tone 4 1 (RtoC 1)) = Ok (Some (tm, (2 * sqrt (PI * (5 / 4)))%R)) /\ locfreq (tone 4 1 (RtoC 1)) = Ok (Some (fm, 0%R)).
Proof.
  destruct (c104_tone 4 1 (RtoC 1)) as ((tm & E) & fm & F); [lia|discriminate|lia|intros Q; apply RtoC_inj in Q; lra|]. exists tm, fm. split; [|exact F]. rewrite E. do 5 f_equal. f_equal. lra.
Qed.
