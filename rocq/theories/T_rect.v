(** C146: supports and interference of the Margenau-Hill and Page representations. *)
From Coq Require Import Reals ZArith List Lia Lra Bool.
From Coquelicot Require Import Coquelicot.
From Verif Require Import Py Scalars CSum DFT Spec M_base M_stft M_cohen P_base P_stft P_wvd P_spec P_mh T_mh T_ts T_par.
Import ListNotations.
Local Open Scope Z_scope.

(** The spectrum in bin f of the samples from the a-th on, of those that fit in n bins. *)
Definition spectrum_from (a n : Z) (x : list C) (f : Z) : C := csum (arange a (Z.min n (zlen x))) (fun k => cnth x k * root n (- (f * k)))%C.

Lemma factor a n x c s f : csum (arange a (Z.min n (zlen x))) (fun k => c * Cconj (cnth x k) * root n (- (f * (s - k))))%C =
  (c * Cconj (spectrum_from a n x f) * root n (- (f * s)))%C.
Proof.
  unfold spectrum_from. rewrite csum_conj, <- Cmult_assoc, <- csum_scal_r, <- csum_scal_l. apply csum_ext. intros k _. rewrite Cconj_mult, root_conj.
  replace (- (f * (s - k))) with (- (f * s) + - - (f * k)) by ring. rewrite root_plus. ring.
Qed.
(** Cell (f, t) is the real part of the sample times the conjugate spectrum. *)
Lemma c146_mh : forall x l n o i t f, 1 <= n -> mh x (Some (TsI l)) (Some n) = Ok o -> nth_error l (Z.to_nat i) = Some t -> 0 <= f < n ->
  at2 (r_tfr o) f i = RtoC (Re (cnth x (t mod zlen x) * Cconj (spectrum_from 1 n x f) * root n (- (f * t)))%C).
Proof. intros x l n o i t f Hn H Hi Hf. rewrite (c30_any_timestamp x l n o i t f) by auto. now rewrite factor. Qed.
Lemma c146_page : forall x l n o i t f, 1 <= n -> page x (Some (TsI l)) (Some n) = Ok o -> nth_error l (Z.to_nat i) = Some t -> 0 <= f < n ->
  at2 (r_tfr o) f i = RtoC (Re (cnth x (t mod zlen x) * Cconj (spectrum_from 0 n x f) * root n (- (f * (t - 1))))%C).
Proof. intros x l n o i t f Hn H Hi Hf. rewrite (c31_any_timestamp x l n o i t f) by auto. now rewrite factor. Qed.
(** Strong supports: nothing at instants where the signal is 0, nothing in bins where its
    spectrum is 0. *)
Lemma c146_supports : forall x l n, 1 <= n -> 
  (forall o i t f, mh x (Some (TsI l)) (Some n) = Ok o -> nth_error l (Z.to_nat i) = Some t -> 0 <= f < n ->
    cnth x (t mod zlen x) = RtoC 0 \/ spectrum_from 1 n x f = RtoC 0 -> at2 (r_tfr o) f i = RtoC 0) /\
  (forall o i t f, page x (Some (TsI l)) (Some n) = Ok o -> nth_error l (Z.to_nat i) = Some t -> 0 <= f < n ->
    cnth x (t mod zlen x) = RtoC 0 \/ spectrum_from 0 n x f = RtoC 0 -> at2 (r_tfr o) f i = RtoC 0).
Proof.
  assert (Q : forall a b c : C, a = RtoC 0 \/ b = RtoC 0 -> RtoC (Re (a * Cconj b * c)%C) = RtoC 0).
  { intros a b c [-> | ->]; [rewrite !Cmult_0_l; reflexivity|]. rewrite Cconj_R, Cmult_0_r, Cmult_0_l. reflexivity. }
  intros x l n Hn. split; intros o i t f H Hi Hf S; [rewrite (c146_mh x l n o i t f)|rewrite (c146_page x l n o i t f)]; auto.
Qed.
Lemma spectrum_plus a n x y f : 0 <= a -> zlen x = zlen y -> spectrum_from a n (plus x y) f = (spectrum_from a n x f + spectrum_from a n y f)%C.
Proof.
  intros Ha L. unfold spectrum_from. rewrite plus_zlen by auto. rewrite <- L, <- csum_plus. apply csum_ext. intros k Hk. apply in_arange in Hk. rewrite cnth_plus by (auto; lia). ring.
Qed.
(** The interference of x and y: the sample of one times the spectrum of the other. *)
Definition corner (a n s : Z) (x y : list C) (t f : Z) : R := Re (cnth x (t mod zlen x) * Cconj (spectrum_from a n y f) * root n (- (f * s)))%C.
Lemma split_corner a n s x y t f : 0 <= a -> zlen x = zlen y -> 0 < zlen x ->
  corner a n s (plus x y) (plus x y) t f = (corner a n s x x t f + corner a n s y y t f + corner a n s x y t f + corner a n s y x t f)%R.
Proof.
  intros Ha L Hx. unfold corner. rewrite plus_zlen by auto. rewrite spectrum_plus by auto. rewrite <- L. rewrite cnth_plus by (auto; apply Z.mod_pos_bound; lia). rewrite Cconj_plus, <- !Re_plus. f_equal. ring.
Qed.
Lemma len_pos x l n o i (t : Z) : 1 <= n -> mh x (Some (TsI l)) (Some n) = Ok o -> nth_error l (Z.to_nat i) = Some t -> 0 < zlen x.
Proof. intros Hn H Hi. destruct (c30_mh_outcome x l n Hn) as [[B _]|[_ E]]; [|congruence]. specialize (B t (nth_error_In _ _ Hi)). lia. Qed.
Lemma len_pos_p x l n o i (t : Z) : 1 <= n -> page x (Some (TsI l)) (Some n) = Ok o -> nth_error l (Z.to_nat i) = Some t -> 0 < zlen x.
Proof. intros Hn H Hi. destruct (c31_page_outcome x l n Hn) as [[B _]|[_ E]]; [|congruence]. specialize (B t (nth_error_In _ _ Hi)). lia. Qed.
Lemma c146_interference : forall x y l n, 1 <= n -> zlen x = zlen y ->
  (forall ox oy op i t f, mh x (Some (TsI l)) (Some n) = Ok ox -> mh y (Some (TsI l)) (Some n) = Ok oy -> mh (plus x y) (Some (TsI l)) (Some n) = Ok op -> nth_error l (Z.to_nat i) = Some t -> 0 <= f < n ->
    at2 (r_tfr op) f i = (at2 (r_tfr ox) f i + at2 (r_tfr oy) f i + RtoC (corner 1 n t x y t f + corner 1 n t y x t f))%C) /\
  (forall ox oy op i t f, page x (Some (TsI l)) (Some n) = Ok ox -> page y (Some (TsI l)) (Some n) = Ok oy -> page (plus x y) (Some (TsI l)) (Some n) = Ok op -> nth_error l (Z.to_nat i) = Some t -> 0 <= f < n ->
    at2 (r_tfr op) f i = (at2 (r_tfr ox) f i + at2 (r_tfr oy) f i + RtoC (corner 0 n (t - 1) x y t f + corner 0 n (t - 1) y x t f))%C).
Proof.
  intros x y l n Hn L. split; intros ox oy op i t f HX HY HP Hi Hf.
  - rewrite (c146_mh x l n ox i t f), (c146_mh y l n oy i t f), (c146_mh (plus x y) l n op i t f) by auto. assert (P := len_pos _ _ _ _ _ _ Hn HX Hi). fold (corner 1 n t x x t f) (corner 1 n t y y t f) (corner 1 n t (plus x y) (plus x y) t f). rewrite split_corner by (auto; lia). rewrite <- !RtoC_plus. f_equal. ring.
  - rewrite (c146_page x l n ox i t f), (c146_page y l n oy i t f), (c146_page (plus x y) l n op i t f) by auto. assert (P := len_pos_p _ _ _ _ _ _ Hn HX Hi). fold (corner 0 n (t - 1) x x t f) (corner 0 n (t - 1) y y t f) (corner 0 n (t - 1) (plus x y) (plus x y) t f). rewrite split_corner by (auto; lia). rewrite <- !RtoC_plus. f_equal. ring.
Qed.
(** The corners: interference only at an instant of one signal and a bin of the other. *)
Lemma c146_corners : forall x y l n ox oy op i t f, 1 <= n -> zlen x = zlen y ->
  mh x (Some (TsI l)) (Some n) = Ok ox -> mh y (Some (TsI l)) (Some n) = Ok oy -> mh (plus x y) (Some (TsI l)) (Some n) = Ok op -> nth_error l (Z.to_nat i) = Some t -> 0 <= f < n ->
  ((cnth x (t mod zlen x) = RtoC 0 \/ spectrum_from 1 n y f = RtoC 0) -> (cnth y (t mod zlen x) = RtoC 0 \/ spectrum_from 1 n x f = RtoC 0) ->
    at2 (r_tfr op) f i = (at2 (r_tfr ox) f i + at2 (r_tfr oy) f i)%C) /\
  (cnth y (t mod zlen x) = RtoC 0 -> spectrum_from 1 n x f = RtoC 0 ->
    at2 (r_tfr ox) f i = RtoC 0 /\ at2 (r_tfr oy) f i = RtoC 0 /\ at2 (r_tfr op) f i = RtoC (corner 1 n t x y t f)).
Proof.
  intros x y l n ox oy op i t f Hn L HX HY HP Hi Hf. destruct (c146_interference x y l n Hn L) as (M & _). specialize (M ox oy op i t f HX HY HP Hi Hf).
  assert (Q : forall a b c : C, a = RtoC 0 \/ b = RtoC 0 -> Re (a * Cconj b * c)%C = 0%R).
  { intros a b c [-> | ->]; [rewrite !Cmult_0_l; reflexivity|]. rewrite Cconj_R, Cmult_0_r, Cmult_0_l. reflexivity. }
  split.
  - intros A B. rewrite M. unfold corner. rewrite <- L. rewrite !Q by auto. rewrite Rplus_0_r. ring.
  - intros A B. assert (EX : at2 (r_tfr ox) f i = RtoC 0) by (apply (proj1 (c146_supports x l n Hn) ox i t f); auto). assert (EY : at2 (r_tfr oy) f i = RtoC 0) by (apply (proj1 (c146_supports y l n Hn) oy i t f); auto; left; now rewrite <- L).
    split; [exact EX|]. split; [exact EY|]. rewrite M, EX, EY. replace (corner 1 n t y x t f) with 0%R by (unfold corner; rewrite <- L; symmetry; apply Q; auto). rewrite Rplus_0_r. ring.
Qed.
(** How strong the interference is in the column of an instant where y is 0: half of n times the
    power of x there times the energy of y, unless samples of y lie symmetrically about it. *)
Lemma Re_sq (z : C) : (Re z ^ 2 = (Cmod z ^ 2 + Re (z * z)%C) / 2)%R.
Proof. rewrite Cmod_sqr. destruct z as [a b]. unfold Re, Im, Cmult. cbn [fst snd]. field. Qed.
Lemma square_sum n y s c : 0 < n -> csum (arange 0 n) (fun f => let z := (c * Cconj (spectrum_from 1 n y f) * root n (- (f * s)))%C in z * z)%C =
  (RtoC (IZR n) * (c * c) * csum (arange 1 (Z.min n (zlen y))) (fun k => csum (arange 1 (Z.min n (zlen y))) (fun k' => if (2 * s - k - k') mod n =? 0 then Cconj (cnth y k * cnth y k') else RtoC 0)))%C.
Proof.
  intros Hn. cbv zeta.
  transitivity (csum (arange 0 n) (fun f => csum (arange 1 (Z.min n (zlen y))) (fun k => csum (arange 1 (Z.min n (zlen y))) (fun k' => c * c * Cconj (cnth y k * cnth y k') * root n (- (f * (2 * s - k - k'))))))%C).
  - apply csum_ext. intros f _. rewrite <- factor, csum_mult. apply csum_ext. intros k _. apply csum_ext. intros k' _. rewrite Cconj_mult.
    replace (- (f * (2 * s - k - k'))) with (- (f * (s - k)) + - (f * (s - k'))) by ring. rewrite root_plus. ring.
  - rewrite csum_swap. rewrite <- Cmult_assoc, <- csum_scal_l, <- csum_scal_l. apply csum_ext. intros k _. rewrite (exp_total n (arange 1 (Z.min n (zlen y))) (2 * s - k) (fun k' => c * c * Cconj (cnth y k * cnth y k'))%C) by auto.
    f_equal. rewrite <- csum_scal_l. apply csum_ext. intros k' _. destruct (_ =? 0); ring.
Qed.
Lemma mod_sum n y c (s : Z) : 0 < n -> rsum (arange 0 n) (fun f => Cmod (c * Cconj (spectrum_from 1 n y f) * root n (- (f * s)))%C ^ 2)%R =
  (IZR n * Cmod c ^ 2 * rsum (arange 1 (Z.min n (zlen y))) (fun k => Cmod (cnth y k) ^ 2))%R.
Proof.
  intros Hn. apply RtoC_inj. rewrite RtoC_rsum.
  transitivity (csum (arange 0 n) (fun f => RtoC (Cmod c ^ 2) * csum (arange 1 (Z.min n (zlen y))) (fun k' => csum (arange 1 (Z.min n (zlen y))) (fun k => cnth y k' * Cconj (cnth y k) * root n (- (f * (k' - k)))))))%C.
  - apply csum_ext. intros f _. rewrite !Cmod_mult, Cmod_root, Cmod_conj, Rmult_1_r, Rpow_mult_distr, RtoC_mult. f_equal. rewrite (Cmod2_conj (spectrum_from 1 n y f)). unfold spectrum_from. rewrite csum_conj, csum_mult. apply csum_ext. intros k' _. apply csum_ext. intros k _.
    rewrite Cconj_mult, root_conj. replace (- (f * (k' - k))) with (- (f * k') + - - (f * k)) by ring. rewrite root_plus. ring.
  - rewrite csum_scal_l, csum_swap. rewrite !RtoC_mult, (Cmult_comm (RtoC (IZR n))), <- Cmult_assoc. f_equal. rewrite RtoC_rsum, <- csum_scal_l. apply csum_ext. intros k' Hk. apply in_arange in Hk.
    rewrite (exp_total n (arange 1 (Z.min n (zlen y))) k' (fun k => cnth y k' * Cconj (cnth y k))%C) by auto. f_equal. rewrite (csum_residue n 1 (Z.min n (zlen y)) k' (fun k => cnth y k' * Cconj (cnth y k))%C) by lia. rewrite Z.mod_small by lia.
    rewrite (proj2 (Z.leb_le 1 k')), (proj2 (Z.ltb_lt k' _)) by lia. cbn [andb]. now rewrite Cmod2_conj.
Qed.
Lemma c146_strength : forall x y l n ox oy op i t, 1 <= n -> zlen x = zlen y ->
  mh x (Some (TsI l)) (Some n) = Ok ox -> mh y (Some (TsI l)) (Some n) = Ok oy -> mh (plus x y) (Some (TsI l)) (Some n) = Ok op -> nth_error l (Z.to_nat i) = Some t ->
  cnth y (t mod zlen x) = RtoC 0 ->
  (forall k k', 1 <= k < Z.min n (zlen x) -> 1 <= k' < Z.min n (zlen x) -> (2 * t - k - k') mod n = 0 -> cnth y k = RtoC 0 \/ cnth y k' = RtoC 0) ->
  rsum (arange 0 n) (fun f => Cmod (at2 (r_tfr op) f i - at2 (r_tfr ox) f i - at2 (r_tfr oy) f i)%C ^ 2)%R =
  (IZR n / 2 * Cmod (cnth x (t mod zlen x)) ^ 2 * rsum (arange 1 (Z.min n (zlen x))) (fun k => Cmod (cnth y k) ^ 2))%R.
Proof.
  intros x y l n ox oy op i t Hn L HX HY HP Hi Y0 SY. destruct (c146_interference x y l n Hn L) as (M & _). set (c := cnth x (t mod zlen x)) in *.
  rewrite (rsum_ext _ _ (fun f => / 2 * (Cmod (c * Cconj (spectrum_from 1 n y f) * root n (- (f * t)))%C ^ 2) + / 2 * Re (let z := (c * Cconj (spectrum_from 1 n y f) * root n (- (f * t)))%C in z * z)%C)%R).
  - rewrite rsum_plus, !rsum_scal_l, mod_sum, <- Re_csum, square_sum by lia. rewrite <- L.
    rewrite (csum_0 (arange 1 (Z.min n (zlen x)))).
    + rewrite Cmult_0_r. cbn [Re RtoC fst]. field.
    + intros k Hk. apply in_arange in Hk. apply csum_0. intros k' Hk'. apply in_arange in Hk'. destruct (Z.eqb_spec ((2 * t - k - k') mod n) 0) as [E|]; [|reflexivity]. destruct (SY k k' Hk Hk' E) as [-> | ->]; [rewrite Cmult_0_l|rewrite Cmult_0_r]; apply Cconj_R.
  - intros f Hf. apply in_arange in Hf. rewrite (M ox oy op i t f) by auto. replace (corner 1 n t y x t f) with 0%R by (unfold corner; rewrite <- L, Y0, !Cmult_0_l; reflexivity). rewrite Rplus_0_r.
    replace (at2 (r_tfr ox) f i + at2 (r_tfr oy) f i + RtoC (corner 1 n t x y t f) - at2 (r_tfr ox) f i - at2 (r_tfr oy) f i)%C with (RtoC (corner 1 n t x y t f)) by ring.
    rewrite Cmod_R, pow2_abs. unfold corner. fold c. rewrite Re_sq. cbv zeta. field.
Qed.
(** Samples 1 and 3 of value 1 (nothing in bin 1) and sample 2 of value i: at instant 1 and bin 1 both
    representations are 0, that of the sum is 1. *)
Example c146_example : exists ox oy op, mh [RtoC 0; RtoC 1; RtoC 0; RtoC 1] None None = Ok ox /\ mh [RtoC 0; RtoC 0; Ci; RtoC 0] None None = Ok oy /\
  mh [RtoC 0; RtoC 1; Ci; RtoC 1] None None = Ok op /\ at2 (r_tfr ox) 1 1 = RtoC 0 /\ at2 (r_tfr oy) 1 1 = RtoC 0 /\ at2 (r_tfr op) 1 1 = RtoC 1.
Proof.
  set (x := [RtoC 0; RtoC 1; RtoC 0; RtoC 1]). set (y := [RtoC 0; RtoC 0; Ci; RtoC 0]). set (z := [RtoC 0; RtoC 1; Ci; RtoC 1]).
  assert (EZ : z = plus x y) by (unfold z, x, y, plus, lincomb; cbn; repeat f_equal; ring).
  assert (OK : forall s : list C, zlen s = 4 -> exists o, mh s None None = Ok o).
  { intros s Hs. change (mh s None None) with (mh s (Some (TsI (arange 0 (zlen s)))) (Some (zlen s))). rewrite Hs. destruct (c30_mh_outcome s (arange 0 4) 4 ltac:(lia)) as [[_ (o & H & _)]|[(t & H1 & H2) _]]; [eauto|]. exfalso. apply in_arange in H1. lia. }
  destruct (OK x eq_refl) as (ox & HX). destruct (OK y eq_refl) as (oy & HY). destruct (OK z eq_refl) as (op & HP). exists ox, oy, op. split; [exact HX|]. split; [exact HY|]. split; [exact HP|]. rewrite EZ in HP.
  change (mh x None None) with (mh x (Some (TsI (arange 0 4))) (Some 4)) in HX. change (mh y None None) with (mh y (Some (TsI (arange 0 4))) (Some 4)) in HY. change (mh (plus x y) None None) with (mh (plus x y) (Some (TsI (arange 0 4))) (Some 4)) in HP.
  assert (R1 : root 4 (-1) = (- Ci)%C). { unfold root. replace (2 * PI * -1 / 4)%R with (- (PI / 2))%R by field. unfold cis. rewrite cos_neg, sin_neg, cos_PI2, sin_PI2. unfold Ci, Copp. cbn [fst snd]. f_equal; ring. }
  assert (CC : (Ci * Ci)%C = RtoC (-1)) by (unfold Ci, Cmult, RtoC; cbn; f_equal; ring).
  assert (R2 : root 4 (-2) = RtoC (-1)) by (change (-2) with (-1 + -1); rewrite root_plus, R1; replace (- Ci * - Ci)%C with (Ci * Ci)%C by ring; exact CC).
  assert (R3 : root 4 (-3) = Ci) by (change (-3) with (-1 + -2); rewrite root_plus, R1, R2; replace (- Ci * RtoC (-1))%C with (Ci * RtoC 1)%C by (apply injective_projections; unfold Ci, RtoC, Cmult, Copp; cbn; ring); ring).
  destruct (c146_corners x y (arange 0 4) 4 ox oy op 1 1 1 ltac:(lia) eq_refl HX HY HP eq_refl ltac:(lia)) as (_ & Q). destruct Q as (Q1 & Q2 & Q3).
  - reflexivity.
  - unfold spectrum_from. change (arange 1 (Z.min 4 (zlen x))) with [1; 2; 3]. rewrite !csum_cons, csum_nil. change (cnth x 1) with (RtoC 1). change (cnth x 2) with (RtoC 0). change (cnth x 3) with (RtoC 1). change (- (1 * 1)) with (-1). change (- (1 * 2)) with (-2). change (- (1 * 3)) with (-3). rewrite R1, R2, R3. ring.
  - split; [exact Q1|]. split; [exact Q2|]. rewrite Q3. f_equal. unfold corner, spectrum_from. change (arange 1 (Z.min 4 (zlen y))) with [1; 2; 3]. rewrite !csum_cons, csum_nil. change (cnth x (1 mod zlen x)) with (RtoC 1). change (cnth y 1) with (RtoC 0). change (cnth y 2) with Ci. change (cnth y 3) with (RtoC 0). change (- (1 * 1)) with (-1). change (- (1 * 2)) with (-2). change (- (1 * 3)) with (-3). rewrite R1, R2, R3.
    unfold Cconj, Ci, Cmult, Cplus, Copp, RtoC, Re. cbn [fst snd]. ring.
Qed.
