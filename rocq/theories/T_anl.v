(** C144: closed forms of the analytic signals. *)
From Coq Require Import Reals ZArith List Lia Lra Bool.
From Coquelicot Require Import Coquelicot.
From Flocq Require Import Core.
From Verif Require Import Py Scalars CSum DFT Spec M_base M_utils M_dom M_gen1 M_gen2 P_base T_utils T_putils T_dom T_gen1 T_gen2 T_hil T_key T_noise T_cells T_nmom.
Import ListNotations.
Local Open Scope Z_scope.

(** What an impulse d samples away contributes to the analytic signal of n samples. *)
Definition sgn_of (d : Z) : R := if Z.even d then 1%R else (-1)%R.
Definition impulse_at (n d : Z) : C :=
  let a := (PI * IZR d / IZR n)%R in
  if d mod n =? 0 then RtoC 1
  else (0, (if Z.even n then (1 - sgn_of d) * cos a else cos a - sgn_of d) / (IZR n * sin a))%R.

Definition hker (n d : Z) : C := (/ RtoC (IZR n) * csum (arange 0 n) (fun f => RtoC (hfac n f) * root n (f * d)))%C.
Lemma cis_pid d : cis (PI * IZR d) = RtoC (sgn_of d).
Proof.
  replace (cis (PI * IZR d)) with (root 2 (- (2 / 2 * - d))).
  - rewrite root_halfk by (reflexivity || lia). unfold sgn_of. now rewrite Z.even_opp.
  - unfold root. f_equal. replace (- (2 / 2 * - d)) with d by (change (2 / 2) with 1; lia). field.
Qed.
Lemma hfac_total n : 0 < n -> rsum (arange 0 n) (hfac n) = IZR n.
Proof.
  intros Hn. assert (E : rsum (arange 0 n) (hfac n) = rsum (arange 0 n) (fun f => hfac n ((- f) mod n))).
  { rewrite <- (rsum_map (fun f => (- f) mod n) (arange 0 n) (hfac n)). symmetry. apply rsum_perm. now apply perm_mod_opp. }
  assert (T : (rsum (arange 0 n) (fun f => hfac n f + hfac n ((- f) mod n)) = 2 * IZR n)%R).
  { rewrite (rsum_ext _ _ (fun _ => 2)%R) by (intros f Hf; apply in_arange in Hf; apply hfac_sum; lia). rewrite rsum_const, INR_IZR_INZ, arange_length.
    replace (Z.of_nat (Z.to_nat (n - 0))) with n by lia. ring. }
  rewrite rsum_plus, <- E in T. lra.
Qed.
Lemma hfac_split n f : 0 < n -> 0 <= f < n ->
  hfac n f = ((if f <? (n + 1) / 2 then 2 else 0) - (if f =? 0 then 1 else 0) + (if f =? (if Z.even n then n / 2 else n) then 1 else 0))%R.
Proof.
  intros Hn Hf. unfold hfac. destruct (Z.even n) eqn:E.
  - apply Z.even_spec in E. destruct E as [m E]. assert (D : n / 2 = m) by (rewrite E, Z.mul_comm, Z.div_mul; lia).
    assert (D1 : (n + 1) / 2 = m) by (symmetry; apply (Z.div_unique _ _ _ 1); lia). rewrite D, D1.
    destruct (Z.eqb_spec f 0), (Z.eqb_spec (2 * f) n), (Z.ltb_spec (2 * f) n), (Z.ltb_spec f m), (Z.eqb_spec f m); try lia; lra.
  - assert (O : Z.odd n = true) by (rewrite <- Z.negb_even, E; reflexivity). apply Z.odd_spec in O. destruct O as [m O].
    assert (D1 : (n + 1) / 2 = m + 1) by (symmetry; apply (Z.div_unique _ _ _ 0); lia). rewrite D1.
    destruct (Z.eqb_spec f 0), (Z.eqb_spec (2 * f) n), (Z.ltb_spec (2 * f) n), (Z.ltb_spec f (m + 1)), (Z.eqb_spec f n); try lia; lra.
Qed.
Lemma csum_below n K (g : Z -> C) : 0 <= K <= n -> csum (arange 0 n) (fun f => if f <? K then g f else RtoC 0) = csum (arange 0 K) g.
Proof.
  intros HK. rewrite (arange_app 0 K n) by lia. rewrite csum_app. rewrite (csum_0 (arange K n)).
  - rewrite Cplus_0_r. apply csum_ext. intros f Hf. apply in_arange in Hf. destruct (Z.ltb_spec f K); [reflexivity|lia].
  - intros f Hf. apply in_arange in Hf. destruct (Z.ltb_spec f K); [lia|reflexivity].
Qed.
Lemma hker_sum n d : 0 < n ->
  csum (arange 0 n) (fun f => RtoC (hfac n f) * root n (f * d))%C =
  (RtoC 2 * csum (arange 0 ((n + 1) / 2)) (fun f => root n (f * d)) - RtoC 1 + (if Z.even n then root n (n / 2 * d) else RtoC 0))%C.
Proof.
  intros Hn. rewrite <- csum_scal_l.
  assert (HK : 0 <= (n + 1) / 2 <= n) by (split; [apply Z.div_pos; lia|apply Z.div_le_upper_bound; lia]).
  rewrite <- (csum_below n ((n + 1) / 2) (fun f => RtoC 2 * root n (f * d)%Z)%C HK).
  rewrite (csum_ext _ _ (fun f => (if (f <? (n + 1) / 2)%Z then RtoC 2 * root n (f * d)%Z else RtoC 0) - (if (f =? 0)%Z then RtoC 1 else RtoC 0) +
     (if (f =? (if Z.even n then n / 2 else n))%Z then root n ((if Z.even n then n / 2 else n) * d)%Z else RtoC 0))%C).
  - rewrite csum_plus, csum_minus, !csum_at. replace ((0 <=? 0) && (0 <? n)) with true by (symmetry; apply andb_true_intro; split; [reflexivity|apply Z.ltb_lt; lia]).
    f_equal. destruct (Z.even n) eqn:E.
    + apply Z.even_spec in E. destruct E as [m E]. assert (D : n / 2 = m) by (rewrite E, Z.mul_comm, Z.div_mul; lia).
      replace ((0 <=? n / 2) && (n / 2 <? n)) with true; [reflexivity|]. symmetry. apply andb_true_intro. split; [apply Z.leb_le|apply Z.ltb_lt]; lia.
    + replace ((0 <=? n) && (n <? n)) with false; [reflexivity|]. symmetry. apply andb_false_intro2. apply Z.ltb_ge. lia.
  - intros f Hf. apply in_arange in Hf. rewrite hfac_split by lia. rewrite RtoC_plus, RtoC_minus.
    assert (R0 : f = 0 -> root n (f * d) = RtoC 1) by (intros ->; rewrite Z.mul_0_l; apply root_0).
    set (j := if Z.even n then n / 2 else n).
    destruct (Z.ltb_spec f ((n + 1) / 2)), (Z.eqb_spec f j) as [Q1|Q1]; try rewrite <- Q1; (destruct (Z.eqb_spec f 0) as [Q0|Q0]; [rewrite (R0 Q0)|]; ring).
Qed.
Lemma even_re (c s g q : R) : (s * s + c * c = 1 -> q * s = (1 - g) * c -> 2 * q * s * c = 2 * (1 - g) + (g - 1) * (1 - (c * c - s * s)))%R.
Proof. intros H Q. replace (2 * q * s * c)%R with (2 * (q * s) * c)%R by ring. rewrite Q. replace (s * s)%R with (1 - c * c)%R by lra. ring. Qed.
Lemma even_im (c s g q : R) : (q * s = (1 - g) * c -> 2 * q * s * s = (1 - g) * (2 * s * c))%R.
Proof. intros Q. replace (2 * q * s * s)%R with (2 * (q * s) * s)%R by ring. rewrite Q. ring. Qed.
Lemma odd_re (c s g q : R) : (s * s + c * c = 1 -> q * s = c - g -> 2 * q * s * c = 1 + (c * c - s * s) - 2 * g * c)%R.
Proof. intros H Q. replace (2 * q * s * c)%R with (2 * (q * s) * c)%R by ring. rewrite Q. replace (s * s)%R with (1 - c * c)%R by lra. ring. Qed.
Lemma odd_im (c s g q : R) : (q * s = c - g -> 2 * q * s * s = 2 * s * c - 2 * g * s)%R.
Proof. intros Q. replace (2 * q * s * s)%R with (2 * (q * s) * s)%R by ring. rewrite Q. ring. Qed.
Lemma hker_closed n d : 0 < n -> hker n d = impulse_at n d.
Proof.
  intros Hn. assert (N0 : IZR n <> 0%R) by (apply not_0_IZR; lia). assert (C0 : RtoC (IZR n) <> RtoC 0) by (intros Q; apply RtoC_inj in Q; auto).
  unfold hker, impulse_at. set (a := (PI * IZR d / IZR n)%R). destruct (Z.eqb_spec (d mod n) 0) as [E|E].
  - rewrite (csum_ext _ _ (fun f => RtoC (hfac n f))).
    + rewrite <- RtoC_rsum, hfac_total by auto. field. exact C0.
    + intros f _. apply Z.mod_divide in E; [|lia]. destruct E as [q ->]. replace (f * (q * n)) with (n * (f * q)) by ring. rewrite root_n by lia. apply Cmult_1_r.
  - assert (NW : (RtoC 1 - root n d)%C <> RtoC 0).
    { apply Cminus_eq_contra. intros Q. symmetry in Q. apply E. apply Z.mod_divide; [lia|]. apply root_1_inv; auto. }
    assert (W : root n d = (cos a * cos a - sin a * sin a, 2 * sin a * cos a)%R).
    { unfold root. replace (2 * PI * IZR d / IZR n)%R with (2 * a)%R by (unfold a; field; auto). unfold cis. now rewrite cos_2a, sin_2a. }
    assert (CS : (sin a * sin a + cos a * cos a = 1)%R) by apply sin2_cos2.
    assert (SA : sin a <> 0%R).
    { intros Q. apply NW. rewrite W, Q. unfold RtoC, Cminus, Cplus, Copp. cbn [fst snd]. rewrite Q in CS. f_equal; nra. }
    rewrite hker_sum by auto. set (G := csum _ _).
    assert (HK : 0 <= (n + 1) / 2) by (apply Z.div_pos; lia).
    assert (GEO := root_geo n d (Z.to_nat ((n + 1) / 2))). rewrite Z2Nat.id in GEO by auto. fold G in GEO.
    set (e := if Z.even n then root n (n / 2 * d) else RtoC 0).
    assert (KEY : ((RtoC 2 * G - RtoC 1 + e) = (0, (if Z.even n then (1 - sgn_of d) * cos a else cos a - sgn_of d) / sin a)%R)%C).
    { assert (CAN : forall u v : C, (u * (RtoC 1 - root n d) = v * (RtoC 1 - root n d))%C -> u = v).
      { intros u v Q. replace u with (u * (RtoC 1 - root n d) / (RtoC 1 - root n d))%C by (field; exact NW). rewrite Q. field. exact NW. }
      apply CAN. transitivity (RtoC 2 * (G * (RtoC 1 - root n d)) + (e - RtoC 1) * (RtoC 1 - root n d))%C; [ring|]. rewrite GEO. unfold e.
      destruct (Z.even n) eqn:EN.
      - apply Z.even_spec in EN. destruct EN as [m EN]. assert (D : n / 2 = m) by (rewrite EN, Z.mul_comm, Z.div_mul; lia).
        assert (D1 : (n + 1) / 2 = m) by (symmetry; apply (Z.div_unique _ _ _ 1); lia). rewrite D, D1.
        replace (root n (m * d)) with (RtoC (sgn_of d)).
        + rewrite W. set (q := ((1 - sgn_of d) * cos a / sin a)%R). assert (HQ : (q * sin a = (1 - sgn_of d) * cos a)%R) by (unfold q; field; auto).
          unfold RtoC, Cminus, Cplus, Copp, Cmult. cbn [fst snd]. f_equal.
          * transitivity (2 * q * sin a * cos a)%R; [rewrite (even_re _ _ _ _ CS HQ)|]; ring.
          * transitivity (2 * q * sin a * sin a)%R; [rewrite (even_im _ _ _ _ HQ); ring|]. replace (cos a * cos a)%R with (1 - sin a * sin a)%R by lra. ring.
        + rewrite <- cis_pid. unfold root. f_equal. rewrite EN, !mult_IZR. field. apply not_0_IZR. lia.
      - assert (O : Z.odd n = true) by (rewrite <- Z.negb_even, EN; reflexivity). apply Z.odd_spec in O. destruct O as [m O].
        assert (D1 : (n + 1) / 2 = m + 1) by (symmetry; apply (Z.div_unique _ _ _ 0); lia). rewrite D1.
        replace (root n ((m + 1) * d)) with (RtoC (sgn_of d) * cis a)%C.
        + rewrite W. set (q := ((cos a - sgn_of d) / sin a)%R). assert (HQ : (q * sin a = cos a - sgn_of d)%R) by (unfold q; field; auto).
          unfold RtoC, cis, Cminus, Cplus, Copp, Cmult. cbn [fst snd]. f_equal.
          * transitivity (2 * q * sin a * cos a)%R; [rewrite (odd_re _ _ _ _ CS HQ)|]; ring.
          * transitivity (2 * q * sin a * sin a)%R; [rewrite (odd_im _ _ _ _ HQ); ring|]. replace (cos a * cos a)%R with (1 - sin a * sin a)%R by lra. ring.
        + rewrite <- cis_pid, <- cis_plus. unfold root. f_equal. unfold a. assert (Q : (IZR m = (IZR n - 1) / 2)%R) by (rewrite O, plus_IZR, mult_IZR; field). rewrite mult_IZR, plus_IZR, Q. field. auto. }
    rewrite KEY. unfold Cmult, Cinv, RtoC. cbn [fst snd]. f_equal; field; split; auto.
Qed.

Lemma hilbert_at x y : hilbert x = Ok y -> zlen y = zlen x /\ forall j, 0 <= j < zlen x ->
  cnth y j = csum (arange 0 (zlen x)) (fun k => RtoC (rnth x k) * hker (zlen x) (j - k))%C.
Proof.
  intros H. destruct (hil_spectrum x y H) as [L S]. split; [exact L|]. intros j Hj. set (n := zlen x) in *.
  rewrite <- (ifft_fft y) at 1. rewrite ifft_nth by (rewrite fft_zlen, L; lia). rewrite fft_zlen, L.
  rewrite (csum_ext (arange 0 n) (fun k => RtoC (rnth x k) * hker n (j - k)%Z)%C (fun k => / RtoC (IZR n) * csum (arange 0 n) (fun f => RtoC (rnth x k) * (RtoC (hfac n f) * root n (f * (j - k))))))%C by (intros k _; unfold hker; rewrite csum_scal_l; ring).
  rewrite csum_scal_l. f_equal. rewrite csum_swap. apply csum_ext. intros f Hf. apply in_arange in Hf. rewrite S by lia.
  rewrite fft_nth by (rewrite zlen_map; fold n; lia). rewrite zlen_map. fold n. rewrite <- csum_scal_l, <- csum_scal_r. apply csum_ext. intros k _.
  replace (cnth (map RtoC x) k) with (RtoC (rnth x k)) by (unfold cnth, rnth; symmetry; apply (map_nth RtoC x 0%R)).
  replace (f * (j - k)) with (- (f * k) + f * j) by ring. rewrite root_plus. ring.
Qed.
(** The analytic signal is the circular convolution with the analytic impulse. *)
Lemma c144_convolution : forall x y, hilbert x = Ok y -> zlen y = zlen x /\ forall j, 0 <= j < zlen x ->
  cnth y j = csum (arange 0 (zlen x)) (fun k => RtoC (rnth x k) * impulse_at (zlen x) (j - k))%C.
Proof.
  intros x y H. destruct (hilbert_at x y H) as [L S]. split; [exact L|]. intros j Hj. rewrite S by auto. apply csum_ext. intros k _. rewrite hker_closed by lia. reflexivity.
Qed.
Lemma hilbert_eq x (g : Z -> C) : 0 < zlen x -> (forall j, 0 <= j < zlen x -> csum (arange 0 (zlen x)) (fun k => RtoC (rnth x k) * hker (zlen x) (j - k)%Z)%C = g j) ->
  hilbert x = Ok (map g (arange 0 (zlen x))).
Proof.
  intros Hn H. destruct (hil_ok x) as [y E]; [intros ->; unfold zlen in Hn; cbn in Hn; lia|]. rewrite E. f_equal. destruct (hilbert_at x y E) as [L S].
  rewrite (list_as_map y), L. apply map_ext_in. intros j Hj. apply in_arange in Hj. rewrite S by lia. apply H. lia.
Qed.
Lemma rnth_arange (g : Z -> R) n k : 0 <= k < n -> rnth (map g (arange 0 n)) k = g k.
Proof. intros H. rewrite rnth_map_arange by lia. reflexivity. Qed.
(** anapulse at a sample. *)
Lemma c144_impulse : forall n k, 0 <= k < n -> anapulse n (Some (IZR k)) = Ok (map (fun j => impulse_at n (j - k)) (arange 0 n)).
Proof.
  intros n k Hk. unfold anapulse. set (x := map _ _). assert (L : zlen x = n) by (unfold x; rewrite zlen_map_arange; lia).
  rewrite (hilbert_eq x (fun j => impulse_at n (j - k))); rewrite L; [reflexivity|lia|]. intros j Hj. rewrite (csum_single _ k); [|apply NoDup_arange|apply in_arange; lia|].
  - unfold x. rewrite rnth_arange by lia. destruct (Req_EM_T (IZR k) (IZR k)); [|congruence]. rewrite hker_closed by lia. apply Cmult_1_l.
  - intros m Hm Ne. apply in_arange in Hm. unfold x. rewrite rnth_arange by lia. destruct (Req_EM_T (IZR m) (IZR k)) as [Q|Q]; [apply eq_IZR in Q; lia|]. apply Cmult_0_l.
Qed.
(** anastep is the sum of the impulses after its position. *)
Lemma c144_step : forall n t, 0 < n -> -1 <= t < n ->
  anastep n (Some (IZR t)) = Ok (map (fun j => csum (arange (t + 1) n) (fun k => impulse_at n (j - k))) (arange 0 n)).
Proof.
  intros n t Hn Ht. unfold anastep. set (x := map _ _). assert (L : zlen x = n) by (unfold x; rewrite zlen_map_arange; lia).
  rewrite (hilbert_eq x (fun j => csum (arange (t + 1) n) (fun k => impulse_at n (j - k)))); rewrite L; [reflexivity|lia|]. intros j Hj.
  rewrite (arange_app 0 (t + 1) n) by lia. rewrite csum_app, csum_0, Cplus_0_l.
  - apply csum_ext. intros k Hk. apply in_arange in Hk. unfold x. rewrite rnth_arange by lia. destruct (Rlt_dec (IZR t) (IZR k)) as [Q|Q]; [|exfalso; apply Q, IZR_lt; lia]. rewrite hker_closed by lia. apply Cmult_1_l.
  - intros k Hk. apply in_arange in Hk. unfold x. rewrite rnth_arange by lia. destruct (Rlt_dec (IZR t) (IZR k)) as [Q|Q]; [apply lt_IZR in Q; lia|]. apply Cmult_0_l.
Qed.
Lemma hker_mod n d : 0 < n -> hker n (d mod n) = hker n d.
Proof. intros Hn. unfold hker. f_equal. apply csum_ext. intros f _. f_equal. apply root_mod_mul_r. lia. Qed.
(** Linear combinations and circular delays. *)
Lemma c144_linear : forall x1 x2 y1 y2 a b, zlen x1 = zlen x2 -> hilbert x1 = Ok y1 -> hilbert x2 = Ok y2 ->
  hilbert (map (fun k => a * rnth x1 k + b * rnth x2 k)%R (arange 0 (zlen x1))) = Ok (map (fun k => RtoC a * cnth y1 k + RtoC b * cnth y2 k)%C (arange 0 (zlen x1))).
Proof.
  intros x1 x2 y1 y2 a b L H1 H2. destruct (hilbert_at _ _ H1) as [_ S1]. destruct (hilbert_at _ _ H2) as [_ S2]. rewrite <- L in S2. set (n := zlen x1) in *.
  assert (Hn : 0 < n) by (unfold hilbert in H1; fold n in H1; destruct (Z.eqb_spec n 0); [discriminate|]; unfold n, zlen in *; lia).
  set (x := map _ _). assert (LX : zlen x = n) by (unfold x; rewrite zlen_map_arange; lia).
  rewrite (hilbert_eq x (fun k => RtoC a * cnth y1 k + RtoC b * cnth y2 k)%C); rewrite LX; [reflexivity|lia|]. intros j Hj. rewrite S1, S2 by auto.
  rewrite <- !csum_scal_l, <- csum_plus. apply csum_ext. intros k Hk. apply in_arange in Hk. unfold x. rewrite rnth_arange by lia. rewrite RtoC_plus, !RtoC_mult. ring.
Qed.
Lemma c144_delay : forall x y s, hilbert x = Ok y ->
  hilbert (map (fun k => rnth x ((k - s) mod zlen x)) (arange 0 (zlen x))) = Ok (map (fun k => cnth y ((k - s) mod zlen x)) (arange 0 (zlen x))).
Proof.
  intros x y s H. destruct (hilbert_at _ _ H) as [_ S1]. set (n := zlen x) in *.
  assert (Hn : 0 < n) by (unfold hilbert in H; fold n in H; destruct (Z.eqb_spec n 0); [discriminate|]; unfold n, zlen in *; lia).
  set (x' := map _ _). assert (LX : zlen x' = n) by (unfold x'; rewrite zlen_map_arange; lia).
  rewrite (hilbert_eq x' (fun k => cnth y ((k - s) mod n))); rewrite LX; [reflexivity|lia|]. intros j Hj. rewrite S1 by (apply Z.mod_pos_bound; lia).
  rewrite (csum_ext _ _ (fun k => (fun i => RtoC (rnth x i) * hker n ((j - s) mod n - i)%Z)%C ((k + - s) mod n))).
  - apply (csum_mod_shift n (- s) (fun i => RtoC (rnth x i) * hker n ((j - s) mod n - i)%Z)%C). lia.
  - intros k Hk. apply in_arange in Hk. unfold x'. rewrite rnth_arange by lia. cbv beta. replace (k + - s) with (k - s) by ring. f_equal.
    rewrite <- (hker_mod n (j - k)), <- (hker_mod n ((j - s) mod n - (k - s) mod n)) by lia. f_equal. rewrite <- Zminus_mod. f_equal. ring.
Qed.
(** A cosine on a bin strictly between 0 and half the sampling frequency becomes the
    complex exponential. *)
Lemma c144_tone : forall n f (c : C), 0 < 2 * f < n ->
  hilbert (map (fun k => Re (c * root n (f * k))%C) (arange 0 n)) = Ok (map (fun k => c * root n (f * k))%C (arange 0 n)).
Proof.
  intros n f c Hf. set (x := map _ _). assert (LX : zlen x = n) by (unfold x; rewrite zlen_map_arange; lia).
  rewrite (hilbert_eq x (fun k => c * root n (f * k)%Z)%C); rewrite LX; [reflexivity|lia|]. intros j Hj.
  assert (N0 : IZR n <> 0%R) by (apply not_0_IZR; lia). assert (C0 : RtoC (IZR n) <> RtoC 0) by (intros Q; apply RtoC_inj in Q; auto).
  assert (RE : forall z : C, RtoC (Re z) = ((z + Cconj z) / RtoC 2)%C).
  { intros z. replace (z + Cconj z)%C with (RtoC (2 * Re z)) by (destruct z as [u v]; unfold Cplus, Cconj, RtoC, Re; cbn; f_equal; ring). rewrite <- RtoC_div by lra. apply (f_equal RtoC). field. }
  rewrite (csum_ext _ _ (fun k => csum (arange 0 n) (fun g => (/ RtoC (IZR n) / RtoC 2 * RtoC (hfac n g) * root n (g * j)%Z) * (c * root n (k * (f - g))%Z + Cconj c * root n (k * (- f - g))%Z)))%C).
  - rewrite csum_swap. rewrite (csum_ext _ _ (fun g => (if (g =? f)%Z then c * root n (f * j)%Z else RtoC 0) + (if (g =? n - f)%Z then RtoC 0 else RtoC 0))%C).
    + rewrite csum_plus, !csum_at. replace ((0 <=? f) && (f <? n)) with true by (symmetry; apply andb_true_intro; split; [apply Z.leb_le|apply Z.ltb_lt]; lia).
      destruct ((0 <=? n - f) && (n - f <? n)); ring.
    + intros g Hg. apply in_arange in Hg. rewrite csum_scal_l, csum_plus, !csum_scal_l, !root_orth by lia.
      assert (E1 : ((f - g) mod n =? 0) = (g =? f)).
      { destruct (Z.eqb_spec g f) as [->|Q]; [rewrite Z.sub_diag, Z.mod_0_l by lia; reflexivity|]. apply Z.eqb_neq. intros E. apply Z.mod_divide in E; [|lia]. destruct E as [q E]. assert (q = 0) by nia. nia. }
      assert (E2 : ((- f - g) mod n =? 0) = (g =? n - f)).
      { destruct (Z.eqb_spec g (n - f)) as [->|Q]; [replace (- f - (n - f)) with (-1 * n) by ring; rewrite Z.mod_mul by lia; reflexivity|]. apply Z.eqb_neq. intros E. apply Z.mod_divide in E; [|lia]. destruct E as [q E]. assert (q = -1) by nia. nia. }
      rewrite E1, E2. destruct (Z.eqb_spec g f) as [Q|Q], (Z.eqb_spec g (n - f)) as [Q'|Q']; try lia.
      * rewrite Q. unfold hfac. destruct (Z.eqb_spec f 0); [lia|]. destruct (Z.eqb_spec (2 * f) n); [lia|]. destruct (Z.ltb_spec (2 * f) n); [|lia]. field. split; [exact C0|]. intros E. apply RtoC_inj in E. lra.
      * rewrite Q'. unfold hfac. destruct (Z.eqb_spec (n - f) 0); [lia|]. destruct (Z.eqb_spec (2 * (n - f)) n); [lia|]. destruct (Z.ltb_spec (2 * (n - f)) n); [lia|]. ring.
      * ring.
  - intros k Hk. apply in_arange in Hk. unfold x. rewrite rnth_arange by lia. rewrite RE. unfold hker. rewrite Cconj_mult, root_conj, <- !csum_scal_l. apply csum_ext. intros g _.
    replace (k * (f - g)) with (f * k + - (g * k)) by ring. replace (k * (- f - g)) with (- (f * k) + - (g * k)) by ring. replace (g * (j - k)) with (- (g * k) + g * j) by ring.
    rewrite !root_plus. field. split; [exact C0|]. intros E. apply RtoC_inj in E. lra.
Qed.
(** Energy of the analytic impulse. *)
Lemma c144_energy : forall n k y, 0 <= k < n -> anapulse n (Some (IZR k)) = Ok y ->
  energy y = (2 - 1 / IZR n - (if Z.even n then 1 / IZR n else 0))%R.
Proof.
  intros n k y Hk H. unfold anapulse in H. set (x := map _ _) in H. assert (L : zlen x = n) by (unfold x; rewrite zlen_map_arange; lia).
  assert (NP : (0 < IZR n)%R) by (apply IZR_lt; lia).
  assert (X : forall j, 0 <= j < n -> rnth x j = if j =? k then 1%R else 0%R).
  { intros j Hj. unfold x. rewrite rnth_arange by lia. destruct (Req_EM_T _ _) as [Q|Q]; destruct (Z.eqb_spec j k) as [E|E]; try reflexivity; [apply eq_IZR in Q; lia|rewrite E in Q; congruence]. }
  assert (ONE : forall g : R -> Z -> R, (forall j, g 0%R j = 0%R) -> rsum (arange 0 n) (fun j => g (rnth x j) j) = g 1%R k).
  { intros g G0. rewrite (rsum_single _ k); [rewrite X, Z.eqb_refl by lia; reflexivity|apply NoDup_arange|apply in_arange; lia|].
    intros j Hj Ne. apply in_arange in Hj. rewrite X by lia. destruct (Z.eqb_spec j k); [lia|apply G0]. }
  destruct (c143_hilbert x y H) as (RY & _ & _ & IM). rewrite L in IM.
  assert (M1 : rmean x = (1 / IZR n)%R) by (unfold rmean; rewrite rsum_rnth, L; rewrite (ONE (fun v _ => v)) by auto; reflexivity).
  assert (A1 : (alt_mean x ^ 2 = 1 / IZR n ^ 2)%R).
  { unfold alt_mean. rewrite L. rewrite (ONE (fun v j => if Z.even j then v else - v)%R) by (intros j; destruct (Z.even j); ring). destruct (Z.even k); field; lra. }
  rewrite !rmean_map, L, (hil_zlen x y H), L in IM. rewrite (rsum_rnth x), L in IM. rewrite (ONE (fun v _ => v ^ 2)%R) in IM by (intros; ring). rewrite M1 in IM.
  assert (EY : energy y = (rsum y (fun v => Im v ^ 2) + rsum y (fun v => Re v ^ 2))%R).
  { unfold energy. rewrite <- rsum_plus. apply rsum_ext. intros v _. rewrite Cmod_sqr. ring. }
  rewrite EY. rewrite <- (rsum_map Re y (fun v => v ^ 2)%R), RY, (rsum_rnth x), L. rewrite (ONE (fun v _ => v ^ 2)%R) by (intros; ring).
  replace (rsum y (fun v => Im v ^ 2)%R) with (IZR n * (rsum y (fun v => Im v ^ 2) / IZR n))%R by (field; lra). rewrite IM.
  destruct (Z.even n); [rewrite A1|]; field; lra.
Qed.
(** Four samples: the impulse at sample 1. *)
Example c144_example : anapulse 4 (Some 1%R) = Ok [(0, -1 / 2); (1, 0); (0, 1 / 2); (0, 0)]%R.
Proof.
  rewrite (c144_impulse 4 1) by lia. change (arange 0 4) with [0; 1; 2; 3]. cbn [map].
  assert (P := PI_RGT_0). assert (S4 : sin (PI / 4) <> 0%R) by (apply Rgt_not_eq, sin_gt_0; lra). assert (C4 : cos (PI / 4) = sin (PI / 4)) by (rewrite cos_PI4, sin_PI4; reflexivity).
  assert (D0 : impulse_at 4 (0 - 1) = (0, -1 / 2)%R).
  { unfold impulse_at, sgn_of. change ((0 - 1) mod 4 =? 0) with false. change (Z.even 4) with true. change (Z.even (0 - 1)) with false. cbv iota zeta. change (0 - 1) with (-1).
    replace (PI * -1 / 4)%R with (- (PI / 4))%R by field. rewrite cos_neg, sin_neg, C4. f_equal. field. auto. }
  assert (D2 : impulse_at 4 (2 - 1) = (0, 1 / 2)%R).
  { unfold impulse_at, sgn_of. change ((2 - 1) mod 4 =? 0) with false. change (Z.even 4) with true. change (Z.even (2 - 1)) with false. cbv iota zeta. change (2 - 1) with 1.
    replace (PI * 1 / 4)%R with (PI / 4)%R by field. rewrite C4. f_equal. field. auto. }
  assert (D3 : impulse_at 4 (3 - 1) = (0, 0)%R).
  { unfold impulse_at, sgn_of. change ((3 - 1) mod 4 =? 0) with false. change (Z.even 4) with true. change (Z.even (3 - 1)) with true. cbv iota zeta. f_equal. unfold Rdiv. ring. }
  rewrite D0, D2, D3. reflexivity.
Qed.
(** fmconst at a frequency k/n strictly between 0 and 1/2 is the analytic signal of its
    real part. *)
Lemma c144_fmconst : forall n f c, 0 <= c < n -> 0 < 2 * f < n ->
  exists y, fmconst n (IZR f / IZR n) (Some (IZR c)) = Ok (map Some y, map (fun _ => (IZR f / IZR n)%R) (arange 0 n)) /\ zlen y = n /\ hilbert (map Re y) = Ok y.
Proof.
  intros n f c Hc Hf. assert (NP : (0 < IZR n)%R) by (apply IZR_lt; lia). assert (F0 : (0 < IZR f)%R) by (apply IZR_lt; lia). assert (F1 : (2 * IZR f < IZR n)%R) by (rewrite <- mult_IZR; apply IZR_lt; lia).
  destruct (c54_tone n (IZR f / IZR n) c Hc) as (y & E & L & V & _).
  { rewrite Rabs_right by (apply Rle_ge, Rmult_le_pos; [lra|left; now apply Rinv_0_lt_compat]). apply (Rmult_le_reg_r (IZR n)); [auto|]. unfold Rdiv. rewrite Rmult_assoc, Rinv_l by lra. lra. }
  exists y. split; [exact E|]. split; [exact L|].
  assert (EY : y = map (fun k => root n (- (f * c)) * root n (f * k))%C (arange 0 n)).
  { rewrite (list_as_map y), L. apply map_ext_in. intros k Hk. apply in_arange in Hk. rewrite V by lia. rewrite <- root_plus. unfold root. f_equal.
    rewrite plus_IZR, opp_IZR, !mult_IZR, minus_IZR. field. lra. }
  rewrite EY. rewrite map_map. now apply c144_tone.
Qed.
(** Off the bins it is not. *)
Lemma c144_off_bin_refuted : exists n f c y l, 0 <= c < n /\ (0 < f < 1 / 2)%R /\ fmconst n f (Some (IZR c)) = Ok (map Some y, l) /\ hilbert (map Re y) <> Ok y.
Proof.
  destruct (c54_tone 2 (1 / 4) 0 ltac:(lia)) as (y & E & L & V & _); [rewrite Rabs_right; lra|].
  exists 2, (1 / 4)%R, 0, y, (map (fun _ => (1 / 4)%R) (arange 0 2)). split; [lia|]. split; [lra|]. split; [exact E|]. intros H.
  assert (LM : zlen (map Re y) = 2) by (rewrite zlen_map; exact L).
  destruct (hilbert_at _ _ H) as [_ S]. rewrite LM in S. specialize (S 1 ltac:(lia)). rewrite (V 1) in S by lia.
  change (arange 0 2) with [0; 1] in S. unfold hker in S. change (arange 0 2) with [0; 1] in S. unfold csum in S. cbn [fold_right] in S.
  apply (f_equal Im) in S. replace (2 * PI * (1 / 4) * IZR (1 - 0))%R with (PI / 2)%R in S by (change (1 - 0) with 1; field).
  assert (RI : forall k, Im (root 2 k) = 0%R).
  { intros k. unfold root. replace (2 * PI * IZR k / IZR 2)%R with (PI * IZR k)%R by field. rewrite cis_pid. reflexivity. }
  assert (QI : forall a u b v : R, Im (/ RtoC (IZR 2) * (RtoC a * (u, 0%R) + (RtoC b * (v, 0%R) + RtoC 0)))%C = 0%R) by (intros; unfold Im; cbn; field).
  assert (RR : forall k, root 2 k = (Re (root 2 k), 0%R)) by (intros k; rewrite <- (RI k); destruct (root 2 k); reflexivity).
  rewrite (RR (0 * (1 - 0))), (RR (1 * (1 - 0))), (RR (0 * (1 - 1))), (RR (1 * (1 - 1))) in S.
  set (h0 := hfac 2 0) in S. set (h1 := hfac 2 1) in S. unfold cis in S. rewrite sin_PI2 in S. cbn in S.
  revert S. generalize (Re (root 2 (0 * (1 - 0)))). intros. unfold Im in S. cbn in S. lra.
Qed.
