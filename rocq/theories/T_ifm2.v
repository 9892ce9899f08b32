(** C130: the circular moments of the Margenau-Hill and Page columns. *)
From Coq Require Import Reals ZArith List Lia Lra Bool.
From Coquelicot Require Import Coquelicot.
From Verif Require Import Py Scalars CSum DFT Spec M_base M_stft M_cohen M_amb M_dom P_base P_stft P_wvd P_mh T_wvd T_mh T_dom T_ifm.
Import ListNotations.
Local Open Scope Z_scope.

Lemma re_half (z : C) : RtoC (Re z) = (/ RtoC 2 * (z + Cconj z))%C.
Proof. rewrite <- RtoC_inv by lra. destruct z as [a b]. apply injective_projections; cbn; field. Qed.

Lemma re_moment n a M d m (g : Z -> C) : 0 < n -> 0 <= a -> M <= n ->
  let G k := if (a <=? k) && (k <? M) then g k else RtoC 0 in
  csum (arange 0 n) (fun f => RtoC (Re (csum (arange a M) (fun k => g k * root n (- (f * (d - k)))))) * root n (f * m))%C
  = (RtoC (IZR n) / RtoC 2 * (G ((d - m) mod n) + Cconj (G ((d + m) mod n))))%C.
Proof.
  intros Hn Ha HM G.
  rewrite (csum_ext _ _ (fun f => / RtoC 2 * (csum (arange a M) (fun k => g k * root n (- (f * (d - m - k)))) + Cconj (csum (arange a M) (fun k => g k * root n (- (f * (d + m - k)))))))%C).
  - rewrite csum_scal_l, csum_plus.     rewrite <- (csum_conj (arange 0 n) (fun f => csum (arange a M) (fun k => g k * root n (- (f * (d + m - k))))%C)).
    rewrite !exp_total, !csum_residue by auto. fold (G ((d - m) mod n)). fold (G ((d + m) mod n)). rewrite Cconj_mult, Cconj_R. unfold Cdiv. ring.
  - intros f _. rewrite re_half, <- Cmult_assoc. f_equal. rewrite Cmult_plus_distr_r. f_equal.
    + rewrite <- csum_scal_r. apply csum_ext. intros k _. rewrite <- Cmult_assoc, <- root_plus. do 2 f_equal. lia.
    + rewrite !csum_conj, <- csum_scal_r. apply csum_ext. intros k _. rewrite !Cconj_mult, !root_conj, <- Cmult_assoc, <- root_plus. do 2 f_equal. lia.
Qed.

(** Every circular moment of a Margenau-Hill column whose samples at distance m both lie in range. *)
Lemma c130_mh_moments : forall x l n o i t m, 1 <= n -> mh x (Some (TsI l)) (Some n) = Ok o -> nth_error l (Z.to_nat i) = Some t -> 0 <= t ->
  1 <= t - m < Z.min n (zlen x) -> 1 <= t + m < Z.min n (zlen x) ->
  csum (arange 0 n) (fun f => at2 (r_tfr o) f i * cis (2 * PI * (IZR f * IZR m) / IZR n))%C
  = (RtoC (IZR n) / RtoC 2 * (cnth x t * Cconj (cnth x (t - m)) + Cconj (cnth x t) * cnth x (t + m)))%C.
Proof.
  intros x l n o i t m Hn H Hi Ht H1 H2.
  rewrite (csum_ext _ _ (fun f => RtoC (Re (csum (arange 1 (Z.min n (zlen x))) (fun k => cnth x t * Cconj (cnth x k) * root n (- (f * (t - k)))))) * root n (f * m))%C).
  - rewrite (re_moment n 1 (Z.min n (zlen x)) t m (fun k => cnth x t * Cconj (cnth x k))%C) by lia. rewrite !Z.mod_small by lia.
    rewrite (proj2 (Z.leb_le 1 (t - m))), (proj2 (Z.ltb_lt (t - m) _)), (proj2 (Z.leb_le 1 (t + m))), (proj2 (Z.ltb_lt (t + m) _)) by lia. cbn [andb].
    rewrite Cconj_mult, Cconj_invol. reflexivity.
  - intros f Hf. apply in_arange in Hf. rewrite (c30_mh_closed_form x l n o i t f Hn H Hi Ht) by lia. f_equal. unfold root. rewrite mult_IZR. reflexivity.
Qed.

Lemma c130_page_moments : forall x l n o i t m, 1 <= n -> page x (Some (TsI l)) (Some n) = Ok o -> nth_error l (Z.to_nat i) = Some t -> 0 <= t ->
  0 <= t - 1 - m < Z.min n (zlen x) -> 0 <= t - 1 + m < Z.min n (zlen x) ->
  csum (arange 0 n) (fun f => at2 (r_tfr o) f i * cis (2 * PI * (IZR f * IZR m) / IZR n))%C
  = (RtoC (IZR n) / RtoC 2 * (cnth x t * Cconj (cnth x (t - 1 - m)) + Cconj (cnth x t) * cnth x (t - 1 + m)))%C.
Proof.
  intros x l n o i t m Hn H Hi Ht H1 H2.
  rewrite (csum_ext _ _ (fun f => RtoC (Re (csum (arange 0 (Z.min n (zlen x))) (fun k => cnth x t * Cconj (cnth x k) * root n (- (f * (t - 1 - k)))))) * root n (f * m))%C).
  - rewrite (re_moment n 0 (Z.min n (zlen x)) (t - 1) m (fun k => cnth x t * Cconj (cnth x k))%C) by lia. rewrite !Z.mod_small by lia.
    rewrite (proj2 (Z.leb_le 0 (t - 1 - m))), (proj2 (Z.ltb_lt (t - 1 - m) _)), (proj2 (Z.leb_le 0 (t - 1 + m))), (proj2 (Z.ltb_lt (t - 1 + m) _)) by lia. cbn [andb].
    rewrite Cconj_mult, Cconj_invol. reflexivity.
  - intros f Hf. apply in_arange in Hf. rewrite (c31_page_closed_form x l n o i t f Hn H Hi Ht) by lia. f_equal. unfold root. rewrite mult_IZR. reflexivity.
Qed.

(** For samples of equal modulus the first moment of the Margenau-Hill column points, up to its
    sign, in the direction of the instantaneous frequency. *)
Lemma c130_mh : forall ang x l n o i fs is t A, (forall k z, is_angle z (ang k z)) -> 1 <= n ->
  mh x (Some (TsI l)) (Some n) = Ok o -> nth_error l (Z.to_nat i) = Some t -> inst_freq ang x None = Ok (fs, is) ->
  2 <= t < zlen x - 1 -> t < n - 1 ->
  Cmod (cnth x (t - 1)) = A -> Cmod (cnth x t) = A -> Cmod (cnth x (t + 1)) = A ->
  let S := csum (arange 0 n) (fun f => at2 (r_tfr o) f i * cis (2 * PI * IZR f / IZR n))%C in
  (S * S = RtoC (Cmod S ^ 2) * cis (4 * PI * rnth fs (t - 1)))%C /\ (Cmod S <= IZR n * A ^ 2)%R.
Proof.
  intros ang x l n o i fs is t A HA Hn H Hi HI Ht Htn M1 M0 M2 S.
  assert (ES : S = (RtoC (IZR n) / RtoC 2 * (cnth x t * Cconj (cnth x (t - 1)) + Cconj (cnth x t) * cnth x (t + 1)))%C).
  { rewrite <- (c130_mh_moments x l n o i t 1 Hn H Hi) by lia. apply csum_ext. intros f _. rewrite Rmult_1_r. reflexivity. }
  assert (P := inst_phase ang x fs is (t - 1) HA HI ltac:(lia)). replace (t - 1 + 2) with (t + 1) in P by lia. rewrite M1, M2 in P.
  set (a := cnth x (t - 1)) in *. set (b := cnth x t) in *. set (c := cnth x (t + 1)) in *. set (w := cis (4 * PI * rnth fs (t - 1))) in *.
  assert (N0 : (b * Cconj b = RtoC (A * A))%C) by (rewrite <- Cmod2_conj, M0; f_equal; ring).
  assert (N1 : (a * Cconj a = RtoC (A * A))%C) by (rewrite <- Cmod2_conj, M1; f_equal; ring).
  assert (N2 : (c * Cconj c = RtoC (A * A))%C) by (rewrite <- Cmod2_conj, M2; f_equal; ring).
  split.
  - rewrite Cmod2_conj, ES. set (h := (RtoC (IZR n) / RtoC 2)%C). assert (HC : Cconj h = h) by (unfold h; rewrite <- RtoC_div by lra; apply Cconj_R).
    rewrite !Cconj_mult, HC, Cconj_plus, !Cconj_mult, !Cconj_invol.
    destruct (Req_dec A 0) as [Z|Z].
    + assert (b = RtoC 0) by (apply Cmod_eq_0; lra). rewrite H0, Cconj_R. ring.
    + assert (NZ : RtoC (A * A) <> RtoC 0) by (intros Q; apply RtoC_inj in Q; apply Rmult_integral in Q; lra).
      assert (EW : w = (/ RtoC (A * A) * (c * Cconj a))%C) by (rewrite P, Cmult_assoc, Cinv_l, Cmult_1_l; auto). rewrite EW.
      assert (K1 : (Cconj b * a * (/ RtoC (A * A) * (c * Cconj a)) = Cconj b * c)%C).
      { transitivity (/ RtoC (A * A) * (a * Cconj a) * (Cconj b * c))%C; [ring|]. rewrite N1, Cinv_l by auto. ring. }
      assert (K2 : (b * Cconj c * (/ RtoC (A * A) * (c * Cconj a)) = b * Cconj a)%C).
      { transitivity (/ RtoC (A * A) * (c * Cconj c) * (b * Cconj a))%C; [ring|]. rewrite N2, Cinv_l by auto. ring. }
      transitivity (h * h * ((b * Cconj a + Cconj b * c) * (Cconj b * c + b * Cconj a)))%C; [ring|]. set (u := (b * Cconj a)%C) in *. set (v := (Cconj b * c)%C) in *. transitivity (h * h * ((u + v) * (Cconj b * a * (/ RtoC (A * A) * (c * Cconj a)) + b * Cconj c * (/ RtoC (A * A) * (c * Cconj a)))))%C; [now rewrite K1, K2|ring].
  - rewrite ES, Cmod_mult. assert (HN : (1 <= IZR n)%R) by (apply IZR_le; lia). rewrite <- RtoC_div, Cmod_R, Rabs_right by lra.
    assert (T := Cmod_triangle (b * Cconj a)%C (Cconj b * c)%C). rewrite !Cmod_mult, !Cmod_conj, M0, M1, M2 in T. 
    assert (0 <= Cmod (b * Cconj a + Cconj b * c)%C)%R by apply Cmod_ge_0. nra.
Qed.

(** A column of the Margenau-Hill distribution of four quarter-turns. *)
Example c130_mh_example : exists o, mh [RtoC 1; Ci; RtoC (-1); (- Ci)%C] None None = Ok o /\
  csum (arange 0 4) (fun f => at2 (r_tfr o) f 2 * cis (2 * PI * (IZR f * IZR 1) / IZR 4))%C = (RtoC 4 * Ci)%C.
Proof.
  set (x := [RtoC 1; Ci; RtoC (-1); (- Ci)%C]). destruct (c30_mh_outcome x (arange 0 4) 4 ltac:(lia)) as [[_ (o & E & _)]|[(t & Ht & B) _]].
  - exists o. split; [exact E|]. rewrite (c130_mh_moments x (arange 0 4) 4 o 2 2 1 ltac:(lia) E eq_refl) by (cbn; lia).
    change (cnth x 2) with (RtoC (-1)). change (cnth x (2 - 1)) with Ci. change (cnth x (2 + 1)) with (- Ci)%C. rewrite <- RtoC_div by lra. apply injective_projections; cbn; field.
  - exfalso. apply B. apply in_arange in Ht. cbn. lia.
Qed.
