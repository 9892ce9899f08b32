(** C155: the Margenau-Hill and Page representations of a tone and of an impulse. *)
From Coq Require Import Reals ZArith List Lia Lra Bool.
From Coquelicot Require Import Coquelicot.
From Flocq Require Import Core.
From Verif Require Import Py Scalars CSum DFT Spec M_base M_stft M_cohen M_putils M_reas P_base P_stft P_wvd P_spec P_mh T_mh T_ts T_par T_rect T_key T_noise T_putils T_reas T_reas2 T_conc T_rtone.
Import ListNotations.
Local Open Scope Z_scope.

Lemma tone_sample x a k0 n m : 0 < n -> is_tone x a (IZR k0 / IZR n) -> 0 <= m < zlen x -> cnth x m = (a * root n (k0 * m))%C.
Proof. intros Hn T Hm. rewrite (T m Hm). unfold root. do 2 f_equal. rewrite mult_IZR. field. apply not_0_IZR. lia. Qed.
Lemma tone_spectrum x a k0 n f : 0 < n <= zlen x -> is_tone x a (IZR k0 / IZR n) ->
  spectrum_from 0 n x f = (if (k0 - f) mod n =? 0 then a * RtoC (IZR n) else RtoC 0)%C /\ spectrum_from 1 n x f = (spectrum_from 0 n x f - a)%C.
Proof.
  intros Hn T. unfold spectrum_from. rewrite Z.min_l by lia.
  assert (E : csum (arange 0 n) (fun k => cnth x k * root n (- (f * k)))%C = (a * csum (arange 0 n) (fun k => root n (k * (k0 - f))))%C).
  { rewrite <- csum_scal_l. apply csum_ext. intros k Hk. apply in_arange in Hk. rewrite (tone_sample x a k0 n k) by (auto; lia). rewrite <- Cmult_assoc, <- root_plus. do 2 f_equal. ring. }
  split.
  - rewrite E, root_orth by lia. destruct (_ =? 0); ring.
  - rewrite (arange_app 0 1 n) by lia. rewrite csum_app. change (arange 0 1) with [0]. unfold csum at 2. cbn [fold_right]. rewrite (tone_sample x a k0 n 0) by (auto; lia). rewrite !Z.mul_0_r. change (- 0) with 0. rewrite root_0. ring.
Qed.
Lemma Re_scale (r : R) z : Re (RtoC r * z)%C = (r * Re z)%R.
Proof. destruct z. cbn. ring. Qed.
Lemma Re_root n k : Re (root n k) = cos (2 * PI * IZR k / IZR n).
Proof. reflexivity. Qed.
Lemma tone_phase a k0 n f t s : (a * root n (k0 * t) * Cconj a * root n (- (f * s)))%C = (RtoC (Cmod a ^ 2) * root n (k0 * t - f * s))%C.
Proof. rewrite Cmod2_conj. unfold Z.sub. rewrite root_plus. ring. Qed.
Lemma root_mod_0 n k : 0 < n -> k mod n = 0 -> root n k = RtoC 1.
Proof. intros Hn H. apply Z.mod_divide in H; [|lia]. destruct H as [q ->]. rewrite Z.mul_comm. unfold root. replace (2 * PI * IZR (n * q) / IZR n)%R with (2 * PI * IZR q)%R by (rewrite mult_IZR; field; apply not_0_IZR; lia). apply cis_2PI_k. Qed.

(** Margenau-Hill: the row of the tone, and the trace left in all others by the sample that is not used. *)
Lemma c155_mh_tone : forall x a k0 n l o i t f, is_tone x a (IZR k0 / IZR n) -> 1 <= n <= zlen x -> mh x (Some (TsI l)) (Some n) = Ok o -> nth_error l (Z.to_nat i) = Some t -> 0 <= t < zlen x -> 0 <= f < n ->
  at2 (r_tfr o) f i = RtoC (Cmod a ^ 2 * (if (k0 - f) mod n =? 0 then IZR n - 1 else - cos (2 * PI * IZR ((k0 - f) * t) / IZR n)))%R.
Proof.
  intros x a k0 n l o i t f T Hn H Hi Ht Hf. rewrite (c146_mh x l n o i t f) by (auto; lia). apply (f_equal RtoC). destruct (tone_spectrum x a k0 n f ltac:(lia) T) as [E0 E1]. rewrite E1, E0, Z.mod_small by lia. rewrite (tone_sample x a k0 n t) by (auto; lia).
  assert (P := tone_phase a k0 n f t t). replace (k0 * t - f * t) with ((k0 - f) * t) in P by ring. destruct (Z.eqb_spec ((k0 - f) mod n) 0) as [Z0|Z0].
  - rewrite Cconj_minus, Cconj_mult, Cconj_R. transitivity (Re (RtoC (IZR n - 1) * (a * root n (k0 * t) * Cconj a * root n (- (f * t))))%C).
    { f_equal. rewrite RtoC_minus. ring. }
    rewrite P, Re_scale, Re_scale. rewrite root_mod_0 by (try lia; rewrite <- Zmult_mod_idemp_l, Z0; apply Z.mod_0_l; lia). cbn. ring.
  - transitivity (Re (RtoC (-1) * (a * root n (k0 * t) * Cconj a * root n (- (f * t))))%C).
    { f_equal. rewrite Cconj_minus, Cconj_R. change (RtoC (-1)) with (- RtoC 1)%C at 1 || replace (RtoC (-1)) with (- RtoC 1)%C by (rewrite <- RtoC_opp; f_equal; lra). ring. }
    rewrite P, Re_scale, Re_scale, Re_root. ring.
Qed.
(** Page: the other rows are empty, and the row of the tone carries the factor cos(2 pi k0 / n). *)
Lemma c155_page_tone : forall x a k0 n l o i t f, is_tone x a (IZR k0 / IZR n) -> 1 <= n <= zlen x -> page x (Some (TsI l)) (Some n) = Ok o -> nth_error l (Z.to_nat i) = Some t -> 0 <= t < zlen x -> 0 <= f < n ->
  at2 (r_tfr o) f i = RtoC (if (k0 - f) mod n =? 0 then Cmod a ^ 2 * IZR n * cos (2 * PI * IZR k0 / IZR n) else 0)%R.
Proof.
  intros x a k0 n l o i t f T Hn H Hi Ht Hf. rewrite (c146_page x l n o i t f) by (auto; lia). apply (f_equal RtoC). destruct (tone_spectrum x a k0 n f ltac:(lia) T) as [E0 _]. rewrite E0, Z.mod_small by lia. rewrite (tone_sample x a k0 n t) by (auto; lia).
  destruct (Z.eqb_spec ((k0 - f) mod n) 0) as [Z0|Z0]; [|rewrite Cconj_R, Cmult_0_r, Cmult_0_l; reflexivity].
  assert (P := tone_phase a k0 n f t (t - 1)). rewrite Cconj_mult, Cconj_R. transitivity (Re (RtoC (IZR n) * (a * root n (k0 * t) * Cconj a * root n (- (f * (t - 1)))))%C); [f_equal; ring|].
  rewrite P, Re_scale, Re_scale. replace (k0 * t - f * (t - 1)) with (k0 + (k0 - f) * (t - 1)) by ring. rewrite root_plus. rewrite (root_mod_0 n ((k0 - f) * (t - 1))) by (try lia; rewrite <- Zmult_mod_idemp_l, Z0; apply Z.mod_0_l; lia). rewrite Cmult_1_r, Re_root. ring.
Qed.
(** A tone a quarter of the sampling frequency high (or three) is invisible to Page, whatever its amplitude. *)
Lemma c155_page_quarter : forall x a k0 n l o i t f, is_tone x a (IZR k0 / IZR n) -> 1 <= n <= zlen x -> page x (Some (TsI l)) (Some n) = Ok o -> nth_error l (Z.to_nat i) = Some t -> 0 <= t < zlen x -> 0 <= f < n ->
  n = 4 * k0 \/ 3 * n = 4 * k0 -> at2 (r_tfr o) f i = RtoC 0.
Proof.
  intros x a k0 n l o i t f T Hn H Hi Ht Hf Q. rewrite (c155_page_tone x a k0 n l o i t f) by auto. apply (f_equal RtoC). destruct (_ =? 0); [|reflexivity]. assert (N0 : IZR n <> 0%R) by (apply not_0_IZR; lia).
  destruct Q as [Q|Q]; apply (f_equal IZR) in Q; rewrite !mult_IZR in Q.
  - replace (2 * PI * IZR k0 / IZR n)%R with (PI / 2)%R; [rewrite cos_PI2; ring|]. rewrite Q. field. intros Z. apply N0. rewrite Q, Z. ring.
  - replace (2 * PI * IZR k0 / IZR n)%R with (3 * (PI / 2))%R; [rewrite cos_3PI2; ring|]. replace (IZR k0) with (3 * IZR n / 4)%R by lra. field. exact N0.
Qed.

(** An impulse: Margenau-Hill shows it whole unless it is the first sample, which is lost; Page gives its line the factor cos(2 pi f / n). *)
Lemma impulse_spectrum x k a b n f : only_at x k a -> 0 <= b -> spectrum_from b n x f = (if (b <=? k) && (k <? Z.min n (zlen x)) then a * root n (- (f * k)) else RtoC 0)%C.
Proof.
  intros HX Hb. unfold spectrum_from. assert (Z0 : forall k', In k' (arange b (Z.min n (zlen x))) -> k' <> k -> (cnth x k' * root n (- (f * k')))%C = RtoC 0).
  { intros k' Hk NE. apply in_arange in Hk. rewrite HX by lia. destruct (Z.eqb_spec k' k); [lia|]. ring. }
  destruct ((b <=? k) && (k <? Z.min n (zlen x))) eqn:B.
  - apply andb_prop in B. destruct B as [B1 B2]. apply Z.leb_le in B1. apply Z.ltb_lt in B2. rewrite (csum_single _ k); [|apply NoDup_arange|apply in_arange; lia|exact Z0]. rewrite HX, Z.eqb_refl by lia. reflexivity.
  - apply csum_0. intros k' Hk. apply Z0; [exact Hk|]. intros ->. apply in_arange in Hk. apply andb_false_iff in B. destruct B as [B|B]; [apply Z.leb_gt in B|apply Z.ltb_ge in B]; lia.
Qed.
Lemma c155_mh_impulse : forall x k a n l o i t f, only_at x k a -> 0 <= k < zlen x -> 1 <= n -> mh x (Some (TsI l)) (Some n) = Ok o -> nth_error l (Z.to_nat i) = Some t -> 0 <= t < zlen x -> 0 <= f < n ->
  at2 (r_tfr o) f i = RtoC (if (t =? k) && (1 <=? k) && (k <? n) then Cmod a ^ 2 else 0)%R.
Proof.
  intros x k a n l o i t f HX Hk Hn H Hi Ht Hf. rewrite (c146_mh x l n o i t f) by (auto; lia). apply (f_equal RtoC). rewrite (impulse_spectrum x k a 1 n f HX ltac:(lia)), Z.mod_small, HX by lia.
  destruct (Z.eqb_spec t k) as [->|NE]; [|rewrite !Cmult_0_l; reflexivity]. cbn [andb]. destruct (Z.leb_spec 1 k), (Z.ltb_spec k n), (Z.ltb_spec k (Z.min n (zlen x))); try lia; cbn [andb]; try (rewrite Cconj_R, Cmult_0_r, Cmult_0_l; reflexivity).
  rewrite Cconj_mult, root_conj, Z.opp_involutive. transitivity (Re (RtoC (Cmod a ^ 2) * root n (f * k + - (f * k)))%C); [f_equal; rewrite Cmod2_conj, root_plus; ring|]. rewrite Z.add_opp_diag_r, root_0, Cmult_1_r. reflexivity.
Qed.
Lemma c155_page_impulse : forall x k a n l o i t f, only_at x k a -> 0 <= k < zlen x -> 1 <= n -> page x (Some (TsI l)) (Some n) = Ok o -> nth_error l (Z.to_nat i) = Some t -> 0 <= t < zlen x -> 0 <= f < n ->
  at2 (r_tfr o) f i = RtoC (if (t =? k) && (k <? n) then Cmod a ^ 2 * cos (2 * PI * IZR f / IZR n) else 0)%R.
Proof.
  intros x k a n l o i t f HX Hk Hn H Hi Ht Hf. rewrite (c146_page x l n o i t f) by (auto; lia). apply (f_equal RtoC). rewrite (impulse_spectrum x k a 0 n f HX ltac:(lia)), Z.mod_small, HX by lia.
  destruct (Z.eqb_spec t k) as [->|NE]; [|rewrite !Cmult_0_l; reflexivity]. cbn [andb]. destruct (Z.leb_spec 0 k); [|lia]. destruct (Z.ltb_spec k n), (Z.ltb_spec k (Z.min n (zlen x))); try lia; cbn [andb]; try (rewrite Cconj_R, Cmult_0_r, Cmult_0_l; reflexivity).
  rewrite Cconj_mult, root_conj, Z.opp_involutive. transitivity (Re (RtoC (Cmod a ^ 2) * root n (f * k + - (f * (k - 1))))%C); [f_equal; rewrite Cmod2_conj, root_plus; ring|]. replace (f * k + - (f * (k - 1))) with f by ring. rewrite Re_scale, Re_root. ring.
Qed.
(** 1, i, -1, -i: row 1 of Margenau-Hill holds 3, that of Page 0; and an impulse at sample 2 of 4. *)
Example c155_example : let x := [RtoC 1; Ci; RtoC (-1); (- Ci)%C] in let y := [RtoC 0; RtoC 0; RtoC 3; RtoC 0] in
  (exists o, mh x (Some (TsI [0; 1; 2; 3])) (Some 4) = Ok o /\ at2 (r_tfr o) 1 2 = RtoC 3 /\ at2 (r_tfr o) 3 2 = RtoC (-1)) /\
  (exists o, page x (Some (TsI [0; 1; 2; 3])) (Some 4) = Ok o /\ forall f i, 0 <= f < 4 -> 0 <= i < 4 -> at2 (r_tfr o) f i = RtoC 0) /\
  (exists o, mh y (Some (TsI [0; 1; 2; 3])) (Some 4) = Ok o /\ at2 (r_tfr o) 2 2 = RtoC 9) /\
  (exists o, page y (Some (TsI [0; 1; 2; 3])) (Some 4) = Ok o /\ at2 (r_tfr o) 2 2 = RtoC (-9)).
Proof.
  intros x y. set (l := [0; 1; 2; 3]). assert (B : forall ti, In ti l -> 0 <= ti < 4) by (intros ti [<-|[<-|[<-|[<-|[]]]]]; lia).
  assert (C1 : cis (PI / 2) = Ci) by (unfold cis; rewrite cos_PI2, sin_PI2; reflexivity). assert (CP : cis PI = RtoC (-1)) by (unfold cis; rewrite cos_PI, sin_PI; reflexivity).
  assert (T : is_tone x (RtoC 1) (IZR 1 / IZR 4)).
  { intros m Hm. change (zlen x) with 4 in Hm. rewrite Cmult_1_l. assert (m = 0 \/ m = 1 \/ m = 2 \/ m = 3) as [-> | [-> | [-> | ->]]] by lia.
    - rewrite Rmult_0_r, cis_0. reflexivity.
    - replace (2 * PI * (1 / 4) * 1)%R with (PI / 2)%R by field. rewrite C1. reflexivity.
    - replace (2 * PI * (1 / 4) * 2)%R with PI by field. rewrite CP. reflexivity.
    - replace (2 * PI * (1 / 4) * 3)%R with (PI + PI / 2)%R by field. rewrite cis_plus, CP, C1. change (cnth x 3) with (- Ci)%C. apply injective_projections; cbn; ring. }
  assert (HY : only_at y 2 (RtoC 3)) by (intros m Hm; change (zlen y) with 4 in Hm; assert (m = 0 \/ m = 1 \/ m = 2 \/ m = 3) as [-> | [-> | [-> | ->]]] by lia; reflexivity).
  assert (NI : forall i, 0 <= i < 4 -> nth_error l (Z.to_nat i) = Some i) by (intros i Hi; assert (i = 0 \/ i = 1 \/ i = 2 \/ i = 3) as [-> | [-> | [-> | ->]]] by lia; reflexivity).
  assert (M3 : (Cmod (RtoC 3) ^ 2 = 9)%R) by (rewrite Cmod_R, Rabs_right by lra; ring).
  split; [|split; [|split]].
  - destruct (c30_mh_outcome x l 4 ltac:(lia)) as [[_ (o & H & _)]|[(ti & I & NB) _]]; [|exfalso; apply NB; apply B in I; change (zlen x) with 4; lia]. exists o. split; [exact H|].
    rewrite !(c155_mh_tone x (RtoC 1) 1 4 l o 2 2) by (first [exact T | exact H | reflexivity | (change (zlen x) with 4; lia) | lia]). change ((1 - 1) mod 4 =? 0) with true. change ((1 - 3) mod 4 =? 0) with false. cbv iota. rewrite Cmod_1. split; apply (f_equal RtoC); [ring|].
    replace (2 * PI * IZR ((1 - 3) * 2) / 4)%R with (- (2 * PI))%R by (cbn; field). rewrite cos_neg, cos_2PI. ring.
  - destruct (c31_page_outcome x l 4 ltac:(lia)) as [[_ (o & H & _)]|[(ti & I & NB) _]]; [|exfalso; apply NB; apply B in I; change (zlen x) with 4; lia]. exists o. split; [exact H|]. intros f i Hf Hi.
    apply (c155_page_quarter x (RtoC 1) 1 4 l o i i f T); try exact H; try (change (zlen x) with 4; lia); auto.
  - destruct (c30_mh_outcome y l 4 ltac:(lia)) as [[_ (o & H & _)]|[(ti & I & NB) _]]; [|exfalso; apply NB; apply B in I; change (zlen y) with 4; lia]. exists o. split; [exact H|].
    rewrite (c155_mh_impulse y 2 (RtoC 3) 4 l o 2 2) by (first [exact HY | exact H | reflexivity | (change (zlen y) with 4; lia) | lia]). change ((2 =? 2) && (1 <=? 2) && (2 <? 4)) with true. cbv iota. now rewrite M3.
  - destruct (c31_page_outcome y l 4 ltac:(lia)) as [[_ (o & H & _)]|[(ti & I & NB) _]]; [|exfalso; apply NB; apply B in I; change (zlen y) with 4; lia]. exists o. split; [exact H|].
    rewrite (c155_page_impulse y 2 (RtoC 3) 4 l o 2 2) by (first [exact HY | exact H | reflexivity | (change (zlen y) with 4; lia) | lia]). change ((2 =? 2) && (2 <? 4)) with true. cbv iota. rewrite M3. replace (2 * PI * 2 / 4)%R with PI by field. rewrite cos_PI. apply (f_equal RtoC). ring.
Qed.
