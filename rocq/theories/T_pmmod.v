(** C163: PseudoMargenauHillDistribution of a delayed, modulated or conjugated signal. *)
From Coq Require Import Reals ZArith List Lia Lra Bool.
From Coquelicot Require Import Coquelicot.
From Flocq Require Import Core.
From Verif Require Import Py Scalars CSum DFT Spec M_base M_stft M_cohen M_amb M_putils M_reas P_base P_stft P_wvd P_mh P_pwvd P_spec P_spwv T_mh T_spwv T_red T_key T_noise T_putils T_reas T_reas2 T_conc T_rtone T_sptone T_pmtone T_pmcov T_ex1.
Import ListNotations.
Local Open Scope Z_scope.

(** Zeros put in front move the columns, up to both ends. *)
Lemma c163_delay : forall x s ts ts' n w ox oy f c, 1 <= n -> 0 <= s -> pmh x (Some ts) (Some n) (Some w) = Ok ox -> pmh (delay s x) (Some ts') (Some n) (Some w) = Ok oy -> 0 <= f < n -> 0 <= c < ts_len ts -> c + s < ts_len ts' ->
  at2 (r_tfr oy) f (c + s) = at2 (r_tfr ox) f c.
Proof.
  intros x s ts ts' n w ox oy f c Hn Hs HX HY Hf Hc Hc'. assert (X0 := zlen_nonneg x). rewrite (c32_pmh_closed_form x ts n w ox f c), (c32_pmh_closed_form (delay s x) ts' n w oy f (c + s)) by (auto; lia). rewrite delay_zlen by exact Hs.
  rewrite (arange_app 0 s (s + zlen x)) by lia. rewrite csum_app. rewrite csum_0.
  - rewrite Cplus_0_l. replace (arange s (s + zlen x)) with (arange (0 + s) (zlen x + s)) by (f_equal; lia). rewrite csum_arange_shift. apply csum_ext. intros k Ik. apply in_arange in Ik. rewrite !delay_hi by lia. replace (c + s - s) with c by lia. replace (k + s - s) with k by lia. replace (c + s - 1 - (k + s)) with (c - 1 - k) by lia. reflexivity.
  - intros k Ik. apply in_arange in Ik. rewrite (delay_lo s x k) by lia. rewrite Cconj_R. ring.
Qed.
(** The columns in front of the signal are 0. *)
Lemma c163_before : forall x s ts n w o f c, 1 <= n -> 0 <= s -> pmh (delay s x) (Some ts) (Some n) (Some w) = Ok o -> 0 <= f < n -> 0 <= c < ts_len ts -> c < s -> at2 (r_tfr o) f c = RtoC 0.
Proof.
  intros x s ts n w o f c Hn Hs H Hf Hc B. rewrite (c32_pmh_closed_form (delay s x) ts n w o f c) by auto. apply csum_0. intros k _. rewrite (delay_lo s x c) by lia. ring.
Qed.
(** Modulation by m bins moves the rows by m and turns every entry by exp(2 i pi m / n). *)
Lemma c163_modulation : forall x m ts n w ox oy f c, 1 <= n -> pmh x (Some ts) (Some n) (Some w) = Ok ox -> pmh (modulate n m x) (Some ts) (Some n) (Some w) = Ok oy -> 0 <= f < n -> 0 <= c < ts_len ts ->
  at2 (r_tfr oy) f c = (root n m * at2 (r_tfr ox) ((f - m) mod n) c)%C.
Proof.
  intros x m ts n w ox oy f c Hn HX HY Hf Hc. assert (Cx := pmh_cols x ts n w ox c Hn HX Hc). assert (B := Z.mod_pos_bound (f - m) n ltac:(lia)). rewrite (c32_pmh_closed_form x ts n w ox ((f - m) mod n) c), (c32_pmh_closed_form (modulate n m x) ts n w oy f c) by auto. rewrite modulate_zlen, <- csum_scal_l. apply csum_ext. intros k Ik. apply in_arange in Ik. rewrite !modulate_nth by lia. rewrite Cconj_mult, root_conj.
  assert (E : root n (- ((f - m) mod n * (c - 1 - k))) = root n ((f - m) * - (c - 1 - k))) by (rewrite <- Z.mul_opp_r; apply root_mod_mul_l; lia). rewrite E.
  assert (R : (root n (m * c) * root n (- (m * k)) * root n (- (f * (c - 1 - k))) = root n m * root n ((f - m) * - (c - 1 - k)))%C) by (rewrite <- !root_plus; f_equal; ring).
  transitivity (winf w (c - 1 - k) * cnth x c * Cconj (cnth x k) * (root n (m * c) * root n (- (m * k)) * root n (- (f * (c - 1 - k)))))%C; [ring|]. rewrite R. ring.
Qed.
Lemma c163_modulus : forall x m ts n w ox oy f c, 1 <= n -> pmh x (Some ts) (Some n) (Some w) = Ok ox -> pmh (modulate n m x) (Some ts) (Some n) (Some w) = Ok oy -> 0 <= f < n -> 0 <= c < ts_len ts ->
  Cmod (at2 (r_tfr oy) f c) = Cmod (at2 (r_tfr ox) ((f - m) mod n) c).
Proof. intros x m ts n w ox oy f c Hn HX HY Hf Hc. rewrite (c163_modulation x m ts n w ox oy f c Hn HX HY Hf Hc), Cmod_mult. unfold root. rewrite Cmod_cis. ring. Qed.
(** So the rows alone do not move the picture: an entry that is not 0 changes unless m is a multiple of n. *)
Lemma c163_turned : forall x m ts n w ox oy f c, 1 <= n -> pmh x (Some ts) (Some n) (Some w) = Ok ox -> pmh (modulate n m x) (Some ts) (Some n) (Some w) = Ok oy -> 0 <= f < n -> 0 <= c < ts_len ts ->
  at2 (r_tfr ox) ((f - m) mod n) c <> RtoC 0 -> (at2 (r_tfr oy) f c = at2 (r_tfr ox) ((f - m) mod n) c <-> (n | m)).
Proof.
  intros x m ts n w ox oy f c Hn HX HY Hf Hc NZ. rewrite (c163_modulation x m ts n w ox oy f c Hn HX HY Hf Hc). set (e := at2 (r_tfr ox) ((f - m) mod n) c) in *. split.
  - intros E. apply root_1_inv; [lia|]. transitivity (root n m * e / e)%C; [field; exact NZ|]. rewrite E. field. exact NZ.
  - intros (q & ->). assert (R := root_mod_mul_l n (n * q) 1 ltac:(lia)). rewrite (Z.mul_comm n q), Z.mod_mul, Z.mul_0_l, root_0, Z.mul_1_r in R by lia. rewrite <- R. ring.
Qed.
(** Real windows: conjugation reflects the rows and conjugates. *)
Lemma c163_conj : forall x ts n w ox oy f c, 1 <= n -> real_list w -> pmh x (Some ts) (Some n) (Some w) = Ok ox -> pmh (map Cconj x) (Some ts) (Some n) (Some w) = Ok oy -> 0 <= f < n -> 0 <= c < ts_len ts ->
  at2 (r_tfr oy) ((- f) mod n) c = Cconj (at2 (r_tfr ox) f c).
Proof.
  intros x ts n w ox oy f c Hn RW HX HY Hf Hc. assert (B := Z.mod_pos_bound (- f) n ltac:(lia)). rewrite (c32_pmh_closed_form x ts n w ox f c), (c32_pmh_closed_form (map Cconj x) ts n w oy ((- f) mod n) c) by auto. rewrite zlen_map, csum_conj. apply csum_ext. intros k _. rewrite !cnth_conj, !Cconj_mult, (winf_real w (c - 1 - k) RW), Cconj_R, root_conj. f_equal.
  rewrite <- Z.mul_opp_r, root_mod_mul_l by lia. f_equal. ring.
Qed.
(** A real signal: rows f and -f are conjugates. *)
Lemma c163_real : forall x ts n w o f c, 1 <= n -> real_list w -> real_list x -> pmh x (Some ts) (Some n) (Some w) = Ok o -> 0 <= f < n -> 0 <= c < ts_len ts ->
  at2 (r_tfr o) ((- f) mod n) c = Cconj (at2 (r_tfr o) f c).
Proof.
  intros x ts n w o f c Hn RW RX H Hf Hc. apply (c163_conj x ts n w o o f c Hn RW H); auto. replace (map Cconj x) with x; [exact H|]. apply nth_ext with (d := RtoC 0) (d' := RtoC 0); [symmetry; apply map_length|]. intros i Hi.
  assert (E := cnth_conj x (Z.of_nat i)). unfold cnth in E. rewrite Nat2Z.id in E. rewrite E. assert (R := RX (Z.of_nat i) ltac:(unfold zlen; lia)). unfold cnth in R. rewrite Nat2Z.id in R. apply injective_projections; cbn; [reflexivity|]. unfold Im in R. rewrite R. ring.
Qed.
(** 1, 1 on 4 rows with [1]: column 1 is 1 everywhere; times 1, i, it is i; behind two zeros it is column 3. *)
Example c163_example : let x := [RtoC 1; RtoC 1] in let w := [RtoC 1] in
  exists o om od, pmh x (Some (TsI [0; 1])) (Some 4) (Some w) = Ok o /\ pmh (modulate 4 1 x) (Some (TsI [0; 1])) (Some 4) (Some w) = Ok om /\ pmh (delay 2 x) (Some (TsI [0; 1; 2; 3])) (Some 4) (Some w) = Ok od /\
  (forall f, 0 <= f < 4 -> at2 (r_tfr o) f 1 = RtoC 1 /\ at2 (r_tfr om) f 1 = Ci /\ at2 (r_tfr od) f 3 = RtoC 1).
Proof.
  cbv zeta. set (x := [RtoC 1; RtoC 1]). set (w := [RtoC 1]).
  destruct (c32_pmh_outcome x (TsI [0; 1]) 4 w ltac:(lia)) as [[_ (o & H)]|[R _]]; [|exfalso; apply R; right; split; [vm_compute; discriminate|left; apply Z.ltb_lt; reflexivity]].
  destruct (c160_length x (modulate 4 1 x) (TsI [0; 1]) 4 w o ltac:(lia) eq_refl H) as (om & HM).
  destruct (c32_pmh_outcome (delay 2 x) (TsI [0; 1; 2; 3]) 4 w ltac:(lia)) as [[_ (od & HD)]|[R _]]; [|exfalso; apply R; right; split; [vm_compute; discriminate|left; apply Z.ltb_lt; reflexivity]].
  exists o, om, od. split; [exact H|]. split; [exact HM|]. split; [exact HD|].
  assert (E : forall f, 0 <= f < 4 -> at2 (r_tfr o) f 1 = RtoC 1).
  { intros f Hf. rewrite (c32_pmh_closed_form x (TsI [0; 1]) 4 w o f 1 ltac:(lia) H Hf ltac:(change (ts_len (TsI [0; 1])) with 2; lia)). change (arange 0 (zlen x)) with [0; 1]. unfold csum. cbn [fold_right]. change (1 - 1 - 0) with 0. change (1 - 1 - 1) with (-1). change (winf w 0) with (RtoC 1). change (winf w (-1)) with (RtoC 0). change (cnth x 0) with (RtoC 1). change (cnth x 1) with (RtoC 1). rewrite Z.mul_0_r. change (- 0) with 0. rewrite root_0, Cconj_R. ring. }
  intros f Hf. split; [now apply E|]. split.
  - assert (B := Z.mod_pos_bound (f - 1) 4 ltac:(lia)). rewrite (c163_modulation x 1 (TsI [0; 1]) 4 w o om f 1 ltac:(lia) H HM Hf ltac:(change (ts_len (TsI [0; 1])) with 2; lia)), (E _ B), root4_1. ring.
  - rewrite <- (E f Hf). exact (c163_delay x 2 (TsI [0; 1]) (TsI [0; 1; 2; 3]) 4 w o od f 1 ltac:(lia) ltac:(lia) H HD Hf ltac:(change (ts_len (TsI [0; 1])) with 2; lia) ltac:(change (ts_len (TsI [0; 1; 2; 3])) with 4; lia)).
Qed.
