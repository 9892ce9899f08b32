(** C105: Renyi information counts components and is largest for flat distributions. *)
From Coq Require Import Reals ZArith List Lia Lra Bool.
From Coquelicot Require Import Coquelicot.
From Flocq Require Import Core.
From Verif Require Import Py Scalars CSum DFT Spec M_base M_putils M_reas M_post P_base T_putils T_reas T_post T_post2.
Import ListNotations.
Local Open Scope Z_scope.

(** The double sum of [integrate_2d] as a functional of the entries. *)
Definition quad (x y : list R) (n m : Z) (g : Z -> Z -> R) : R :=
  trapz (rnth y) (fun i => (rsum (arange 0 n) (g i) - g i 0%Z / 2 - g i (n - 1)%Z / 2) * (rnth x 1 - rnth x 0))%R m.
Lemma quad_ext x y n m g h : 1 <= n -> (forall i k, 0 <= i < m -> 0 <= k < n -> g i k = h i k) -> quad x y n m g = quad x y n m h.
Proof.
  intros Hn H. unfold quad. apply trapz_ext. intros i Hi. rewrite !H by lia. do 3 f_equal. apply rsum_ext. intros k Hk. apply in_arange in Hk. apply H; lia.
Qed.
Lemma quad_lin x y n m a b g h : quad x y n m (fun i k => a * g i k + b * h i k)%R = (a * quad x y n m g + b * quad x y n m h)%R.
Proof.
  unfold quad. rewrite <- trapz_lin. unfold trapz. apply rsum_ext. intros i _. rewrite !rsum_plus, !rsum_scal_l. field.
Qed.
Lemma quad_scal x y n m a g : quad x y n m (fun i k => a * g i k)%R = (a * quad x y n m g)%R.
Proof. rewrite <- (Rplus_0_r (a * _)). rewrite <- (Rmult_0_l (quad x y n m g)), <- quad_lin. unfold quad, trapz. apply rsum_ext. intros i _. rewrite !(rsum_ext _ (fun k => a * g _ k + 0 * g _ k)%R (fun k => a * g _ k)%R) by (intros; ring). field. Qed.
Lemma quad_sum {A} x y n m (l : list A) (g : A -> Z -> Z -> R) : quad x y n m (fun i k => rsum l (fun a => g a i k)) = rsum l (fun a => quad x y n m (g a)).
Proof.
  induction l as [|a l IH].
  - rewrite rsum_nil. unfold quad, trapz. apply rsum_0. intros i _. rewrite !rsum_nil, !(rsum_0 (arange 0 n)) by (intros; apply rsum_nil). field.
  - rewrite rsum_cons, <- IH. transitivity (1 * quad x y n m (g a) + 1 * quad x y n m (fun i k => rsum l (fun a => g a i k)))%R; [|ring]. rewrite <- quad_lin. unfold quad, trapz. apply rsum_ext. intros i _.
    rewrite !(rsum_ext (arange 0 n) (fun k => rsum (a :: l) (fun a0 => g a0 _ k)) (fun k => 1 * g a _ k + 1 * rsum l (fun a0 => g a0 _ k))%R) by (intros; rewrite rsum_cons; ring). rewrite !rsum_cons. field.
Qed.
Definition rising (y : list R) : Prop := forall i, 0 <= i < zlen y - 1 -> (rnth y i <= rnth y (i + 1))%R.
Lemma quad_nonneg x y n g : 1 <= n -> (rnth x 0 <= rnth x 1)%R -> rising y -> (forall i k, 0 <= i < zlen y -> 0 <= k < n -> (0 <= g i k)%R) -> (0 <= quad x y n (zlen y) g)%R.
Proof.
  intros Hn Hx Hy Hg.
  assert (G : forall i, 0 <= i < zlen y -> (0 <= (rsum (arange 0 n) (g i) - g i 0%Z / 2 - g i (n - 1)%Z / 2) * (rnth x 1 - rnth x 0))%R).
  { intros i Hi. rewrite <- trapz_uniform by lia. apply rsum_nonneg. intros k Hk. apply in_arange in Hk. assert (P1 := Hg i k Hi ltac:(lia)). assert (P2 := Hg i (k + 1) Hi ltac:(lia)). apply Rmult_le_pos; lra. }
  unfold quad, trapz. apply rsum_nonneg. intros i Hi. apply in_arange in Hi. assert (P1 := G i ltac:(lia)). assert (P2 := G (i + 1) ltac:(lia)). assert (P3 := Hy i ltac:(lia)). apply Rmult_le_pos; lra.
Qed.
Lemma quad_le x y n g h : 1 <= n -> (rnth x 0 <= rnth x 1)%R -> rising y -> (forall i k, 0 <= i < zlen y -> 0 <= k < n -> (g i k <= h i k)%R) -> (quad x y n (zlen y) g <= quad x y n (zlen y) h)%R.
Proof.
  intros Hn Hx Hy Hg. assert (P := quad_nonneg x y n (fun i k => 1 * h i k + (- 1) * g i k)%R Hn Hx Hy ltac:(intros i k Hi Hk; specialize (Hg i k Hi Hk); lra)). rewrite quad_lin in P. lra.
Qed.
Definition rows_of (tfr : list (list R)) (n : Z) (x y : list R) : Prop := 1 <= n /\ 1 <= zlen tfr /\ (forall r, In r tfr -> zlen r = n) /\ 2 <= zlen x /\ zlen y = zlen tfr.
Lemma ent_map f tfr n i k : (forall r, In r tfr -> zlen r = n) -> 0 <= i < zlen tfr -> 0 <= k < n -> ent (map (map f) tfr) i k = f (ent tfr i k).
Proof.
  intros Hr Hi Hk. unfold ent, rnth. rewrite (nth_indep _ [] (map f [])) by (rewrite map_length; unfold zlen in Hi; lia). rewrite map_nth. rewrite (nth_indep _ 0%R (f 0%R)); [apply map_nth|]. rewrite map_length.
  assert (L := Hr (nth (Z.to_nat i) tfr []) ltac:(apply nth_In; unfold zlen in Hi; lia)). unfold zlen in L. lia.
Qed.
Lemma rows_map f tfr n x y : rows_of tfr n x y -> rows_of (map (map f) tfr) n x y.
Proof. intros (A & B & D & E & F). split; [auto|]. rewrite zlen_map. split; [auto|]. split; [|split; auto]. intros r Hr. apply in_map_iff in Hr. destruct Hr as (r' & <- & H). rewrite zlen_map. auto. Qed.
(** Integer order k >= 2: the value in terms of two double sums. *)
Lemma renyi_int tfr n x y k : rows_of tfr n x y -> 2 <= k -> quad x y n (zlen y) (ent tfr) <> 0%R ->
  let v := (quad x y n (zlen y) (fun i j => ent tfr i j ^ Z.to_nat k) / quad x y n (zlen y) (ent tfr) ^ Z.to_nat k + spacing1)%R in
  renyi_value tfr n x y (IZR k) = Ok (if Rlt_dec 0 v then Some (ln v / ln 2 / (1 - IZR k))%R else None).
Proof.
  intros H Hk HI v. destruct H as (H1 & H2 & H3 & H4 & H5). unfold renyi_value. rewrite integrate_formula by auto. rewrite <- H5. fold (quad x y n (zlen y) (ent tfr)). cbn [bind]. set (I := quad x y n (zlen y) (ent tfr)) in *.
  destruct (Req_EM_T I 0); [tauto|]. destruct (Req_EM_T (IZR k) 1) as [Q|_]; [apply eq_IZR in Q; lia|]. set (p := map (map (fun v => (v / I)%R)) tfr).
  assert (E : map (map (fun v => npow v (IZR k))) p = map (map Some) (map (map (fun v => (v ^ Z.to_nat k)%R)) p)).
  { rewrite map_map. apply map_ext. intros r. rewrite map_map. apply map_ext. intros a. unfold npow. rewrite Zfloor_IZR. destruct (Req_EM_T (IZR k) (IZR k)); [|tauto]. rewrite (proj2 (Z.leb_le 0 k)) by lia. reflexivity. }
  rewrite E. unfold integrate_o. rewrite map_map, (map_ext _ Some) by (intros r; apply all_some_Some). rewrite all_some_Some.
  assert (R1 : rows_of p n x y) by (apply rows_map; repeat split; auto). assert (R2 := rows_map (fun v => (v ^ Z.to_nat k)%R) p n x y R1). destruct R2 as (_ & J2 & J3 & J4 & J5). rewrite integrate_formula by auto. rewrite <- J5. fold (quad x y n (zlen y) (ent (map (map (fun v => (v ^ Z.to_nat k)%R)) p))). cbn [bind opt_map].
  assert (Q : quad x y n (zlen y) (ent (map (map (fun v => (v ^ Z.to_nat k)%R)) p)) = (quad x y n (zlen y) (fun i j => ent tfr i j ^ Z.to_nat k) / I ^ Z.to_nat k)%R).
  { unfold Rdiv. rewrite Rmult_comm, <- quad_scal. apply quad_ext; [auto|]. intros i j Hi Hj. destruct R1 as (_ & _ & R3 & _ & R5). rewrite (ent_map _ p n) by (auto; lia). unfold p. rewrite (ent_map _ tfr n) by (auto; lia). unfold Rdiv. rewrite Rpow_mult_distr, pow_inv. ring. }
  rewrite Q. fold v. unfold nlog2. destruct (Rlt_dec 0 v); reflexivity.
Qed.
(** Order -k, k >= 1, all entries nonzero: inverses of k-th powers. *)
Lemma c105_negative : forall tfr n x y k, rows_of tfr n x y -> 1 <= k -> let I := quad x y n (zlen y) (ent tfr) in I <> 0%R ->
  (forall r v, In r tfr -> In v r -> v <> 0%R) ->
  let v := (I ^ Z.to_nat k * quad x y n (zlen y) (fun i j => / ent tfr i j ^ Z.to_nat k) + spacing1)%R in
  renyi_value tfr n x y (IZR (- k)) = Ok (if Rlt_dec 0 v then Some (ln v / ln 2 / (1 + IZR k))%R else None).
Proof.
  intros tfr n x y k H Hk I HI NZ v. destruct H as (H1 & H2 & H3 & H4 & H5). unfold renyi_value. rewrite integrate_formula by auto. rewrite <- H5. fold (quad x y n (zlen y) (ent tfr)). fold I. cbn [bind].
  destruct (Req_EM_T I 0); [tauto|]. destruct (Req_EM_T (IZR (- k)) 1) as [Q|_]; [apply eq_IZR in Q; lia|]. set (p := map (map (fun v => (v / I)%R)) tfr).
  assert (E : map (map (fun v => npow v (IZR (- k)))) p = map (map Some) (map (map (fun v => (/ v ^ Z.to_nat k)%R)) p)).
  { unfold p. rewrite !map_map. apply map_ext_in. intros r Hr. rewrite !map_map. apply map_ext_in. intros a Ha. unfold npow. rewrite Zfloor_IZR. destruct (Req_EM_T (IZR (- k)) (IZR (- k))); [|tauto]. rewrite (proj2 (Z.leb_gt 0 (- k))) by lia. rewrite Z.opp_involutive.
    destruct (Req_EM_T (a / I) 0) as [Q|_]; [|reflexivity]. exfalso. apply (NZ r a Hr Ha). replace a with (a / I * I)%R by (field; auto). rewrite Q. ring. }
  rewrite E. unfold integrate_o. rewrite map_map, (map_ext _ Some) by (intros r; apply all_some_Some). rewrite all_some_Some.
  assert (R1 : rows_of p n x y) by (apply rows_map; repeat split; auto). assert (R2 := rows_map (fun v => (/ v ^ Z.to_nat k)%R) p n x y R1). destruct R2 as (_ & J2 & J3 & J4 & J5). rewrite integrate_formula by auto. rewrite <- J5. fold (quad x y n (zlen y) (ent (map (map (fun v => (/ v ^ Z.to_nat k)%R)) p))). cbn [bind opt_map].
  assert (Q : quad x y n (zlen y) (ent (map (map (fun v => (/ v ^ Z.to_nat k)%R)) p)) = (I ^ Z.to_nat k * quad x y n (zlen y) (fun i j => / ent tfr i j ^ Z.to_nat k))%R).
  { rewrite <- quad_scal. apply quad_ext; [auto|]. intros i j Hi Hj. destruct R1 as (_ & _ & R3 & _ & R5). rewrite (ent_map _ p n) by (auto; lia). unfold p. rewrite (ent_map _ tfr n) by (auto; lia).
    assert (N0 : ent tfr i j <> 0%R). { assert (I1 : In (nth (Z.to_nat i) tfr []) tfr) by (apply nth_In; unfold zlen in *; lia). apply (NZ (nth (Z.to_nat i) tfr [])); auto. apply nth_In. assert (L := H3 _ I1). unfold zlen in L. lia. }
    unfold Rdiv. rewrite Rpow_mult_distr, pow_inv. field. split; apply pow_nonzero; auto. }
  rewrite Q. fold v. unfold nlog2. rewrite opp_IZR. replace (1 - - IZR k)%R with (1 + IZR k)%R by ring. destruct (Rlt_dec 0 v); reflexivity.
Qed.
(** Order 1 on a distribution without negative values: the Shannon entropy of the normalised
    distribution, with the guard inside the logarithm, always a number. *)
Lemma c105_shannon : forall tfr n x y, rows_of tfr n x y -> let I := quad x y n (zlen y) (ent tfr) in (0 < I)%R ->
  (forall r v, In r tfr -> In v r -> 0 <= v)%R ->
  renyi_value tfr n x y 1 = Ok (Some (- quad x y n (zlen y) (fun i j => ent tfr i j / I * (ln (ent tfr i j / I + spacing1) / ln 2)))%R).
Proof.
  intros tfr n x y H I HI NN. destruct H as (H1 & H2 & H3 & H4 & H5). assert (EPS : (0 < spacing1)%R) by (unfold spacing1; apply Rinv_0_lt_compat, pow_lt; lra).
  unfold renyi_value. rewrite integrate_formula by auto. rewrite <- H5. fold (quad x y n (zlen y) (ent tfr)). fold I. cbn [bind].
  destruct (Req_EM_T I 0); [lra|]. destruct (Req_EM_T 1 1) as [_|]; [|lra]. set (p := map (map (fun v => (v / I)%R)) tfr).
  assert (E : map (map (fun v => opt_map (fun l => Some (v * l)%R) (nlog2 (v + spacing1)))) p = map (map Some) (map (map (fun v => (v * (ln (v + spacing1) / ln 2))%R)) p)).
  { unfold p. rewrite !map_map. apply map_ext_in. intros r Hr. rewrite !map_map. apply map_ext_in. intros a Ha. unfold nlog2. destruct (Rlt_dec 0 (a / I + spacing1)) as [|Q]; [reflexivity|]. exfalso. apply Q.
    assert (0 <= a / I)%R; [|lra]. apply Rmult_le_pos; [apply (NN r a); auto|]. apply Rlt_le, Rinv_0_lt_compat; auto. }
  rewrite E. unfold integrate_o. rewrite map_map, (map_ext _ Some) by (intros r; apply all_some_Some). rewrite all_some_Some.
  assert (R1 : rows_of p n x y) by (apply rows_map; repeat split; auto). assert (R2 := rows_map (fun v => (v * (ln (v + spacing1) / ln 2))%R) p n x y R1). destruct R2 as (_ & J2 & J3 & J4 & J5). rewrite integrate_formula by auto. rewrite <- J5. fold (quad x y n (zlen y) (ent (map (map (fun v => (v * (ln (v + spacing1) / ln 2))%R)) p))). cbn [bind opt_map].
  do 3 f_equal. apply quad_ext; [auto|]. intros i j Hi Hj. destruct R1 as (_ & _ & R3 & _ & R5). rewrite (ent_map _ p n) by (auto; lia). unfold p. rewrite (ent_map _ tfr n) by (auto; lia). reflexivity.
Qed.
Lemma rsum_disjoint_pow (l : list (list (list R))) i j k : (1 <= k)%nat -> ForallOrdPairs (fun A B => ent A i j = 0%R \/ ent B i j = 0%R) l ->
  (rsum l (fun M => ent M i j) ^ k = rsum l (fun M => ent M i j ^ k))%R.
Proof.
  intros Hk H. induction H as [|A l HA H IH]; [rewrite !rsum_nil; apply pow_i; lia|]. rewrite !rsum_cons, <- IH. destruct (Req_EM_T (ent A i j) 0) as [->|N]; [rewrite pow_i by lia; rewrite !Rplus_0_l; reflexivity|].
  rewrite (rsum_0 l); [rewrite (pow_i k) by lia; rewrite !Rplus_0_r; reflexivity|]. intros M HM. rewrite Forall_forall in HA. destruct (HA M HM); [tauto|auto].
Qed.
(** G components with disjoint supports, equal integrals and equal integrals of the k-th
    power: (2^((1-k)R) - eps) is divided by G^(k-1); R grows by at most log2 G. *)
Lemma c105_components : forall (l : list (list (list R))) A D n x y k r, In A l -> 2 <= k -> rows_of D n x y ->
  (forall M, In M l -> rows_of M n x y /\ quad x y n (zlen y) (ent M) = quad x y n (zlen y) (ent A) /\ quad x y n (zlen y) (fun i j => ent M i j ^ Z.to_nat k)%R = quad x y n (zlen y) (fun i j => ent A i j ^ Z.to_nat k)%R) ->
  (forall i j, 0 <= i < zlen y -> 0 <= j < n -> ent D i j = rsum l (fun M => ent M i j) /\ ForallOrdPairs (fun A B => ent A i j = 0%R \/ ent B i j = 0%R) l) ->
  renyi_value A n x y (IZR k) = Ok (Some r) ->
  exists r', renyi_value D n x y (IZR k) = Ok (Some r') /\
    (Rpower 2 ((1 - IZR k) * r') - spacing1 = (Rpower 2 ((1 - IZR k) * r) - spacing1) / INR (length l) ^ Z.to_nat (k - 1))%R /\
    (r' <= r + ln (INR (length l)) / ln 2)%R.
Proof.
  intros l A D n x y k r HA Hk HD HM HE HR. destruct (HM A HA) as (RA & _). set (G := length l). assert (G1 : (1 <= G)%nat) by (unfold G; destruct l; [destruct HA|cbn; lia]). assert (GR : (1 <= INR G)%R) by (apply (le_INR 1); lia).
  assert (Hn : 1 <= n) by (destruct HD; auto). set (I := quad x y n (zlen y) (ent A)) in *. set (J := quad x y n (zlen y) (fun i j => ent A i j ^ Z.to_nat k)%R) in *.
  assert (I0 : I <> 0%R). { intros Q. unfold renyi_value in HR. destruct RA as (A1 & A2 & A3 & A4 & A5). rewrite integrate_formula in HR by auto. rewrite <- A5 in HR. fold (quad x y n (zlen y) (ent A)) in HR. fold I in HR. cbn [bind] in HR. destruct (Req_EM_T I 0); [discriminate|tauto]. }
  assert (ID : quad x y n (zlen y) (ent D) = (INR G * I)%R). { rewrite (quad_ext x y n _ _ (fun i j => rsum l (fun M => ent M i j))) by (auto; intros i j Hi Hj; apply HE; auto). rewrite quad_sum. rewrite (rsum_ext _ _ (fun _ => I)) by (intros M IM; apply HM; auto). apply rsum_const. }
  assert (JD : quad x y n (zlen y) (fun i j => ent D i j ^ Z.to_nat k)%R = (INR G * J)%R). { rewrite (quad_ext x y n _ _ (fun i j => rsum l (fun M => ent M i j ^ Z.to_nat k)%R)). - rewrite quad_sum. rewrite (rsum_ext _ _ (fun _ => J)) by (intros M IM; apply HM; auto). apply rsum_const. - auto. - intros i j Hi Hj. destruct (HE i j Hi Hj) as [-> P]. apply rsum_disjoint_pow; [lia|auto]. }
  assert (EPS : (0 < spacing1)%R) by (unfold spacing1; apply Rinv_0_lt_compat, pow_lt; lra).
  assert (VA := renyi_int A n x y k RA Hk I0). cbv zeta in VA. fold I J in VA. rewrite VA in HR. assert (D0 : quad x y n (zlen y) (ent D) <> 0%R) by (rewrite ID; apply Rmult_integral_contrapositive; split; [lra|auto]).
  assert (VD := renyi_int D n x y k HD Hk D0). cbv zeta in VD. rewrite ID, JD in VD.
  set (X := (J / I ^ Z.to_nat k)%R) in *. set (g := (INR G ^ Z.to_nat (k - 1))%R). assert (g1 : (1 <= g)%R) by (apply pow_R1_Rle; auto).
  assert (EX : (INR G * J / (INR G * I) ^ Z.to_nat k = X / g)%R). { unfold X, g. replace (Z.to_nat k) with (S (Z.to_nat (k - 1))) by lia. rewrite Rpow_mult_distr. cbn [pow]. field. repeat split; auto; try lra; apply pow_nonzero; auto; lra. }
  rewrite EX in VD. destruct (Rlt_dec 0 (X + spacing1)) as [P|]; [|discriminate]. assert (ER : r = (ln (X + spacing1) / ln 2 / (1 - IZR k))%R) by congruence. clear HR.
  assert (L2 : (0 < ln 2)%R) by (rewrite <- ln_1; apply ln_increasing; lra). assert (K2 : (2 <= IZR k)%R) by (apply IZR_le; lia).
  assert (CMP : ((X + spacing1) / g <= X / g + spacing1)%R). { unfold Rdiv. rewrite Rmult_plus_distr_r. apply Rplus_le_compat_l. rewrite <- (Rmult_1_r spacing1) at 2. apply Rmult_le_compat_l; [lra|]. rewrite <- Rinv_1. apply Rinv_le_contravar; lra. }
  assert (PG : (0 < (X + spacing1) / g)%R) by (apply Rdiv_lt_0_compat; lra). destruct (Rlt_dec 0 (X / g + spacing1)) as [PD|]; [|lra].
  assert (POW : forall v, (0 < v)%R -> Rpower 2 ((1 - IZR k) * (ln v / ln 2 / (1 - IZR k))) = v). { intros v Hv. replace ((1 - IZR k) * (ln v / ln 2 / (1 - IZR k)))%R with (ln v / ln 2)%R by (field; split; lra). unfold Rpower. replace (ln v / ln 2 * ln 2)%R with (ln v) by (field; lra). apply exp_ln; auto. }
  eexists. split; [exact VD|]. rewrite ER, !POW by auto. split; [unfold Rdiv; ring|].
  apply Rmult_le_reg_r with (ln 2 * (IZR k - 1))%R; [apply Rmult_lt_0_compat; lra|]. replace (ln (X / g + spacing1) / ln 2 / (1 - IZR k) * (ln 2 * (IZR k - 1)))%R with (- ln (X / g + spacing1))%R by (field; split; lra).
  replace ((ln (X + spacing1) / ln 2 / (1 - IZR k) + ln (INR G) / ln 2) * (ln 2 * (IZR k - 1)))%R with (- (ln (X + spacing1) - (IZR k - 1) * ln (INR G)))%R by (field; split; lra).
  apply Ropp_le_contravar. replace ((IZR k - 1) * ln (INR G))%R with (ln g). 2:{ unfold g. rewrite ln_pow by lra. f_equal. rewrite INR_IZR_INZ, Z2Nat.id by lia. rewrite minus_IZR. reflexivity. }
  rewrite <- ln_div by lra. destruct CMP as [C| ->]; [left; apply ln_increasing; auto|lra].
Qed.
(** The tangent of the k-th power. *)
Lemma pow_tangent (v a : R) k : (0 <= v)%R -> (0 <= a)%R -> (a ^ S k + INR (S k) * a ^ k * (v - a) <= v ^ S k)%R.
Proof.
  intros Hv Ha. induction k as [|k IH]; [cbn; lra|]. rewrite <- (tech_pow_Rmult v (S k)), <- (tech_pow_Rmult a (S k)). assert (P := Rmult_le_compat_l v _ _ Hv IH). apply Rle_trans with (2 := P). rewrite !S_INR. rewrite <- (tech_pow_Rmult a k). assert (K := pos_INR k). assert (A := pow_le a k Ha).
  assert (0 <= (INR k + 1) * a ^ k * (v - a) ^ 2)%R. { apply Rmult_le_pos; [apply Rmult_le_pos; lra|apply pow2_ge_0]. } nra.
Qed.
(** For non-negative distributions the value is at most that of a flat distribution on the
    same axes (C42), hence below log2 of the area. *)
Lemma c105_max : forall tfr n x y k r, rows_of tfr n x y -> 2 <= k -> (rnth x 0 <= rnth x 1)%R -> rising y ->
  (forall i j, 0 <= i < zlen y -> 0 <= j < n -> (0 <= ent tfr i j)%R) -> let A := quad x y n (zlen y) (fun _ _ => 1%R) in (0 < A)%R ->
  renyi_value tfr n x y (IZR k) = Ok (Some r) ->
  (r <= ln (/ A ^ Z.to_nat (k - 1) + spacing1) / ln 2 / (1 - IZR k))%R /\ (r < ln A / ln 2)%R.
Proof.
  intros tfr n x y k r HT Hk Hx Hy H0 A HA HR. assert (Hn : 1 <= n) by (destruct HT; auto). set (I := quad x y n (zlen y) (ent tfr)).
  assert (I0 : I <> 0%R). { intros Q. unfold renyi_value in HR. destruct HT as (A1 & A2 & A3 & A4 & A5). rewrite integrate_formula in HR by auto. rewrite <- A5 in HR. fold (quad x y n (zlen y) (ent tfr)) in HR. fold I in HR. cbn [bind] in HR. destruct (Req_EM_T I 0); [discriminate|tauto]. }
  assert (IP : (0 < I)%R) by (assert (Q := quad_nonneg x y n (ent tfr) Hn Hx Hy H0); fold I in Q; lra).
  assert (V := renyi_int tfr n x y k HT Hk I0). cbv zeta in V. fold I in V. rewrite V in HR. clear V. set (J := quad x y n (zlen y) (fun i j => ent tfr i j ^ Z.to_nat k)%R) in *.
  set (q := Z.to_nat (k - 1)). assert (EK : Z.to_nat k = S q) by (unfold q; lia). set (a := (I / A)%R). assert (a0 : (0 < a)%R) by (apply Rdiv_lt_0_compat; lra).
  assert (JJ : (a ^ q * I <= J)%R).
  { apply Rle_trans with (quad x y n (zlen y) (fun i j => (INR (S q) * a ^ q) * ent tfr i j + (a ^ S q - INR (S q) * a ^ q * a) * 1)%R).
    - rewrite (quad_lin x y n (zlen y) (INR (S q) * a ^ q) (a ^ S q - INR (S q) * a ^ q * a) (ent tfr) (fun _ _ => 1%R)). fold I A. right. assert (EI : I = (a * A)%R) by (unfold a; field; lra). rewrite EI. cbn [pow]. ring.
    - unfold J. rewrite EK. apply quad_le; auto. intros i j Hi Hj. assert (T := pow_tangent (ent tfr i j) a q (H0 i j Hi Hj) ltac:(lra)). lra. }
  assert (L2 : (0 < ln 2)%R) by (rewrite <- ln_1; apply ln_increasing; lra). assert (K2 : (2 <= IZR k)%R) by (apply IZR_le; lia). assert (EPS : (0 < spacing1)%R) by (unfold spacing1; apply Rinv_0_lt_compat, pow_lt; lra).
  assert (PA : (0 < / A ^ q)%R) by (apply Rinv_0_lt_compat, pow_lt; lra).
  assert (X : (/ A ^ q <= J / I ^ Z.to_nat k)%R). { rewrite EK. apply Rmult_le_reg_r with (I ^ S q)%R; [apply pow_lt; auto|]. unfold Rdiv at 1. rewrite Rmult_assoc, Rinv_l, Rmult_1_r by (apply pow_nonzero; auto). apply Rle_trans with (2 := JJ). right. unfold a, Rdiv. rewrite Rpow_mult_distr, pow_inv. cbn [pow]. ring. }
  destruct (Rlt_dec 0 (J / I ^ Z.to_nat k + spacing1)) as [P|]; [|discriminate]. assert (ER : r = (ln (J / I ^ Z.to_nat k + spacing1) / ln 2 / (1 - IZR k))%R) by congruence. rewrite ER. clear HR ER.
  assert (M : forall u v, (0 < u <= v)%R -> (ln v / ln 2 / (1 - IZR k) <= ln u / ln 2 / (1 - IZR k))%R).
  { intros u v [U W]. assert (ln u <= ln v)%R by (destruct W as [W| ->]; [left; apply ln_increasing; auto|lra]). unfold Rdiv. rewrite !Rmult_assoc. replace (/ ln 2 * / (1 - IZR k))%R with (- (/ ln 2 * / (IZR k - 1)))%R by (field; split; lra). assert (0 < / ln 2 * / (IZR k - 1))%R by (apply Rmult_lt_0_compat; apply Rinv_0_lt_compat; lra). nra. }
  assert (M1 := M (/ A ^ q + spacing1)%R (J / I ^ Z.to_nat k + spacing1)%R ltac:(lra)). split; [exact M1|]. apply Rle_lt_trans with (1 := M1).
  assert (LA : (ln (/ A ^ q) < ln (/ A ^ q + spacing1))%R) by (apply ln_increasing; lra). rewrite ln_Rinv, ln_pow in LA by (auto; apply pow_lt; auto). replace (INR q) with (IZR k - 1)%R in LA. 2:{ unfold q. rewrite INR_IZR_INZ, Z2Nat.id by lia. rewrite minus_IZR. reflexivity. }
  apply Rmult_lt_reg_r with (ln 2 * (IZR k - 1))%R; [apply Rmult_lt_0_compat; lra|]. match goal with |- (?p < ?r)%R => replace p with (- ln (/ A ^ q + spacing1))%R by (field; split; lra); replace r with ((IZR k - 1) * ln A)%R by (field; lra) end. lra.
Qed.
(** The call, order other than 1, axes given: only the step of the timestamps matters, so
    the change of the caller's array (C43) does not change the value. *)
Lemma integrate_shift mat n t y : integrate_2d mat n (Some (map (fun v => v + 1)%R t)) y = integrate_2d mat n (Some t) y.
Proof.
  unfold integrate_2d. destruct (mapM _ mat) as [c0|]; [|reflexivity]. cbn [bind]. destruct (mapM _ mat) as [c1|]; [|reflexivity]. cbn [bind]. rewrite !get_map. destruct (get t 1) as [a|]; [|reflexivity]. cbn [bind]. destruct (get t 0) as [b|]; [|reflexivity]. cbn [bind]. replace (a + 1 - (b + 1))%R with (a - b)%R by ring. reflexivity.
Qed.
Lemma integrate_o_shift mat n t y : integrate_o mat n (map (fun v => v + 1)%R t) y = integrate_o mat n t y.
Proof. unfold integrate_o. destruct (all_some (map (fun r => all_some r) mat)) as [m|]; now rewrite integrate_shift. Qed.
Lemma renyi_value_shift tfr n t y alpha : renyi_value tfr n (map (fun v => v + 1)%R t) y alpha = renyi_value tfr n t y alpha.
Proof. unfold renyi_value. rewrite integrate_shift. destruct (integrate_2d tfr n (Some t) (Some y)) as [i|]; [|reflexivity]. cbn [bind]. destruct (Req_EM_T i 0); [reflexivity|]. now rewrite !integrate_o_shift. Qed.
Lemma c105_call : forall tfr n t f alpha, 1 <= n -> zlen t = n -> alpha <> 1%R -> fst (fst (renyi tfr n (Some t) (Some f) alpha)) = renyi_value tfr n t (rsort f) alpha.
Proof.
  intros tfr n t f alpha Hn Ht Ha. unfold renyi. destruct (Req_EM_T alpha 1); [tauto|]. cbv zeta. destruct (allclose_iff t n Ht ltac:(lia)) as (b & Eb & _). rewrite Eb. destruct b; cbn [fst]; [apply renyi_value_shift|reflexivity].
Qed.
Lemma c105_defaults : forall tfr n alpha, alpha <> 1%R -> fst (fst (renyi tfr n None None alpha)) = renyi_value tfr n (map IZR (arange 0 n)) (rsort (map IZR (arange 0 (zlen tfr)))) alpha.
Proof. intros tfr n alpha Ha. unfold renyi. destruct (Req_EM_T alpha 1); [tauto|]. cbv zeta. cbn [fst]. rewrite <- (renyi_value_shift tfr n (map IZR (arange 0 n))). now rewrite map_map. Qed.
(** One pixel inside a 3 by 5 grid against two: order 3, about 0 and about 1. *)
Example c105_example :
  fst (fst (renyi [[0;0;0;0;0];[0;1;0;0;0];[0;0;0;0;0]]%R 5 None None (IZR 3))) = Ok (Some (ln (1 + spacing1) / ln 2 / (1 - IZR 3))%R) /\
  fst (fst (renyi [[0;0;0;0;0];[0;1;0;1;0];[0;0;0;0;0]]%R 5 None None (IZR 3))) = Ok (Some (ln (1 / 4 + spacing1) / ln 2 / (1 - IZR 3))%R).
Proof.
  assert (EPS : (0 < spacing1)%R) by (unfold spacing1; apply Rinv_0_lt_compat, pow_lt; lra). assert (H3 : IZR 3 <> 1%R) by lra.
  assert (SS : rsort (map IZR (arange 0 3)) = map IZR (arange 0 3)). { unfold rsort. change (arange 0 3) with [0; 1; 2]. cbn [map fold_right rinsert]. destruct (Rle_dec 1 2); [|lra]. cbn [rinsert]. destruct (Rle_dec 0 1); [reflexivity|lra]. }
  rewrite !c105_defaults by auto. change (zlen [[0;0;0;0;0];[0;1;0;0;0];[0;0;0;0;0]]%R) with 3. change (zlen [[0;0;0;0;0];[0;1;0;1;0];[0;0;0;0;0]]%R) with 3. rewrite SS.
  assert (RW : forall a b c, zlen a = 5 -> zlen b = 5 -> zlen c = 5 -> rows_of [a; b; c] 5 (map IZR (arange 0 5)) (map IZR (arange 0 3))).
  { intros a b c A B D. split; [lia|]. split; [cbn; lia|]. split; [|split; [vm_compute; discriminate|reflexivity]]. intros r [<-|[<-|[<-|[]]]]; auto. }
  assert (QQ : forall g, quad (map IZR (arange 0 5)) (map IZR (arange 0 3)) 5 (zlen (map IZR (arange 0 3))) g = ((((g 0%Z 0%Z + g 0%Z 4%Z) / 2 + g 0%Z 1%Z + g 0%Z 2%Z + g 0%Z 3%Z) + ((g 2%Z 0%Z + g 2%Z 4%Z) / 2 + g 2%Z 1%Z + g 2%Z 2%Z + g 2%Z 3%Z)) / 2 + ((g 1%Z 0%Z + g 1%Z 4%Z) / 2 + g 1%Z 1%Z + g 1%Z 2%Z + g 1%Z 3%Z))%R).
  { intros g. change (zlen (map IZR (arange 0 3))) with 3. unfold quad, trapz. change (arange 0 (3 - 1)) with [0; 1]. change (arange 0 5) with [0; 1; 2; 3; 4]. rewrite !rsum_cons, !rsum_nil. unfold rnth. change (5 - 1) with 4. change (0 + 1) with 1. change (1 + 1) with 2. change (arange 0 3) with [0; 1; 2]. change (Z.to_nat 0) with 0%nat. change (Z.to_nat 1) with 1%nat. change (Z.to_nat 2) with 2%nat. cbn [map nth]. field. }
  split.
  - rewrite renyi_int; [|apply RW; reflexivity|lia|rewrite QQ; unfold ent, rnth; change (Z.to_nat 0) with 0%nat; change (Z.to_nat 1) with 1%nat; change (Z.to_nat 2) with 2%nat; change (Z.to_nat 3) with 3%nat; change (Z.to_nat 4) with 4%nat; cbn [nth pow]; lra]. cbv zeta. rewrite !QQ. unfold ent, rnth; change (Z.to_nat 0) with 0%nat; change (Z.to_nat 1) with 1%nat; change (Z.to_nat 2) with 2%nat; change (Z.to_nat 3) with 3%nat; change (Z.to_nat 4) with 4%nat; cbn [nth pow]. match goal with |- context [Rlt_dec 0 ?v] => replace v with (1 + spacing1)%R by field end. destruct (Rlt_dec 0 (1 + spacing1)); [reflexivity|lra].
  - rewrite renyi_int; [|apply RW; reflexivity|lia|rewrite QQ; unfold ent, rnth; change (Z.to_nat 0) with 0%nat; change (Z.to_nat 1) with 1%nat; change (Z.to_nat 2) with 2%nat; change (Z.to_nat 3) with 3%nat; change (Z.to_nat 4) with 4%nat; cbn [nth pow]; lra]. cbv zeta. rewrite !QQ. unfold ent, rnth; change (Z.to_nat 0) with 0%nat; change (Z.to_nat 1) with 1%nat; change (Z.to_nat 2) with 2%nat; change (Z.to_nat 3) with 3%nat; change (Z.to_nat 4) with 4%nat; cbn [nth pow]. match goal with |- context [Rlt_dec 0 ?v] => replace v with (1 / 4 + spacing1)%R by field end. destruct (Rlt_dec 0 (1 / 4 + spacing1)); [reflexivity|lra].
Qed.
