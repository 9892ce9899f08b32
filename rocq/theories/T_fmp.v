(** C162: fmpower with an integer degree. *)
From Coq Require Import Reals ZArith List Lia Lra Bool.
From Coquelicot Require Import Coquelicot.
From Verif Require Import Py Scalars CSum DFT M_base Spec P_base M_putils M_dom M_reas T_reas T_putils T_dom M_gen1 T_gen1 M_fmp T_gen2.
Import ListNotations.
Local Open Scope Z_scope.

Lemma powerRZ_opp_nat a k : k <= 0 -> a <> 0%R -> (1 / powerRZ a k = a ^ Z.to_nat (- k))%R.
Proof.
  intros Hk Ha. destruct k as [|p|p]; [cbn; field|lia|]. cbn [powerRZ Z.opp Z.to_nat]. field. apply pow_nonzero, Ha.
Qed.
(** When it returns. *)
Lemma c162_outcome : forall n k a1 b1 a2 b2 rest, 1 <= n ->
  fmpower_z n k (a1 :: b1 :: a2 :: b2 :: rest) =
  if Req_EM_T (a1 * a2) 0 then Raise ZeroDivisionError else if Req_EM_T (powerRZ a1 k) (powerRZ a2 k) then Raise ZeroDivisionError else if k =? 1 then Raise ZeroDivisionError else if 2 <=? k then Raise ValueError else
  let c := ((b2 - b1) / (a2 ^ Z.to_nat (- k) - a1 ^ Z.to_nat (- k)))%R in let f0 := (b1 - c * a1 ^ Z.to_nat (- k))%R in
  Ok (map (fun t => cis (2 * PI * (f0 * IZR t + c / (1 - IZR k) * IZR t ^ Z.to_nat (1 - k)))) (arange 0 n), map (fun t => f0 + c * IZR t ^ Z.to_nat (- k))%R (arange 0 n)).
Proof.
  intros n k a1 b1 a2 b2 rest Hn. unfold fmpower_z, pow_coeffs_z, pyinv. destruct (Req_EM_T (a1 * a2) 0) as [Z0|NZ].
  - apply Rmult_integral in Z0. destruct (Z.eqb_spec k 0) as [->|K0].
    + assert (E : (1 / powerRZ a2 0 = 1)%R) by (cbn; field). assert (E1 : (1 / powerRZ a1 0 = 1)%R) by (cbn; field). rewrite E, E1. destruct (Req_EM_T a2 0), (Req_EM_T a1 0); cbn [bind]; destruct (Req_EM_T (1 - 1) 0); try reflexivity; lra.
    + destruct (Req_EM_T a2 0); cbn [bind]; [reflexivity|]. destruct (Req_EM_T a1 0); cbn [bind]; [reflexivity|]. tauto.
  - assert (A1 : a1 <> 0%R) by (intros ->; apply NZ; ring). assert (A2 : a2 <> 0%R) by (intros ->; apply NZ; ring). destruct (Req_EM_T a2 0); [contradiction|]. destruct (Req_EM_T a1 0); [contradiction|]. cbn [bind].
    assert (P1 := powerRZ_NOR a1 k A1). assert (P2 := powerRZ_NOR a2 k A2). destruct (Req_EM_T (powerRZ a1 k) (powerRZ a2 k)) as [E|NE].
    + rewrite E. destruct (Req_EM_T _ 0) as [_|Q]; [reflexivity|exfalso; apply Q; ring].
    + destruct (Req_EM_T _ 0) as [Q|_].
      { exfalso. apply NE. assert (Q1 : (/ powerRZ a2 k = / powerRZ a1 k)%R) by (unfold Rdiv in Q; lra). apply (f_equal Rinv) in Q1. rewrite !Rinv_inv in Q1. symmetry. exact Q1. }
      cbn [bind]. destruct (Z.eqb_spec k 1) as [->|K1]; [reflexivity|]. destruct (Z.ltb_spec 1 k), (Z.leb_spec 2 k); try lia; destruct (Z.ltb_spec 0 n); try lia; cbn [andb]; [reflexivity|].
      rewrite !powerRZ_opp_nat by (auto; lia). replace ((b2 - b1) / (a2 ^ Z.to_nat (- k) - a1 ^ Z.to_nat (- k)) / powerRZ a1 k)%R with ((b2 - b1) / (a2 ^ Z.to_nat (- k) - a1 ^ Z.to_nat (- k)) * (1 / powerRZ a1 k))%R by (unfold Rdiv; ring). rewrite powerRZ_opp_nat by (auto; lia). reflexivity.
Qed.
(** So a degree of 0 or more with two points always raises. *)
Lemma c162_nonneg : forall n k a1 b1 a2 b2 rest, 1 <= n -> 0 <= k -> exists e, fmpower_z n k (a1 :: b1 :: a2 :: b2 :: rest) = Raise e.
Proof.
  intros n k a1 b1 a2 b2 rest Hn Hk. rewrite c162_outcome by exact Hn. destruct (Req_EM_T (a1 * a2) 0); [eauto|]. destruct (Req_EM_T (powerRZ a1 k) (powerRZ a2 k)) as [E|NE]; [eauto|]. destruct (Z.eqb_spec k 1); [eauto|]. destruct (Z.leb_spec 2 k); [eauto|]. assert (k = 0) as -> by lia. exfalso. apply NE. reflexivity.
Qed.
(** The law passes through points with positive instants; a negative instant is met, at its absolute value, for even degrees only. *)
Lemma c162_points : forall n k a1 b1 a2 b2 rest x law, 1 <= n -> fmpower_z n k (a1 :: b1 :: a2 :: b2 :: rest) = Ok (x, law) -> k < 0 /\ zlen x = n /\ zlen law = n /\
  exists f0 c, (forall t, 0 <= t < n -> rnth law t = (f0 + c * IZR t ^ Z.to_nat (- k))%R) /\ (f0 + c * a1 ^ Z.to_nat (- k) = b1)%R /\ (f0 + c * a2 ^ Z.to_nat (- k) = b2)%R /\
  (forall m, 0 <= m < n -> a1 = IZR m -> rnth law m = b1) /\ (forall m, 0 <= m < n -> a2 = IZR m -> rnth law m = b2) /\
  (forall m, 0 <= m < n -> a1 = (- IZR m)%R -> rnth law m = if Z.even k then b1 else (b1 + 2 * c * IZR m ^ Z.to_nat (- k))%R).
Proof.
  intros n k a1 b1 a2 b2 rest x law Hn H. rewrite c162_outcome in H by exact Hn. destruct (Req_EM_T (a1 * a2) 0) as [|NZ]; [discriminate|]. destruct (Req_EM_T (powerRZ a1 k) (powerRZ a2 k)) as [|NE]; [discriminate|]. destruct (Z.eqb_spec k 1); [discriminate|]. destruct (Z.leb_spec 2 k); [discriminate|].
  assert (K : k < 0). { destruct (Z.eq_dec k 0) as [->|]; [exfalso; apply NE; reflexivity|lia]. } cbv zeta in H. set (j := Z.to_nat (- k)) in *. set (c := ((b2 - b1) / (a2 ^ j - a1 ^ j))%R) in *. set (f0 := (b1 - c * a1 ^ j)%R) in *. injection H as <- <-. split; [exact K|]. rewrite !zlen_map, !arange_zlen. split; [lia|]. split; [lia|].
  assert (A1 : a1 <> 0%R) by (intros ->; apply NZ; ring). assert (A2 : a2 <> 0%R) by (intros ->; apply NZ; ring).
  assert (D : (a2 ^ j - a1 ^ j <> 0)%R). { intros Q. apply NE. assert (E1 := powerRZ_opp_nat a1 k ltac:(lia) A1). assert (E2 := powerRZ_opp_nat a2 k ltac:(lia) A2). fold j in E1, E2. assert (E : (1 / powerRZ a1 k = 1 / powerRZ a2 k)%R) by lra. unfold Rdiv in E. rewrite !Rmult_1_l in E. apply (f_equal Rinv) in E. rewrite !Rinv_inv in E. exact E. }
  assert (LAW : forall t, 0 <= t < n -> rnth (map (fun t => f0 + c * IZR t ^ j)%R (arange 0 n)) t = (f0 + c * IZR t ^ j)%R) by (intros t Ht; rewrite rnth_map_arange by lia; now rewrite Z.add_0_l).
  assert (B1 : (f0 + c * a1 ^ j = b1)%R) by (unfold f0; ring). assert (B2 : (f0 + c * a2 ^ j = b2)%R) by (unfold f0, c; field; exact D).
  exists f0, c. split; [exact LAW|]. split; [exact B1|]. split; [exact B2|]. split; [|split].
  - intros m Hm E. rewrite LAW by exact Hm. rewrite <- E. exact B1.
  - intros m Hm E. rewrite LAW by exact Hm. rewrite <- E. exact B2.
  - intros m Hm E. rewrite LAW by exact Hm. rewrite E in B1. destruct (Z.even k) eqn:EK.
    + rewrite <- B1. do 2 f_equal. apply Z.even_spec in EK. destruct EK as [q Q]. assert (J : j = (2 * Z.to_nat (- q))%nat) by (unfold j; lia). rewrite J, !pow_mult. f_equal. ring.
    + assert (Z.odd k = true) as OK by (rewrite <- Z.negb_even, EK; reflexivity). apply Z.odd_spec in OK. destruct OK as [q Q]. assert (J : j = S (2 * Z.to_nat (- q - 1))) by (unfold j; lia).
      assert (SG : ((- IZR m) ^ j = - IZR m ^ j)%R) by (rewrite J; cbn [pow]; rewrite !pow_mult; replace ((- IZR m) ^ 2)%R with (IZR m ^ 2)%R by ring; ring). rewrite SG in B1. lra.
Qed.
(** The law is the derivative of the phase, whatever the coefficients. *)
Lemma c162_phase : forall n k cs x law, k < 0 -> fmpower_z n k cs = Ok (x, law) -> exists p q : R -> R, (forall t, is_derive p t (q t)) /\ p 0%R = 0%R /\ x = map (fun t => cis (2 * PI * p (IZR t))) (arange 0 n) /\ law = map (fun t => q (IZR t)) (arange 0 n).
Proof.
  intros n k cs x law K H. unfold fmpower_z in H. destruct (pow_coeffs_z k cs) as [[f0 c]|e]; cbn [bind] in H; [|discriminate]. destruct (Z.eqb_spec k 1); [lia|]. destruct (Z.ltb_spec 1 k); [lia|]. cbn [andb] in H. injection H as <- <-.
  exists (fun t => f0 * t + c / (1 - IZR k) * t ^ Z.to_nat (1 - k))%R, (fun t => f0 + c * t ^ Z.to_nat (- k))%R. assert (J : Z.to_nat (1 - k) = S (Z.to_nat (- k))) by lia. assert (K1 : (1 - IZR k <> 0)%R) by (apply IZR_lt in K; lra).
  assert (N : INR (S (Z.to_nat (- k))) = (1 - IZR k)%R) by (rewrite INR_IZR_INZ, <- J, Z2Nat.id, minus_IZR by lia; reflexivity). split; [|split; [|split; reflexivity]]; rewrite J.
  - intros t. auto_derive; [trivial|]. cbn [Init.Nat.pred]. match goal with |- context [match Z.to_nat (- k) with _ => _ end] => change (match Z.to_nat (- k) with O => 1%R | S _ => (INR (Z.to_nat (- k)) + 1)%R end) with (INR (S (Z.to_nat (- k)))) | _ => idtac end. rewrite N. field. exact K1.
  - cbn [pow]. ring.
Qed.
(** With positive points this is [fmpower] of C57. *)
Lemma c162_agrees : forall n k a1 b1 a2 b2 rest x law, 1 <= n -> (0 < a1)%R -> (0 < a2)%R -> fmpower_z n k (a1 :: b1 :: a2 :: b2 :: rest) = Ok (x, law) -> fmpower n (DInt k) (a1 :: b1 :: a2 :: b2 :: rest) = Ok (map Some x, map Some law).
Proof.
  intros n k a1 b1 a2 b2 rest x law Hn P1 P2 H. assert (K := proj1 (c162_points n k a1 b1 a2 b2 rest x law Hn H)). unfold fmpower_z, pow_coeffs_z, pyinv in H. destruct (Req_EM_T a2 0); [lra|]. destruct (Req_EM_T a1 0); [lra|]. cbn [bind] in H.
  unfold fmpower, pow_coeffs. cbn [dval]. rewrite <- !powerRZ_Rpower by auto. destruct (Req_EM_T _ 0); [discriminate|]. cbn [bind] in H |- *. destruct (Z.eqb_spec k 1); [discriminate|]. destruct (Req_EM_T (IZR k) 1) as [Q|_]; [apply eq_IZR in Q; lia|]. destruct (Z.ltb_spec 1 k); [lia|]. cbn [andb] in H |- *. injection H as <- <-. rewrite !map_map.
  assert (NP : forall t e, 0 <= t -> 1 <= e -> npow t (IZR e) = Some (IZR t ^ Z.to_nat e)%R).
  { intros t e Ht He. unfold npow. assert (E0 : (0 < IZR e)%R) by (apply IZR_lt; lia). destruct (Z.eqb_spec t 0) as [->|NT].
    - destruct (Req_EM_T (IZR e) 0); [lra|]. destruct (Rlt_dec 0 (IZR e)); [|lra]. rewrite pow_i by lia. reflexivity.
    - f_equal. rewrite <- Rpower_pow by (apply IZR_lt; lia). f_equal. rewrite INR_IZR_INZ, Z2Nat.id by lia. reflexivity. }
  f_equal. f_equal; apply map_ext_in; intros t It; apply in_arange in It.
  - rewrite <- minus_IZR, NP by lia. reflexivity.
  - rewrite <- opp_IZR, NP by lia. reflexivity.
Qed.
(** Degree -1 is a linear law: (1, 0.1), (3, 0.3) gives t/10; (-1, 0.1) in place of the first, 0.2 at 1. *)
Example c162_example : (exists x law, fmpower_z 4 (-1) [1; 1 / 10; 3; 3 / 10]%R = Ok (x, law) /\ rnth law 2 = (1 / 5)%R) /\ (exists x law, fmpower_z 4 (-1) [-1; 1 / 10; 3; 3 / 10]%R = Ok (x, law) /\ rnth law 1 = (1 / 5)%R) /\
  fmpower_z 4 2 [1; 1 / 10; 3; 3 / 10]%R = Raise ValueError.
Proof.
  split; [|split].
  - rewrite c162_outcome by lia. destruct (Req_EM_T (1 * 3) 0) as [Q|_]; [lra|]. destruct (Req_EM_T _ _) as [Q|_]; [exfalso; apply (f_equal (fun v => 1 / v)%R) in Q; rewrite !powerRZ_opp_nat in Q by (first [lia | apply not_0_IZR; lia]); change (Z.to_nat (- -1)) with 1%nat in Q; rewrite !pow_1 in Q; lra|]. do 2 eexists. split; [reflexivity|]. rewrite rnth_map_arange by lia. rewrite Z.add_0_l. change (Z.to_nat (- -1)) with 1%nat. rewrite !pow_1. field.
  - rewrite c162_outcome by lia. destruct (Req_EM_T (-1 * 3) 0) as [Q|_]; [lra|]. destruct (Req_EM_T _ _) as [Q|_]; [exfalso; apply (f_equal (fun v => 1 / v)%R) in Q; rewrite !powerRZ_opp_nat in Q by (first [lia | apply not_0_IZR; lia]); change (Z.to_nat (- -1)) with 1%nat in Q; rewrite !pow_1 in Q; lra|]. do 2 eexists. split; [reflexivity|]. rewrite rnth_map_arange by lia. rewrite Z.add_0_l. change (Z.to_nat (- -1)) with 1%nat. rewrite !pow_1. field.
  - rewrite c162_outcome by lia. destruct (Req_EM_T (1 * 3) 0) as [Q|_]; [lra|]. destruct (Req_EM_T _ _) as [Q|_]; [exfalso; unfold powerRZ in Q; change (Pos.to_nat 2) with 2%nat in Q; lra|]. reflexivity.
Qed.
