(** C01 - C06: tftb/utils.py. *)
From Coq Require Import Reals ZArith List Lia Lra Bool Psatz.
From Coquelicot Require Import Coquelicot.
From Flocq Require Import Core.
From Verif Require Import Py Scalars CSum DFT Spec M_base P_base M_utils.
Import ListNotations.
Local Open Scope Z_scope.

(** *** C01 divider *)
Lemma divider_loop_spec N k : (1 <= k)%nat -> exists i,
  divider_loop N k = Some (i, N / i) /\ 1 <= i <= Z.of_nat k /\ (i | N) /\
  forall j, i < j <= Z.of_nat k -> ~ (j | N).
Proof.
  induction k as [|k IH]; intros Hk; [lia|].
  cbn [divider_loop]. destruct (Z.eqb_spec (N mod Z.of_nat (S k)) 0) as [E|E].
  - exists (Z.of_nat (S k)). split; auto. split; [lia|]. split; [apply Z.mod_divide; lia|]. intros; lia.
  - destruct k as [|k].
    + exists 1. split; auto. split; [lia|]. split; [apply Z.divide_1_l|]. intros; lia.
    + destruct (IH ltac:(lia)) as [i (H1 & H2 & H3 & H4)]. exists i. split; auto. split; [lia|]. split; auto.
      intros j Hj. destruct (Z.eq_dec j (Z.of_nat (S (S k)))) as [->|].
      * rewrite <- Z.mod_divide by lia. auto.
      * apply H4. lia.
Qed.

Lemma sqrt_floor N : 0 <= N -> let a := Zfloor (sqrt (IZR N)) in
  0 <= a /\ a * a <= N < (a + 1) * (a + 1) /\ (IZR a = sqrt (IZR N) <-> a * a = N).
Proof.
  intros HN a. assert (P : (0 <= IZR N)%R) by (apply IZR_le; auto).
  assert (S0 := sqrt_pos (IZR N)). assert (S1 := sqrt_sqrt _ P).
  assert (L := Zfloor_lb (sqrt (IZR N))). assert (U := Zfloor_ub (sqrt (IZR N))). fold a in L, U.
  assert (A0 : 0 <= a) by (apply Zfloor_lub; auto).
  assert (A0' : (0 <= IZR a)%R) by (apply IZR_le; auto).
  split; auto. split.
  - split; [apply le_IZR|apply lt_IZR]; rewrite mult_IZR, ?plus_IZR; nra.
  - split; intros E.
    + apply eq_IZR. rewrite mult_IZR, E. auto.
    + rewrite <- E, mult_IZR. symmetry. apply sqrt_square; auto.
Qed.

Definition isq (N : Z) := Zfloor (sqrt (IZR N)).

Lemma divider_s_spec s N : 1 <= N -> 
  (if isq N * isq N =? N then s = IZR (isq N) else (IZR (isq N) < s < IZR (isq N + 1))%R) ->
  exists a b, divider_s s N = Ok (a, b) /\ 0 < a /\ 0 < b /\ a * b = N /\
    forall c d, 0 < c -> 0 < d -> c * d = N -> Z.abs (a - b) <= Z.abs (c - d).
Proof.
  intros HN. destruct (sqrt_floor N ltac:(lia)) as (A0 & A1 & A2). fold (isq N) in A0, A1, A2.
  set (q := isq N) in *. clearbody q. unfold divider_s. destruct (Z.eqb_spec (q * q) N) as [E|E]; intros Hs.
  - subst s. rewrite Zfloor_IZR. destruct (Req_EM_T (IZR q) (IZR q)) as [_|]; [|congruence].
    exists q, q. split; auto. split; [nia|]. split; [nia|]. split; auto. intros; lia.
  - rewrite (Zfloor_imp q) by lra. destruct (Req_EM_T (IZR q) s); [lra|].
    rewrite (Zceil_imp (q + 1)) by (replace (q + 1 - 1) with q by lia; lra).
    destruct (divider_loop_spec N (Z.to_nat (q + 1)) ltac:(lia)) as [i (H1 & H2 & H3 & H4)].
    rewrite H1. exists i, (N / i). split; auto. rewrite Z2Nat.id in H2, H4 by lia.
    destruct H3 as [b Hb]. replace (N / i) with b by (rewrite Hb, Z.div_mul; lia).
    assert (0 < b) by nia. split; [lia|]. split; auto. split; [lia|].
    assert (Half : forall c d, 0 < c -> 0 < d -> c <= d -> c * d = N -> Z.abs (i - b) <= Z.abs (c - d)).
    { intros c d Hc Hd Hcd HE.
      assert (c <= i). { destruct (Z.le_gt_cases c i); auto. exfalso. apply (H4 c); [nia|]. exists d. lia. }
      assert (c <> d) by (intros ->; apply E; assert (q <= d) by nia; assert (d <= q) by nia; nia).
      destruct (Z.eq_dec i (q + 1)) as [->|].
      - assert (b = q) by nia. lia.
      - assert (i <= q) by lia. assert (i <= b) by nia. assert (b <= d) by nia. lia. }
    intros c d Hc Hd HE. destruct (Z.le_ge_cases c d).
    + apply Half; auto.
    + replace (Z.abs (c - d)) with (Z.abs (d - c)) by lia. apply Half; auto. lia.
Qed.

Lemma c01_divider_balanced : forall N, 1 <= N -> exists a b,
  divider N = Ok (a, b) /\ 0 < a /\ 0 < b /\ a * b = N /\
  forall c d, 0 < c -> 0 < d -> c * d = N -> Z.abs (a - b) <= Z.abs (c - d).
Proof.
  intros N HN. unfold divider, divider_with. rewrite (proj2 (Z.ltb_ge N 0)) by lia.
  apply divider_s_spec; auto. destruct (sqrt_floor N ltac:(lia)) as (A0 & A1 & A2). fold (isq N) in A0, A1, A2.
  destruct (Z.eqb_spec (isq N * isq N) N) as [E|E].
  - symmetry. tauto.
  - assert (L := Zfloor_lb (sqrt (IZR N))). assert (U := Zfloor_ub (sqrt (IZR N))). fold (isq N) in L, U.
    rewrite plus_IZR. split; [|lra]. destruct L as [L|L]; auto. tauto.
Qed.

Lemma b64_repr m e : (Z.abs m < 2 ^ 53) -> b64 (IZR m * bpow radix2 e) = (IZR m * bpow radix2 e)%R.
Proof.
  intros H. unfold b64. apply round_generic; [apply valid_rnd_N|].
  apply generic_format_FLX. exists (Float radix2 m e); [reflexivity|]. cbn [Fnum]. exact H.
Qed.
Lemma b64_int m : Z.abs m < 2 ^ 53 -> b64 (IZR m) = IZR m.
Proof. intros H. rewrite <- (Rmult_1_r (IZR m)). change 1%R with (bpow radix2 0). now apply b64_repr. Qed.
Lemma b64_le x y : (x <= y)%R -> (b64 x <= b64 y)%R.
Proof. apply round_le; [apply FLX_exp_valid; reflexivity|apply valid_rnd_N]. Qed.

Definition eps27 : R := bpow radix2 (-27).
Lemma eps27_val : (eps27 * 134217728 = 1)%R.
Proof. unfold eps27. change 134217728%R with (bpow radix2 27). rewrite <- bpow_plus. reflexivity. Qed.

(** In double precision the result is still right up to 2^52 ... *)
Lemma c01_divider_float_exact_range : forall N, 1 <= N <= 2 ^ 52 -> exists a b,
  divider_f64 N = Ok (a, b) /\ 0 < a /\ 0 < b /\ a * b = N /\
  forall c d, 0 < c -> 0 < d -> c * d = N -> Z.abs (a - b) <= Z.abs (c - d).
Proof.
  intros N HN. unfold divider_f64, divider_with. rewrite (proj2 (Z.ltb_ge N 0)) by lia.
  rewrite b64_int by lia.
  apply divider_s_spec; [lia|]. destruct (sqrt_floor N ltac:(lia)) as (A0 & A1 & A2). fold (isq N) in A0, A1, A2.
  destruct (Z.eqb_spec (isq N * isq N) N) as [E|E].
  - rewrite <- (proj2 A2 E). apply b64_int. nia.
  - set (a := isq N) in *. clearbody a.
    assert (Ha : a <= 67108863) by nia.
    assert (E27 := eps27_val). assert (P27 : (0 < eps27)%R) by apply bpow_gt_0.
    assert (PN : (0 <= IZR N)%R) by (apply IZR_le; lia).
    assert (HA : (0 <= IZR a <= 67108863)%R) by (split; apply IZR_le; lia).
    assert (HN1 : (IZR a * IZR a + 1 <= IZR N)%R) by (rewrite <- mult_IZR, <- plus_IZR; apply IZR_le; nia).
    assert (HN2 : (IZR N <= (IZR a + 1) * (IZR a + 1) - 1)%R)
      by (rewrite <- !plus_IZR, <- mult_IZR, <- minus_IZR; apply IZR_le; lia).
    assert (SS := sqrt_sqrt _ PN). assert (SP := sqrt_pos (IZR N)).
    assert (L : (IZR a + eps27 <= sqrt (IZR N))%R).
    { apply Rsqr_incr_0; unfold Rsqr; try lra. rewrite SS. nra. }
    assert (U : (sqrt (IZR N) <= IZR a + 1 - eps27)%R).
    { apply Rsqr_incr_0; unfold Rsqr; try lra; nra. }
    apply b64_le in L, U.
    replace (IZR a + eps27)%R with (IZR (a * 134217728 + 1) * eps27)%R in L
      by (rewrite plus_IZR, mult_IZR; nra).
    replace (IZR a + 1 - eps27)%R with (IZR ((a + 1) * 134217728 - 1) * eps27)%R in U
      by (rewrite minus_IZR, mult_IZR, plus_IZR; nra).
    unfold eps27 in L, U. rewrite b64_repr in L, U by lia. fold eps27 in L, U.
    rewrite plus_IZR, mult_IZR in L. rewrite minus_IZR, mult_IZR, plus_IZR in U. rewrite plus_IZR. split; nra.
Qed.

Lemma b64_round x e m : (bpow radix2 (e - 1) <= x < bpow radix2 e)%R ->
  (Rabs (x * bpow radix2 (53 - e) - IZR m) < / 2)%R -> b64 x = (IZR m * bpow radix2 (e - 53))%R.
Proof.
  intros Hx Hm. unfold b64, round, F2R, scaled_mantissa, cexp. cbn [Fnum Fexp].
  assert (M : (mag radix2 x : Z) = e).
  { apply mag_unique_pos. auto. }
  rewrite M. unfold FLX_exp. replace (- (e - 53)) with (53 - e) by lia. f_equal. f_equal.
  apply Znearest_imp. auto.
Qed.

(** ... but not beyond: the very next integer is the first counterexample of
    the form a^2+1. *)
Lemma c01_divider_float_refuted : exists N a b, 1 <= N /\
  divider_f64 N = Ok (a, b) /\ a * b <> N.
Proof.
  exists (2 ^ 52 + 1), (2 ^ 26), (2 ^ 26). split; [lia|]. split; [|lia].
  unfold divider_f64, divider_with. change (2 ^ 52 + 1 <? 0) with false. cbn match.
  rewrite b64_int by lia.
  assert (P : (0 <= IZR (2 ^ 52 + 1))%R) by (apply IZR_le; lia).
  assert (SS := sqrt_sqrt _ P). assert (SP := sqrt_pos (IZR (2 ^ 52 + 1))).
  change (2 ^ 52 + 1) with 4503599627370497 in *.
  assert (L : (67108864 <= sqrt 4503599627370497)%R) by (apply Rsqr_incr_0; unfold Rsqr; lra).
  assert (U : (sqrt 4503599627370497 - 67108864 < / 134217728)%R).
  { assert (sqrt 4503599627370497 < 67108864 + / 134217728)%R; [|lra].
    apply Rsqr_incrst_0; unfold Rsqr; lra. }
  rewrite (b64_round (sqrt 4503599627370497) 27 4503599627370496).
  - change (27 - 53) with (-26). replace (4503599627370496 * bpow radix2 (-26))%R with (IZR 67108864).
    2:{ change (bpow radix2 (-26)) with (/ 67108864)%R. lra. }
    unfold divider_s. rewrite Zfloor_IZR. destruct (Req_EM_T _ _); [reflexivity|congruence].
  - change (27 - 1) with 26. change (bpow radix2 26) with 67108864%R. change (bpow radix2 27) with 134217728%R.
    lra.
  - change (53 - 27) with 26. change (bpow radix2 26) with 67108864%R. rewrite Rabs_right; lra.
Qed.

Example c01_example : divider 12 = Ok (4, 3).
Proof.
  destruct (c01_divider_balanced 12 ltac:(lia)) as (a & b & H & _).
  unfold divider, divider_with in *. change (12 <? 0) with false in *. cbn match in *.
  unfold divider_s.
  assert (SS := sqrt_sqrt 12 ltac:(lra)). assert (SP := sqrt_pos 12).
  assert (3 < sqrt 12)%R by (apply Rsqr_incrst_0; unfold Rsqr; lra).
  assert (sqrt 12 < 4)%R by (apply Rsqr_incrst_0; unfold Rsqr; lra).
  rewrite (Zfloor_imp 3) by (cbn; lra). destruct (Req_EM_T 3 (sqrt 12)); [lra|].
  rewrite (Zceil_imp 4) by (cbn; lra). reflexivity.
Qed.

(** *** C02 nextpow2 *)
Lemma log2_le x k : (0 < x)%R -> ((log2 x <= IZR k)%R <-> (x <= powerRZ 2 k)%R).
Proof.
  intros Hx. unfold log2.
  assert (L2 : (0 < ln 2)%R) by (rewrite <- ln_1; apply ln_increasing; lra).
  rewrite powerRZ_Rpower by lra. unfold Rpower.
  split; intros H.
  - rewrite <- (exp_ln x) by auto. assert (H' : (ln x <= IZR k * ln 2)%R).
    { apply (Rmult_le_compat_r (ln 2)) in H; [|lra]. unfold Rdiv in H.
      rewrite Rmult_assoc, Rinv_l, Rmult_1_r in H by lra. auto. }
    destruct H' as [H'|H']; [left; now apply exp_increasing|right; now rewrite H'].
  - apply (Rmult_le_reg_r (ln 2)); auto. unfold Rdiv. rewrite Rmult_assoc, Rinv_l, Rmult_1_r by lra.
    rewrite <- (ln_exp (IZR k * ln 2)). destruct H as [H|H]; [left; now apply ln_increasing|right; now rewrite H].
Qed.

Lemma c02_nextpow2_least : forall x, (0 < x)%R -> exists k,
  nextpow2 x = Ok k /\ (x <= powerRZ 2 k)%R /\ forall j, (x <= powerRZ 2 j)%R -> k <= j.
Proof.
  intros x Hx. unfold nextpow2. destruct (Rlt_dec 0 x); [|lra]. eexists. split; auto. split.
  - apply log2_le; auto. apply Zceil_ub.
  - intros j Hj. apply log2_le in Hj; auto. now apply Zceil_glb.
Qed.

Lemma c02_nextpow2_nonpositive : forall x, (x <= 0)%R -> nextpow2 x = Raise ValueError.
Proof. intros x H. unfold nextpow2. destruct (Rlt_dec 0 x); auto. lra. Qed.

(** The documented array form raises. *)
Lemma c02_array_refuted : exists l, l <> [] /\ (forall x, In x l -> (0 < x)%R) /\
  nextpow2_arr l = Raise TypeError.
Proof. exists [1%R; 2%R]. split; [discriminate|]. split; [intros x [<-|[<-|[]]]; lra|reflexivity]. Qed.

Lemma log2_pow2 k : log2 (powerRZ 2 k) = IZR k.
Proof.
  unfold log2. rewrite powerRZ_Rpower by lra. unfold Rpower. rewrite ln_exp. field.
  assert (0 < ln 2)%R; [|lra]. rewrite <- ln_1. apply ln_increasing; lra.
Qed.

(** In double precision large integers are rounded before the logarithm. *)
Lemma c02_float_refuted : exists n k, nextpow2_f64 n = Ok k /\ 2 ^ k < n.
Proof.
  exists (2 ^ 53 + 1), 53. split; [|lia]. unfold nextpow2_f64. change (2 ^ 53 + 1 <=? 0) with false. cbn match.
  do 2 f_equal. change (2 ^ 53 + 1) with 9007199254740993.
  assert (E : b64 9007199254740993 = powerRZ 2 53).
  { unfold b64, round, F2R, scaled_mantissa, cexp. cbn [Fnum Fexp].
    assert (M : (mag radix2 9007199254740993 : Z) = 54).
    { apply mag_unique_pos. change (54 - 1) with 53. change (bpow radix2 53) with 9007199254740992%R.
      change (bpow radix2 54) with 18014398509481984%R. lra. }
    rewrite M. unfold FLX_exp. change (54 - 53) with 1. change (- (1)) with (-1).
    change (bpow radix2 (-1)) with (/ 2)%R. change (bpow radix2 1) with 2%R.
    replace (ZnearestE (9007199254740993 * / 2)) with 4503599627370496.
    - change (powerRZ 2 53) with (2 ^ 53)%R. rewrite pow_IZR. change (Z.of_nat 53) with 53. rewrite <- mult_IZR. reflexivity.
    - unfold Znearest. rewrite (Zfloor_imp 4503599627370496) by (cbn; lra).
      rewrite Rcompare_Eq by lra. reflexivity. }
  rewrite E, log2_pow2, b64_int by lia. apply Zceil_IZR.
Qed.

Example c02_example : nextpow2 5 = Ok 3.
Proof.
  destruct (c02_nextpow2_least 5 ltac:(lra)) as (k & H & H1 & H2). rewrite H. f_equal.
  assert (k <= 3). { apply H2. change (powerRZ 2 3) with (2 * (2 * (2 * 1)))%R. lra. }
  destruct (Z.eq_dec k 3) as [|N]; [assumption|]. exfalso.
  assert (H3 : (powerRZ 2 k <= powerRZ 2 2)%R).
  { rewrite !powerRZ_Rpower by lra. apply Rle_Rpower; [lra|]. apply IZR_le. lia. }
  change (powerRZ 2 2) with (2 * (2 * 1))%R in H3. lra.
Qed.

(** *** C03 nearest_odd *)
Definition nodd (x : R) : Z := if Zfloor x mod 2 =? 0 then Zfloor x + 1 else Zfloor x.

Lemma nearest_odd_nodd x : nearest_odd x = IZR (nodd x).
Proof.
  unfold nearest_odd, nodd, rmod2.
  destruct (Req_EM_T (x - 2 * IZR (Zfloor (x / 2))) 0) as [E|E].
  - assert (Ex : x = IZR (2 * Zfloor (x / 2))) by (rewrite mult_IZR; lra).
    assert (Ef : Zfloor x = 2 * Zfloor (x / 2)) by (rewrite Ex at 1; apply Zfloor_IZR).
    rewrite Ef. rewrite Z.mul_comm, Z.mod_mul by lia. cbn [Z.eqb]. rewrite plus_IZR, Z.mul_comm, <- Ex. reflexivity.
  - destruct (Z.eqb_spec (Zfloor x mod 2) 0) as [F|F]; cbn [negb]; auto.
    rewrite Zceil_floor_neq; auto. intros G. apply E.
    set (m := Zfloor x) in *. assert (G' : x = IZR (2 * (m / 2))).
    { rewrite <- G. f_equal. Z.to_euclidean_division_equations. lia. }
    rewrite G' at 1. replace (x / 2)%R with (IZR (m / 2)) by (rewrite G', mult_IZR; field).
    rewrite Zfloor_IZR, mult_IZR. ring.
Qed.

Lemma c03_nearest_odd : forall x, exists r, nearest_odd x = IZR r /\ Z.odd r = true /\
  (Rabs (IZR r - x) <= 1)%R /\
  forall r', Z.odd r' = true -> (Rabs (IZR r - x) <= Rabs (IZR r' - x))%R.
Proof.
  intros x. exists (nodd x). split; [apply nearest_odd_nodd|].
  assert (L := Zfloor_lb x). assert (U := Zfloor_ub x).
  assert (O : Z.odd (nodd x) = true).
  { unfold nodd. rewrite Zmod_even. destruct (Z.even (Zfloor x)) eqn:E; cbn [Z.eqb].
    - rewrite Z.odd_add, <- Z.negb_even, E. reflexivity.
    - now rewrite <- Z.negb_even, E. }
  assert (D : (Rabs (IZR (nodd x) - x) <= 1)%R).
  { unfold nodd. destruct (_ =? _); rewrite ?plus_IZR; unfold Rabs; destruct (Rcase_abs _); lra. }
  split; auto. split; auto.
  intros r' O'. destruct (Z.eq_dec r' (nodd x)) as [->|N]; [lra|].
  assert (2 <= Z.abs (r' - nodd x)).
  { apply Zodd_bool_iff in O, O'. apply Zodd_ex in O, O'. destruct O as [a Ha], O' as [b Hb]. lia. }
  apply IZR_le in H. rewrite abs_IZR, minus_IZR in H.
  assert (T := Rabs_triang (IZR r' - x) (x - IZR (nodd x))).
  replace (IZR r' - x + (x - IZR (nodd x)))%R with (IZR r' - IZR (nodd x))%R in T by ring.
  rewrite (Rabs_minus_sym x) in T. lra.
Qed.

Lemma c03_array_agrees : forall l, map IZR (nearest_odd_arr l) = map nearest_odd l.
Proof.
  intros l. unfold nearest_odd_arr. rewrite !map_map. apply map_ext. intros x. now rewrite nearest_odd_nodd.
Qed.

(** The docstring's example [nearest_odd(range(1, 11))] raises. *)
Lemma c03_range_refuted : nearest_odd_range = Raise TypeError.
Proof. reflexivity. Qed.

Example c03_example : nearest_odd (5/2) = 3%R.
Proof.
  rewrite nearest_odd_nodd. unfold nodd. rewrite (Zfloor_imp 2) by (cbn; lra). reflexivity.
Qed.

(** *** C04 modulo *)
Lemma c04_modulo_residue : forall x N, 1 <= N -> zlen (modulo x N) = zlen x /\
  forall k v, nth_error x k = Some v -> exists r, nth_error (modulo x N) k = Some r /\
    1 <= r <= N /\ (N | r - v) /\ forall r', 1 <= r' <= N -> (N | r' - v) -> r' = r.
Proof.
  intros x N HN. split; [unfold modulo; now rewrite !zlen_map|].
  intros k v Hk. unfold modulo. rewrite map_map, nth_error_map, Hk. cbn [option_map]. eexists. split; [reflexivity|].
  assert (B := Z.mod_pos_bound v N ltac:(lia)). assert (D := Z.div_mod v N ltac:(lia)).
  assert (R : 1 <= (if v mod N =? 0 then N else v mod N) <= N) by (destruct (Z.eqb_spec (v mod N) 0); lia).
  assert (DV : (N | (if v mod N =? 0 then N else v mod N) - v)).
  { destruct (Z.eqb_spec (v mod N) 0) as [E|E].
    - exists (1 - v / N). lia.
    - exists (- (v / N)). lia. }
  split; auto. split; auto. intros r' R' D'.
  assert (Q : (N | r' - (if v mod N =? 0 then N else v mod N))).
  { replace (r' - _) with ((r' - v) - ((if v mod N =? 0 then N else v mod N) - v)) by lia. now apply Z.divide_sub_r. }
  destruct Q as [q Q]. assert (q = 0) by nia. subst. lia.
Qed.

(** On complex arrays: TypeError if any entry is real, otherwise residues in
    0..N-1 (not 1..N) of both parts. *)
Lemma c04_complex : forall x N, 1 <= N ->
  ((exists z, In z x /\ snd z = 0) -> modulo_cplx x N = Raise TypeError) /\
  ((forall z, In z x -> snd z <> 0) -> exists y, modulo_cplx x N = Ok y /\
     forall z, In z y -> 0 <= fst z < N /\ 0 <= snd z < N).
Proof.
  intros x N HN. unfold modulo_cplx. split.
  - intros [z [Hz E]]. rewrite (proj2 (existsb_exists _ x)); auto. exists z. split; auto. now apply Z.eqb_eq.
  - intros H. destruct (existsb _ x) eqn:E.
    + apply existsb_exists in E. destruct E as [z [Hz E]]. apply Z.eqb_eq in E. exfalso. now apply (H z).
    + eexists. split; [reflexivity|]. intros z Hz. apply in_map_iff in Hz. destruct Hz as [u [<- _]].
      cbn [fst snd]. split; apply Z.mod_pos_bound; lia.
Qed.

Example c04_example : modulo [-1; 0; 1; 4; 5; 8] 4 = [3; 4; 1; 4; 1; 4].
Proof. reflexivity. Qed.

(** *** C05 is_linear *)
Lemma p10_pos d : (0 < p10 d)%R.
Proof. apply pow_lt. lra. Qed.

Lemma around_err d v : (Rabs (around d v - v) <= / 2 / p10 d)%R.
Proof.
  unfold around. assert (P := p10_pos d). assert (H := Znearest_half (fun x => negb (Z.even x)) (v * p10 d)).
  replace (IZR (ZnearestE (v * p10 d)) / p10 d - v)%R with (- ((v * p10 d - IZR (ZnearestE (v * p10 d))) / p10 d))%R by (field; lra).
  rewrite Rabs_Ropp. unfold Rdiv. rewrite Rabs_mult, (Rabs_right (/ p10 d)).
  - apply Rmult_le_compat_r; auto. left. now apply Rinv_0_lt_compat.
  - left. now apply Rinv_0_lt_compat.
Qed.

Lemma one_value_spec l : one_value l = true <-> l <> [] /\ forall a b, In a l -> In b l -> a = b.
Proof.
  destruct l as [|a l]; cbn [one_value].
  - split; [discriminate|]. intros [[] _]. reflexivity.
  - rewrite forallb_forall. split.
    + intros H. split; [discriminate|].
      assert (A : forall b, In b (a :: l) -> a = b).
      { intros b [<-|Hb]; auto. specialize (H b Hb). destruct (Req_EM_T a b); auto. discriminate. }
      intros u v Hu Hv. rewrite <- (A u Hu). auto.
    + intros [_ H] b Hb. destruct (Req_EM_T a b) as [|N]; auto. exfalso. apply N. apply H; [left|right]; auto.
Qed.

Lemma nth_diffs x k d : nth_error (diffs x) k = Some d <->
  exists a b, nth_error x k = Some a /\ nth_error x (S k) = Some b /\ d = (b - a)%R.
Proof.
  unfold diffs. revert k. induction x as [|a x IH]; intros k.
  - destruct k; cbn; split; try discriminate; intros (a & b & H & _); discriminate.
  - cbn [tl]. destruct x as [|b x].
    + split.
      * destruct k; discriminate.
      * intros (u & v & _ & H' & _). destruct k; discriminate.
    + destruct k as [|k].
      * cbn. split; [intros [= <-]; eauto|]. intros (u & v & [= <-] & [= <-] & ->). reflexivity.
      * cbn [zipw nth_error]. rewrite (IH k). reflexivity.
Qed.
Lemma in_diffs x d : In d (diffs x) <-> exists k a b, nth_error x k = Some a /\ nth_error x (S k) = Some b /\ d = (b - a)%R.
Proof.
  split.
  - intros H. apply In_nth_error in H. destruct H as [k H]. apply nth_diffs in H. exists k. auto.
  - intros (k & H). apply nth_diffs in H. eapply nth_error_In; eauto.
Qed.

Lemma c05_progression : forall (a s : R) n d, 2 <= n ->
  is_linear (map (fun k => a + IZR k * s)%R (arange 0 n)) d = true.
Proof.
  intros a s n d Hn. apply one_value_spec. split.
  - rewrite (arange_cons 0 n), (arange_cons (0 + 1) n) by lia. discriminate.
  - assert (A : forall v, In v (diffs (map (fun k => a + IZR k * s)%R (arange 0 n))) -> v = s).
    { intros v H. apply in_diffs in H. destruct H as (k & u & w & Hu & Hw & ->).
      rewrite nth_error_map in Hu, Hw.
      destruct (nth_error (arange 0 n) k) as [p|] eqn:E1; [|discriminate].
      destruct (nth_error (arange 0 n) (S k)) as [q|] eqn:E2; [|discriminate].
      assert (B2 : (S k < length (arange 0 n))%nat) by (apply nth_error_Some; congruence).
      rewrite arange_length in B2. rewrite nth_error_arange in E1, E2 by lia.
      cbn [option_map] in Hu, Hw.
      assert (u = a + IZR (Z.of_nat k) * s)%R by (replace (Z.of_nat k) with p by (assert (p = 0 + Z.of_nat k) by congruence; lia); congruence).
      assert (w = a + (IZR (Z.of_nat k) + 1) * s)%R.
      { rewrite <- plus_IZR. replace (Z.of_nat k + 1) with q by (assert (q = 0 + Z.of_nat (S k)) by congruence; lia). congruence. }
      subst. ring. }
    intros u v Hu Hv. apply in_map_iff in Hu, Hv. destruct Hu as [u' [<- Hu]], Hv as [v' [<- Hv]].
    rewrite (A u' Hu), (A v' Hv). reflexivity.
Qed.

Lemma c05_accepts_bound : forall x d, is_linear x d = true -> exists s, forall k a b,
  nth_error x k = Some a -> nth_error x (S k) = Some b -> (Rabs ((b - a) - s) <= / 2 / p10 d)%R.
Proof.
  intros x d H. apply one_value_spec in H. destruct H as [H1 H2].
  destruct (map (around d) (diffs x)) as [|s l] eqn:E; [congruence|]. exists s. intros k a b Ha Hb.
  assert (I : In (b - a)%R (diffs x)) by (apply in_diffs; exists k, a, b; auto).
  assert (I' : around d (b - a) = s).
  { apply H2; [rewrite <- E; now apply in_map|left; auto]. }
  rewrite <- I', Rabs_minus_sym. apply around_err.
Qed.

(** Any two consecutive differences are within 10^-d. *)
Lemma c05_accepts_close : forall x d, is_linear x d = true -> forall k j a b a' b',
  nth_error x k = Some a -> nth_error x (S k) = Some b ->
  nth_error x j = Some a' -> nth_error x (S j) = Some b' ->
  (Rabs ((b - a) - (b' - a')) <= / p10 d)%R.
Proof.
  intros x d H k j a b a' b' H1 H2 H3 H4. destruct (c05_accepts_bound x d H) as [s Hs].
  assert (A := Hs k a b H1 H2). assert (B := Hs j a' b' H3 H4).
  replace ((b - a) - (b' - a'))%R with ((b - a - s) + (s - (b' - a')))%R by ring.
  eapply Rle_trans; [apply Rabs_triang|]. rewrite (Rabs_minus_sym s). assert (P := p10_pos d).
  replace (/ p10 d)%R with (/ 2 / p10 d + / 2 / p10 d)%R by (field; lra). lra.
Qed.

Lemma c05_short : forall x d, zlen x < 2 -> is_linear x d = false.
Proof.
  intros [|a [|b x]] d H; try reflexivity. exfalso. unfold zlen in H. cbn [length] in H. lia.
Qed.

(** Accepting does not mean linear: the error accumulates. *)
Lemma c05_example_accepts : is_linear [0%R; 1%R; 2%R] 5 = true.
Proof.
  assert (H := c05_progression 0 1 3 5 ltac:(lia)). rewrite <- H. f_equal. eval_arange. cbn [map].
  repeat f_equal; ring.
Qed.
Example c05_example_rejects : is_linear [0%R; 1%R; 3%R] 5 = false.
Proof.
  destruct (is_linear [0%R; 1%R; 3%R] 5) eqn:E; auto. exfalso.
  assert (H := c05_accepts_close _ _ E 0 1 0 1 1 3 eq_refl eq_refl eq_refl eq_refl).
  revert H. unfold p10, Rabs. destruct (Rcase_abs _); cbn; lra.
Qed.

(** *** C06 izak *)
Lemma ifft_zlen x : zlen (ifft x) = zlen x.
Proof. unfold ifft. rewrite zlen_map_arange; unfold zlen; lia. Qed.
Lemma ifft_nth x k : 0 <= k < zlen x ->
  cnth (ifft x) k = (/ RtoC (IZR (zlen x)) * csum (arange 0 (zlen x)) (fun f => cnth x f * root (zlen x) (f * k)%Z))%C.
Proof. intros H. unfold ifft. rewrite cnth_map_arange by lia. now rewrite Z.add_0_l. Qed.

(** Inverse transform of a transform. *)
Lemma ifft_fft (x : list C) : ifft (fft x) = x.
Proof.
  rewrite (list_as_map (ifft (fft x))), ifft_zlen, fft_zlen. transitivity (map (cnth x) (arange 0 (zlen x))); [|symmetry; apply list_as_map].
  apply map_ext_in. intros k Hk. apply in_arange in Hk.
  rewrite ifft_nth by (rewrite fft_zlen; auto). rewrite fft_zlen. set (n := zlen x) in *.
  rewrite (csum_ext _ _ (fun f => esum n (arange 0 n) (cnth x) f * root n (f * k))%C).
  2:{ intros f Hf. apply in_arange in Hf. rewrite fft_nth by auto. reflexivity. }
  rewrite esum_inv by lia. rewrite (csum_single _ k); [|apply NoDup_arange|apply in_arange; lia|].
  - rewrite Z.sub_diag, Z.mod_0_l by lia. cbn [Z.eqb].
    assert (RtoC (IZR n) <> RtoC 0). { intros E. apply RtoC_inj in E. apply eq_IZR in E. lia. }
    rewrite Cmult_assoc, Cinv_l, Cmult_1_l by auto. reflexivity.
  - intros t Ht N. apply in_arange in Ht. destruct (Z.eqb_spec ((t - k) mod n) 0) as [E|E]; auto.
    exfalso. apply Z.mod_divide in E; [|lia]. destruct E as [q E]. assert (q = 0) by nia. subst. lia.
Qed.

Lemma ifft_map_scal (c : C) (x : list C) : ifft (map (fun v => v * c)%C x) = map (fun v => v * c)%C (ifft x).
Proof.
  unfold ifft. rewrite zlen_map, map_map. apply map_ext_in. intros k Hk. apply in_arange in Hk.
  rewrite <- Cmult_assoc. f_equal. rewrite <- csum_scal_r. apply csum_ext. intros f Hf. apply in_arange in Hf.
  replace (cnth (map (fun v => v * c)%C x) f) with (cnth x f * c)%C; [ring|].
  symmetry. unfold cnth. rewrite (nth_indep _ (RtoC 0) (RtoC 0 * c)%C) by (rewrite map_length; unfold zlen in Hf; lia).
  now rewrite (map_nth (fun v => v * c)%C).
Qed.

(** State of the loop after the columns [0 .. j-1]. *)
Lemma izak_loop n (cols : list (list C)) : 1 <= n -> (forall c, In c cols -> zlen c = n) ->
  exists sig, izak n cols = Ok sig /\ zlen sig = n * zlen cols /\
  forall i col k, nth_error cols (Z.to_nat i) = Some col -> 0 <= i -> 0 <= k < n ->
    cnth sig (i + k * zlen cols) = (RtoC (sqrt (IZR n)) * cnth (ifft col) k)%C.
Proof.
  intros Hn Hc. set (m := zlen cols). unfold izak. fold m.
  assert (G : forall (l : list (list C)) j sig, 0 <= j -> j + zlen l = m -> (forall c, In c l -> zlen c = n) ->
    zlen sig = n * m -> exists sig', foldM (izak_step n m) (combine (arange j (j + zlen l)) l) sig = Ok sig' /\
    zlen sig' = n * m /\
    (forall i k, 0 <= i < j -> 0 <= k < n -> cnth sig' (i + k * m) = cnth sig (i + k * m)) /\
    (forall i col k, nth_error l (Z.to_nat i) = Some col -> 0 <= i -> 0 <= k < n ->
      cnth sig' (j + i + k * m) = (RtoC (sqrt (IZR n)) * cnth (ifft col) k)%C)).
  { induction l as [|c l IH]; intros j sig Hj Hl Hcl Hs.
    - exists sig. change (zlen []) with 0 in *. rewrite Z.add_0_r, arange_empty by lia. cbn [combine foldM].
      split; auto. split; auto. split; auto. intros i col k E. destruct (Z.to_nat i); discriminate.
    - replace (zlen (c :: l)) with (1 + zlen l) in * by (unfold zlen; cbn [length]; lia).
      assert (NL := zlen_nonneg l).
      rewrite (arange_cons j) by lia. cbn [combine foldM izak_step].
      assert (Lc : zlen c = n) by (apply Hcl; left; auto).
      replace (map (fun v => RtoC (sqrt (IZR n)) * v)%C (ifft c)) with
        (map (fun k => RtoC (sqrt (IZR n)) * cnth (ifft c) k)%C (arange 0 n)).
      2:{ symmetry. etransitivity; [apply (f_equal (map _)); apply list_as_map|]. rewrite map_map, ifft_zlen, Lc. reflexivity. }
      rewrite put_map_ok by (intros k Hk; apply in_arange in Hk; nia). cbn [bind].
      set (P := puts sig _).
      assert (PL : zlen P = n * m) by (unfold P, zlen; rewrite puts_length; exact Hs).
      destruct (IH (j + 1) P) as (sig' & E & L' & A & B); try lia; auto.
      { intros c' Hc'. apply Hcl. right; auto. }
      replace (j + 1 + zlen l) with (j + (1 + zlen l)) in E by lia. exists sig'. split; auto. split; auto.
      assert (Idx : forall i k k', 0 <= i < m -> 0 <= j < m -> i <> j -> i + k * m <> j + k' * m).
      { intros i k k' Hi Hjm Hij Eq. assert (i - j = (k' - k) * m) by nia. assert (k' - k = 0) by nia. nia. }
      split.
      + intros i k Hi Hk. rewrite A by lia. unfold P, cnth. apply nth_puts_out; [nia|].
        intros p v Hp. apply in_map_iff in Hp. destruct Hp as [k' [Ep Hk']]. apply in_arange in Hk'.
        assert (p = j + k' * m) by congruence. subst p. split; [nia|]. intros Eq.
        apply (Idx i k k'); lia.
      + intros i col k Hi Hi0 Hk. destruct (Z.eq_dec i 0) as [->|].
        * cbn in Hi. assert (col = c) by congruence. subst col.
          rewrite Z.add_0_r. rewrite A by lia. unfold P, cnth.
          rewrite (nth_puts_in sig (fun k => j + k * m) (fun k => RtoC (sqrt (IZR n)) * nth (Z.to_nat k) (ifft c) (RtoC 0))%C (arange 0 n) k); auto.
          -- intros k' Hk'. apply in_arange in Hk'. nia.
          -- apply NoDup_map_inj; [|apply NoDup_arange]. intros u v Hu Hv Euv. apply in_arange in Hu, Hv. nia.
          -- now apply in_arange.
        * replace (Z.to_nat i) with (S (Z.to_nat (i - 1))) in Hi by lia. cbn [nth_error] in Hi.
          replace (j + i + k * m) with (j + 1 + (i - 1) + k * m) by lia. apply B; auto. lia. }
  destruct (G cols 0 (zeros (n * m))) as (sig & E & L & _ & B); auto; try lia.
  { rewrite zeros_zlen; auto. unfold m. assert (Z0 := zlen_nonneg cols). nia. }
  rewrite Z.add_0_l in E. fold m in E. exists sig. split; [exact E|]. split; [exact L|].
  intros i col k H1 H2 H3. rewrite <- (B i col k); auto.
Qed.

Lemma csum_grid (n m : Z) (F : Z -> C) : 0 <= n -> 0 < m ->
  csum (arange 0 (n * m)) F = csum (arange 0 m) (fun i => csum (arange 0 n) (fun k => F (i + k * m))).
Proof.
  intros Hn Hm. rewrite csum_swap. pattern n. apply natlike_ind; [| |exact Hn].
  - rewrite Z.mul_0_l. rewrite !arange_empty by lia. reflexivity.
  - clear n Hn. intros n Hn IH. rewrite <- Z.add_1_r.
    rewrite (arange_snoc 0 n), csum_app by lia. rewrite <- IH.
    rewrite (arange_app 0 (n * m)), csum_app by nia. f_equal. rewrite csum_cons, csum_nil, Cplus_0_r.
    replace ((n + 1) * m) with (m + n * m) by ring. replace (arange (n * m)) with (arange (0 + n * m)) by (f_equal; lia).
    rewrite arange_shift, csum_map. reflexivity.
Qed.

Lemma sqrt_IZR_pos m : 1 <= m -> (0 < sqrt (IZR m))%R.
Proof. intros H. apply sqrt_lt_R0. apply IZR_lt. lia. Qed.

Lemma c06_izak_zak : forall nb m x, 1 <= nb -> 1 <= m -> zlen x = nb * m ->
  izak m (zak nb m x) = Ok x.
Proof.
  intros nb m x Hnb Hm Hx.
  assert (L : zlen (zak nb m x) = nb) by (unfold zak; rewrite zlen_map_arange; lia).
  destruct (izak_loop m (zak nb m x) Hm) as (sig & E & Ls & B).
  { intros c Hc. unfold zak in Hc. apply in_map_iff in Hc. destruct Hc as [i [<- _]].
    rewrite zlen_map, fft_zlen, zlen_map_arange; lia. }
  rewrite E. f_equal. rewrite L in *.
  rewrite (list_as_map sig), (list_as_map x), Ls, Hx, (Z.mul_comm m nb). apply map_ext_in. intros p Hp. apply in_arange in Hp.
  assert (D := Z.div_mod p nb ltac:(lia)). assert (Bd := Z.mod_pos_bound p nb ltac:(lia)).
  assert (Kd : 0 <= p / nb < m) by (split; [apply Z.div_pos; lia|apply Z.div_lt_upper_bound; lia]).
  set (i := p mod nb) in *. set (k := p / nb) in *.
  replace p with (i + k * nb) by lia. 
  rewrite (B i (map (fun v => v / RtoC (sqrt (IZR m)))%C (fft (map (fun j => cnth x (i + j * nb)) (arange 0 m)))) k); auto; try lia.
  2:{ unfold zak. rewrite nth_error_map, nth_error_arange by lia. cbn [option_map].
      replace (0 + Z.of_nat (Z.to_nat i)) with i by lia. reflexivity. }
  unfold Cdiv. rewrite ifft_map_scal, ifft_fft.
  replace (cnth (map (fun v => v * / RtoC (sqrt (IZR m)))%C (map (fun j => cnth x (i + j * nb)) (arange 0 m))) k)
    with (cnth x (i + k * nb) * / RtoC (sqrt (IZR m)))%C.
  2:{ rewrite map_map. symmetry.
      etransitivity; [apply (cnth_map_arange (fun j => cnth x (i + j * nb) * / RtoC (sqrt (IZR m)))%C); lia|]. now rewrite Z.add_0_l. }
  assert (S := sqrt_IZR_pos m Hm).
  assert (RtoC (sqrt (IZR m)) <> RtoC 0) by (intros Q; apply RtoC_inj in Q; lra).
  rewrite Cmult_comm, <- Cmult_assoc, Cinv_l, Cmult_1_r by auto. reflexivity.
Qed.

(** Parseval for the inverse transform. *)
Lemma ifft_energy (x : list C) : (IZR (zlen x) * energy (ifft x) = energy x)%R.
Proof.
  destruct x as [|a x']; [cbn; ring|]. set (x := a :: x') in *.
  assert (Hn : 0 < zlen x) by (unfold x, zlen; cbn [length]; lia).
  assert (E := esum_energy (zlen x) (arange 0 (zlen x)) (cnth (ifft x)) Hn
     ltac:(apply NoDup_mod_arange; lia)).
  assert (F : fft (ifft x) = x).
  { rewrite (list_as_map (fft (ifft x))), fft_zlen, ifft_zlen. transitivity (map (cnth x) (arange 0 (zlen x))); [|symmetry; apply list_as_map].
    apply map_ext_in. intros f Hf. apply in_arange in Hf. rewrite fft_nth by (rewrite ifft_zlen; auto).
    rewrite ifft_zlen. set (n := zlen x) in *.
    rewrite (csum_ext _ _ (fun k => csum (arange 0 n) (fun g => / RtoC (IZR n) * cnth x g * root n (k * (g - f))%Z))%C).
    2:{ intros k Hk. apply in_arange in Hk. rewrite ifft_nth by auto. fold n. rewrite <- csum_scal_l, <- csum_scal_r.
        apply csum_ext. intros g _. replace (k * (g - f)) with (g * k + - (f * k)) by ring. rewrite root_plus. ring. }
    rewrite csum_swap. rewrite (csum_single _ f); [|apply NoDup_arange|apply in_arange; lia|].
    - rewrite (csum_ext _ _ (fun _ => / RtoC (IZR n) * cnth x f)%C).
      2:{ intros k _. rewrite Z.sub_diag, Z.mul_0_r, root_0. ring. }
      rewrite csum_const, arange_length, Z.sub_0_r, INR_IZR_INZ, Z2Nat.id by lia.
      assert (RtoC (IZR n) <> RtoC 0). { intros E'. apply RtoC_inj in E'. apply eq_IZR in E'. lia. }
      rewrite Cmult_assoc, Cinv_r, Cmult_1_l by auto. reflexivity.
    - intros g Hg Ngf. apply in_arange in Hg. rewrite csum_scal_l, root_orth by lia.
      destruct (Z.eqb_spec ((g - f) mod n) 0) as [Q|Q]; [|ring].
      exfalso. apply Z.mod_divide in Q; [|lia]. destruct Q as [q Q]. assert (q = 0) by nia. subst. lia. }
  rewrite <- F at 3. rewrite (energy_nth (fft (ifft x))), fft_zlen, ifft_zlen.
  rewrite (energy_nth (ifft x)), ifft_zlen.
  rewrite (rsum_ext _ (fun k => Cmod (cnth (fft (ifft x)) k) ^ 2)%R (fun f => Cmod (esum (zlen x) (arange 0 (zlen x)) (cnth (ifft x)) f) ^ 2)%R).
  2:{ intros f Hf. apply in_arange in Hf. rewrite fft_nth by (rewrite ifft_zlen; auto). rewrite ifft_zlen. reflexivity. }
  symmetry. exact E.
Qed.

Lemma c06_izak_energy : forall n cols, 1 <= n -> (forall c, In c cols -> zlen c = n) ->
  exists sig, izak n cols = Ok sig /\ zlen sig = n * zlen cols /\ energy sig = rsum cols energy.
Proof.
  intros n cols Hn Hc. destruct (izak_loop n cols Hn Hc) as (sig & E & L & B). exists sig. split; auto. split; auto.
  destruct (Z.eq_dec (zlen cols) 0) as [E0|N0].
  { assert (C0 : cols = []). { destruct cols; auto. unfold zlen in E0. cbn [length] in E0. lia. }
    subst cols. rewrite energy_nth, L, Z.mul_0_r. reflexivity. }
  assert (Z0 := zlen_nonneg cols).
  apply RtoC_inj. rewrite energy_nth, L, RtoC_rsum, csum_grid by lia. rewrite RtoC_rsum.
  transitivity (csum (arange 0 (zlen cols)) (fun i => RtoC (energy (nth (Z.to_nat i) cols [])))).
  - apply csum_ext. intros i Hi. apply in_arange in Hi. set (c := nth (Z.to_nat i) cols []).
    assert (Hc1 : nth_error cols (Z.to_nat i) = Some c) by (apply nth_error_nth'; unfold zlen in Hi; lia).
    assert (Lc : zlen c = n) by (apply Hc; eapply nth_error_In; eauto).
    rewrite <- RtoC_rsum. f_equal. rewrite <- (ifft_energy c), Lc, (energy_nth (ifft c)), ifft_zlen, Lc.
    rewrite <- rsum_scal_l. apply rsum_ext. intros k Hk. apply in_arange in Hk.
    rewrite (B i c k Hc1) by lia. rewrite Cmod_mult, Rpow_mult_distr, Cmod_R, pow2_abs.
    change (sqrt (IZR n) ^ 2)%R with (sqrt (IZR n) * (sqrt (IZR n) * 1))%R.
    rewrite Rmult_1_r, sqrt_sqrt by (apply IZR_le; lia). reflexivity.
  - clear. rewrite <- (csum_map (fun i => nth (Z.to_nat i) cols []) (arange 0 (zlen cols)) (fun c => RtoC (energy c))).
    f_equal. apply list_nth_ext. intros k. rewrite nth_error_map.
    destruct (Nat.lt_ge_cases k (length cols)) as [H|H].
    + rewrite nth_error_arange by (unfold zlen; lia). cbn [option_map]. rewrite Z.add_0_l, Nat2Z.id.
      symmetry. now apply nth_error_nth'.
    + rewrite (proj2 (nth_error_None (arange 0 (zlen cols)) k)) by (rewrite arange_length; unfold zlen; lia).
      cbn. symmetry. now apply nth_error_None.
Qed.

(** The branch written for 1-d input always raises. *)
Lemma c06_1d_refuted : forall x, izak_1d x = Raise IndexError.
Proof. reflexivity. Qed.

Example c06_example : izak 2 (zak 3 2 [RtoC 1; Ci; RtoC 2; RtoC 0; RtoC 5; RtoC 7])
  = Ok [RtoC 1; Ci; RtoC 2; RtoC 0; RtoC 5; RtoC 7].
Proof. apply c06_izak_zak; try lia. reflexivity. Qed.
