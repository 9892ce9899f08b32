(** C72, C90: the Gabor representation. *)
From Coq Require Import Reals ZArith List Lia Lra Bool.
From Coquelicot Require Import Coquelicot.
From Flocq Require Import Core.
From Verif Require Import Py Scalars CSum DFT Spec M_base M_utils M_putils M_gen1 M_gen2 M_gabor P_base T_dom T_putils T_utils T_gen1 T_misc2 T_wb.
Import ListNotations.
Local Open Scope Z_scope.

Lemma gb_index_int n q b k : 1 <= n -> 1 <= q -> gb_index n q (q * b) k = (k - 1 - b) mod n.
Proof.
  intros Hn Hq. unfold gb_index. replace (k * q - q * b) with ((k - b) * q) by ring. rewrite Z.mul_mod_distr_r by lia. set (v := (k - b) mod n). assert (V : 0 <= v < n) by (apply Z.mod_pos_bound; lia).
  replace (k - 1 - b) with (k - b - 1) by ring. rewrite Zminus_mod. fold v. destruct (Z.eqb_spec (v * q) 0) as [E|E].
  - assert (v = 0) by nia. destruct (Z.eq_dec n 1) as [->|]; [rewrite H; reflexivity|]. rewrite (Z.mod_small 1 n) by lia. replace (v - 1) with (n - 1 + -1 * n) by lia. rewrite Z.mod_add, Z.mod_small by lia. reflexivity.
  - assert (v <> 0) by nia. rewrite Z.div_mul by lia. rewrite (Z.mod_small 1 n) by lia. rewrite Z.mod_small; lia.
Qed.
Lemma root_scale q a k : q <> 0 -> a <> 0 -> root (q * a) (q * k) = root a k.
Proof. intros Hq Ha. unfold root. f_equal. rewrite !mult_IZR. field. split; now apply not_0_IZR. Qed.

Lemma re_scal_l r (z : C) : Re (RtoC r * z)%C = (r * Re z)%R.
Proof. destruct z. cbn. ring. Qed.
(** ** The two windows are biorthogonal *)
(** The Zak matrix, for m = q a and N = a m. *)
Definition zk (a q : Z) (h : list C) (i f : Z) : C := let m := (q * a)%Z in
  (csum (arange 0 m) (fun j => cnth h (i + j * a) * root m (- (f * j))) / RtoC (sqrt (IZR m)))%C.
Definition den (a q : Z) (h : list C) (i f : Z) : R := rsum (arange 0 q) (fun l => Cmod (zk a q h i ((f - l * a) mod (q * a))) ^ 2)%R.
(** Small denominators are replaced by 1. *)
Definition dcl (a q : Z) (h : list C) (i f : Z) : R := if Rlt_dec (den a q h i f) (/ 2 ^ 52) then 1%R else den a q h i f.
Lemma zk_at a q h i f : let m := q * a in let N := a * m in 1 <= a -> 1 <= q -> zlen h = N -> 0 <= i < a -> 0 <= f < m -> cnth (nth (Z.to_nat i) (zak a m h) []) f = zk a q h i f.
Proof.
  intros m N Ha Hq Lh Hi Hf. unfold zak. rewrite nth_map_arange by lia. rewrite Z.add_0_l. set (u := map _ (arange 0 m)). assert (Lu : zlen u = m) by (unfold u; rewrite zlen_map_arange; lia).
  assert (E : cnth (map (fun v => v / RtoC (sqrt (IZR m)))%C (fft u)) f = (cnth (fft u) f / RtoC (sqrt (IZR m)))%C).
  { unfold cnth. rewrite (nth_indep _ _ (RtoC 0 / RtoC (sqrt (IZR m)))%C) by (rewrite map_length; assert (L := fft_zlen u); unfold zlen in L, Lu; lia). exact (map_nth (fun v => v / RtoC (sqrt (IZR m)))%C (fft u) (RtoC 0) (Z.to_nat f)). }
  rewrite E, fft_nth by lia. rewrite Lu. unfold zk. f_equal. apply csum_ext. intros j Hj. apply in_arange in Hj. unfold u. rewrite cnth_map_arange by lia. now rewrite Z.add_0_l.
Qed.
Lemma den_at a q h i k : let m := q * a in let N := a * m in 1 <= a -> 1 <= q -> zlen h = N -> 0 <= i < a -> 0 <= k < m -> rnth (gb_den q m (nth (Z.to_nat i) (zak a m h) [])) k = dcl a q h i k.
Proof.
  intros m N Ha Hq Lh Hi Hk. assert (ZA : forall i f, 0 <= i < a -> 0 <= f < m -> cnth (nth (Z.to_nat i) (zak a m h) []) f = zk a q h i f) by (intros; now apply (zk_at a q h)). unfold gb_den. rewrite rnth_map_arange by lia. assert (E : rsum (arange 0 q) (fun l => Cmod (cnth (nth (Z.to_nat i) (zak a m h) []) (gb_index m q (l * m) (1 + k) mod m)) ^ 2)%R = den a q h i k).
  { unfold den. apply rsum_ext. intros l _. replace (l * m) with (q * (l * a)) by (unfold m; ring). assert (M : 1 <= m) by (unfold m; nia). rewrite gb_index_int by lia. rewrite Z.mod_mod by lia. replace (1 + k - 1 - l * a) with (k - l * a) by ring. fold m; rewrite ZA by (auto; apply Z.mod_pos_bound; lia). reflexivity. }
  cbv zeta. rewrite E. reflexivity.
Qed.
Lemma den_shift a q h i f l : let m := q * a in let N := a * m in 1 <= a -> 1 <= q -> zlen h = N -> 0 <= i < a -> 0 <= f < a -> 0 <= l < q -> den a q h i (f + l * a) = den a q h i f.
Proof.
  intros m N Ha Hq Lh Hi Hf Hl. unfold den. fold m. apply RtoC_inj. rewrite !RtoC_rsum. assert (M : 1 <= m) by (unfold m; nia).
  set (F := fun t => RtoC (Cmod (zk a q h i ((f - t * a) mod m)) ^ 2)). transitivity (csum (arange 0 q) (fun t => F ((t + - l) mod q))); [|apply csum_mod_shift; lia].
  apply csum_ext. intros t _. unfold F. do 4 f_equal. assert (E := Z.div_mod (t + - l) q ltac:(lia)). set (r := (t + - l) mod q) in *. set (d := (t + - l) / q) in *. replace (f + l * a - t * a) with (f - r * a + - d * m) by (unfold m; nia). apply Z.mod_add. lia.
Qed.
(** The dual, before its real part is taken. *)
Definition gcx (a q : Z) (h : list C) (p : Z) : C := let m := (q * a)%Z in let N := (a * m)%Z in
  (csum (arange 0 m) (fun f => zk a q h (p mod a) f / RtoC (dcl a q h (p mod a) f) * root m (f * (p / a))) / RtoC (sqrt (IZR m)) / RtoC (IZR N))%C.
Lemma dual_ok a q h : let m := q * a in let N := a * m in 1 <= a -> 1 <= q -> zlen h = N -> exists gam, gb_dual N q m a a h = Ok gam /\ zlen gam = N /\ forall p, 0 <= p < N -> rnth gam p = Re (gcx a q h p).
Proof.
  intros m N Ha Hq Lh. assert (ZA : forall i f, 0 <= i < a -> 0 <= f < m -> cnth (nth (Z.to_nat i) (zak a m h) []) f = zk a q h i f) by (intros; now apply (zk_at a q h)). assert (DA : forall i f, 0 <= i < a -> 0 <= f < m -> rnth (gb_den q m (nth (Z.to_nat i) (zak a m h) [])) f = dcl a q h i f) by (intros; now apply (den_at a q h)). assert (M : 1 <= m) by (unfold m; nia). unfold gb_dual. rewrite Z.eqb_refl. cbn [bind]. set (cols := map _ (zak a m h)). assert (LZ : zlen (zak a m h) = a) by (unfold zak; rewrite zlen_map_arange; lia).
  assert (LC : zlen cols = a) by (unfold cols; now rewrite zlen_map).
  assert (ZC : forall c, In c (zak a m h) -> zlen c = m) by (intros c Hc; unfold zak in Hc; apply in_map_iff in Hc; destruct Hc as (i & <- & _); rewrite zlen_map, fft_zlen, zlen_map_arange; lia).
  assert (LD : forall c, zlen (gb_den q m c) = m) by (intros c; unfold gb_den; rewrite zlen_map_arange; lia).
  assert (CC : forall c, In c cols -> zlen c = m). { intros c Hc. unfold cols in Hc. apply in_map_iff in Hc. destruct Hc as (d & <- & Hd). rewrite zipw_zlen; rewrite ?LD, ?(ZC d Hd); lia. }
  destruct (izak_loop m cols ltac:(lia) CC) as (sig & E & Ls & B). rewrite E. cbn [bind]. eexists. split; [reflexivity|]. rewrite LC in Ls, B. split; [rewrite zlen_map, Ls; unfold N; ring|].
  intros p Hp. assert (D := Z.div_mod p a ltac:(lia)). assert (Bd := Z.mod_pos_bound p a ltac:(lia)). assert (Kd : 0 <= p / a < m) by (split; [apply Z.div_pos; lia|apply Z.div_lt_upper_bound; unfold N in Hp; lia]).
  set (i := p mod a) in *. set (k := p / a) in *. assert (EP : p = i + k * a) by lia.
  assert (NE : nth_error cols (Z.to_nat i) = Some (nth (Z.to_nat i) cols [])) by (apply nth_error_nth'; unfold zlen in LC; lia). assert (Bv := B i _ k NE ltac:(lia) Kd). rewrite <- EP in Bv.
  assert (R0 : rnth (map (fun z => (Re z / IZR N)%R) sig) p = (Re (cnth sig p) / IZR N)%R). { unfold rnth, cnth. assert (LS : (Z.to_nat p < length sig)%nat) by (unfold zlen in Ls; unfold N in Hp; lia). rewrite (nth_indep _ _ (Re (RtoC 0) / IZR N)%R) by (rewrite map_length; exact LS). exact (map_nth (fun z => (Re z / IZR N)%R) sig (RtoC 0) (Z.to_nat p)). }
  rewrite R0, Bv. set (col := nth (Z.to_nat i) cols []). assert (LCo : zlen col = m) by (apply CC, nth_In; unfold zlen in LC; lia). rewrite ifft_nth by lia. rewrite LCo.
  assert (EC : forall f, 0 <= f < m -> cnth col f = (zk a q h i f / RtoC (dcl a q h i f))%C).
  { intros f Hf. unfold col, cols. set (G := fun c => zipw _ c _). rewrite (nth_indep _ _ (G [])) by (rewrite map_length; unfold zlen in LZ; lia). rewrite map_nth. unfold G. set (z := nth (Z.to_nat i) (zak a m h) []). assert (Lz : zlen z = m) by (apply ZC, nth_In; unfold zlen in LZ; lia).
    assert (W : cnth (zipw (fun (z0 : C) (d : R) => (z0 / RtoC d)%C) z (gb_den q m z)) f = (cnth z f / RtoC (rnth (gb_den q m z) f))%C). { unfold cnth. rewrite (nth_zipw _ z (gb_den q m z) _ (RtoC 0) 0%R); [reflexivity|unfold zlen in Lz; lia|]. specialize (LD z). unfold zlen in LD. lia. }
    rewrite W. unfold z. rewrite ZA, DA by auto. reflexivity. }
  rewrite (csum_ext _ _ (fun f => zk a q h i f / RtoC (dcl a q h i f) * root m (f * k))%C) by (intros f Hf; apply in_arange in Hf; now rewrite EC by auto). unfold gcx. cbv zeta. fold m N. fold i k. set (S := csum _ _).
  assert (Q0 : (0 < sqrt (IZR m))%R) by (apply sqrt_IZR_pos; lia). assert (Q1 : (sqrt (IZR m) * sqrt (IZR m) = IZR m)%R) by (apply sqrt_sqrt; apply IZR_le; lia). assert (N0 : (0 < IZR N)%R) by (apply IZR_lt; unfold N; nia).
  assert (M0 : (0 < IZR m)%R) by (apply IZR_lt; lia). unfold Cdiv. rewrite <- !RtoC_inv by lra. replace (RtoC (sqrt (IZR m)) * (RtoC (/ IZR m) * S))%C with (RtoC (sqrt (IZR m) * / IZR m) * S)%C by (rewrite RtoC_mult; ring). replace (S * RtoC (/ sqrt (IZR m)) * RtoC (/ IZR N))%C with (RtoC (/ sqrt (IZR m) * / IZR N) * S)%C by (rewrite RtoC_mult; ring).
  rewrite !re_scal_l. set (r := sqrt (IZR m)) in *. rewrite <- Q1. field. lra.
Qed.
Lemma cross m (A B : Z -> C) s t : 1 <= m ->
  csum (arange 0 m) (fun n => csum (arange 0 m) (fun f => A f * root m (f * (s - n))) * Cconj (csum (arange 0 m) (fun g => B g * root m (g * (t - n)))))%C
  = (RtoC (IZR m) * csum (arange 0 m) (fun f => A f * Cconj (B f) * root m (f * (s - t))))%C.
Proof.
  intros Hm. transitivity (csum (arange 0 m) (fun n => csum (arange 0 m) (fun f => csum (arange 0 m) (fun g => A f * Cconj (B g) * root m (f * s - g * t) * root m (- (n * (f - g)))))))%C.
  { apply csum_ext. intros n _. rewrite csum_conj, csum_mult. apply csum_ext. intros f _. apply csum_ext. intros g _. rewrite Cconj_mult, root_conj. transitivity (A f * Cconj (B g) * (root m (f * (s - n)) * root m (- (g * (t - n)))))%C; [ring|]. rewrite <- root_plus, <- (Cmult_assoc _ (root _ _)), <- root_plus. do 2 f_equal. ring. }
  rewrite csum_swap, <- csum_scal_l. apply csum_ext. intros f Hf. apply in_arange in Hf. rewrite csum_swap.
  transitivity (csum (arange 0 m) (fun g => A f * Cconj (B g) * root m (f * s - g * t) * (if ((f - g) mod m =? 0)%Z then RtoC (IZR m) else RtoC 0)))%C.
  { apply csum_ext. intros g _. rewrite csum_scal_l, root_orth_neg by lia. reflexivity. }
  rewrite (csum_single (arange 0 m) f).
  - rewrite Z.sub_diag, Z.mod_0_l by lia. rewrite Z.eqb_refl. replace (f * s - f * t) with (f * (s - t)) by ring. ring.
  - apply NoDup_arange.
  - apply in_arange. lia.
  - intros g Hg Ne. apply in_arange in Hg. destruct (Z.eqb_spec ((f - g) mod m) 0) as [E|_]; [|ring]. exfalso. apply Z.mod_divide in E; [|lia]. destruct E as [z Hz]. assert (z = 0) by nia. lia.
Qed.
(** The window back from its Zak matrix. *)
Lemma zk_inv a q h p : let m := q * a in let N := a * m in 1 <= a -> 1 <= q -> zlen h = N ->
  cnth h (p mod N) = (csum (arange 0 m) (fun f => zk a q h (p mod a) f * root m (f * (p / a))) / RtoC (sqrt (IZR m)))%C.
Proof.
  intros m N Ha Hq Lh. assert (M : 1 <= m) by (unfold m; nia). assert (Q0 : (0 < sqrt (IZR m))%R) by (apply sqrt_IZR_pos; lia). assert (Q1 : (sqrt (IZR m) * sqrt (IZR m) = IZR m)%R) by (apply sqrt_sqrt; apply IZR_le; lia).
  set (i := p mod a). set (j := p / a). set (r := sqrt (IZR m)) in *.
  rewrite (csum_ext _ _ (fun f => csum (arange 0 m) (fun k => cnth h (i + k * a) * / RtoC r * root m (- (f * (k - j))))))%C.
  2:{ intros f _. unfold zk. cbv zeta. fold m. fold r. unfold Cdiv. rewrite <- !csum_scal_r. apply csum_ext. intros k _. replace (- (f * (k - j))) with (- (f * k) + f * j) by ring. rewrite root_plus. ring. }
  rewrite csum_swap. rewrite (csum_ext _ _ (fun k => cnth h (i + k * a) * / RtoC r * (if ((k - j) mod m =? 0)%Z then RtoC (IZR m) else RtoC 0)))%C by (intros k _; now rewrite csum_scal_l, root_orth_neg by lia).
  assert (Bj := Z.mod_pos_bound j m ltac:(lia)). rewrite (csum_single (arange 0 m) (j mod m)).
  - rewrite Zminus_mod_idemp_l, Z.sub_diag, Z.mod_0_l by lia. rewrite Z.eqb_refl. replace (i + j mod m * a) with (p mod N).
    + rewrite <- Q1, RtoC_mult. field. intros E; apply RtoC_inj in E; lra.
    + unfold N. rewrite Z.rem_mul_r by lia. fold i j. ring.
  - apply NoDup_arange.
  - apply in_arange. lia.
  - intros k Hk Ne. apply in_arange in Hk. destruct (Z.eqb_spec ((k - j) mod m) 0) as [E|_]; [|ring]. exfalso. apply Ne. rewrite <- (Z.mod_small k m) by lia. apply Z.mod_divide in E; [|lia]. destruct E as [z Hz]. replace k with (j + z * m) by lia. now rewrite Z.mod_add by lia.
Qed.
Lemma gcx_period a q h p : 1 <= a -> 1 <= q -> gcx a q h (p mod (a * (q * a))) = gcx a q h p.
Proof.
  intros Ha Hq. unfold gcx. cbv zeta. assert (M : 1 <= q * a) by nia. set (m := q * a) in *. assert (E1 : (p mod (a * m)) mod a = p mod a) by (rewrite Z.rem_mul_r by lia; rewrite (Z.mul_comm a), Z.mod_add, Z.mod_mod by lia; reflexivity).
  assert (E2 : (p mod (a * m)) / a = (p / a) mod m). { rewrite Z.rem_mul_r by lia. rewrite (Z.mul_comm a (_ mod m)), Z.div_add by lia. rewrite (Z.div_small (p mod a)) by (apply Z.mod_pos_bound; lia). ring. }
  rewrite E1, E2. do 2 f_equal. apply csum_ext. intros f _. now rewrite root_mod_mul_r by lia.
Qed.
Lemma sq_conj (z : C) : (z * Cconj z)%C = RtoC (Cmod z ^ 2).
Proof. rewrite Cmod_sqr. destruct z as [u v]. unfold Cmult, Cconj, RtoC. cbn. f_equal; ring. Qed.
Lemma den_sum a q h i f : 1 <= a -> 1 <= q -> 0 <= f < a -> csum (arange 0 q) (fun l => zk a q h i (f + l * a) * Cconj (zk a q h i (f + l * a)))%C = RtoC (den a q h i f).
Proof.
  intros Ha Hq Hf. unfold den. rewrite RtoC_rsum. set (F := fun l => RtoC (Cmod (zk a q h i ((f - l * a) mod (q * a))) ^ 2)). rewrite <- (csum_perm _ _ F (perm_mod_opp q ltac:(lia))), csum_map. apply csum_ext. intros l Hl. apply in_arange in Hl. rewrite sq_conj. unfold F. do 4 f_equal.
  assert (E := Z.div_mod (- l) q ltac:(lia)). set (r := (- l) mod q) in *. set (d := (- l) / q) in *. replace (f - r * a) with (f + l * a + d * (q * a)) by nia. rewrite Z.mod_add by nia. symmetry. apply Z.mod_small. nia.
Qed.
Lemma bio_c a q h u r : let m := q * a in let N := a * m in 1 <= a -> 1 <= q -> zlen h = N -> (forall i f, 0 <= i < a -> 0 <= f < m -> (/ 2 ^ 52 <= den a q h i f)%R) ->
  csum (arange 0 m) (fun n => gcx a q h (u + r * m - n * a) * Cconj (cnth h ((u - n * a) mod N)))%C = if (r mod a =? 0)%Z then RtoC (/ IZR m) else RtoC 0.
Proof.
  intros m N Ha Hq Lh Dh. assert (M : 1 <= m) by (unfold m; nia). assert (Q0 : (0 < sqrt (IZR m))%R) by (apply sqrt_IZR_pos; lia). assert (Q1 : (sqrt (IZR m) * sqrt (IZR m) = IZR m)%R) by (apply sqrt_sqrt; apply IZR_le; lia). assert (N0 : (0 < IZR N)%R) by (apply IZR_lt; unfold N; nia).
  set (i := u mod a). set (j := u / a). assert (Bi : 0 <= i < a) by (apply Z.mod_pos_bound; lia). set (A := fun f => (zk a q h i f / RtoC (dcl a q h i f))%C). assert (DC : forall f, 0 <= f < m -> dcl a q h i f = den a q h i f) by (intros f Hf; unfold dcl; specialize (Dh i f Bi Hf); destruct (Rlt_dec (den a q h i f) (/ 2 ^ 52)); [lra|reflexivity]). set (B := fun f => zk a q h i f).
  rewrite (csum_ext _ _ (fun n => / RtoC (IZR m * IZR N) * (csum (arange 0 m) (fun f => A f * root m (f * (j + r * q - n))) * Cconj (csum (arange 0 m) (fun g => B g * root m (g * (j - n)))))))%C.
  2:{ intros n _. assert (Z0 := zk_inv a q h (u - n * a) Ha Hq Lh). cbv zeta in Z0. fold m in Z0. fold N in Z0. rewrite Z0. unfold gcx. cbv zeta. fold m. fold N.
      replace (u + r * m - n * a) with (u + (r * q - n) * a) by (unfold m; ring). replace (u - n * a) with (u + - n * a) by ring. rewrite !Z.mod_add, !Z.div_add by lia. fold i j. unfold A, B. replace (j + (r * q - n)) with (j + r * q - n) by ring. replace (j + - n) with (j - n) by ring.
      set (S1 := csum _ _). set (S2 := csum _ _). set (t := sqrt (IZR m)) in *. unfold Cdiv. rewrite <- RtoC_inv by lra. rewrite Cconj_mult. replace (Cconj (RtoC (/ t))) with (RtoC (/ t)) by (unfold Cconj, RtoC; cbn; f_equal; ring). assert (T0 : (t * t * IZR N <> 0)%R) by (apply Rgt_not_eq; repeat apply Rmult_lt_0_compat; auto). rewrite <- Q1, <- !RtoC_inv by lra. replace (/ (t * t * IZR N))%R with (/ t * / IZR N * / t)%R by (field; lra). rewrite !RtoC_mult. ring. }
  rewrite csum_scal_l, cross by lia. replace (j + r * q - j) with (q * r) by ring.
  assert (E : csum (arange 0 m) (fun f => A f * Cconj (B f) * root m (f * (q * r)))%C = csum (arange 0 a) (fun f => root a (f * r))).
  { unfold m at 1. rewrite csum_grid by lia. apply csum_ext. intros f Hf. apply in_arange in Hf. rewrite (csum_ext _ _ (fun l => zk a q h i (f + l * a) * Cconj (zk a q h i (f + l * a)) * (/ RtoC (den a q h i f) * root a (f * r))))%C.
    - rewrite csum_scal_r, den_sum by lia. assert (0 < den a q h i f)%R. { assert (P := Dh i f Bi ltac:(unfold m; nia)). assert (0 < / 2 ^ 52)%R by (apply Rinv_0_lt_compat; apply pow_lt; lra). lra. } rewrite Cmult_assoc. rewrite Cinv_r; [ring|]. intros E. apply RtoC_inj in E. lra.
    - intros l Hl. apply in_arange in Hl. unfold A, B. rewrite DC by (unfold m; nia). rewrite (den_shift a q h i f l) by (auto; lia). replace ((f + l * a) * (q * r)) with (q * (f * r + a * (l * r))) by ring. unfold m. rewrite root_scale, root_period by lia. unfold Cdiv. ring. }
  rewrite E, root_orth by lia. destruct (r mod a =? 0); [|ring]. rewrite <- RtoC_inv, <- !RtoC_mult by (apply Rgt_not_eq, Rmult_lt_0_compat; [apply IZR_lt; lia|exact N0]). f_equal. unfold N. rewrite mult_IZR. assert (0 < IZR m)%R by (apply IZR_lt; lia). assert (0 < IZR a)%R by (apply IZR_lt; lia). field. lra.
Qed.
(** ** Where the window goes *)
(** The first sample of the window. *)
Definition win_first (N M q nh : Z) : Z := ZnearestE (IZR (N - (nh - 1)) / 2) - ZnearestE ((2 * IZR N / IZR M - 1 - IZR nh) / IZR (2 * q)) - 1.
(** A window laid on the circle of N samples from position s on. *)
Definition laid (N s : Z) (w : list R) (p : Z) : R := let i := (p - s) mod N in if i <? zlen w then rnth w i else 0%R.

Lemma round_shift n k : half_round (n + 4 * k) = half_round n + 2 * k.
Proof.
  assert (A := half_round_spec (n + 4 * k)). assert (B := half_round_spec n). cbv zeta in A, B. set (u := half_round (n + 4 * k)) in *. set (v := half_round n) in *. clearbody u v.
  destruct A as [A|[A1 A2]], B as [B|[B1 B2]]; try lia. apply Z.even_spec in A2, B2. destruct A2, B2. lia.
Qed.
Lemma gb_end_eq N M q nh : Z.odd nh = true -> gb_end N M q nh = gb_start N M q nh - 1 + nh.
Proof.
  intros O. unfold gb_end, gb_start. set (al := gb_alpha N M q nh). clearbody al. apply Z.odd_spec in O. destruct O as [j Hj]. fold (half_round (N + nh - 1)). fold (half_round (N - (nh - 1))). replace (N + nh - 1) with (N - (nh - 1) + 4 * j) by lia. rewrite round_shift. lia.
Qed.
Lemma put_aux_wrap {A} (l : list A) ivs : (forall i v, In (i, v) ivs -> - zlen l <= i < zlen l) -> put_aux l ivs = Ok (puts l (map (fun p => (fst p mod zlen l, snd p)) ivs)).
Proof.
  revert l. induction ivs as [|[i v] ivs IH]; intros l H; cbn [put_aux map puts fst snd]; [reflexivity|]. assert (B := H i v (or_introl eq_refl)). assert (S : set l i v = Ok (upd l (Z.to_nat (i mod zlen l)) v)).
  { unfold set. destruct (Z_lt_ge_dec i 0).
    - rewrite pyidx_neg by lia. do 3 f_equal. apply Z.mod_unique_pos with (-1); lia.
    - rewrite pyidx_nonneg by lia. rewrite Z.mod_small by lia. reflexivity. }
  rewrite S. cbn [bind]. assert (L : zlen (upd l (Z.to_nat (i mod zlen l)) v) = zlen l) by (unfold zlen; now rewrite upd_length). rewrite IH by (intros j u Hj; rewrite L; apply (H j u); now right). now rewrite L.
Qed.
Lemma put_aux_out {A} (l : list A) ivs : (exists i v, In (i, v) ivs /\ (i < - zlen l \/ zlen l <= i)) -> put_aux l ivs = Raise IndexError.
Proof.
  revert l. induction ivs as [|[i v] ivs IH]; intros l [i' [v' [H Hi]]]; [destruct H|]. destruct H as [E|H].
  - assert (i = i') by congruence. subst i'. cbn [put_aux]. rewrite set_raise by lia. reflexivity.
  - cbn [put_aux]. unfold set at 1. destruct (pyidx (zlen l) i); cbn [bind]; auto. apply IH. exists i', v'. split; auto. unfold zlen in *. now rewrite upd_length.
Qed.
Lemma combine_arange {A} (d : A) s l : combine (arange s (s + zlen l)) l = map (fun i => (s + i, nth (Z.to_nat i) l d)) (arange 0 (zlen l)).
Proof.
  revert s. induction l as [|a l IH]; intros s; [unfold zlen; cbn; rewrite Z.add_0_r, !arange_empty by lia; reflexivity|]. replace (zlen (a :: l)) with (1 + zlen l) by (unfold zlen; cbn [length]; lia). assert (P := zlen_nonneg l).
  rewrite (arange_cons s), (arange_cons 0) by lia. cbn [combine map]. rewrite Z.add_0_r. change (Z.to_nat 0) with 0%nat. cbn [nth]. f_equal. replace (s + (1 + zlen l)) with (s + 1 + zlen l) by ring. rewrite IH. replace (arange (0 + 1) (1 + zlen l)) with (map (fun k => k + 1) (arange 0 (zlen l))).
  - rewrite map_map. apply map_ext_in. intros k Hk. apply in_arange in Hk. replace (Z.to_nat (k + 1)) with (S (Z.to_nat k)) by lia. cbn [nth]. f_equal. ring.
  - rewrite (Z.add_comm 1 (zlen l)). symmetry. apply nth_ext with 0 0; [rewrite map_length, !arange_length; lia|]. intros k Hk. rewrite arange_length in Hk. rewrite <- (Nat2Z.id k). rewrite nth_map_arange by lia. replace (arange (0 + 1) (zlen l + 1)) with (map (fun z => z) (arange (0 + 1) (zlen l + 1))) by apply map_id. rewrite nth_map_arange by lia. lia.
Qed.
Lemma place_eq N M q w : Z.odd (zlen w) = true -> gb_place N M q w = put_aux (zeros N) (map (fun i => (win_first N M q (zlen w) + i, RtoC (rnth w i))) (arange 0 (zlen w))).
Proof.
  intros O. unfold gb_place. rewrite gb_end_eq by auto. set (s := win_first N M q (zlen w)). replace (gb_start N M q (zlen w) - 1) with s by reflexivity. unfold put. assert (P := zlen_nonneg w). rewrite arange_length, map_length. replace (Z.to_nat (s + zlen w - s)) with (length w) by (unfold zlen; lia). rewrite Nat.eqb_refl. f_equal.
  rewrite <- (zlen_map RtoC w) at 1. rewrite (combine_arange (RtoC 0)), zlen_map. apply map_ext. intros i. f_equal. apply (map_nth RtoC w 0%R).
Qed.
Lemma zlen_zeros n : 0 <= n -> zlen (zeros n : list C) = n.
Proof. intros H. unfold zlen, zeros. rewrite repeat_length. lia. Qed.
Lemma place_ok N M q w : 1 <= N -> Z.odd (zlen w) = true -> - N <= win_first N M q (zlen w) -> win_first N M q (zlen w) + zlen w <= N ->
  exists h, gb_place N M q w = Ok h /\ zlen h = N /\ (zlen w <= N -> forall p, 0 <= p < N -> cnth h p = RtoC (laid N (win_first N M q (zlen w)) w p)).
Proof.
  intros HN O F1 F2. rewrite place_eq by auto. set (s := win_first N M q (zlen w)) in *. assert (LZ : zlen (zeros N : list C) = N) by (rewrite zlen_zeros; lia). rewrite put_aux_wrap.
  2:{ intros i v Hi. apply in_map_iff in Hi. destruct Hi as (k & E & Hk). apply in_arange in Hk. injection E as <- <-. lia. }
  eexists. split; [reflexivity|]. split; [unfold zlen; rewrite puts_length; exact LZ|]. intros LW p Hp. rewrite map_map. cbn [fst snd]. rewrite LZ. unfold laid, cnth. set (i := (p - s) mod N). assert (Bi : 0 <= i < N) by (apply Z.mod_pos_bound; lia).
  assert (EP : (s + i) mod N = p). { unfold i. rewrite Z.add_mod_idemp_r by lia. replace (s + (p - s)) with p by ring. now apply Z.mod_small. }
  destruct (Z.ltb_spec i (zlen w)) as [L|L].
  - rewrite <- EP. apply (nth_puts_in (zeros N) (fun k => (s + k) mod N) (fun k => RtoC (rnth w k)) (arange 0 (zlen w)) i (RtoC 0)).
    + intros k _. rewrite LZ. apply Z.mod_pos_bound. lia.
    + apply NoDup_map_inj; [|apply NoDup_arange]. intros a b Ha Hb E. apply in_arange in Ha, Hb. assert (D : ((s + a) - (s + b)) mod N = 0) by (rewrite Zminus_mod, E, Z.sub_diag; reflexivity). apply Z.mod_divide in D; [|lia]. destruct D as [z Hz]. assert (z = 0) by nia. lia.
    + apply in_arange. lia.
  - rewrite nth_puts_out; [|lia|].
    + apply (cnth_zeros N p).
    + intros a v Ha. apply in_map_iff in Ha. destruct Ha as (k & E & Hk). apply in_arange in Hk. injection E as <- _. split; [apply Z.mod_pos_bound; lia|]. intros E. apply (Z.lt_irrefl i). apply Z.lt_le_trans with (zlen w); [|lia]. replace i with k; [lia|]. unfold i. rewrite <- E, Zminus_mod_idemp_l. replace (s + k - s) with k by ring. symmetry. apply Z.mod_small. lia.
Qed.
Lemma place_raise N M q w : 1 <= N -> Z.odd (zlen w) = true -> (win_first N M q (zlen w) < - N \/ N < win_first N M q (zlen w) + zlen w) -> gb_place N M q w = Raise IndexError.
Proof.
  intros HN O F. rewrite place_eq by auto. set (s := win_first N M q (zlen w)) in *. assert (P := zlen_nonneg w). assert (zlen w <> 0) by (intros E; rewrite E in O; discriminate). apply put_aux_out. rewrite zlen_zeros by lia.
  destruct F as [F|F]; [exists s, (RtoC (rnth w 0))|exists (s + (zlen w - 1)), (RtoC (rnth w (zlen w - 1)))]; (split; [|lia]); apply in_map_iff; [exists 0|exists (zlen w - 1)]; (split; [f_equal; ring|apply in_arange; lia]).
Qed.
(** ** What is returned, and when *)
Lemma gb_index_range n q b k : 1 <= n -> 1 <= q -> -1 <= gb_index n q b k < n.
Proof.
  intros Hn Hq. unfold gb_index. assert (B := Z.mod_pos_bound (k * q - b) (n * q) ltac:(nia)). set (v := (k * q - b) mod (n * q)) in *. destruct (Z.eqb_spec v 0); [lia|]. assert (0 <= v / q) by (apply Z.div_pos; lia). assert (v / q < n) by (apply Z.div_lt_upper_bound; lia). lia.
Qed.
Lemma ceil_exact nb m : 1 <= nb -> (nb * m + nb - 1) / nb = m.
Proof. intros H. replace (nb * m + nb - 1) with (nb - 1 + m * nb) by ring. rewrite Z.div_add, Z.div_small by lia. lia. Qed.
Lemma mapM_get_ok (gam : list R) n l : zlen gam >= n -> 1 <= n -> (forall i, In i l -> -1 <= i < n) -> exists g, mapM (get gam) l = Ok g /\ zlen g = zlen l.
Proof.
  intros Lg Hn Hl. exists (map (fun i => rnth gam (i mod zlen gam)) l). split; [|apply zlen_map]. apply mapM_ok. intros i Hi. specialize (Hl i Hi). destruct (Z_lt_ge_dec i 0).
  - rewrite (get_neg 0%R) by lia. unfold rnth. do 3 f_equal. apply Z.mod_unique_pos with (-1); lia.
  - rewrite (get_ok 0%R) by lia. unfold rnth. rewrite Z.mod_small by lia. reflexivity.
Qed.
Lemma fshift_len (l : list C) : zlen (fftshift l) = zlen l.
Proof. unfold fftshift. set (j := Z.to_nat _). clearbody j. unfold zlen. rewrite app_length, skipn_length, firstn_length. lia. Qed.
Lemma col_ok x q m nb gam n : 1 <= q -> 1 <= nb -> 1 <= m -> nb * m = zlen x -> zlen x <= zlen gam -> exists col, gb_col x q m nb gam n = Ok col /\ zlen col = m.
Proof.
  intros Hq Hb Hm E Lg. assert (HN : 1 <= zlen x) by nia. unfold gb_col. cbv zeta.
  destruct (mapM_get_ok gam (zlen x) (map (gb_index (zlen x) q (n * m)) (arange 1 (zlen x + 1)))) as (g & Eg & Zg); [lia|lia| |].
  { intros i Hi. apply in_map_iff in Hi. destruct Hi as (k & <- & _). apply gb_index_range; lia. }
  rewrite Eg. cbn [bind]. rewrite zlen_map, arange_zlen in Zg. set (s := fft _). assert (Ls : zlen s = zlen x). { unfold s. rewrite fft_zlen, zipw_zlen; [reflexivity|]. rewrite fshift_len, zlen_map. lia. }
  replace (zlen x + nb - 1) with (nb * m + nb - 1) by lia. rewrite ceil_exact by lia. exists (map (fun k => cnth s (k * nb)) (arange 0 m)). split; [|rewrite zlen_map_arange; lia]. apply mapM_ok. intros k Hk. apply in_arange in Hk. rewrite (get_ok (RtoC 0)) by (rewrite Ls; nia). reflexivity.
Qed.
Lemma cols_ok x q m nb gam M : 1 <= q -> 1 <= nb -> 1 <= m -> 1 <= M -> nb * m = zlen x -> zlen x <= zlen gam ->
  exists dgr, mapM (gb_col x q m nb gam) (arange 0 M) = Ok dgr /\ zlen dgr = M /\ (forall c, In c dgr -> zlen c = m) /\ forall n, 0 <= n < M -> gb_col x q m nb gam n = Ok (nth (Z.to_nat n) dgr []).
Proof.
  intros Hq Hb Hm HM E Lg. set (f := fun n => match gb_col x q m nb gam n with Ok c => c | Raise _ => [] end).
  assert (F : forall n, gb_col x q m nb gam n = Ok (f n) /\ zlen (f n) = m) by (intros n; destruct (col_ok x q m nb gam n Hq Hb Hm E Lg) as (c & Ec & Lc); unfold f; rewrite Ec; auto).
  exists (map f (arange 0 M)). split; [apply mapM_ok; intros n _; apply F|]. split; [rewrite zlen_map_arange; lia|]. split; [intros c Hc; apply in_map_iff in Hc; destruct Hc as (n & <- & _); apply F|]. intros n Hn. rewrite nth_map_arange by lia. apply F.
Qed.
Lemma dual_len N q m mb nb h : 1 <= m -> 0 <= mb -> 1 <= nb -> nb = mb \/ nb = 1 -> exists gam, gb_dual N q m mb nb h = Ok gam /\ zlen gam = m * mb.
Proof.
  intros Hm Hb Hn H. unfold gb_dual. assert (LZ : zlen (zak nb m h) = nb) by (unfold zak; rewrite zlen_map_arange; lia).
  assert (ZC : forall c, In c (zak nb m h) -> zlen c = m) by (intros c Hc; unfold zak in Hc; apply in_map_iff in Hc; destruct Hc as (i & <- & _); rewrite zlen_map, fft_zlen, zlen_map_arange; lia).
  assert (X : exists cols, (if nb =? mb then Ok (zak nb m h) else if nb =? 1 then Ok (map (fun _ => nth 0 (zak nb m h) []) (arange 0 mb)) else Raise ValueError) = Ok cols /\ zlen cols = mb /\ forall c, In c cols -> zlen c = m).
  { destruct (Z.eqb_spec nb mb) as [E|E]; [exists (zak nb m h); split; [reflexivity|split; [lia|exact ZC]]|]. destruct (Z.eqb_spec nb 1) as [E1|E1]; [|lia]. eexists. split; [reflexivity|]. split; [rewrite zlen_map_arange; lia|]. intros c Hc. apply in_map_iff in Hc. destruct Hc as (i & <- & _). apply ZC, nth_In. unfold zlen in LZ. lia. }
  destruct X as (cols & -> & Lc & Cc). cbn [bind]. edestruct (izak_loop m (map (fun col => zipw (fun z d => z / RtoC d)%C col (gb_den q m col)) cols) Hm) as (sig & Es & Ls & _).
  { intros c Hc. apply in_map_iff in Hc. destruct Hc as (d & <- & Hd). assert (LD : zlen (gb_den q m d) = m) by (unfold gb_den; rewrite zlen_map_arange; lia). rewrite zipw_zlen; rewrite ?LD, ?(Cc d Hd); lia. }
  rewrite Es. cbn [bind]. eexists. split; [reflexivity|]. rewrite zlen_map in *. rewrite Ls, zlen_map. lia.
Qed.

(** The outcome of a call, by the sizes only. *)
Definition gabor_refuses (N M q nh : Z) : option exn :=
  let m := q * N / M in
  let a := win_first N M q nh in
  if m =? 0 then Some ZeroDivisionError
  else if Z.even nh then Some ValueError
  else if (a <? - N) || (N <? a + nh) then Some IndexError
  else if negb (N mod m =? 0) then Some ValueError
  else if negb ((N / m =? N / M) || (m =? N)) then Some ValueError
  else if N / M =? 0 then Some IndexError
  else None.
Lemma c72_outcome : forall x M q w, 1 <= zlen x -> 1 <= M -> 1 <= q ->
  let N := zlen x in let m := q * N / M in
  match gabor_refuses N M q (zlen w) with
  | Some e => gabor x M q w = Raise e
  | None => exists tfr dgr gam, gabor x M q w = Ok (tfr, dgr, gam) /\ zlen dgr = M /\ (forall c, In c dgr -> zlen c = m) /\ tfr = map (map (fun z => Cmod z ^ 2)%R) dgr /\ zlen gam = m * (N / M)
  end.
Proof.
  intros x M q w HN HM Hq N m. unfold gabor_refuses, gabor. cbv zeta. fold N. fold m. assert (M0 : 0 <= m) by (apply Z.div_pos; nia). assert (B0 : 0 <= N / M) by (apply Z.div_pos; lia). destruct (Z.eqb_spec m 0) as [E|Em]; [reflexivity|].
  rewrite Zmod_even. destruct (Z.even (zlen w)) eqn:Ev; [reflexivity|]. cbn [Z.eqb]. assert (O : Z.odd (zlen w) = true) by (rewrite <- Z.negb_even, Ev; reflexivity). destruct ((win_first N M q (zlen w) <? - N) || (N <? win_first N M q (zlen w) + zlen w)) eqn:Fit.
  { rewrite place_raise; auto. apply orb_true_iff in Fit. destruct Fit as [F|F]; apply Z.ltb_lt in F; lia. }
  apply orb_false_iff in Fit. destruct Fit as [F1 F2]. apply Z.ltb_ge in F1, F2. destruct (place_ok N M q w HN O F1 F2) as (h & Eh & Lh & _). rewrite Eh. cbn [bind]. assert (DM := Z.div_mod N m Em).
  destruct (Z.eqb_spec (N mod m) 0) as [D|D]; cbn [negb]; [|destruct (Z.eqb_spec (N / m * m) N); [lia|reflexivity]]. replace (N / m * m =? N) with true by (symmetry; apply Z.eqb_eq; lia). cbn [negb].
  set (nb := N / m) in *. set (mb := N / M) in *. assert (Nb : 1 <= nb) by nia. assert (EQ : (m =? N) = (nb =? 1)) by (destruct (Z.eqb_spec m N), (Z.eqb_spec nb 1); nia). rewrite EQ.
  destruct ((nb =? mb) || (nb =? 1)) eqn:Bc; cbn [negb].
  2:{ apply orb_false_iff in Bc. destruct Bc as [B1 B2]. unfold gb_dual. rewrite B1, B2. reflexivity. }
  destruct (dual_len N q m mb nb h) as (gam & Eg & Lg); [lia|lia|lia|apply orb_true_iff in Bc; destruct Bc as [B|B]; apply Z.eqb_eq in B; auto|]. rewrite Eg. cbn [bind]. destruct (Z.eqb_spec mb 0) as [Z0|Z0].
  - assert (gam = []) as -> by (rewrite Z0, Z.mul_0_r in Lg; destruct gam; [reflexivity|unfold zlen in Lg; cbn in Lg; lia]). rewrite (arange_cons 0 M) by lia. cbn [mapM]. unfold gb_col at 1. cbv zeta. rewrite (arange_cons 1) by (fold N; lia). cbn [map mapM]. rewrite get_raise; [reflexivity|]. unfold zlen. cbn. destruct (Z_lt_ge_dec (gb_index (Z.of_nat (length x)) q 0 1) 0); lia.
  - assert (NG : N <= zlen gam). { rewrite Lg. apply orb_true_iff in Bc. destruct Bc as [B|B]; apply Z.eqb_eq in B; nia. }
    destruct (cols_ok x q m nb gam M) as (dgr & Ed & Ld & Cd & _); [lia|lia|lia|lia|fold N; nia|exact NG|]. rewrite Ed. cbn [bind]. exists (map (map (fun z => Cmod z ^ 2)%R) dgr), dgr, gam. auto.
Qed.
(** The window fits. *)
Definition window_fits (N M q nh : Z) : Prop := - N <= win_first N M q nh /\ win_first N M q nh + nh <= N.
(** n_coeff dividing the length: the two admissible pairs. *)
Lemma c72_divides : forall x M q w, 1 <= zlen x -> 1 <= M -> 1 <= q -> (M | zlen x) -> Z.odd (zlen w) = true -> window_fits (zlen x) M q (zlen w) ->
  if (M * M =? q * zlen x) || (q =? M) then exists r, gabor x M q w = Ok r else gabor x M q w = Raise ValueError.
Proof.
  intros x M q w HN HM Hq [K EK] O [F1 F2]. assert (H := c72_outcome x M q w HN HM Hq). cbv zeta in H. unfold gabor_refuses in H. cbv zeta in H. set (N := zlen x) in *. assert (K1 : 1 <= K) by nia.
  assert (Em : q * N / M = q * K) by (rewrite EK, Z.mul_assoc, Z.div_mul; lia). assert (Eb : N / M = K) by (rewrite EK, Z.div_mul; lia). rewrite Em, Eb in H. rewrite <- Z.negb_odd, O in H. cbn [negb] in H.
  replace (q * K =? 0) with false in H by (symmetry; apply Z.eqb_neq; nia). replace (win_first N M q (zlen w) <? - N) with false in H by (symmetry; apply Z.ltb_ge; lia). replace (N <? win_first N M q (zlen w) + zlen w) with false in H by (symmetry; apply Z.ltb_ge; lia). cbn [orb] in H.
  replace (K =? 0) with false in H by (symmetry; apply Z.eqb_neq; lia). assert (EM : N mod (q * K) = (M mod q) * K) by (rewrite EK, (Z.mul_comm K M); rewrite Z.mul_mod_distr_r by lia; reflexivity). assert (ED : N / (q * K) = M / q) by (rewrite EK, (Z.mul_comm K M); apply Z.div_mul_cancel_r; lia). rewrite EM, ED in H.
  assert (DM := Z.div_mod M q ltac:(lia)). assert (BM := Z.mod_pos_bound M q ltac:(lia)). set (p := M / q) in *. set (r := M mod q) in *.
  destruct (Z.eqb_spec (r * K) 0) as [R0|R0]; cbn [negb] in H.
  - assert (r = 0) by nia. assert (M = q * p) by lia. replace (M * M =? q * N) with (p =? K) by (destruct (Z.eqb_spec p K), (Z.eqb_spec (M * M) (q * N)); nia). replace (q =? M) with (q * K =? N) by (destruct (Z.eqb_spec (q * K) N), (Z.eqb_spec q M); nia).
    destruct ((p =? K) || (q * K =? N)); cbn [negb] in H; [|exact H]. destruct H as (t & d & g & E & _). eauto.
  - assert (r <> 0) by nia. destruct (Z.eqb_spec (M * M) (q * N)) as [E|_]; [exfalso; assert (M * M = q * K * M) by nia; assert (EK2 : M = q * K) by (apply Z.mul_reg_r with M; lia); assert (r = q * (K - p)) by (rewrite Z.mul_sub_distr_l; lia); destruct (Z.eq_dec (K - p) 0); nia|]. destruct (Z.eqb_spec q M) as [E|_]; [exfalso; subst q; unfold r in *; rewrite Z.mod_same in * by lia; lia|]. exact H.
Qed.

(** ** The defaults *)
Lemma divider_small N a b : 1 <= N -> divider N = Ok (a, b) -> (a - 1) * (a - 1) < N.
Proof.
  intros HN. destruct (sqrt_floor N ltac:(lia)) as (A0 & A1 & A2). unfold divider, divider_with. destruct (Z.ltb_spec N 0); [lia|]. unfold divider_s. set (f := Zfloor (sqrt (IZR N))) in *. destruct (Req_EM_T (IZR f) (sqrt (IZR N))) as [E|E].
  - intros H1. injection H1 as <- <-. nia.
  - assert (L := Zfloor_lb (sqrt (IZR N))). assert (U := Zfloor_ub (sqrt (IZR N))). fold f in L, U. rewrite (Zceil_imp (f + 1)) by (rewrite minus_IZR, plus_IZR; lra). destruct (divider_loop_spec N (Z.to_nat (f + 1)) ltac:(lia)) as [i (H1 & H2 & _)]. rewrite H1. intros H3. injection H3 as <- <-.
    assert (i <= f + 1) by lia. assert (f * f <> N) by (intros Q; apply E, A2, Q). destruct (Z.eq_dec i 1); [lia|]. nia.
Qed.
Lemma small_le a b n : 0 < a -> 0 < b -> a * b = n -> (a - 1) * (a - 1) < n -> a <= b + 1.
Proof. intros Ha Hb <- H. destruct (Z_le_gt_dec a (b + 1)) as [L|L]; [exact L|]. exfalso. assert ((a - 1) * (b + 1) <= (a - 1) * (a - 1)) by (apply Z.mul_le_mono_nonneg_l; lia). lia. Qed.
Lemma gb_window_len M : 1 <= M -> zlen (gb_window M) = if Z.even M then M + 1 else M.
Proof.
  intros H. unfold gb_window. cbv zeta. rewrite zlen_map, zlen_map. rewrite nearest_odd_nodd, Zfloor_IZR. unfold linspace1. assert (E : nodd (IZR M) = if Z.even M then M + 1 else M) by (unfold nodd; rewrite Zfloor_IZR, Zmod_even; destruct (Z.even M); reflexivity). rewrite E.
  set (n := if Z.even M then M + 1 else M). assert (1 <= n) by (unfold n; destruct (Z.even M); lia). destruct (Z.eqb_spec n 1) as [->|]; [reflexivity|]. unfold linspace. rewrite zlen_map_arange; lia.
Qed.
Lemma near_zero v : (- (1 / 2) <= v <= 1 / 2)%R -> ZnearestE v = 0.
Proof.
  intros [A B]. assert (P := Zrnd_le ZnearestE _ _ A). assert (Q := Zrnd_le ZnearestE _ _ B). assert (E1 : ZnearestE (1 / 2) = 0). { replace (1 / 2)%R with (IZR 1 / 2)%R by lra. rewrite znear_half. reflexivity. } assert (E2 : ZnearestE (- (1 / 2)) = 0). { replace (- (1 / 2))%R with (IZR (-1) / 2)%R by lra. rewrite znear_half. reflexivity. } lia.
Qed.
Lemma default_fits M K q p nh : 1 <= M -> 1 <= K -> 1 <= q -> M = q * p -> M <= K + 1 -> M * K <> 1 \/ q = 1 -> (M = 2 -> q = 2) -> nh = (if Z.even M then M + 1 else M) -> window_fits (M * K) M q nh.
Proof.
  intros HM HK Hq Hp HMK H1 H2 Enh. unfold window_fits, win_first. set (N := M * K). set (al := ZnearestE ((2 * IZR N / IZR M - 1 - IZR nh) / IZR (2 * q))). set (d := 2 * K - 1 - nh).
  assert (M0 : (0 < IZR M)%R) by (apply IZR_lt; lia). assert (Q0 : (1 <= IZR q)%R) by (apply IZR_le; lia).
  assert (Ev : ((2 * IZR N / IZR M - 1 - IZR nh) / IZR (2 * q) = IZR d / (2 * IZR q))%R) by (unfold d, N; rewrite !minus_IZR, !mult_IZR; field; lra). unfold al in *. rewrite Ev in *. fold (half_round (N - (nh - 1))). assert (Hs := half_round_spec (N - (nh - 1))). cbv zeta in Hs. set (c := half_round (N - (nh - 1))) in *.
  assert (Nh : M <= nh <= M + 1) by (destruct (Z.even M); lia). assert (N1 : M <= N /\ K <= N) by (unfold N; nia).
  destruct (Z_lt_ge_dec d 0) as [D|D].
  - unfold d in D. assert (K = 1 /\ M = 2) as [-> ->].
    { assert (MM : M = 1 \/ M = 2 \/ 3 <= M) by lia. destruct MM as [-> |[-> |MM]]; cbn in Enh; [lia|lia|]. exfalso. assert (K = 2) by lia. subst K. assert (M3 : M = 3) by lia. rewrite M3 in Enh. cbn in Enh. lia. }
    cbn in Enh. subst nh. assert (q = 2) by auto. subst q. unfold d. rewrite near_zero by (cbn; lra). assert (c = 0) by (unfold c, N; cbn [Z.sub Z.mul Z.add Z.opp Pos.mul Z.pos_sub Pos.pred_double]; unfold half_round; apply near_zero; cbn; lra). unfold N. lia.
  - assert (Dp : (0 <= IZR d / (2 * IZR q))%R) by (apply Rmult_le_pos; [apply IZR_le; lia|left; apply Rinv_0_lt_compat; lra]). assert (Dq : (IZR d / (2 * IZR q) <= IZR d / 2)%R). { apply Rmult_le_compat_l; [apply IZR_le; lia|]. apply Rinv_le_contravar; lra. }
    assert (A1 := Zrnd_le ZnearestE _ _ Dp). assert (A2 := Zrnd_le ZnearestE _ _ Dq). rewrite (Zrnd_IZR ZnearestE 0) in A1. fold (half_round d) in A2. assert (Hd := half_round_spec d). cbv zeta in Hd. set (al' := ZnearestE (IZR d / (2 * IZR q))) in *.
    assert (B : 2 * half_round d <= d + 1) by lia. assert (nh <= N) by (unfold d in D; destruct (Z.eq_dec K 1); [subst K; assert (nh = 1) by lia; lia|unfold N; nia]).
    assert (N = 1 \/ 2 <= N) as [E|E] by lia.
    + assert (M = 1 /\ K = 1) as [-> ->] by (unfold N in E; nia). cbn in Enh. subst nh. assert (q = 1) by lia. subst q. unfold N, d in *. assert (al' = 0) by (unfold al'; apply near_zero; cbn; lra). assert (c = 0) by (unfold c, half_round; apply near_zero; cbn; lra). lia.
    + unfold d in *. lia.
Qed.
Lemma c72_default : forall x, 1 <= zlen x -> exists M K q p, divider (zlen x) = Ok (M, K) /\ divider M = Ok (q, p) /\
  if (M <=? 2) || ((M * M =? zlen x) && (q =? 1)) then exists r, gabor_args x None None None = Ok r else gabor_args x None None None = Raise ValueError.
Proof.
  intros x HN. destruct (c01_divider_balanced (zlen x) HN) as (M & K & EM & M0 & K0 & MK & _). destruct (c01_divider_balanced M ltac:(lia)) as (q & p & Eq & q0 & p0 & qp & _). exists M, K, q, p. split; [exact EM|]. split; [exact Eq|].
  assert (S1 := divider_small _ _ _ HN EM). assert (S2 := divider_small M q p ltac:(lia) Eq). unfold gabor_args. rewrite EM. cbn [bind fst]. rewrite Eq. cbn [bind fst]. replace (M =? 0) with false by (symmetry; apply Z.eqb_neq; lia).
  assert (MK1 := small_le _ _ _ M0 K0 MK S1). assert (QP1 := small_le _ _ _ q0 p0 qp S2). assert (LW := gb_window_len M ltac:(lia)).
  assert (D2 : M = 2 -> q = 2). { intros ->. destruct (c01_divider_balanced 2 ltac:(lia)) as (a & b & Ea & Rest). unfold divider, divider_with, divider_s in Eq. destruct (Z.ltb_spec 2 0); [lia|]. assert (Q1 : (1 < sqrt (IZR 2) < 2)%R). { assert (T := sqrt_sqrt 2 ltac:(lra)). assert (T2 := sqrt_pos 2). split; nra. } rewrite (Zfloor_imp 1) in Eq by (cbn; lra). destruct (Req_EM_T 1 (sqrt (IZR 2))); [lra|]. rewrite (Zceil_imp 2) in Eq by (cbn; lra). vm_compute in Eq. congruence. }
  assert (W := default_fits M K q p (zlen (gb_window M)) ltac:(lia) ltac:(lia) ltac:(lia) ltac:(lia) MK1 ltac:(destruct (Z.eq_dec (M * K) 1); [right; nia|left; auto]) D2 LW). rewrite MK in W.
  assert (O : Z.odd (zlen (gb_window M)) = true) by (rewrite LW; destruct (Z.even M) eqn:Ev; [rewrite Z.odd_add, <- Z.negb_even, Ev; reflexivity|rewrite <- Z.negb_even, Ev; reflexivity]).
  assert (R := c72_divides x M q (gb_window M) HN ltac:(lia) ltac:(lia) ltac:(exists K; lia) O W).
  replace ((M <=? 2) || ((M * M =? zlen x) && (q =? 1))) with ((M * M =? q * zlen x) || (q =? M)); [exact R|].
  destruct (Z.leb_spec M 2) as [L|L]; cbn [orb].
  - assert (M = 1 \/ M = 2) as [E|E] by lia; [assert (q = M) by nia|assert (q = M) by (rewrite D2; lia)]; subst q; rewrite (Z.eqb_refl M); apply orb_true_r.
  - destruct (Z.eqb_spec q M) as [E|E]; [exfalso; assert (p = 1) by nia; lia|]. rewrite orb_false_r. destruct (Z.eqb_spec (M * M) (q * zlen x)) as [E1|E1].
    + assert (M = q * K) by nia. assert (q = 1). { destruct (Z.eq_dec q 1); auto. exfalso. nia. } subst q. rewrite Z.mul_1_l in E1. rewrite E1, !Z.eqb_refl. reflexivity.
    + destruct (Z.eqb_spec (M * M) (zlen x)), (Z.eqb_spec q 1); try reflexivity. subst q. lia.
Qed.
Lemma divider_square r : 1 <= r -> divider (r * r) = Ok (r, r).
Proof.
  intros Hr. destruct (c01_divider_balanced (r * r) ltac:(nia)) as (a & b & E & A0 & B0 & AB & Min). assert (H := Min r r ltac:(lia) ltac:(lia) eq_refl). rewrite Z.sub_diag in H. cbn in H. assert (a = b) by lia. subst b. assert (a = r) by nia. now subst a.
Qed.
(** 256 samples: 16 coefficients, oversampling 4. *)
Lemma c72_default_refuted : exists x, zlen x = 256 /\ gabor_args x None None None = Raise ValueError.
Proof.
  exists (repeat (RtoC 1) 256). split; [reflexivity|]. destruct (c72_default (repeat (RtoC 1) 256)) as (M & K & q & p & EM & Eq & R); [cbn; lia|]. change (zlen (repeat (RtoC 1) 256)) with (16 * 16) in *. rewrite divider_square in EM by lia. injection EM as <- <-. change 16 with (4 * 4) in Eq. rewrite divider_square in Eq by lia. injection Eq as <- <-. exact R.
Qed.
(** 9 samples: 3 coefficients, no oversampling. *)
Example c72_example : exists r, gabor_args (repeat (RtoC 1) 9) None None None = Ok r.
Proof.
  destruct (c72_default (repeat (RtoC 1) 9)) as (M & K & q & p & EM & Eq & R); [cbn; lia|]. change (zlen (repeat (RtoC 1) 9)) with (3 * 3) in *. rewrite divider_square in EM by lia. injection EM as <- <-.
  assert (q = 1). { destruct (c01_divider_balanced 3 ltac:(lia)) as (a & b & E & A0 & B0 & AB & _). rewrite E in Eq. injection Eq as <- <-. assert (S := divider_small 3 a b ltac:(lia) E). assert (A3 : a <= 2) by nia. assert (a = 1 \/ a = 2) as [->| ->] by lia; lia. }
  subst q. exact R.
Qed.
(** ** Analysis and synthesis *)
Lemma col_at x q a gam n k : let m := q * a in 1 <= a -> 1 <= q -> zlen x = a * m -> zlen gam = a * m -> 0 <= k < m -> exists col, gb_col x q m a gam n = Ok col /\ zlen col = m /\
  cnth col k = csum (arange 0 (a * m)) (fun t => cnth x t * RtoC (rnth gam ((t + (a * m + 1) / 2 - n * a) mod (a * m))) * root m (- (k * t)))%C.
Proof.
  intros m Ha Hq Lx Lg Hk. assert (Hm : 1 <= m) by (unfold m; nia). assert (HN : 1 <= a * m) by nia. unfold gb_col. cbv zeta. rewrite Lx. set (N := a * m) in *.
  assert (Eg : mapM (get gam) (map (gb_index N q (n * m)) (arange 1 (N + 1))) = Ok (map (fun k => rnth gam ((k - 1 - n * a) mod N)) (arange 1 (N + 1)))).
  { rewrite mapM_map. apply mapM_ok. intros i _. replace (n * m) with (q * (n * a)) by (unfold m; ring). rewrite gb_index_int by lia. apply get_ok. rewrite Lg. apply Z.mod_pos_bound. lia. }
  rewrite Eg. cbn [bind]. set (g := map RtoC (map _ _)). assert (Zg : zlen g = N) by (unfold g; rewrite zlen_map, zlen_map_arange; lia). assert (Ng : g <> []) by (intros E; rewrite E in Zg; unfold zlen in Zg; cbn in Zg; lia). rewrite (fftshift_at g Ng), Zg. set (c := (N + 1) / 2).
  assert (Gat : forall t, cnth g (t mod N) = RtoC (rnth gam ((t - n * a) mod N))). { intros t. assert (B := Z.mod_pos_bound t N ltac:(lia)). unfold g. rewrite map_map, cnth_map_arange by lia. do 2 f_equal. rewrite <- (Zminus_mod_idemp_l t). f_equal. ring. }
  set (s := fft _). assert (Ly : zlen (zipw (fun a b => a * b)%C x (map (fun k => cnth g ((k + c) mod N)) (arange 0 N))) = N) by (rewrite zipw_zlen; [exact Lx|rewrite zlen_map_arange; lia]). assert (Ls : zlen s = N) by (unfold s; now rewrite fft_zlen).
  replace ((N + a - 1) / a) with m by (unfold N; rewrite ceil_exact; lia). exists (map (fun k => cnth s (k * a)) (arange 0 m)). split; [apply mapM_ok; intros j Hj; apply in_arange in Hj; rewrite (get_ok (RtoC 0)) by (rewrite Ls; unfold N; nia); reflexivity|]. split; [rewrite zlen_map_arange; lia|].
  rewrite cnth_map_arange by lia. rewrite Z.add_0_l. unfold s. rewrite fft_nth by (rewrite Ly; unfold N; nia). rewrite Ly. apply csum_ext. intros t Ht. apply in_arange in Ht. rewrite cnth_zipw by (rewrite ?zlen_map_arange; lia). rewrite cnth_map_arange by lia. rewrite Z.add_0_l, Gat. f_equal. replace (- (k * a * t)) with (a * - (k * t)) by ring. unfold N. apply root_scale; lia.
Qed.
Lemma synth a q h gam x u0 (dg : Z -> Z -> C) : let m := q * a in let N := a * m in 1 <= a -> 1 <= q -> zlen h = N -> zlen x = N -> (forall p, 0 <= p < N -> Im (cnth h p) = 0%R) ->
  (forall i f, 0 <= i < a -> 0 <= f < m -> (/ 2 ^ 52 <= den a q h i f)%R) -> (forall p, 0 <= p < N -> rnth gam p = Re (gcx a q h p)) ->
  (forall n k, 0 <= n < m -> 0 <= k < m -> dg n k = csum (arange 0 N) (fun t => cnth x t * RtoC (rnth gam ((t + u0 - n * a) mod N)) * root m (- (k * t)))%C) ->
  forall t, 0 <= t < N -> csum (arange 0 m) (fun n => csum (arange 0 m) (fun k => dg n k * cnth h ((t + u0 - n * a) mod N) * root m (k * t)))%C = cnth x t.
Proof.
  intros m N Ha Hq Lh Lx Rh Dh Eg Ed t Ht. assert (Hm : 1 <= m) by (unfold m; nia). assert (HN : 1 <= N) by (unfold N; nia).
  transitivity (csum (arange 0 N) (fun t' => cnth x t' * (if ((t - t') mod m =? 0)%Z then RtoC (IZR m) * csum (arange 0 m) (fun n => RtoC (rnth gam ((t' + u0 - n * a) mod N)) * cnth h ((t + u0 - n * a) mod N)) else RtoC 0)))%C.
  { transitivity (csum (arange 0 m) (fun n => csum (arange 0 N) (fun t' => csum (arange 0 m) (fun k => cnth x t' * RtoC (rnth gam ((t' + u0 - n * a) mod N)) * cnth h ((t + u0 - n * a) mod N) * root m (k * (t - t'))))))%C.
    { apply csum_ext. intros n Hn. apply in_arange in Hn. rewrite csum_swap. apply csum_ext. intros k Hk. apply in_arange in Hk. rewrite Ed, <- Cmult_assoc, <- csum_scal_r by lia. apply csum_ext. intros t' _. replace (k * (t - t')) with (- (k * t') + k * t) by ring. rewrite root_plus. ring. }
    rewrite csum_swap. apply csum_ext. intros t' _. transitivity (csum (arange 0 m) (fun n => cnth x t' * RtoC (rnth gam ((t' + u0 - n * a) mod N)) * cnth h ((t + u0 - n * a) mod N) * (if ((t - t') mod m =? 0)%Z then RtoC (IZR m) else RtoC 0)))%C.
    { apply csum_ext. intros n _. now rewrite csum_scal_l, root_orth by lia. }
    destruct ((t - t') mod m =? 0)%Z.
    - rewrite <- csum_scal_l, <- csum_scal_l. apply csum_ext. intros n _. ring.
    - rewrite (csum_ext _ _ (fun _ => RtoC 0)) by (intros; ring). rewrite csum_0; [ring|reflexivity]. }
  assert (Bio : forall r, csum (arange 0 m) (fun n => RtoC (rnth gam ((t + r * m + u0 - n * a) mod N)) * cnth h ((t + u0 - n * a) mod N))%C = if (r mod a =? 0)%Z then RtoC (/ IZR m) else RtoC 0).
  { intros r. assert (B := bio_c a q h (t + u0) r Ha Hq Lh Dh). cbv zeta in B. fold m in B. fold N in B.
    assert (RR : forall n, (RtoC (rnth gam ((t + r * m + u0 - n * a) mod N)) * cnth h ((t + u0 - n * a) mod N))%C = RtoC (Re (gcx a q h (t + u0 + r * m - n * a) * Cconj (cnth h ((t + u0 - n * a) mod N)))%C)).
    { intros n. assert (B1 := Z.mod_pos_bound (t + r * m + u0 - n * a) N ltac:(lia)). assert (B2 := Z.mod_pos_bound (t + u0 - n * a) N ltac:(lia)). rewrite Eg by lia. unfold N at 1, m at 2. rewrite gcx_period by lia. replace (t + u0 + r * m - n * a) with (t + r * m + u0 - n * a) by ring. assert (I := Rh _ B2). destruct (cnth h ((t + u0 - n * a) mod N)) as [hr hi]. cbn in I. subst hi. destruct (gcx a q h (t + r * m + u0 - n * a)). apply injective_projections; cbn; ring. }
    rewrite (csum_ext _ _ _ (fun n _ => RR n)). rewrite <- RtoC_rsum, <- Re_csum, B. destruct (r mod a =? 0)%Z; reflexivity. }
  rewrite (csum_single (arange 0 N) t).
  - rewrite Z.sub_diag, Z.mod_0_l, Z.eqb_refl by lia. assert (B := Bio 0). rewrite Z.mul_0_l, Z.mod_0_l, Z.eqb_refl, Z.add_0_r in B by lia. rewrite B, <- RtoC_mult, Rinv_r by (apply not_0_IZR; lia). ring.
  - apply NoDup_arange.
  - apply in_arange. lia.
  - intros t' Ht' Ne. apply in_arange in Ht'. destruct (Z.eqb_spec ((t - t') mod m) 0) as [E|_]; [|ring]. apply Z.mod_divide in E; [|lia]. destruct E as [z Hz]. assert (B := Bio (- z)). replace (t + - z * m) with t' in B by lia. rewrite B. destruct (Z.eqb_spec ((- z) mod a) 0) as [E|_]; [|ring]. exfalso. apply Z.mod_divide in E; [|lia]. destruct E as [y Hy]. assert (t' - t = y * N) by (unfold N; nia). assert (y = 0) by nia. subst y. lia.
Qed.
(** The frame operator on the Zak side: q terms at frequencies f, f - a, ... *)
Definition zak_energy (a q : Z) (h : Z -> R) (i f : Z) : R :=
  rsum (arange 0 q) (fun l => Cmod (csum (arange 0 (q * a)) (fun j => RtoC (h (i + j * a)%Z) * root (q * a) (- ((f - l * a) * j)))%C) ^ 2 / IZR (q * a))%R.
Lemma den_energy a q h hh i f : 1 <= a -> 1 <= q -> 0 <= i < a -> (forall p, 0 <= p < a * (q * a) -> cnth h p = RtoC (hh p)) -> den a q h i f = zak_energy a q hh i f.
Proof.
  intros Ha Hq Hi Hh. unfold den, zak_energy. apply rsum_ext. intros l _. assert (Hm : 1 <= q * a) by nia. unfold zk. cbv zeta. assert (Q0 : (0 < sqrt (IZR (q * a)))%R) by (apply sqrt_IZR_pos; lia). assert (Q1 : (sqrt (IZR (q * a)) * sqrt (IZR (q * a)) = IZR (q * a))%R) by (apply sqrt_sqrt; apply IZR_le; lia).
  rewrite Cmod_div by (intros E; apply RtoC_inj in E; lra). rewrite Cmod_R, Rabs_right by lra.
  rewrite (csum_ext _ (fun j => cnth h (i + j * a) * root (q * a) (- ((f - l * a) mod (q * a) * j)))%C (fun j => RtoC (hh (i + j * a)%Z) * root (q * a) (- ((f - l * a) * j)))%C).
  - set (S := Cmod _). set (r := sqrt (IZR (q * a))) in *. rewrite <- Q1. field. lra.
  - intros j Hj. apply in_arange in Hj. rewrite Hh by nia. f_equal. rewrite !root_opp. f_equal. apply root_mod_mul_l. lia.
Qed.
Lemma gabor_critical a q x w : 1 <= a -> 1 <= q -> let M := q * a in let N := a * M in zlen x = N -> Z.odd (zlen w) = true -> window_fits N M q (zlen w) ->
  exists h tfr dgr gam, gb_place N M q w = Ok h /\ zlen h = N /\ gabor x M q w = Ok (tfr, dgr, gam) /\ gb_dual N q M a a h = Ok gam /\ zlen gam = N /\
    (forall n, 0 <= n < M -> gb_col x q M a gam n = Ok (nth (Z.to_nat n) dgr [])) /\
    (zlen w <= N -> forall p, 0 <= p < N -> cnth h p = RtoC (laid N (win_first N M q (zlen w)) w p)).
Proof.
  intros Ha Hq M N Lx O [F1 F2]. assert (HM : 1 <= M) by (unfold M; nia). assert (HN : 1 <= N) by (unfold N; nia). destruct (place_ok N M q w HN O F1 F2) as (h & Eh & Lh & Ph). destruct (dual_ok a q h Ha Hq Lh) as (gam & Eg & Lg & _). fold M N in Eg, Lg. 
  destruct (cols_ok x q M a gam M Hq Ha HM HM) as (dgr & Ed & _ & _ & Cd); [rewrite Lx; reflexivity|rewrite Lg, Lx; unfold N; lia|].
  exists h, (map (map (fun z => Cmod z ^ 2)%R) dgr), dgr, gam. split; [exact Eh|]. split; [exact Lh|]. split; [|auto].
  unfold gabor. rewrite Lx. replace (q * N / M) with M by (unfold N; rewrite Z.mul_assoc, Z.div_mul; unfold M; lia). replace (N / M) with a by (unfold N; rewrite Z.div_mul; lia). replace (M =? 0) with false by (symmetry; apply Z.eqb_neq; lia). rewrite Zmod_even, <- Z.negb_odd, O. cbn [negb Z.eqb]. rewrite Eh. cbn [bind]. fold N. rewrite Z.eqb_refl. cbn [negb]. rewrite Eg. cbn [bind]. rewrite Ed. reflexivity.
Qed.
(** Column n of the coefficients: the signal against the dual window shifted by
    n a, with the origin in the middle. *)
Lemma c90_analysis : forall a q x w, 1 <= a -> 1 <= q -> let M := q * a in let N := a * M in zlen x = N -> Z.odd (zlen w) = true -> window_fits N M q (zlen w) ->
  exists tfr dgr gam, gabor x M q w = Ok (tfr, dgr, gam) /\ zlen gam = N /\ forall n k, 0 <= n < M -> 0 <= k < M ->
    cnth (nth (Z.to_nat n) dgr []) k = csum (arange 0 N) (fun t => cnth x t * RtoC (rnth gam ((t + (N + 1) / 2 - n * a) mod N)) * root M (- (k * t)))%C.
Proof.
  intros a q x w Ha Hq M N Lx O F. destruct (gabor_critical a q x w Ha Hq Lx O F) as (h & tfr & dgr & gam & _ & _ & E & _ & Lg & Cd & _). fold M N in Lg, Cd, E. exists tfr, dgr, gam. split; [exact E|]. split; [exact Lg|]. intros n k Hn Hk.
  destruct (col_at x q a gam n k Ha Hq Lx Lg Hk) as (col & Ec & _ & V). fold M in Ec, V. rewrite (Cd n Hn) in Ec. injection Ec as ->. exact V.
Qed.
(** The returned window is dual to the given one. *)
Lemma c90_dual : forall a q x w, 1 <= a -> 1 <= q -> let M := q * a in let N := a * M in zlen x = N -> Z.odd (zlen w) = true -> zlen w <= N -> window_fits N M q (zlen w) ->
  let h := laid N (win_first N M q (zlen w)) w in
  (forall i f, 0 <= i < a -> 0 <= f < M -> (/ 2 ^ 52 <= zak_energy a q h i f)%R) ->
  exists tfr dgr gam, gabor x M q w = Ok (tfr, dgr, gam) /\ forall u r, rsum (arange 0 M) (fun n => rnth gam ((u + r * M - n * a) mod N) * h (u - n * a)%Z)%R = if r mod a =? 0 then (/ IZR M)%R else 0%R.
Proof.
  intros a q x w Ha Hq M N Lx O LW F h Fr. assert (HM : 1 <= M) by (unfold M; nia). assert (HN : 1 <= N) by (unfold N; nia). destruct (gabor_critical a q x w Ha Hq Lx O F) as (hl & tfr & dgr & gam & _ & Lh & E & Eg & Lg & _ & Ph). fold M N in Lg, E, Lh, Eg, Ph. fold h in Ph. exists tfr, dgr, gam. split; [exact E|]. specialize (Ph LW).
  assert (Dh : forall i f, 0 <= i < a -> 0 <= f < M -> (/ 2 ^ 52 <= den a q hl i f)%R) by (intros i f Hi Hf; rewrite (den_energy a q hl h i f Ha Hq Hi Ph); auto).
  destruct (dual_ok a q hl Ha Hq Lh) as (gam' & Eg' & _ & Vg). fold M N in Eg', Vg. rewrite Eg in Eg'. injection Eg' as <-. intros u r. assert (B := bio_c a q hl u r Ha Hq Lh Dh). cbv zeta in B. fold M N in B.
  apply RtoC_inj. rewrite RtoC_rsum. transitivity (RtoC (Re (csum (arange 0 M) (fun n => gcx a q hl (u + r * M - n * a) * Cconj (cnth hl ((u - n * a) mod N)))%C))).
  - rewrite Re_csum, RtoC_rsum. apply csum_ext. intros n _. assert (B1 := Z.mod_pos_bound (u + r * M - n * a) N ltac:(lia)). assert (B2 := Z.mod_pos_bound (u - n * a) N ltac:(lia)). rewrite Vg by lia. unfold N at 1, M at 2. rewrite gcx_period by lia. rewrite Ph by lia. replace (h (u - n * a)) with (h ((u - n * a) mod N)) by (unfold h, laid; cbv zeta; rewrite Zminus_mod_idemp_l; reflexivity). f_equal. destruct (gcx a q hl (u + r * M - n * a)). cbn. ring.
  - rewrite B. destruct (r mod a =? 0); reflexivity.
Qed.
Lemma c90_reconstruct : forall a q x w, 1 <= a -> 1 <= q -> let M := q * a in let N := a * M in zlen x = N -> Z.odd (zlen w) = true -> zlen w <= N -> window_fits N M q (zlen w) ->
  let h := laid N (win_first N M q (zlen w)) w in
  (forall i f, 0 <= i < a -> 0 <= f < M -> (/ 2 ^ 52 <= zak_energy a q h i f)%R) ->
  exists tfr dgr gam, gabor x M q w = Ok (tfr, dgr, gam) /\ forall t, 0 <= t < N ->
    cnth x t = csum (arange 0 M) (fun n => csum (arange 0 M) (fun k => cnth (nth (Z.to_nat n) dgr []) k * RtoC (h (t + (N + 1) / 2 - n * a)%Z) * root M (k * t)))%C.
Proof.
  intros a q x w Ha Hq M N Lx O LW F h Fr. assert (HM : 1 <= M) by (unfold M; nia). assert (HN : 1 <= N) by (unfold N; nia). destruct (gabor_critical a q x w Ha Hq Lx O F) as (hl & tfr & dgr & gam & _ & Lh & E & Eg & Lg & Cd & Ph). fold M N in Lg, E, Lh, Eg, Ph, Cd. fold h in Ph. exists tfr, dgr, gam. split; [exact E|]. specialize (Ph LW).
  assert (Dh : forall i f, 0 <= i < a -> 0 <= f < M -> (/ 2 ^ 52 <= den a q hl i f)%R) by (intros i f Hi Hf; rewrite (den_energy a q hl h i f Ha Hq Hi Ph); auto).
  destruct (dual_ok a q hl Ha Hq Lh) as (gam' & Eg' & _ & Vg). fold M N in Eg', Vg. rewrite Eg in Eg'. injection Eg' as <-. intros t Ht. symmetry.
  rewrite <- (synth a q hl gam x ((N + 1) / 2) (fun n k => cnth (nth (Z.to_nat n) dgr []) k) Ha Hq Lh Lx) with (t := t); auto.
  - fold M N. apply csum_ext. intros n _. apply csum_ext. intros k _. do 2 f_equal. assert (B2 := Z.mod_pos_bound (t + (N + 1) / 2 - n * a) N ltac:(lia)). rewrite Ph by lia. unfold h, laid. cbv zeta. now rewrite Zminus_mod_idemp_l.
  - intros p Hp. fold M N in Hp. rewrite Ph by auto. reflexivity.
  - fold M N. intros n k Hn Hk. destruct (col_at x q a gam n k Ha Hq Lx Lg Hk) as (col & Ec & _ & V). fold M in Ec, V. rewrite (Cd n Hn) in Ec. injection Ec as ->. exact V.
Qed.
Lemma first_4 : win_first (2 * (1 * 2)) (1 * 2) 1 3 = 0.
Proof.
  unfold win_first. change (2 * (1 * 2)) with 4. change (1 * 2) with 2. change (4 - (3 - 1)) with 2. replace (2 * IZR 4 / IZR 2 - 1 - IZR 3)%R with 0%R by (cbn; lra). replace (0 / IZR (2 * 1))%R with (IZR 0) by (unfold Rdiv; ring). replace (IZR 2 / 2)%R with (IZR 1) by (cbn; lra). now rewrite !(Zrnd_IZR ZnearestE).
Qed.
(** Four samples, two coefficients, window (2, 2, 1): the dual window is
    (1/3, 1/4, -1/6, 0) and the signal comes back. *)
Example c90_example : exists tfr dgr, gabor (map RtoC [1; 2; 3; 4]%R) 2 1 [2; 2; 1]%R = Ok (tfr, dgr, [1 / 3; 1 / 4; - (1 / 6); 0]%R) /\
  forall t, 0 <= t < 4 -> cnth (map RtoC [1; 2; 3; 4]%R) t = csum (arange 0 2) (fun n => csum (arange 0 2) (fun k => cnth (nth (Z.to_nat n) dgr []) k * RtoC (rnth [2; 2; 1; 0]%R ((t + 2 - n * 2) mod 4)) * root 2 (k * t)))%C.
Proof.
  set (x := map RtoC [1; 2; 3; 4]%R). set (w := [2; 2; 1]%R). assert (Lx : zlen x = 2 * (1 * 2)) by reflexivity. assert (F : window_fits (2 * (1 * 2)) (1 * 2) 1 (zlen w)) by (unfold window_fits; change (zlen w) with 3; rewrite first_4; lia).
  assert (H4 : forall p, laid (2 * (1 * 2)) (win_first (2 * (1 * 2)) (1 * 2) 1 (zlen w)) w p = rnth [2; 2; 1; 0]%R (p mod 4)).
  { intros p. change (zlen w) with 3. rewrite first_4. unfold laid. cbv zeta. rewrite Z.sub_0_r. change (2 * (1 * 2)) with 4. change (zlen w) with 3. assert (B := Z.mod_pos_bound p 4 ltac:(lia)). set (i := p mod 4) in *. assert (i = 0 \/ i = 1 \/ i = 2 \/ i = 3) as [-> |[-> |[-> | ->]]] by lia; reflexivity. }
  assert (Fr : forall i f, 0 <= i < 2 -> 0 <= f < 1 * 2 -> (/ 2 ^ 52 <= zak_energy 2 1 (laid (2 * (1 * 2)) (win_first (2 * (1 * 2)) (1 * 2) 1 (zlen w)) w) i f)%R).
  { intros i f Hi Hf. assert (P : (/ 2 ^ 52 <= 1 / 2)%R) by (replace (1 / 2)%R with (/ 2 ^ 1)%R by lra; apply Rinv_le_contravar; [apply pow_lt; lra|apply Rle_pow; [lra|lia]]). apply Rle_trans with (1 / 2)%R; [exact P|].
    unfold zak_energy. change (1 * 2) with 2. change (arange 0 1) with [0]. change (arange 0 2) with [0; 1]. rewrite rsum_cons, rsum_nil, !csum_cons, csum_nil. rewrite !H4. assert (R2 : forall k, root 2 (- ((f - 0 * 2) * k)) = if Z.even (f * k) then RtoC 1 else RtoC (-1)).
    { intros k. replace (- ((f - 0 * 2) * k)) with (- (f * k)) by ring. rewrite <- root_mod by lia. destruct (Z.even (f * k)) eqn:Ev.
      - replace ((- (f * k)) mod 2) with 0 by (rewrite Zmod_even, Z.even_opp, Ev; reflexivity). apply root_0.
      - replace ((- (f * k)) mod 2) with 1 by (rewrite Zmod_even, Z.even_opp, Ev; reflexivity). exact (root_half 1 ltac:(lia)). }
    rewrite !R2. assert (CS : forall r s : R, Cmod (RtoC r + (RtoC s + RtoC 0))%C = Rabs (r + s)%R) by (intros; rewrite <- !RtoC_plus, Cmod_R; do 2 f_equal; ring).
    assert (i = 0 \/ i = 1) as [-> | ->] by lia; assert (f = 0 \/ f = 1) as [-> | ->] by lia; change ((0 + 0 * 2) mod 4) with 0; change ((0 + 1 * 2) mod 4) with 2; change ((1 + 0 * 2) mod 4) with 1; change ((1 + 1 * 2) mod 4) with 3; unfold rnth; change (Z.to_nat 0) with 0%nat; change (Z.to_nat 1) with 1%nat; change (Z.to_nat 2) with 2%nat; change (Z.to_nat 3) with 3%nat; cbn [nth Z.even Z.mul Pos.mul]; rewrite <- !RtoC_mult, CS, <- Rsqr_pow2, <- Rsqr_abs; unfold Rsqr; lra. }
  destruct (c90_reconstruct 2 1 x w ltac:(lia) ltac:(lia) Lx eq_refl ltac:(cbn; lia) F Fr) as (tfr & dgr & gam & E & Rec). destruct (c90_dual 2 1 x w ltac:(lia) ltac:(lia) Lx eq_refl ltac:(cbn; lia) F Fr) as (tfr' & dgr' & gam' & E' & Du). rewrite E in E'. injection E' as <- <- <-. destruct (c90_analysis 2 1 x w ltac:(lia) ltac:(lia) Lx eq_refl F) as (tfr' & dgr' & gam' & E' & Lg & _). rewrite E in E'. injection E' as <- <- <-.
  change (2 * (1 * 2)) with 4 in *. change (1 * 2) with 2 in *. exists tfr, dgr. split.
  - rewrite E. do 2 f_equal. destruct gam as [|g0 [|g1 [|g2 [|g3 [|? ?]]]]]; unfold zlen in Lg; cbn [length] in Lg; try lia.
    assert (D00 := Du 0 0). assert (D01 := Du 0 1). assert (D10 := Du 1 0). assert (D11 := Du 1 1). change (arange 0 2) with [0; 1] in *. rewrite !rsum_cons, rsum_nil in *. rewrite !H4 in *. cbn in D00, D01, D10, D11. change (Pos.to_nat 1) with 1%nat in *. change (Pos.to_nat 2) with 2%nat in *. change (Pos.to_nat 3) with 3%nat in *. assert (g0 = 1 / 3 /\ g1 = 1 / 4 /\ g2 = - (1 / 6) /\ g3 = 0)%R as (-> & -> & -> & ->); [|reflexivity]. lra.
  - intros t Ht. rewrite (Rec t Ht). apply csum_ext. intros n _. apply csum_ext. intros k _. rewrite H4. reflexivity.
Qed.
(** A window of energy below 2^-52 is not inverted: for one sample the returned
    dual window is the window itself, and the signal comes back divided by 2^54. *)
Lemma c90_tiny_refuted : exists (e : R) tfr dgr gam, e = (/ 2 ^ 27)%R /\ gabor [RtoC 1] 1 1 [e] = Ok (tfr, dgr, gam) /\ gam = [e] /\ cnth (nth 0 dgr []) 0 = RtoC e /\ (cnth (nth 0 dgr []) 0 * RtoC e <> RtoC 1)%C.
Proof.
  set (e := (/ 2 ^ 27)%R). assert (E0 : (0 < e)%R) by (apply Rinv_0_lt_compat, pow_lt; lra). assert (E1 : (e < 1)%R) by (unfold e; apply Rlt_le_trans with (/ 1)%R; [|lra]; apply Rinv_lt_contravar; [rewrite Rmult_1_l; apply pow_lt; lra|apply Rlt_pow_R1; [lra|lia]]).
  assert (W1 : win_first (1 * (1 * 1)) (1 * 1) 1 1 = -1). { unfold win_first. rewrite !near_zero; [reflexivity| |]; cbn; lra. }
  assert (F : window_fits (1 * (1 * 1)) (1 * 1) 1 (zlen [e])) by (unfold window_fits; change (zlen [e]) with 1; rewrite W1; lia).
  destruct (gabor_critical 1 1 [RtoC 1] [e] ltac:(lia) ltac:(lia) eq_refl eq_refl F) as (h & tfr & dgr & gam & _ & Lh & Eq & Eg & Lg & _ & Ph). destruct (c90_analysis 1 1 [RtoC 1] [e] ltac:(lia) ltac:(lia) eq_refl eq_refl F) as (tfr' & dgr' & gam' & E' & _ & V). rewrite Eq in E'. injection E' as <- <- <-. destruct (dual_ok 1 1 h ltac:(lia) ltac:(lia) Lh) as (gam' & Eg' & _ & Vg). rewrite Eg in Eg'. injection Eg' as <-. change (1 * (1 * 1)) with 1 in *. change (1 * 1) with 1 in *.
  assert (H0 : cnth h 0 = RtoC e). { rewrite Ph by (cbn; lia). change (zlen [e]) with 1. rewrite W1. reflexivity. }
  assert (Z0 : zk 1 1 h 0 0 = RtoC e). { unfold zk. cbv zeta. change (1 * 1) with 1. change (arange 0 1) with [0]. rewrite csum_cons, csum_nil. change (0 + 0 * 1) with 0. rewrite H0. change (- (0 * 0)) with 0. rewrite root_0. replace (sqrt (IZR 1)) with 1%R by (symmetry; apply sqrt_1). field. intros Q. apply RtoC_inj in Q. lra. }
  assert (D0 : dcl 1 1 h 0 0 = 1%R). { unfold dcl, den. change (arange 0 1) with [0]. rewrite rsum_cons, rsum_nil. change ((0 - 0 * 1) mod (1 * 1)) with 0. rewrite Z0, Cmod_R, Rabs_right by lra. destruct (Rlt_dec (e ^ 2 + 0) (/ 2 ^ 52)) as [_|Q]; [reflexivity|]. exfalso. apply Q. rewrite Rplus_0_r. unfold e. rewrite pow_inv, <- pow_mult. apply Rinv_lt_contravar; [apply Rmult_lt_0_compat; apply pow_lt; lra|]. apply Rlt_pow; [lra|cbn; lia]. }
  assert (G0 : rnth gam 0 = e). { rewrite Vg by lia. unfold gcx. cbv zeta. change (1 * (1 * 1)) with 1. change (1 * 1) with 1. change (arange 0 1) with [0]. rewrite csum_cons, csum_nil. change (0 mod 1) with 0. change (0 * (0 / 1)) with 0. rewrite Z0, D0, root_0. replace (sqrt (IZR 1)) with 1%R by (symmetry; apply sqrt_1). replace ((RtoC e / RtoC 1 * RtoC 1 + RtoC 0) / RtoC 1 / RtoC 1)%C with (RtoC e); [reflexivity|]. field. intros Q. apply RtoC_inj in Q. lra. }
  assert (C0 : cnth (nth 0 dgr []) 0 = RtoC e). { assert (V0 := V 0 0 ltac:(lia) ltac:(lia)). change (Z.to_nat 0) with 0%nat in V0. rewrite V0. change (arange 0 1) with [0]. rewrite csum_cons, csum_nil. change ((0 + (1 + 1) / 2 - 0 * 1) mod 1) with 0. rewrite G0. change (- (0 * 0)) with 0. rewrite root_0. unfold cnth. cbn [nth Z.to_nat]. ring. }
  exists e, tfr, dgr, gam. split; [reflexivity|]. split; [exact Eq|]. split; [|split; [exact C0|]].
  - destruct gam as [|g [|? ?]]; unfold zlen in Lg; cbn [length] in Lg; try lia. f_equal. exact G0.
  - rewrite C0, <- RtoC_mult. intros Q. apply RtoC_inj in Q. nra.
Qed.
(** ** The default window *)
Lemma c90_window : forall M, 1 <= M -> exists w : list R, let n := if Z.even M then M + 1 else M in
  (forall x q, gabor_args x (Some M) (Some q) None = gabor_args x (Some M) (Some q) (Some w)) /\
  zlen w = n /\ rsum w (fun v => v ^ 2)%R = 1%R /\ (forall k, 0 <= k < n -> (0 < rnth w k)%R) /\
  forall k, 2 <= M -> 0 <= k < n -> rnth w k = (rnth w ((n - 1) / 2) * Rpower (5 / 1000) ((2 * IZR k / IZR (n - 1) - 1) ^ 2))%R.
Proof.
  intros M HM. exists (gb_window M). cbv zeta. set (n := if Z.even M then M + 1 else M). assert (n1 : 1 <= n) by (unfold n; destruct (Z.even M); lia).
  split; [intros; reflexivity|]. assert (L := gb_window_len M HM). fold n in L. split; [exact L|].
  assert (NO : Zfloor (nearest_odd (IZR M)) = n) by (rewrite nearest_odd_nodd, Zfloor_IZR; unfold nodd, n; rewrite Zfloor_IZR, Zmod_even; destruct (Z.even M); reflexivity).
  unfold gb_window in *. cbv zeta in *. rewrite NO in *. set (v := map (fun t => exp (ln (5 / 1000) * t ^ 2))%R (linspace1 (-1) 1 n)) in *. set (e := sqrt (rsum v (fun t => t ^ 2)%R)) in *. rewrite zlen_map in L.
  assert (VP : forall t, In t v -> (0 < t)%R) by (intros t Ht; unfold v in Ht; apply in_map_iff in Ht; destruct Ht as (u & <- & _); apply exp_pos).
  assert (SP : (0 < rsum v (fun t => t ^ 2))%R). { destruct v as [|a v']; [unfold zlen in L; cbn in L; lia|]. rewrite rsum_cons. assert (0 < a)%R by (apply VP; now left). assert (0 <= rsum v' (fun t => t ^ 2))%R by (apply rsum_nonneg; intros; apply pow2_ge_0). nra. }
  assert (EP : (0 < e)%R) by (apply sqrt_lt_R0; exact SP). assert (EE : (e * e = rsum v (fun t => t ^ 2))%R) by (apply sqrt_sqrt; lra).
  assert (NT : forall k, 0 <= k < n -> rnth (map (fun t => t / e)%R v) k = (rnth v k / e)%R). { intros k Hk. unfold rnth. rewrite (nth_indep _ 0%R (0 / e)%R) by (rewrite map_length; unfold zlen in L; lia). exact (map_nth (fun t => t / e)%R v 0%R (Z.to_nat k)). }
  split. { rewrite rsum_map. rewrite (rsum_ext _ _ (fun t => t ^ 2 * (/ e * / e))%R) by (intros t _; field; lra). rewrite rsum_scal_r, <- EE. field. lra. }
  split. { intros k Hk. rewrite NT by exact Hk. apply Rdiv_lt_0_compat; [|exact EP]. apply VP. unfold rnth. apply nth_In. unfold zlen in L. lia. }
  intros k M2 Hk. assert (n3 : 3 <= n /\ n mod 2 = 1).
  { unfold n. destruct (Z.even M) eqn:EV.
    - apply Z.even_spec in EV. destruct EV as [c ->]. split; [lia|]. Z.to_euclidean_division_equations; lia.
    - assert (OD : Z.odd M = true) by (rewrite <- Z.negb_even, EV; reflexivity). apply Z.odd_spec in OD. destruct OD as [c ->]. split; [lia|]. Z.to_euclidean_division_equations; lia. }
  destruct n3 as [n3 nm]. assert (H2 : 2 * ((n - 1) / 2) = n - 1) by (Z.to_euclidean_division_equations; lia). set (h := (n - 1) / 2) in *.
  rewrite !NT by lia. assert (NV : forall j, 0 <= j < n -> rnth v j = exp (ln (5 / 1000) * (2 * IZR j / IZR (n - 1) - 1) ^ 2)%R).
  { intros j Hj. unfold v, linspace1. destruct (Z.eqb_spec n 1); [lia|]. unfold linspace. rewrite map_map. rewrite rnth_map_arange by lia. f_equal. f_equal. f_equal. assert (IZR (n - 1) <> 0%R) by (apply IZR_neq; lia). rewrite Z.add_0_l. field. assumption. }
  rewrite !NV by lia. assert (IZR (n - 1) <> 0%R) by (apply IZR_neq; lia). replace (2 * IZR h / IZR (n - 1) - 1)%R with 0%R by (rewrite <- H2, mult_IZR in *; field; intros Q; apply H; rewrite Q; ring). unfold Rpower. rewrite pow_i by lia. rewrite Rmult_0_r, exp_0. rewrite (Rmult_comm (ln (5 / 1000))). field. lra.
Qed.
